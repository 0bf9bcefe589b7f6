(** * SmrProofs: one-step and trace facts about the state machine. *)
From Verif Require Export Smr.

(** The trace of a run: every processed trigger with the state before and after, the events
    sent and the result. *)
Record sentry := mkEntry {
  e_pre : smr; e_trig : trigger; e_out : list sout; e_res : res bool; e_post : smr }.

Fixpoint smr_trace (ch : chans) (m : smr) (ts : list trigger) : list sentry :=
  match ts with
  | [] => []
  | t :: ts =>
      match smr_step ch t m with
      | (m', o, r) =>
          mkEntry m t o r m' ::
          match r with
          | Ok true | Err _ => smr_trace ch m' ts
          | Ok false | Panic => []
          end
      end
  end.

Lemma smr_run_trace ch m ts :
  (smr_run ch m ts).2 = concat (e_out <$> smr_trace ch m ts).
Proof.
  revert m; induction ts as [|t ts IH]; intros m; simpl; [done|].
  destruct (smr_step ch t m) as [[m' o] r].
  destruct r as [[]|e|]; csimpl; rewrite ?app_nil_r; try done;
    rewrite <-IH; destruct (smr_run ch m' ts); done.
Qed.

Lemma elem_of_concat {A} (x : A) (ls : list (list A)) :
  x ∈ concat ls <-> exists l, x ∈ l /\ l ∈ ls.
Proof.
  rewrite elem_of_list_In, in_concat. split; intros (l & H1 & H2); exists l;
    rewrite ?elem_of_list_In in *; done.
Qed.

(** ** Positions: (height, round, step) in lexicographic order *)
Definition pos := (N * N * N)%type.
Definition mpos (m : smr) : pos := (m_height m, m_round m, step_u8 (m_step m)).
Definition plt (a b : pos) : Prop :=
  let '(h, r, s) := a in let '(h', r', s') := b in
  h < h' \/ h = h' /\ (r < r' \/ r = r' /\ s < s').
Definition ple (a b : pos) : Prop := ~ plt b a.

Lemma ple_refl a : ple a a.
Proof. destruct a as [[h r] s]. unfold ple, plt. lia. Qed.
Lemma ple_trans a b c : ple a b -> ple b c -> ple a c.
Proof. destruct a as [[? ?] ?], b as [[? ?] ?], c as [[? ?] ?]. unfold ple, plt. lia. Qed.
Lemma plt_ple_trans a b c : plt a b -> ple b c -> plt a c.
Proof. destruct a as [[? ?] ?], b as [[? ?] ?], c as [[? ?] ?]. unfold ple, plt. lia. Qed.
Lemma ple_plt_trans a b c : ple a b -> plt b c -> plt a c.
Proof. destruct a as [[? ?] ?], b as [[? ?] ?], c as [[? ?] ?]. unfold ple, plt. lia. Qed.
Lemma plt_irrefl a : ~ plt a a.
Proof. destruct a as [[? ?] ?]. unfold plt. lia. Qed.
Lemma plt_ple a b : plt a b -> ple a b.
Proof. destruct a as [[? ?] ?], b as [[? ?] ?]. unfold ple, plt. lia. Qed.

(** A trigger whose rounds are u64 values below [u64::MAX]: no wrap-around. *)
Definition trig_in_range (t : trigger) : Prop := t_round t < u64_max.
(** Not a WAL reload. *)
Definition not_wal (t : trigger) : Prop := t_type t <> TWalInfo.

Ltac bsimp := repeat match goal with
  | H : negb _ = true |- _ => apply negb_true_iff in H
  | H : negb _ = false |- _ => apply negb_false_iff in H
  | H : (_ || _)%bool = true |- _ => apply orb_true_iff in H
  | H : (_ || _)%bool = false |- _ => apply orb_false_iff in H; destruct H
  | H : (_ && _)%bool = true |- _ => apply andb_true_iff in H; destruct H
  | H : (_ && _)%bool = false |- _ => apply andb_false_iff in H
  | H : (_ =? _)%N = true |- _ => apply N.eqb_eq in H
  | H : (_ =? _)%N = false |- _ => apply N.eqb_neq in H
  | H : (_ <? _)%N = true |- _ => apply N.ltb_lt in H
  | H : (_ <? _)%N = false |- _ => apply N.ltb_ge in H
  | H : (_ <=? _)%N = true |- _ => apply N.leb_le in H
  | H : (_ <=? _)%N = false |- _ => apply N.leb_gt in H
  | H : bool_decide _ = true |- _ => apply bool_decide_eq_true in H
  | H : bool_decide _ = false |- _ => apply bool_decide_eq_false in H
  end.

(** Symbolic execution of one step: unfold a handler and split on every test. *)
Ltac smr_unfold :=
  unfold smr_step, handle_new_height, handle_proposal, handle_prevote, handle_precommit,
    handle_brake_timeout, handle_continue_round, handle_wal, set_timer_after_wal,
    proposal_tail, prevote_tail, throw_event, throw_timer_event, sbind, sget, smod, sret,
    serr, spanic in *.
Ltac smr_cases :=
  repeat (match goal with
  | H : context [match ?x with _ => _ end] |- _ =>
      lazymatch type of H with _ = (_, _, _) => idtac end;
      lazymatch x with
      | context [match _ with _ => _ end] => fail
      | _ => destruct x eqn:?
      end
  end; simpl in *; try discriminate).

Ltac smr_step_inv H :=
  smr_unfold; simpl in H; smr_cases; simplify_eq; bsimp.

Lemma step_gt_spec a b : step_gt a b = true <-> step_u8 b < step_u8 a.
Proof. unfold step_gt. apply N.ltb_lt. Qed.
Lemma step_gt_false a b : step_gt a b = false <-> step_u8 a <= step_u8 b.
Proof. unfold step_gt. apply N.ltb_ge. Qed.

Lemma w64_succ r : r < u64_max -> w64 (r + 1) = r + 1.
Proof. intros. apply w64_small. unfold u64_max, U64 in *. lia. Qed.
Lemma pred_succ r : 0 < r -> r - 1 + 1 = r.
Proof. lia. Qed.


Ltac smr_go H :=
  match type of H with smr_step _ ?t ?m = _ =>
    destruct t as [ty tsrc thash tlr trd tht twal], m as [mh mr ms mhash ml]; simpl in *;
    destruct ty; try congruence; smr_unfold;
    unfold update_polc, goto_next_round, smr_goto_new_height, remove_polc, set_m_lock,
      set_proposal, goto_step, set_m_round, set_m_height, lock_rnd, lock_hsh in *;
    simpl in *; smr_cases; simplify_eq; bsimp; simpl in *;
    rewrite ?step_gt_spec, ?step_gt_false in *; simpl in *
  end.

(** Case split on which of the concrete outputs an element is. *)
Ltac out_in Ho :=
  repeat (apply elem_of_cons in Ho as [Ho|Ho]; [simplify_eq|]);
  try (apply elem_of_nil in Ho; destruct Ho).

(** Position never goes back. *)
Lemma smr_step_pos ch m t m' o r :
  smr_step ch t m = (m', o, r) -> not_wal t -> trig_in_range t -> ple (mpos m) (mpos m').
Proof.
  intros H Hw Hr. unfold not_wal, trig_in_range in *.
  smr_go H; unfold mpos, ple, plt; simpl; rewrite ?w64_succ by lia; try lia.
  all: destruct ms; simpl in *; try lia; try congruence.
Qed.

(** A vote event crosses the position of its step: this is why it cannot be repeated. The
    channels are either both open or the state's one is closed. *)
Definition chans_ok (ch : chans) : Prop := ch_state ch = true -> ch_timer ch = true.

Lemma smr_step_prevote ch m t m' o r h rd x lr :
  smr_step ch t m = (m', o, r) -> not_wal t -> trig_in_range t -> chans_ok ch ->
  ToState (EvPrevote h rd x lr) ∈ o ->
  plt (mpos m) (h, rd, 1) /\ mpos m' = (h, rd, 1).
Proof.
  intros H Hw Hr Hc Ho. unfold not_wal, trig_in_range, chans_ok in *.
  smr_go H; out_in Ho;
  unfold mpos, plt; simpl; try (split; [|done]); try lia;
  try (specialize (Hc ltac:(done)); congruence).
Qed.

Lemma smr_step_precommit ch m t m' o r h rd x lr :
  smr_step ch t m = (m', o, r) -> not_wal t -> trig_in_range t -> chans_ok ch ->
  ToState (EvPrecommit h rd x lr) ∈ o ->
  plt (mpos m) (h, rd, 2) /\ mpos m' = (h, rd, 2).
Proof.
  intros H Hw Hr Hc Ho. unfold not_wal, trig_in_range, chans_ok in *.
  smr_go H; out_in Ho;
  unfold mpos, plt; simpl; try (split; [|done]); rewrite ?w64_succ by lia; try lia;
  try (specialize (Hc ltac:(done)); congruence).
Qed.

(** ** Vote keys along a trace *)
Definition prevote_keys (o : list smr_event) : list (N * N) :=
  omap (fun e => match e with EvPrevote h r _ _ => Some (h, r) | _ => None end) o.
Definition precommit_keys (o : list smr_event) : list (N * N) :=
  omap (fun e => match e with EvPrecommit h r _ _ => Some (h, r) | _ => None end) o.

Lemma smr_step_prevote_keys ch m t m' o r :
  smr_step ch t m = (m', o, r) ->
  prevote_keys (to_state o) = [] \/
  exists h rd x lr, prevote_keys (to_state o) = [(h, rd)] /\ ToState (EvPrevote h rd x lr) ∈ o.
Proof.
  intros H. smr_go H; try (left; reflexivity);
  right; eexists _, _, _, _; (split; [reflexivity|]); repeat constructor.
Qed.

Lemma smr_step_precommit_keys ch m t m' o r :
  smr_step ch t m = (m', o, r) ->
  precommit_keys (to_state o) = [] \/
  exists h rd x lr, precommit_keys (to_state o) = [(h, rd)] /\ ToState (EvPrecommit h rd x lr) ∈ o.
Proof.
  intros H. smr_go H; try (left; reflexivity);
  right; eexists _, _, _, _; (split; [reflexivity|]); repeat constructor.
Qed.

Lemma elem_of_prevote_keys k o :
  k ∈ prevote_keys (to_state o) <-> exists x lr, ToState (EvPrevote k.1 k.2 x lr) ∈ o.
Proof.
  unfold prevote_keys, to_state. rewrite elem_of_list_omap. setoid_rewrite elem_of_list_omap.
  split.
  - intros (e & (s & Hs & E) & E2). destruct s; simplify_eq. destruct e; simplify_eq.
    eauto.
  - intros (x & lr & H). destruct k as [h r]. exists (EvPrevote h r x lr). split; [|done]. eauto.
Qed.
Lemma elem_of_precommit_keys k o :
  k ∈ precommit_keys (to_state o) <-> exists x lr, ToState (EvPrecommit k.1 k.2 x lr) ∈ o.
Proof.
  unfold precommit_keys, to_state. rewrite elem_of_list_omap. setoid_rewrite elem_of_list_omap.
  split.
  - intros (e & (s & Hs & E) & E2). destruct s; simplify_eq. destruct e; simplify_eq.
    eauto.
  - intros (x & lr & H). destruct k as [h r]. exists (EvPrecommit h r x lr). split; [|done]. eauto.
Qed.

Lemma to_state_app a b : to_state (a ++ b) = to_state a ++ to_state b.
Proof. apply omap_app. Qed.
Lemma to_timer_app a b : to_timer (a ++ b) = to_timer a ++ to_timer b.
Proof. apply omap_app. Qed.
Lemma prevote_keys_app a b : prevote_keys (a ++ b) = prevote_keys a ++ prevote_keys b.
Proof. apply omap_app. Qed.
Lemma precommit_keys_app a b : precommit_keys (a ++ b) = precommit_keys a ++ precommit_keys b.
Proof. apply omap_app. Qed.

Definition trigs_ok (ts : list trigger) : Prop := Forall (fun t => not_wal t /\ trig_in_range t) ts.

(** Every entry of a trace is a step, from a position not below the start. *)
Lemma smr_trace_entry ch m ts e :
  trigs_ok ts -> e ∈ smr_trace ch m ts ->
  smr_step ch (e_trig e) (e_pre e) = (e_post e, e_out e, e_res e) /\
  e_trig e ∈ ts /\ ple (mpos m) (mpos (e_pre e)).
Proof.
  revert m; induction ts as [|t ts IH]; intros m Ht He; simpl in He;
    [by apply elem_of_nil in He|].
  inversion Ht as [|? ? [Hw Hr] Ht']; subst.
  destruct (smr_step ch t m) as [[m' o] r] eqn:E.
  apply elem_of_cons in He as [->|He]; simpl.
  { split; [done|]. split; [by constructor|]. apply ple_refl. }
  assert (e ∈ smr_trace ch m' ts) as He' by (destruct r as [[]|?|]; try done; by apply elem_of_nil in He).
  destruct (IH _ Ht' He') as (H1 & H2 & H3).
  split; [done|]. split; [by constructor|].
  eapply ple_trans; [|exact H3]. eapply smr_step_pos; eauto.
Qed.

(** Entries of a trace without any assumption on the triggers. *)
Lemma smr_trace_step ch m ts e :
  e ∈ smr_trace ch m ts -> smr_step ch (e_trig e) (e_pre e) = (e_post e, e_out e, e_res e).
Proof.
  revert m; induction ts as [|t ts IH]; intros m He; simpl in He;
    [by apply elem_of_nil in He|].
  destruct (smr_step ch t m) as [[m' o] r] eqn:E.
  apply elem_of_cons in He as [->|He]; simpl; [done|].
  assert (e ∈ smr_trace ch m' ts) by (destruct r as [[]|?|]; try done; by apply elem_of_nil in He).
  eauto.
Qed.

(** An invariant of single steps holds in every state of a trace. *)
Lemma smr_trace_inv (P : smr -> Prop) ch m ts :
  (forall t m m' o r, smr_step ch t m = (m', o, r) -> t ∈ ts -> P m -> P m') ->
  P m -> forall e, e ∈ smr_trace ch m ts -> P (e_pre e) /\ P (e_post e).
Proof.
  revert m; induction ts as [|t ts IH]; intros m HP Hm e He; simpl in He;
    [by apply elem_of_nil in He|].
  destruct (smr_step ch t m) as [[m' o] r] eqn:E.
  assert (P m') as Hm' by (eapply HP; eauto; constructor).
  apply elem_of_cons in He as [->|He]; simpl; [done|].
  assert (e ∈ smr_trace ch m' ts) by (destruct r as [[]|?|]; try done; by apply elem_of_nil in He).
  eapply IH; eauto. intros. eapply HP; eauto. by constructor.
Qed.

Definition state_events (tr : list sentry) : list smr_event := to_state (concat (e_out <$> tr)).

Lemma elem_of_state_events ev tr :
  ev ∈ state_events tr <-> exists e, e ∈ tr /\ ToState ev ∈ e_out e.
Proof.
  unfold state_events, to_state. rewrite elem_of_list_omap. split.
  - intros (s & Hs & E). destruct s; simplify_eq.
    apply elem_of_concat in Hs as (l & Hl & Hin).
    apply elem_of_list_fmap in Hin as (e & -> & He). eauto.
  - intros (e & He & Ho). exists (ToState ev). split; [|done].
    apply elem_of_concat. exists (e_out e). split; [done|].
    apply elem_of_list_fmap. eauto.
Qed.

Lemma prevote_keys_nodup ch m ts :
  trigs_ok ts -> chans_ok ch -> NoDup (prevote_keys (state_events (smr_trace ch m ts))).
Proof.
  intros Ht Hc. revert m; induction ts as [|t ts IH]; intros m; [constructor|].
  inversion Ht as [|? ? [Hw Hr] Ht']; subst. specialize (IH Ht').
  unfold state_events in *. simpl. destruct (smr_step ch t m) as [[m' o] r] eqn:E.
  simpl. rewrite to_state_app, prevote_keys_app.
  set (tl := match r with Ok true | Err _ => smr_trace ch m' ts | _ => [] end).
  assert (NoDup (prevote_keys (to_state (concat (e_out <$> tl))))) as Htl.
  { subst tl. destruct r as [[]|?|]; try apply IH; constructor. }
  destruct (smr_step_prevote_keys _ _ _ _ _ _ E) as [->|(h & rd & x & lr & -> & Hin)]; [done|].
  simpl. constructor; [|done].
  destruct (smr_step_prevote _ _ _ _ _ _ _ _ _ _ E Hw Hr Hc Hin) as [_ Hpos].
  intros Hk. apply elem_of_prevote_keys in Hk as (x' & lr' & Hk). simpl in Hk.
  apply elem_of_concat in Hk as (l & Hl & Hin').
  apply elem_of_list_fmap in Hin' as (e & -> & He).
  assert (e ∈ smr_trace ch m' ts) as He'
    by (subst tl; destruct r as [[]|?|]; try done; by apply elem_of_nil in He).
  destruct (smr_trace_entry _ _ _ _ Ht' He') as (Hs & Hints & Hple).
  pose proof (proj1 (stdpp.list.Forall_forall _ _) Ht' _ Hints) as [Hw' Hr'].
  destruct (smr_step_prevote _ _ _ _ _ _ _ _ _ _ Hs Hw' Hr' Hc Hl) as [Hlt _].
  rewrite <-Hpos in Hlt. by apply Hple in Hlt.
Qed.

Lemma precommit_keys_nodup ch m ts :
  trigs_ok ts -> chans_ok ch -> NoDup (precommit_keys (state_events (smr_trace ch m ts))).
Proof.
  intros Ht Hc. revert m; induction ts as [|t ts IH]; intros m; [constructor|].
  inversion Ht as [|? ? [Hw Hr] Ht']; subst. specialize (IH Ht').
  unfold state_events in *. simpl. destruct (smr_step ch t m) as [[m' o] r] eqn:E.
  simpl. rewrite to_state_app, precommit_keys_app.
  set (tl := match r with Ok true | Err _ => smr_trace ch m' ts | _ => [] end).
  assert (NoDup (precommit_keys (to_state (concat (e_out <$> tl))))) as Htl.
  { subst tl. destruct r as [[]|?|]; try apply IH; constructor. }
  destruct (smr_step_precommit_keys _ _ _ _ _ _ E) as [->|(h & rd & x & lr & -> & Hin)]; [done|].
  simpl. constructor; [|done].
  destruct (smr_step_precommit _ _ _ _ _ _ _ _ _ _ E Hw Hr Hc Hin) as [_ Hpos].
  intros Hk. apply elem_of_precommit_keys in Hk as (x' & lr' & Hk). simpl in Hk.
  apply elem_of_concat in Hk as (l & Hl & Hin').
  apply elem_of_list_fmap in Hin' as (e & -> & He).
  assert (e ∈ smr_trace ch m' ts) as He'
    by (subst tl; destruct r as [[]|?|]; try done; by apply elem_of_nil in He).
  destruct (smr_trace_entry _ _ _ _ Ht' He') as (Hs & Hints & Hple).
  pose proof (proj1 (stdpp.list.Forall_forall _ _) Ht' _ Hints) as [Hw' Hr'].
  destruct (smr_step_precommit _ _ _ _ _ _ _ _ _ _ Hs Hw' Hr' Hc Hl) as [Hlt _].
  rewrite <-Hpos in Hlt. by apply Hple in Hlt.
Qed.

(** No vote at or below the position the machine starts from (used after a WAL reload). *)
Lemma no_prevote_below ch m ts h rd x lr :
  trigs_ok ts -> chans_ok ch -> ple (h, rd, 1) (mpos m) ->
  EvPrevote h rd x lr ∉ state_events (smr_trace ch m ts).
Proof.
  intros Ht Hc Hp Hin. apply elem_of_state_events in Hin as (e & He & Ho).
  destruct (smr_trace_entry _ _ _ _ Ht He) as (Hs & Hints & Hple).
  pose proof (proj1 (stdpp.list.Forall_forall _ _) Ht _ Hints) as [Hw Hr].
  destruct (smr_step_prevote _ _ _ _ _ _ _ _ _ _ Hs Hw Hr Hc Ho) as [Hlt _].
  eapply plt_irrefl, ple_plt_trans; [|exact Hlt]. eapply ple_trans; eauto.
Qed.
Lemma no_precommit_below ch m ts h rd x lr :
  trigs_ok ts -> chans_ok ch -> ple (h, rd, 2) (mpos m) ->
  EvPrecommit h rd x lr ∉ state_events (smr_trace ch m ts).
Proof.
  intros Ht Hc Hp Hin. apply elem_of_state_events in Hin as (e & He & Ho).
  destruct (smr_trace_entry _ _ _ _ Ht He) as (Hs & Hints & Hple).
  pose proof (proj1 (stdpp.list.Forall_forall _ _) Ht _ Hints) as [Hw Hr].
  destruct (smr_step_precommit _ _ _ _ _ _ _ _ _ _ Hs Hw Hr Hc Ho) as [Hlt _].
  eapply plt_irrefl, ple_plt_trans; [|exact Hlt]. eapply ple_trans; eauto.
Qed.

(** Monotonicity between two entries of a trace. *)
Lemma smr_trace_mono ch m ts i j e1 e2 :
  trigs_ok ts -> smr_trace ch m ts !! i = Some e1 -> smr_trace ch m ts !! j = Some e2 ->
  (i < j)%nat -> ple (mpos (e_post e1)) (mpos (e_pre e2)).
Proof.
  revert m i j; induction ts as [|t ts IH]; intros m i j Ht Hi Hj Hij; [done|].
  inversion Ht as [|? ? [Hw Hr] Ht']; subst. simpl in *.
  destruct (smr_step ch t m) as [[m' o] r] eqn:E.
  destruct j as [|j]; [lia|]. simpl in Hj.
  assert (smr_trace ch m' ts !! j = Some e2) as Hj'
    by (destruct r as [[]|?|]; done).
  destruct i as [|i]; simpl in *; simplify_eq; simpl.
  - apply elem_of_list_lookup_2 in Hj'. by destruct (smr_trace_entry _ _ _ _ Ht' Hj') as (_ & _ & ?).
  - assert (smr_trace ch m' ts !! i = Some e1) by (destruct r as [[]|?|]; done).
    eapply IH; eauto. lia.
Qed.

(** ** The lock invariant: a locked machine works on the locked, non-empty hash *)
Definition lock_inv (m : smr) : Prop :=
  match m_lock m with Some l => m_hash m = l_hash l /\ l_hash l <> [] | None => True end.

(** The WAL record of a trigger, if any, has a non-empty locked hash. *)
Definition wal_lock_ok (t : trigger) : Prop :=
  match t_wal t with
  | Some i => match sb_polc i with Some l => l_hash l <> [] | None => True end
  | None => True end.

Lemma smr_step_lock_inv ch m t m' o r :
  smr_step ch t m = (m', o, r) -> wal_lock_ok t -> lock_inv m -> lock_inv m'.
Proof.
  intros H Hw Hm. unfold lock_inv, wal_lock_ok in *.
  smr_go H; try done; try (destruct ml; simpl in *; tauto).
  all: try (destruct s; simpl in *; simplify_eq; tauto).
Qed.
