(** * VoteOrder: the positions at which an instance votes and writes its log only grow. *)
From Verif Require Export NodeVotes P_Wal.
Set Default Proof Using "Type".

(** ** Votes *)
(** The vote that leaves the instance (or is counted as its own) with an action. *)
Definition vote_of {T} (a : action T) : option vote :=
  match a with
  | ABroadcast (MVote v) | ATransmit _ (MVote v) | AOwnVote v => Some (sv_vote v)
  | _ => None
  end.
Definition vote_pos (v : vote) : pos :=
  (v_height v, v_round v, match v_type v with Prevote => 1 | Precommit => 2 end).
Definition wal_pos {T} (w : walinfo T) : pos := (wi_height w, wi_round w, step_u8 (wi_step w)).
(** The vote event it answers. *)
Definition vote_event (ev : smr_event) : option (N * N * vtype * bytes) :=
  match ev with
  | EvPrevote h r x _ => Some (h, r, Prevote, x)
  | EvPrecommit h r x _ => Some (h, r, Precommit, x)
  | _ => None
  end.

(** ** The events the state machine sends *)
Definition evs_step (c : pos) (ev : smr_event) (c' : pos) : Prop :=
  let '(h0, r0, k0) := c in
  match ev with
  | EvNewRound h r _ _ _ _ _ => (h0 < h \/ h0 = h /\ r0 < r) /\ c' = (h, r, 0)
  | EvPrevote h r _ _ => h = h0 /\ r = r0 /\ k0 < 1 /\ c' = (h, r, 1)
  | EvPrecommit h r _ _ => h = h0 /\ r = r0 /\ k0 < 2 /\ c' = (h, r, 2)
  | EvBrake h r _ => h = h0 /\ r = r0 /\ c' = c
  | EvCommit _ => c' = c
  | EvStop => False
  end.
Fixpoint evs_run (c : pos) (evs : list smr_event) (c' : pos) : Prop :=
  match evs with [] => c' = c | ev :: evs => exists c1, evs_step c ev c1 /\ evs_run c1 evs c' end.
Lemma evs_run_app c l1 l2 c' : evs_run c (l1 ++ l2) c' <-> exists c1, evs_run c l1 c1 /\ evs_run c1 l2 c'.
Proof.
  revert c. induction l1 as [|e l1 IH]; intros c; simpl.
  - split; [intros H; by exists c|]. by intros (? & -> & ?).
  - split.
    + intros (c1 & H1 & H2). apply IH in H2 as (c2 & H2 & H3). eauto.
    + intros (c2 & (c1 & H1 & H2) & H3). exists c1. split; [done|]. apply IH. eauto.
Qed.
Lemma evs_step_le c ev c' : evs_step c ev c' -> ple c c'.
Proof.
  destruct c as [[h0 r0] k0], c' as [[h1 r1] k1]. unfold ple, plt. destruct ev; simpl; try done.
  - intros [? [= -> -> ->]]. lia.
  - intros (-> & -> & ? & [= -> -> ->]). lia.
  - intros (-> & -> & ? & [= -> -> ->]). lia.
  - intros [= -> -> ->]. lia.
  - intros (-> & -> & [= -> -> ->]). lia.
Qed.
Lemma evs_run_le c evs c' : evs_run c evs c' -> ple c c'.
Proof.
  revert c. induction evs as [|ev evs IH]; intros c; simpl; [intros ->; apply ple_refl|].
  intros (c1 & H1 & H2). eapply ple_trans; [by eapply evs_step_le|auto].
Qed.
(** A step of the state machine extends the chain. *)
Definition at_smr (c : pos) (m : smr) : Prop :=
  exists k, c = (m_height m, m_round m, k) /\ k <= step_u8 (m_step m).
Lemma smr_chain c t m m' o r :
  smr_step open_chans t m = (m', o, r) -> not_wal t -> trig_in_range t -> t_type t <> TStop -> at_smr c m ->
  exists c', evs_run c (to_state o) c' /\ at_smr c' m'.
Proof.
  intros Hs Hw Hr Hst (k & -> & Hk). unfold not_wal, trig_in_range in *.
  smr_go Hs; try congruence; unfold to_state, at_smr; simpl.
  all: rewrite ?w64_succ, ?pred_succ by lia.
  all: try (eexists; split; [|eexists; split; [reflexivity|]];
    [repeat first [reflexivity|eexists; split; [unfold evs_step; split_and!; first [reflexivity|lia]|]]|simpl; lia]).
  all: eexists; split; [eexists; split; [first [reflexivity|unfold evs_step; split_and!; reflexivity]|reflexivity]|eexists; split; [reflexivity|]]; destruct ms; simpl in *; first [lia|congruence].
Qed.

Section V.
Context {T : Type} `{EqDecision T}.
Context (lc : lcfg) (tenc : T -> bytes) (tdec : bytes -> option T) (spill : bool) (cr : crypto).
Local Notation noderun := (noderun lc tenc tdec spill cr).
Local Notation react := (react lc tenc).

Definition novoteR (_ : st T) (o : list (action T)) (_ : st T) : Prop := Forall (fun a => vote_of a = None) o.
Lemma novote_comp : comp novoteR.
Proof. clear lc tenc tdec spill cr. split; [constructor|]. intros ? ? ? o1 o2 H1 H2. unfold novoteR. by apply Forall_app. Qed.
Lemma novote_vp e t : keeps novoteR (vote_process (T:=T) e t).
Proof. clear lc tenc tdec spill cr. keeps_go novote_comp; repeat constructor; done. Qed.
Lemma novote_goto e stt : keeps novoteR (goto_new_height (T:=T) e stt).
Proof.
  clear lc tenc tdec spill cr. intros s s' o r Hg.
  apply goto_inv in Hg as [(? & -> & -> & _)|[(? & _ & -> & -> & _)|[(? & _ & -> & -> & _)|(Hlt & _ & -> & tr & -> & Htr)]]];
    try by repeat constructor.
  constructor; [done|]. apply Forall_app. split; [by apply Forall_fmap, Forall_true|].
  destruct Htr as [[-> _]|[-> _]]; by repeat constructor.
Qed.
Local Hint Resolve novote_goto novote_vp : keepsdb.
Lemma novote_commit e x : keeps novoteR (handle_commit lc e x).
Proof. clear tenc tdec spill cr. keeps_go novote_comp; repeat constructor; done. Qed.
Lemma novote_brake e rd lr : keeps novoteR (handle_brake (T:=T) e rd lr).
Proof. clear lc tenc tdec spill cr. keeps_go novote_comp; repeat constructor; done. Qed.
Lemma novote_react e i : (forall ev, i = IEvent ev -> vote_event ev = None) -> keeps novoteR (react e i).
Proof.
  clear tdec spill cr. intros Hi. apply (keeps_react _ _ _ novote_comp).
  - intros m ->. apply (keeps_on_msg _ _ novote_comp); [repeat constructor; done|]. keeps_go novote_comp; repeat constructor; done.
  - intros m _. keeps_go novote_comp; repeat constructor; done.
  - intros m _. keeps_go novote_comp; repeat constructor; done.
  - intros ev ->. specialize (Hi _ eq_refl). destruct ev; try discriminate Hi; keeps_go novote_comp; repeat constructor; done.
Qed.

(** What a vote event makes of itself. *)
Lemma vote_react ops e ev s s' o r h rd t x :
  s_votes s = vops ops -> s_stopped s = false -> vote_event ev = Some (h, rd, t, x) -> react e (IEvent ev) s = (s', o, r) ->
  Forall (fun a => vote_of a = None) o \/
  (s_power s = true /\
   exists w a o2, o = ASave w true :: a :: o2 /\ wal_pos w = vote_pos (mkVote (s_height s) (s_round s) t x) /\
    vote_of a = Some (mkVote (s_height s) (s_round s) t x) /\
    Forall (fun a => vote_of a = None /\ is_save a = false) o2).
Proof.
  clear tdec spill cr. intros Ev Hst He Hr.
  destruct (core lc tenc e (IEvent ev)) as [y|] eqn:Ec; [|by destruct ev].
  pose proof (react_core _ _ _ _ _ _ _ _ _ Ec Hr) as [(Hsk & -> & -> & _)|(Hsk & r' & Hx & _)]; [left; constructor|].
  assert (s_power s = true) as Hp.
  { destruct (s_power s) eqn:E; [done|]. exfalso. apply Hsk. left. split; [done|by intros]. }
  assert (exists lr, y = handle_vote_event e x t lr) as [lr ->].
  { destruct ev; try discriminate He; simpl in Ec, He; injection Ec as <-; injection He as -> -> <- ->; by eexists. }
  apply vote_event_inv in Hx as [(-> & -> & _)|(sig & l & _ & _ & [(_ & -> & -> & _)|(_ & o2 & Hx)])];
    [left; constructor|left; by repeat constructor|].
  right. split; [done|].
  assert (forall s1, vote_process e t s1 = (s', o2, r') -> Forall (fun a => vote_of a = None /\ is_save a = false) o2) as Hq.
  { intros s1 H1. pose proof (novote_vp _ _ _ _ _ _ H1) as N1. pose proof (quiet_vp _ _ _ _ _ _ H1) as N2.
    apply Forall_forall. intros b Hb. unfold novoteR, quietR in *. rewrite Forall_forall in N1, N2. split; [auto|]. by apply N2. }
  destruct (s_leader s); destruct Hx as [-> Hx]; apply Hq in Hx; eexists _, _, o2; (split; [done|]); (split; [by destruct t|]);
    split; done.
Qed.


(** ** What an instance did, and whether it did it for an event of its own height *)
Definition ev_height (ev : smr_event) : option N :=
  match ev with
  | EvNewRound h _ _ _ _ _ _ | EvPrevote h _ _ _ | EvPrecommit h _ _ _ | EvBrake h _ _ => Some h
  | _ => None
  end.
Definition fresh (i : input T) (s : st T) : bool :=
  match i with
  | IEvent ev => match ev_height ev with Some h => h =? s_height s | None => true end
  | _ => true
  end.
Definition tagged_of (x : nlog T) : list (bool * action T) :=
  match x with
  | NStart o _ => (true,.) <$> o
  | NState _ i s o _ => (fresh i s,.) <$> o
  | _ => []
  end.
Definition tagged (log : list (nlog T)) : list (bool * action T) := concat (tagged_of <$> log).
Lemma tagged_app l1 l2 : tagged (l1 ++ l2) = tagged l1 ++ tagged l2.
Proof. unfold tagged. by rewrite fmap_app, concat_app. Qed.
Lemma tagged_actions log : snd <$> tagged log = actions log.
Proof.
  unfold tagged, actions. induction log as [|x log IH]; [done|]. rewrite !fmap_cons. cbn [concat]. rewrite fmap_app, IH. f_equal.
  assert (forall (c : bool) (o : list (action T)), snd <$> ((c,.) <$> o) = o) as Ho.
  { intros c o. induction o as [|a o IHo]; [done|]. rewrite !fmap_cons. by rewrite IHo. }
  destruct x; unfold tagged_of; by rewrite ?Ho.
Qed.

(** [flow F l F']: starting from floor [F], records are never below the floor, and votes for
    events of their own height are above it and raise it, up to [F']. *)
Fixpoint flow (F : pos) (l : list (bool * action T)) (F' : pos) : Prop :=
  match l with
  | [] => F' = F
  | (b, a) :: l =>
      (forall w ok, a = ASave w ok -> ple F (wal_pos w)) /\ 
      match vote_of a with
      | Some v => if b : bool then plt F (vote_pos v) /\ flow (vote_pos v) l F' else flow F l F'
      | None => flow F l F'
      end
  end.
Lemma flow_app F l1 l2 F' : flow F (l1 ++ l2) F' <-> exists F1, flow F l1 F1 /\ flow F1 l2 F'.
Proof.
  revert F. induction l1 as [|[b a] l1 IH]; intros F; simpl.
  - split; [intros H; by exists F|]. by intros (? & -> & ?).
  - destruct (vote_of a) as [v|]; [destruct b|]; rewrite ?IH; naive_solver.
Qed.
Lemma flow_le F l F' : flow F l F' -> ple F F'.
Proof.
  revert F. induction l as [|[b a] l IH]; intros F; simpl; [intros ->; apply ple_refl|].
  intros [_ H]. destruct (vote_of a) as [v|]; [destruct b|]; auto.
  destruct H as [H1 H2]. eapply ple_trans; [apply plt_ple, H1|auto].
Qed.
Lemma flow_quiet F b o :
  Forall (fun a => vote_of a = None) o -> (forall w ok, ASave w ok ∈ o -> ple F (wal_pos w)) -> flow F ((b,.) <$> o) F.
Proof.
  intros Hv Hs. induction o as [|a o IH]; simpl; [done|]. apply Forall_cons in Hv as [Ha Hv].
  rewrite Ha. split; [intros w ok ->; apply (Hs w ok); left|]. apply IH; [done|]. intros w ok Hw. apply (Hs w ok). by right.
Qed.

(** ** The invariant *)
Definition no_events (n : node T) : Prop :=
  nd_evs n = [] /\ nd_tevs n = [] /\ nd_sleeps n = [] /\ nd_fired n = [].
Definition other_height (t : trigger) : Prop :=
  (forall x, t_type t <> TNewHeight x) /\ t_type t <> TWalInfo /\ t_height t <> 0.
Definition ph (c : pos) : N := c.1.1.
Definition pr (c : pos) : N := c.1.2.
Inductive vmode (F : pos) (n : node T) : Prop :=
| vm_idle H0 : 0 < H0 -> ph F <= H0 -> H0 <= s_height (nd_st n) -> nd_smr n = smr_init -> no_events n ->
    Forall (fun t => (exists x, t_type t = TNewHeight x /\ H0 < ss_height x) \/ other_height t) (nd_trig n) -> vmode F n
| vm_pending i t pre post : nd_trig n = pre ++ t :: post -> t_type t = TWalInfo -> t_wal t = Some i ->
    Forall other_height pre -> Forall not_wal post -> nd_smr n = smr_init -> no_events n ->
    0 < sb_height i -> sb_step i <> SCommit ->
    ple F (sb_height i, sb_round i, step_u8 (sb_step i)) ->
    sb_height i <= s_height (nd_st n) -> (s_height (nd_st n) = sb_height i -> s_round (nd_st n) = sb_round i) -> vmode F n
| vm_active c c' : ple F c -> evs_run c (nd_evs n) c' -> at_smr c' (nd_smr n) -> Forall not_wal (nd_trig n) ->
    (s_power (nd_st n) = true -> s_height (nd_st n) = ph c -> s_round (nd_st n) = pr c) ->
    (c.2 <= 3 \/ ph c < s_height (nd_st n)) -> vmode F n.
Definition vinv (F : pos) (n : node T) : Prop := nd_on n = true -> vmode F n.

Lemma vmode_same F n n' :
  nd_st n' = nd_st n -> nd_smr n' = nd_smr n -> nd_trig n' = nd_trig n -> nd_evs n' = nd_evs n ->
  (no_events n -> no_events n') -> vmode F n -> vmode F n'.
Proof.
  intros E1 E2 E3 E4 E5 [H0 ? ? ? ? ? ?|i t pre post ? ? ? ? ? ? ? ? ? ? ? ?|c c' ? ? ? ? ? ?].
  - eapply (vm_idle _ _ H0); rewrite ?E1, ?E2, ?E3; auto.
  - eapply (vm_pending _ _ i t pre post); rewrite ?E1, ?E2, ?E3; auto.
  - eapply (vm_active _ _ c c'); rewrite ?E1, ?E2, ?E3, ?E4; auto.
Qed.
Lemma timer_not_wal tm ev t : timer_trigger tm ev = Ok (Some t) -> not_wal t.
Proof.
  intros Ht. unfold not_wal. destruct ev; simpl in Ht; try done;
  (match type of Ht with (if ?b then _ else _) = _ => destruct b end; [done|]; injection Ht as <-; done).
Qed.
Lemma other_height_noop ch t m m' o r :
  other_height t -> t_type t <> TStop -> m_height m = 0 -> smr_step ch t m = (m', o, r) -> m' = m /\ o = [].
Proof.
  clear lc tenc tdec spill cr. unfold other_height. intros (A1 & A2 & A3) A4 Em Hs.
  smr_go Hs; try congruence; try done; try (exfalso; by eapply A1).
Qed.

Ltac pos_lia := unfold ple, plt, wal_pos, vote_pos, ph, pr in *; simpl in *; lia.

Lemma state_vmode F (n : node T) ops e i n0 s o r :
  ninv n -> nostop n -> s_votes (nd_st n) = vops ops ->
  vmode F n -> popped i n n0 -> react e i (nd_st n) = (s, o, r) ->
  exists F', flow F ((fresh i (nd_st n),.) <$> o) F' /\
    forall b, vmode F' (absorb s b o n0).
Proof.
  clear tdec spill cr. intros [Hg Hle] (Hst & Hq & _ & _ & Hevs & _) Ev Hm Hp Hr.
  assert (i <> IMsg MStop) as Hns.
  { intros ->. destruct Hp as (q & E & _). apply (Hq MStop); [|done]. rewrite E. left. }
  pose proof (move_react _ _ _ _ _ _ _ _ _ Ev Hst Hns Hr) as [M1 M2 M3].
  pose proof (popped_same _ _ _ Hp) as (Ep1 & Ep2 & Ep3 & Ep4 & Ep5 & Ep6 & Ep7 & Ep8 & Ep9 & Ep10 & Ep11 & Ep12).
  assert (s_height (nd_st n) <= s_height s) as Hmono by (destruct M1 as [?|(? & ? & ?)]; lia).
  assert (forall ev, i = IEvent ev -> ev ∈ nd_evs n) as Hpop.
  { intros ev ->. destruct Hp as (q & E & _). rewrite E. left. }
  (* no event: nothing but new heights is recorded *)
  assert ((forall ev, i <> IEvent ev) -> ph F <= s_height (nd_st n) -> flow F ((fresh i (nd_st n),.) <$> o) F) as Hquiet.
  { intros Hi HF. apply flow_quiet.
    - eapply (novote_react e i); [|exact Hr]. intros ev Eev. by destruct (Hi ev).
    - intros w ok Hw. destruct (M2 _ _ Hw) as [?|(_ & _ & _ & ev & Eev & _)]; [|by destruct (Hi ev)].
      destruct F as [[h0 r0] k0]. pos_lia. }
  destruct Hm as [H0 A1 A2 A3 A4 A5 A6|j t pre post A1 A2 A3 A4 A5 A6 A7 A8 A9 A10 A11 A12|c c' A1 A2 A3 A4 A5 A6].
  - exists F. destruct A5 as (B1 & B2 & B3 & B4). split.
    { apply Hquiet; [|lia]. intros ev Eev. apply Hpop in Eev. rewrite B1 in Eev. by apply elem_of_nil in Eev. }
    assert (nd_evs n0 = []) as E0.
    { destruct i; destruct Hp as (q & Eq & ->); simpl; [done| |done|done]. rewrite B1 in Eq. done. }
    intros b. apply (vm_idle _ _ H0); simpl; rewrite ?Ep3; auto.
    + lia.
    + unfold no_events. simpl. rewrite Ep8, Ep9, Ep12. done.
    + rewrite Ep7. apply Forall_app. split; [done|]. apply Forall_forall. intros t Ht%trigs_of_in.
      apply M3 in Ht as [(x & Ex & Hx)|(X1 & X2 & X3)]; [left; exists x; split; [done|lia]|]. right. split_and!; [done..|lia].
  - exists F. destruct A7 as (B1 & B2 & B3 & B4). split.
    { apply Hquiet; [|destruct F as [[h0 r0] k0]; pos_lia]. intros ev Eev. apply Hpop in Eev. rewrite B1 in Eev. by apply elem_of_nil in Eev. }
    assert (nd_evs n0 = []) as E0.
    { destruct i; destruct Hp as (q & Eq & ->); simpl; [done| |done|done]. rewrite B1 in Eq. done. }
    assert (forall ev, i <> IEvent ev) as Hi.
    { intros ev Eev. apply Hpop in Eev. rewrite B1 in Eev. by apply elem_of_nil in Eev. }
    intros b. apply (vm_pending _ _ j t pre (post ++ trigs_of o)); simpl; rewrite ?Ep3; auto.
    + by rewrite Ep7, A1, <-app_assoc.
    + apply Forall_app. split; [done|]. apply Forall_forall. intros t' Ht%trigs_of_in.
      apply M3 in Ht as [(x & Ex & Hx)|(X1 & X2 & X3)]; unfold not_wal; [by rewrite Ex|done].
    + unfold no_events. simpl. rewrite Ep8, Ep9, Ep12. done.
    + lia.
    + destruct M1 as [?|(Eh & _ & Er)]; [lia|]. rewrite Eh, Er. destruct i; try done. by destruct (Hi ev).
  - assert (ph c' = m_height (nd_smr n)) as Ec' by (destruct A3 as (k & -> & _); done).
    assert (ph c <= s_height (nd_st n)) as Hc.
    { apply evs_run_le in A2. destruct c as [[? ?] ?], c' as [[? ?] ?]. pos_lia. }
    assert (Forall not_wal (nd_trig n0 ++ trigs_of o)) as Htr.
    { rewrite Ep7. apply Forall_app. split; [done|]. apply Forall_forall. intros t' Ht%trigs_of_in.
      apply M3 in Ht as [(x & Ex & Hx)|(X1 & X2 & X3)]; unfold not_wal; [by rewrite Ex|done]. }
    destruct i as [m|ev|rs|m].
    1, 3, 4: exists F; (split; [apply Hquiet; [done|destruct F as [[? ?] ?], c as [[? ?] ?]; pos_lia]|]);
      intros b; destruct Hp as (q & Eq & ->); apply (vm_active _ _ c c'); simpl; auto;
      [destruct M1 as [?|(Eh & Epw & Er)]; [intros; lia|rewrite Eh, Epw, Er; exact A5]|destruct A6; [by left|right; lia]].
    destruct Hp as (q & Eq & ->). rewrite Eq in A2. destruct A2 as (c1 & S1 & S2).
    assert (ple c c1) as Hcc by by eapply evs_step_le.
    assert (ple F c1) as HF by by eapply ple_trans.
    assert (ph c1 <= s_height (nd_st n)) as Hc1.
    { apply evs_run_le in S2. destruct c1 as [[? ?] ?], c' as [[? ?] ?]. pos_lia. }
    (* the new cursor *)
    assert (forall F', ple F' c1 -> forall b, vmode F' (absorb s b o (set_evs q n))) as Hnew.
    { intros F' HF' b. apply (vm_active _ _ c1 c'); simpl; auto.
      - destruct M1 as [?|(Eh & Epw & Er)]; [intros; lia|]. rewrite Eh, Epw, Er. intros Hpw. simpl. rewrite Hpw.
        destruct c as [[h0 r0] k0]. destruct ev; simpl in S1; unfold ph, pr in *; simpl in *; try done.
        + destruct S1 as [_ ->]. done.
        + destruct S1 as (-> & -> & _ & ->). simpl. auto.
        + destruct S1 as (-> & -> & _ & ->). simpl. auto.
        + subst c1. simpl. auto.
        + destruct S1 as (-> & -> & ->). simpl. auto.
      - destruct c as [[h0 r0] k0]. destruct ev; simpl in S1; try done.
        + destruct S1 as [_ ->]. simpl. left. lia.
        + destruct S1 as (-> & -> & _ & ->). simpl. left. lia.
        + destruct S1 as (-> & -> & _ & ->). simpl. left. lia.
        + subst c1. simpl in *. destruct A6; [by left|right; lia].
        + destruct S1 as (-> & -> & ->). simpl in *. destruct A6; [by left|right; lia]. }
    (* records are not below the floor *)
    assert (forall w ok, ASave w ok ∈ o -> ple F (wal_pos w)) as Hrec.
    { intros w ok Hw. destruct (M2 _ _ Hw) as [Hh|(Hpw & Eh & Er & ev' & [= <-] & Es)].
      { destruct F as [[? ?] ?], c as [[? ?] ?]. pos_lia. }
      simpl in Er. rewrite Hpw in Er. specialize (A5 Hpw).
      destruct F as [[h1 r1] k1], c as [[h0 r0] k0]. unfold wal_pos. rewrite Eh, Er, Es.
      destruct ev as [h rd lr lp fr iv cf|h rd x lr|h rd x lr|x|h rd lr|]; simpl in S1; unfold ph, pr in *; simpl in *; try done.
      - destruct S1 as [? ->]. simpl in *. pos_lia.
      - destruct S1 as (-> & -> & ? & ->). simpl in *. pos_lia.
      - destruct S1 as (-> & -> & ? & ->). simpl in *. pos_lia.
      - subst c1. simpl in *. pos_lia.
      - destruct S1 as (-> & -> & ->). simpl in *. pos_lia. }
    destruct (vote_event ev) as [[[[h rd] t] x]|] eqn:Eve.
    2: { exists F. split; [|by apply Hnew]. apply flow_quiet; [|done]. eapply (novote_react e (IEvent ev)); [|exact Hr].
         by intros ? [= <-]. }
    destruct (vote_react _ _ _ _ _ _ _ _ _ _ _ Ev Hst Eve Hr) as [Hnv|(Hpw & w & a & o2 & -> & Ew & Ea & Ho2)].
    { exists F. split; [by apply flow_quiet|by apply Hnew]. }
    assert (forall F0 b, flow F0 ((b,.) <$> o2) F0) as Hf2.
    { intros F0 b. apply flow_quiet; [eapply Forall_impl; [exact Ho2|]; by intros ? [? ?]|].
      intros w0 ok Hw0. rewrite Forall_forall in Ho2. apply Ho2 in Hw0 as [_ ?]. done. }
    assert (ple F (wal_pos w)) as Hw by (apply (Hrec w true); left).
    assert (ev_height ev = Some h) as Eevh by (destruct ev; try discriminate Eve; simpl in *; congruence).
    assert (vote_of (ASave w true) = None) as En by done.
    unfold fresh. rewrite Eevh. destruct (h =? s_height (nd_st n)) eqn:Eh.
    + apply N.eqb_eq in Eh. subst h.
      assert (c1 = vote_pos (mkVote (s_height (nd_st n)) (s_round (nd_st n)) t x) /\ plt c c1) as [Ec1 Hlt].
      { specialize (A5 Hpw). destruct c as [[h0 r0] k0].
        destruct ev; try discriminate Eve; simpl in Eve; injection Eve as -> -> <- ->; simpl in S1;
          destruct S1 as (<- & -> & ? & ->); unfold ph, pr in *; simpl in *; specialize (A5 ltac:(congruence)); subst;
          (split; [done|]); pos_lia. }
      exists c1. split; [|apply Hnew, ple_refl]. rewrite !fmap_cons. cbn [flow]. rewrite En, Ea. split.
      { intros w0 ok [= -> <-]. done. }
      split; [intros w0 ok ->; discriminate Ea|]. split; [rewrite <-Ec1; by apply (ple_plt_trans _ c)|].
      rewrite <-Ec1. apply Hf2.
    + exists F. split; [|by apply Hnew]. rewrite !fmap_cons. cbn [flow]. rewrite En, Ea. split.
      { intros w0 ok [= -> <-]. done. }
      split; [intros w0 ok ->; discriminate Ea|]. apply Hf2.
Qed.

Lemma handle_wal_inv ch i m m' o r (t : trigger) :
  t_type t = TWalInfo -> t_wal t = Some i -> smr_step ch t m = (m', o, r) ->
  m_height m' = sb_height i /\ m_round m' = sb_round i /\ m_step m' = sb_step i /\ to_state o = [].
Proof.
  clear lc tenc tdec spill cr. intros E1 E2 Hs.
  smr_go Hs; try congruence; destruct (sb_polc i); done.
Qed.
Lemma new_height_inv s m m' o r (t : trigger) :
  t_type t = TNewHeight s -> t_src t = SrcState -> m_height m < ss_height s -> smr_step open_chans t m = (m', o, r) ->
  exists iv cf, m_height m' = ss_height s /\ m_round m' = 0 /\ m_step m' = SPropose /\
    to_state o = [EvNewRound (ss_height s) 0 None None (FWPrecommit u64_max) iv cf].
Proof.
  clear lc tenc tdec spill cr. intros E1 E2 E3 Hs.
  smr_go Hs; try congruence; try lia. eexists _, _; split_and!; done.
Qed.

Lemma smr_vmode F (n : node T) t q m o r on :
  ninv n -> nostop n -> vmode F n -> nd_trig n = t :: q -> trig_in_range t ->
  smr_step open_chans t (nd_smr n) = (m, o, r) ->
  vmode F (mkNode (nd_st n) true m on (nd_tm n) (nd_tm_on n) (nd_raw n) q (nd_evs n ++ to_state o)
       (nd_tevs n ++ to_timer o) (nd_fired n) (nd_queue n) (nd_resp n) (nd_verifs n) (nd_checks n) (nd_sleeps n)).
Proof.
  clear lc tenc tdec spill cr. intros [Hg Hle] (_ & _ & _ & Hstop & _) Hm Eq Hr Hs.
  rewrite Eq in Hg. apply Forall_cons in Hg as [Ht Hg].
  assert (t_type t <> TStop) as Hts by (apply Hstop; rewrite Eq; left).
  destruct Hm as [H0 A1 A2 A3 A4 A5 A6|j tw pre post A1 A2 A3 A4 A5 A6 A7 A8 A9 A10 A11 A12|c c' A1 A2 A3 A4 A5 A6].
  - rewrite Eq in A6. apply Forall_cons in A6 as [At A6]. destruct A5 as (B1 & B2 & B3 & B4). destruct At as [(x & Ex & Hx)|At].
    + unfold good_trigger in Ht. rewrite Ex in Ht. destruct Ht as [Hsrc Hxh].
      assert (m_height (nd_smr n) < ss_height x) as Hx0 by (rewrite A4; simpl; unfold INIT_HEIGHT; lia).
      destruct (new_height_inv _ _ _ _ _ _ Ex Hsrc Hx0 Hs) as (iv & cf & E1 & E2 & E3 & E4).
      apply (vm_active _ _ F (ss_height x, 0, 0)); simpl.
      * apply ple_refl.
      * rewrite B1, E4. destruct F as [[h0 r0] k0]. unfold ph in A2. simpl in A2. eexists. split; [|reflexivity].
        simpl. split; [|done]. left. lia.
      * exists 0. rewrite E1, E2. split; [done|lia].
      * eapply Forall_impl; [exact A6|]. intros t' [(y & Ey & _)|(_ & ? & _)]; unfold not_wal; [by rewrite Ey|done].
      * intros _ E. lia.
      * right. lia.
    + assert (m_height (nd_smr n) = 0) as Hm0 by by rewrite A4.
      destruct (other_height_noop _ _ _ _ _ _ At Hts Hm0 Hs) as [-> ->].
      apply (vm_idle _ _ H0); simpl; auto. unfold no_events; simpl. by rewrite B1, B2, B3, B4.
  - rewrite Eq in A1. destruct pre as [|t' pre]; simpl in A1; injection A1 as -> ->.
    + destruct (handle_wal_inv _ _ _ _ _ _ _ A2 A3 Hs) as (E1 & E2 & E3 & E4). destruct A7 as (B1 & B2 & B3 & B4).
      apply (vm_active _ _ (sb_height j, sb_round j, step_u8 (sb_step j)) (sb_height j, sb_round j, step_u8 (sb_step j))); simpl; auto.
      * by rewrite B1, E4.
      * exists (step_u8 (sb_step j)). rewrite E1, E2, E3. done.
      * left. by destruct (sb_step j).
    + apply Forall_cons in A4 as [At A4].
      assert (m_height (nd_smr n) = 0) as Hm0 by by rewrite A6.
      destruct (other_height_noop _ _ _ _ _ _ At Hts Hm0 Hs) as [-> ->].
      eapply (vm_pending _ _ j tw pre post); simpl; eauto. destruct A7 as (B1 & B2 & B3 & B4).
      unfold no_events; simpl. by rewrite B1, B2, B3, B4.
  - rewrite Eq in A4. apply Forall_cons in A4 as [At A4].
    destruct (smr_chain _ _ _ _ _ _ Hs At Hr Hts A3) as (c2 & C1 & C2).
    apply (vm_active _ _ c c2); simpl; auto. apply evs_run_app. eauto.
Qed.

(** ** One move of an instance *)
Definition smr_in_range (log : list (nlog T)) : Prop :=
  forall t m o r, NSmr t m o r ∈ log -> t_round t < u64_max.
Lemma vinv_step F l (n n' : node T) ops log :
  ninv n -> nostop n -> s_votes (nd_st n) = vops ops -> vinv F n -> nstep lc tenc cr l n = Some (n', log) -> smr_in_range log ->
  exists F', flow F (tagged log) F' /\ vinv F' n'.
Proof.
  clear tdec spill. intros Hni Hno Ev Hv Hs Hrg.
  assert (forall F x n', tagged [x] = [] -> vinv F n' -> exists F', flow F (tagged [x]) F' /\ vinv F' n') as Hk.
  { intros F0 x n0 E Hn. exists F0. by rewrite E. }
  apply nstep_inv in Hs as [m -> ->|e i n0 s o r Ho Hp Hr -> ->|t q m o r ? Eq Hr -> ->|k a m Hk0 -> ->|k h r x b ok ? -> ->|ev q ? Eq -> ->|k ev Hk0 -> ->|ev q ? Eq -> ->].
  - apply Hk; [done|]. intros Hon. eapply vmode_same; [..|apply Hv; exact Hon]; done.
  - destruct (state_vmode F n ops _ _ _ _ _ _ Hni Hno Ev (Hv Ho) Hp Hr) as (F' & HF & Hm).
    exists F'. unfold tagged. simpl. rewrite app_nil_r. split; [exact HF|]. intros _. apply Hm.
  - apply Hk; [done|]. unfold vinv. simpl. intros Hon. rewrite Hon in *.
    pose proof Hno as (_ & _ & _ & _ & _ & _ & _ & Htm). rewrite Htm in Hr.
    pose proof (smr_vmode F n t q m o r (match r with Ok true | Err _ => true | _ => false end) Hni Hno (Hv Hon) Eq) as Hm.
    rewrite Htm in Hm. rewrite Htm. apply Hm; [|done]. eapply Hrg. by left.
  - apply Hk; [done|]. intros Hon. destruct (verify_msg tenc cr a m); (eapply vmode_same; [..|apply Hv; exact Hon]); done.
  - apply Hk; [done|]. intros Hon. destruct ok; (eapply vmode_same; [..|apply Hv; exact Hon]); done.
  - apply Hk; [done|]. intros Hon. destruct (arm_same ev (set_tevs q n)) as (E1 & E2 & E3 & E4 & E5 & E6 & E7 & E8 & E9 & _).
    rewrite E2 in Hon. simpl in *. eapply vmode_same; [..|apply Hv; exact Hon]; try done.
    intros (_ & B2 & _). rewrite B2 in Eq. done.
  - apply Hk; [done|]. intros Hon. eapply vmode_same; [..|apply Hv; exact Hon]; try done.
    intros (_ & _ & B3 & _). rewrite B3 in Hk0. done.
  - apply Hk; [done|]. intros Hon.
    destruct (fire_same ev (set_fired q n)) as (E1 & E2 & E3 & E4 & E5 & E6 & E7 & E8 & E9 & E10 & E11 & E12 & E13 & E14 & E15 & [E|(t & Ht & E)]);
      rewrite E2 in Hon; simpl in *.
    + eapply vmode_same; [..|apply Hv; exact Hon]; try done. intros (_ & _ & _ & B4). rewrite B4 in Eq. done.
    + destruct (Hv Hon) as [H0 A1 A2 A3 A4 (_ & _ & _ & B4) A6|j tw pre post A1 A2 A3 A4 A5 A6 (_ & _ & _ & B4) A8 A9 A10 A11 A12|c c' A1 A2 A3 A4 A5 A6];
        [rewrite B4 in Eq; done|rewrite B4 in Eq; done|].
      apply (vm_active _ _ c c'); rewrite ?E1, ?E3, ?E8, ?E; auto. apply Forall_app. split; [done|].
      apply Forall_singleton. by eapply timer_not_wal.
Qed.

(** ** The start *)
Lemma commit_move e hash s s' o r :
  s_power s = true -> handle_commit lc e hash s = (s', o, r) -> moveR (T:=T) (IEvent (EvCommit hash)) s o s'.
Proof.
  clear tenc tdec spill cr. intros Hp Hx.
  assert (forall ok content qc, ASave (commit_record s qc content) ok = ASave (mkWalInfo (s_height s) (s_round s) SCommit
      (Some (mkWalLock (s_round s) qc content)) (s_from s)) ok) as Erec by done.
  apply commit_inv in Hx as [(-> & -> & _)|(content & qc & _ & _ & [(_ & -> & ->)|(_ & Hx)])].
  - apply hold_move; [done..|]. by apply hold_same.
  - apply hold_move; [done..|]. rewrite Erec. apply (hold_save false SCommit).
  - destruct (e_commit e _ _) as [stt|].
    2: { destruct Hx as (-> & -> & _). apply hold_move; [done..|]. rewrite Erec. destruct (holdR_comp (T:=T) (Some SCommit)) as [_ Hc].
         apply (Hc _ _ _ [_] _ (hold_save true SCommit _ s)). by apply hold_one. }
    destruct Hx as (o2 & -> & Hx).
    set (s1 := set_s_auth (auth_update (st_auth stt)) s) in Hx.
    assert (moveR (T:=T) (IEvent (EvCommit hash)) s1 o2 s') as [M1 M2 M3].
    { destruct (get_proposer _ _ _ _); [by eapply moveR_goto|..]; destruct Hx as (-> & -> & _);
        (apply hold_move_none; [done|by apply hold_same]). }
    split; [exact M1| |].
    + intros w b [Hw|[Hw|Hw]%elem_of_cons]%elem_of_cons; [|done|].
      * injection Hw as -> _. right. split_and!; try done. eexists. by split.
      * by apply M2 in Hw.
    + intros t [Hw|[Hw|Hw]%elem_of_cons]%elem_of_cons; [done|done|]. by apply M3.
Qed.

(** The instance starts where the log record [w] is what is stored: it decodes to [w]; and the
    instance either is a validator by what it is told at the start, or has been told that the
    chain is already past the record. *)
Definition boots (b : boot T) (w : option (walinfo T)) : Prop :=
  match w with
  | None => b_wal b = Some None
  | Some w => boot_wal tdec spill b w /\ 0 < wi_height w /\
      (auth_contains (auth_update (b_vals b)) (b_addr b) = true \/ wi_height w <= b_height b)
  end.
Definition floor (w : option (walinfo T)) : pos := match w with None => (0, 0, 0) | Some w => wal_pos w end.

Lemma start_vmode b w e s o r :
  boots b w -> (forall t, e_trigger e t = true) ->
  on_start lc tdec spill e (b_wal b) (st_new (b_addr b) (b_height b) (b_interval b) (b_vals b)) = (s, o, r) ->
  flow (floor w) ((true,.) <$> o) (floor w) /\
  forall on cfg, vmode (floor w) (absorb s on o (mkNode s true smr_init true (timer_new (b_interval b) cfg) true [] [] [] [] [] [] [] [] [] [])).
Proof.
  clear tenc cr. intros Hb He Hs. unfold on_start in Hs. apply logged_inv in Hs as (r' & Hs & _).
  set (s0 := st_new _ _ _ _) in Hs.
  assert (s_power s0 = auth_contains (auth_update (b_vals b)) (b_addr b)) as Hpw by done.
  assert (s_height s0 = b_height b) as Eh0 by done. assert (s_round s0 = 0) as Er0 by done. clearbody s0.
  assert (forall t s, trigger_smr e t s = (s, [ATrigger t], Ok tt)) as Htr by (intros; unfold trigger_smr; by rewrite He).
  destruct (s_power s0) eqn:Hp.
  2: { unfold start_with_wal, get, ret in Hs. rewrite Hp in Hs. simpl in Hs. simplify_eq. split; [done|]. intros on cfg.
       destruct w as [w|]; simpl.
       - destruct Hb as (_ & Hw & [?|Hb]); [congruence|].
         apply (vm_idle _ _ (wi_height w)); simpl; try done. rewrite Eh0. done.
       - apply (vm_active _ _ (0, 0, 0) (0, 0, 0)); simpl; try done.
         + apply ple_refl.
         + exists 0. split; [done|lia].
         + left. lia. }
  destruct w as [w|]; simpl in Hb.
  2: { rewrite Hb in Hs. unfold start_with_wal, get at 1 in Hs. rewrite Hp in Hs. cbn [negb] in Hs.
       unfold load_wal in Hs. unfold bind at 1, lift at 1 in Hs. destruct (s_height s0 =? INIT_HEIGHT) eqn:E0; cbn [negb] in Hs.
       - unfold ret in Hs. simplify_eq. split; [done|]. intros on cfg. apply N.eqb_eq in E0.
         apply (vm_active _ _ (0, 0, 0) (0, 0, 0)); simpl; try done.
         + apply ple_refl.
         + exists 0. split; [done|lia].
         + left. lia.
       - unfold wal_lost, get in Hs. apply N.eqb_neq in E0. unfold INIT_HEIGHT in E0.
         rewrite Htr in Hs. simplify_eq. split; [simpl; by split|]. intros on cfg.
         eapply (vm_pending _ _ _ _ [] []); simpl; try done; simpl.
         + lia.
         + pos_lia. }
  destruct Hb as ((bs & Ew & Hd) & Hw0 & _). rewrite Ew in Hs.
  (* waiting for a new height *)
  assert (forall s2 o2, wi_height w <= s_height s2 ->
     (forall t, ATrigger t ∈ o2 -> (exists x, t_type t = TNewHeight x /\ wi_height w < ss_height x) \/ plain (wi_height w) t) ->
     forall on cfg, vmode (wal_pos w) (absorb s2 on o2 (mkNode s2 true smr_init true (timer_new (b_interval b) cfg) true [] [] [] [] [] [] [] [] [] []))) as Hidle.
  { intros s2 o2 Hh Ht on cfg. apply (vm_idle _ _ (wi_height w)); simpl; try done.
    apply Forall_forall. intros t Hin%trigs_of_in. apply Ht in Hin as [?|(? & ? & E)]; [by left|]. right. split_and!; [done..|]. lia. }
  destruct (get_proposer lc (s_auth s0) (wi_height w) (wi_round w)) as [p|x|] eqn:Hg.
  2-3: unfold start_with_wal, get at 1 in Hs; rewrite Hp in Hs; cbn [negb] in Hs;
    unfold load_wal in Hs; rewrite Hd in Hs; unfold bind at 1, lift at 1 in Hs;
    unfold bind at 1, modify at 1 in Hs; unfold bind at 1, is_proposer, get at 1 in Hs;
    cbn [s_auth s_height s_round set_s_round set_s_height s_addr] in Hs;
    unfold bind at 1, lift at 1 in Hs; rewrite Hg in Hs; simplify_eq; (split; [done|]); apply Hidle;
    [simpl; lia|by intros ? ?%elem_of_nil].
  erewrite start_loaded in Hs by done. set (s1 := loaded_state w _ p s0) in Hs.
  assert (s_height s1 = wi_height w /\ s_round s1 = wi_round w /\ s_power s1 = true) as (E1 & E2 & E3).
  { unfold s1, loaded_state. by destruct (wi_lock w). }
  clearbody s1. unfold start_tail in Hs. destruct (bool_decide (wi_step w = SCommit)) eqn:Ec.
  - apply bool_decide_eq_true in Ec. destruct (wi_lock w) as [l|].
    2: { unfold fail in Hs. simplify_eq. split; [done|]. apply Hidle; [lia|by intros ? ?%elem_of_nil]. }
    pose proof (novote_commit _ _ _ _ _ _ Hs) as Hnv. apply commit_move in Hs as [M1 M2 M3]; [|done]. split.
    + apply flow_quiet; [done|]. intros w' ok Hin. apply M2 in Hin as [?|(_ & E4 & E5 & ev & [= <-] & E6)]; simpl; [pos_lia|].
      simpl in E5. unfold wal_pos. rewrite E4, E5, E6, E1, E2, Ec. simpl. apply ple_refl.
    + apply Hidle; [destruct M1 as [?|(? & _)]; lia|]. rewrite <-E1. exact M3.
  - apply bool_decide_eq_false in Ec. destruct (bool_decide (wi_step w = SBrake)) eqn:Eb.
    + apply bool_decide_eq_true in Eb.
      assert (forall s2 o2 r2, handle_brake e (wi_round w) (wl_round <$> wi_lock w) s1 = (s2, o2, r2) ->
         flow (wal_pos w) ((true,.) <$> o2) (wal_pos w) /\ s_height s2 = wi_height w /\ s_round s2 = wi_round w /\
         forall t, ATrigger t ∈ o2 -> plain (wi_height w) t) as Hbr.
      { intros s2 o2 r2 Hx. pose proof (novote_brake _ _ _ _ _ _ _ Hx) as Hnv. apply hold_brake in Hx as (A1 & A2 & A3 & A4 & A5).
        split_and!; [|congruence..|rewrite <-E1; exact A5]. apply flow_quiet; [done|]. intros w' ok Hin. apply A4 in Hin as (E4 & E5 & E6).
        injection E6 as E6. unfold wal_pos. rewrite E4, E5, <-E6, E1, E2, Eb. apply ple_refl. }
      apply bind_inv in Hs as [(a & s2 & o1 & o2 & Hx & Hs & ->)|[(x & Hx & _)|(Hx & _)]].
      * apply Hbr in Hx as (F1 & F2 & F3 & F4). unfold get in Hs. rewrite Htr in Hs. simplify_eq.
        split; [rewrite fmap_app; apply flow_app; exists (wal_pos w); by split|]. intros on cfg.
        eapply (vm_pending _ _ (into_smr_base w) (mkTrigger TWalInfo SrcState [] None (s_round s) (s_height s)
            (Some (into_smr_base w))) (trigs_of o1) []); simpl; try done; simpl.
        -- unfold trigs_of. by rewrite omap_app.
        -- apply Forall_forall. intros t Hin%trigs_of_in. apply F4 in Hin as (? & ? & E). split_and!; [done..|lia].
        -- apply ple_refl.
        -- lia.
      * apply Hbr in Hx as (F1 & F2 & F3 & F4). split; [done|]. apply Hidle; [lia|]. intros t Hin. right. auto.
      * apply Hbr in Hx as (F1 & F2 & F3 & F4). split; [done|]. apply Hidle; [lia|]. intros t Hin. right. auto.
    + unfold bind, ret, get in Hs. rewrite Htr in Hs. simplify_eq. split; [by split|]. intros on cfg.
      eapply (vm_pending _ _ (into_smr_base w) _ [] []); simpl; try done; simpl.
      * apply ple_refl.
      * lia.
Qed.

(** ** A whole life *)
Lemma noderun_flow b cfg log n w :
  noderun b cfg log n -> boots b w -> smr_in_range log ->
  exists F, flow (floor w) (tagged log) F /\ vinv F n.
Proof.
  induction 1 as [n log Hs|log n l n' log' Hr IH Hs]; intros Hb Hrg.
  - unfold nstart in Hs. destruct (on_start _ _ _ _ _ _) as [[s o] r] eqn:E. injection Hs as <- <-.
    apply (start_vmode b w) in E as [E1 E2]; [|done|done]. exists (floor w). split; [|intros _; apply E2].
    unfold tagged. simpl. by rewrite app_nil_r.
  - destruct IH as (F & HF & Hv); [done|intros t m o r Hin; eapply Hrg; apply elem_of_app; by left|].
    pose proof (noderun_run _ _ _ _ _ _ _ _ _ Hr) as Hrun. apply run_run_inv in Hrun. destruct Hrun as [(ops & Ev & _) _ _ _ _ _].
    apply noderun_ninv in Hr as Hni. apply noderun_nostop in Hr as Hno.
    destruct (vinv_step F l n n' ops log' Hni Hno Ev Hv Hs) as (F' & HF' & Hv').
    { intros t m o r Hin. eapply Hrg. apply elem_of_app. by right. }
    exists F'. split; [|done]. rewrite tagged_app. apply flow_app. eauto.
Qed.
End V.
