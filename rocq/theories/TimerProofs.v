(** * TimerProofs: timeout lengths and timeout-driven progress. *)
From Verif Require Export SmrSteps.

(** ** Specification of timeout lengths, by scanning the event history *)
(** The last value of [f] along a history, [d] if there is none. *)
Definition last_some {A} (f : smr_event -> option A) (d : A) (evs : list smr_event) : A :=
  fold_left (fun acc e => default acc (f e)) evs d.

Definition ev_interval (e : smr_event) : option N :=
  match e with EvNewRound _ _ _ _ _ i _ => i | _ => None end.
Definition ev_config (e : smr_event) : option durcfg :=
  match e with EvNewRound _ _ _ _ _ _ c => c | _ => None end.
Definition ev_round (e : smr_event) : option N :=
  match e with EvNewRound _ r _ _ _ _ _ => Some r | _ => None end.

(** The default configuration of overlord: ratios 24/10, 10/10, 5/10, 3/10. *)
Definition default_ratios : durcfg := mkDurCfg 24 10 5 3.

Definition ratio_of (d : durcfg) (e : smr_event) : option N :=
  match e with
  | EvNewRound _ _ _ _ _ _ _ => Some (dc_propose d)
  | EvPrevote _ _ _ _ => Some (dc_prevote d)
  | EvPrecommit _ _ _ _ => Some (dc_precommit d)
  | EvBrake _ _ _ => Some (dc_brake d)
  | _ => None
  end.
Definition is_brake (e : smr_event) : bool := match e with EvBrake _ _ _ => true | _ => false end.

(** The timer after a history of events. *)
Definition timer_after (interval : N) (cfg : option durcfg) (evs : list smr_event) : timer :=
  fold_left (fun t e => fst (set_timer t e)) evs (timer_new interval cfg).

Lemma set_timer_note t e : fst (set_timer t e) = timer_note t e.
Proof. unfold set_timer. destruct e; done. Qed.

Lemma timer_note_round t e : tm_round (timer_note t e) = default (tm_round t) (ev_round e).
Proof. destruct e; done. Qed.
Lemma timer_note_interval t e :
  tc_interval (tm_config (timer_note t e)) = default (tc_interval (tm_config t)) (ev_interval e).
Proof. destruct e as [? ? ? ? ? [|] [|]| | | | |]; done. Qed.

(** ratios of a timer configuration, all over 10 *)
Definition cfg_is (c : tconfig) (d : durcfg) : Prop :=
  tc_propose c = (dc_propose d, 10) /\ tc_prevote c = (dc_prevote d, 10) /\
  tc_precommit c = (dc_precommit d, 10) /\ tc_brake c = (dc_brake d, 10).

Lemma timer_note_cfg t e d :
  cfg_is (tm_config t) d -> cfg_is (tm_config (timer_note t e)) (default d (ev_config e)).
Proof. intros H. destruct e as [? ? ? ? ? [|] [|]| | | | |]; simpl; try done. Qed.

Lemma timer_after_spec i cfg evs :
  let t := timer_after i cfg evs in
  tm_round t = last_some ev_round 0 evs /\
  tc_interval (tm_config t) = last_some ev_interval i evs /\
  cfg_is (tm_config t) (last_some ev_config (default default_ratios cfg) evs).
Proof.
  unfold timer_after, last_some.
  assert (forall t r i d,
    tm_round t = r -> tc_interval (tm_config t) = i -> cfg_is (tm_config t) d ->
    let t' := fold_left (fun t e => fst (set_timer t e)) evs t in
    tm_round t' = fold_left (fun acc e => default acc (ev_round e)) evs r /\
    tc_interval (tm_config t') = fold_left (fun acc e => default acc (ev_interval e)) evs i /\
    cfg_is (tm_config t') (fold_left (fun acc e => default acc (ev_config e)) evs d)) as H.
  { induction evs as [|e evs IH]; intros t r i' d H1 H2 H3; simpl; [done|].
    apply IH; rewrite set_timer_note.
    - rewrite timer_note_round. by subst.
    - rewrite timer_note_interval. by subst.
    - by apply timer_note_cfg. }
  apply H; [by destruct cfg|by destruct cfg|]. destruct cfg; done.
Qed.

Lemma timeout_length i cfg evs e ratio :
  let evs' := evs ++ [e] in
  let interval := last_some ev_interval i evs' in
  let round := last_some ev_round 0 evs' in
  ratio_of (last_some ev_config (default default_ratios cfg) evs') e = Some ratio ->
  interval * ratio < U64 -> round < U32 ->
  snd (set_timer (timer_after i cfg evs) e) =
    Ok (Some (interval * ratio / 10 * (if is_brake e then 1 else 2 ^ N.min round 5), e)).
Proof.
  intros evs' interval round Hr Hi Hrd.
  pose proof (timer_after_spec i cfg evs') as (H1 & H2 & H3).
  unfold timer_after in H1, H2, H3. unfold evs' in H1, H2, H3.
  rewrite fold_left_app in H1, H2, H3. simpl in H1, H2, H3.
  rewrite set_timer_note in H1, H2, H3.
  fold (timer_after i cfg evs) in H1, H2, H3.
  fold evs' in H1, H2, H3. fold interval in H2. fold round in H1.
  unfold set_timer.
  destruct H3 as (P1 & P2 & P3 & P4).
  unfold get_timeout, ratio_ms. rewrite H2, P1, P2, P3, P4.
  destruct e; simpl in Hr; simplify_eq; cbv zeta;
  rewrite ?H1; simpl fst; simpl snd; rewrite w64_small by done; rewrite ?w32_small by done;
  unfold is_brake, MAX_TIMEOUT_COEF; rewrite ?N.mul_1_r; done.
Qed.

(** No timeout for commit and stop events. *)
Lemma no_timeout_commit t x : snd (set_timer t (EvCommit x)) = Ok None.
Proof. done. Qed.

(** ** Progress by timeouts *)
Definition next_step (s : step) : step :=
  match s with SPropose => SPrevote | SPrevote => SPrecommit | SPrecommit => SBrake
  | SBrake => SBrake | SCommit => SCommit end.

Lemma expiry_progress m e tm :
  waits_for m e -> tm_height tm <= m_height m -> tm_round tm <= m_round m ->
  exists t m' o ev,
    timer_trigger tm e = Ok (Some t) /\ smr_step open_chans t m = (m', o, Ok true) /\
    m_height m' = m_height m /\ m_round m' = m_round m /\ m_step m' = next_step (m_step m) /\
    o = [ToState ev; ToTimer ev] /\ waits_for m' ev.
Proof.
  intros Hw Hh Hr. unfold waits_for in Hw.
  destruct m as [mh mr ms mhash ml]; simpl in *.
  destruct ml as [l|]; destruct ms, e; try done; destruct Hw as [-> ->]; unfold timer_trigger;
  rewrite (proj2 (N.ltb_ge _ _) Hh), ?(proj2 (N.ltb_ge _ _) Hr); simpl;
  (eexists _, _, _, _; split; [reflexivity|]);
  smr_unfold; simpl; rewrite ?N.eqb_refl; simpl; (split; [reflexivity|]); simpl; (split; [reflexivity|]); (split; [reflexivity|]); (split; [reflexivity|]); (split; [reflexivity|]); done.
Qed.

(** The timer has seen every event of the run: its height and round are not ahead. *)
Definition timer_inv (m : smr) (tm : timer) : Prop :=
  tm_height tm <= m_height m /\ tm_round tm <= m_round m.

Definition feed (tm : timer) (evs : list smr_event) : timer :=
  fold_left (fun t e => fst (set_timer t e)) evs tm.

Lemma feed_cons tm e evs : feed tm (e :: evs) = feed (timer_note tm e) evs.
Proof. unfold feed. simpl. by rewrite set_timer_note. Qed.
Lemma feed_nil tm : feed tm [] = tm.
Proof. done. Qed.
Lemma feed_app tm a b : feed tm (a ++ b) = feed (feed tm a) b.
Proof. unfold feed. apply fold_left_app. Qed.

Lemma timer_note_hr tm h r a b c d e :
  tm_height (timer_note tm (EvNewRound h r a b c d e)) = N.max (tm_height tm) h /\
  tm_round (timer_note tm (EvNewRound h r a b c d e)) = r.
Proof. simpl. split; [|done]. destruct (tm_height tm <? h) eqn:E; bsimp; lia. Qed.

Definition fresh_or_no_wal (t : trigger) (tm : timer) : Prop :=
  not_wal t \/ tm_height tm = 0 /\ tm_round tm = 0.

Lemma timer_inv_step m t m' o r tm :
  smr_step open_chans t m = (m', o, r) -> trig_in_range t -> fresh_or_no_wal t tm ->
  timer_inv m tm -> timer_inv m' (feed tm (to_timer o)).
Proof.
  intros H Hr Hf [I1 I2]. unfold trig_in_range, fresh_or_no_wal, not_wal, open_chans, timer_inv in *.
  smr_go H; try congruence; rewrite ?feed_cons, ?feed_nil;
  rewrite ?(proj1 (timer_note_hr _ _ _ _ _ _ _ _)), ?(proj2 (timer_note_hr _ _ _ _ _ _ _ _));
  simpl; rewrite ?w64_succ by lia; try (split; lia).
  all: try (match goal with |- context [if ?x then _ else _] => destruct x eqn:? end;
    bsimp; unfold INIT_ROUND; split; lia).
  all: destruct Hf as [Hf|[Hf1 Hf2]]; [congruence|]; rewrite ?Hf1, ?Hf2; try (match goal with |- context [if ?x then _ else _] => destruct x eqn:? end); bsimp; split; lia.
Qed.

(** A run that may begin with a WAL reload. *)
Definition boot_ok (ts : list trigger) : Prop :=
  match ts with
  | [] => True
  | t :: ts' => trig_in_range t /\ (not_wal t \/ exists i, t_type t = TWalInfo /\ t_wal t = Some i)
                /\ trigs_ok ts'
  end.

Definition final (ch : chans) (m : smr) (ts : list trigger) : smr := (smr_run ch m ts).1.
Definition timer_events (ch : chans) (m : smr) (ts : list trigger) : list smr_event :=
  to_timer (smr_run ch m ts).2.

Lemma armed_inv m tm evs ts :
  trigs_ok ts -> timer_inv m tm ->
  (m_step m <> SCommit -> exists e, e ∈ evs /\ waits_for m e) ->
  timer_inv (final open_chans m ts) (feed tm (timer_events open_chans m ts)) /\
  (m_step (final open_chans m ts) <> SCommit ->
   exists e, e ∈ evs ++ timer_events open_chans m ts /\ waits_for (final open_chans m ts) e).
Proof.
  revert m tm evs; induction ts as [|t ts IH]; intros m tm evs Ht Hi Ha.
  - unfold final, timer_events; simpl. rewrite app_nil_r. done.
  - inversion Ht as [|? ? [Hw Hr] Ht']; subst.
    unfold final, timer_events in *. simpl.
    destruct (smr_step open_chans t m) as [[m' o] r] eqn:E.
    assert (timer_inv m' (feed tm (to_timer o))) as Hi'
      by (eapply timer_inv_step; eauto; by left).
    assert (m_step m' <> SCommit -> exists e, e ∈ evs ++ to_timer o /\ waits_for m' e) as Ha'.
    { intros Hs. destruct (decide (mpos m' = mpos m)) as [Hp|Hp].
      - unfold mpos in Hp. simplify_eq.
        assert (m_step m' = m_step m) as Hst.
        { destruct (m_step m'), (m_step m); simpl in *; congruence. }
        destruct Ha as (e & He & Hwt); [congruence|]. exists e. split; [set_solver|].
        unfold waits_for in *. rewrite Hst. destruct (m_step m), e; try done; naive_solver.
      - destruct (step_arms _ _ _ _ _ E Hr Hs (or_introl Hp)) as (e & He & Hwt).
        exists e. split; [|done]. apply elem_of_app. right.
        by apply last_Some_elem_of. }
    destruct r as [[]|?|].
    + destruct (smr_run open_chans m' ts) as [mf of] eqn:Er; simpl in *.
      specialize (IH m' _ (evs ++ to_timer o) Ht' Hi' Ha'). rewrite Er in IH. simpl in IH.
      rewrite to_timer_app, feed_app, app_assoc. exact IH.
    + simpl. split; [done|]. exact Ha'.
    + destruct (smr_run open_chans m' ts) as [mf of] eqn:Er; simpl in *.
      specialize (IH m' _ (evs ++ to_timer o) Ht' Hi' Ha'). rewrite Er in IH. simpl in IH.
      rewrite to_timer_app, feed_app, app_assoc. exact IH.
    + simpl. split; [done|]. exact Ha'.
Qed.

Lemma never_stuck interval cfg ts :
  boot_ok ts ->
  let m := final open_chans smr_init ts in
  let tm := feed (timer_new interval cfg) (timer_events open_chans smr_init ts) in
  m_step m <> SCommit ->
  exists e t m' o ev,
    e ∈ timer_events open_chans smr_init ts /\
    timer_trigger tm e = Ok (Some t) /\ smr_step open_chans t m = (m', o, Ok true) /\
    m_height m' = m_height m /\ m_round m' = m_round m /\ m_step m' = next_step (m_step m) /\
    o = [ToState ev; ToTimer ev] /\ waits_for m' ev.
Proof.
  intros Hb m tm Hs.
  assert (timer_inv m tm /\ exists e, e ∈ timer_events open_chans smr_init ts /\ waits_for m e)
    as [[Hi1 Hi2] (e & He & Hw)].
  { assert (timer_inv smr_init (timer_new interval cfg)) as Hinit by done.
    destruct ts as [|t ts]; [done|]. destruct Hb as (Hr & Hwal & Hts).
    subst m tm. unfold final, timer_events in *. simpl in *.
    destruct (smr_step open_chans t smr_init) as [[m' o] r] eqn:E.
    assert (timer_inv m' (feed (timer_new interval cfg) (to_timer o))) as Hi'.
    { eapply timer_inv_step; eauto. by right. }
    assert (m_step m' <> SCommit -> exists e, e ∈ to_timer o /\ waits_for m' e) as Ha'.
    { intros Hs'. destruct (decide (m' = smr_init)) as [->|Hne]; [done|].
      assert (mpos m' <> mpos smr_init \/ t_type t = TWalInfo /\ t_wal t <> None) as Hp.
      { left. unfold mpos. simpl. intros ?. simplify_eq.
        destruct (m_step m'); simpl in *; congruence. }
      destruct (step_arms _ _ _ _ _ E Hr Hs' Hp) as (e & He & Hwt).
      exists e. split; [|done]. by apply last_Some_elem_of. }
    destruct r as [[]|?|]; simpl in *; auto;
    (destruct (smr_run open_chans m' ts) as [mf of] eqn:Er; simpl in *;
     destruct (armed_inv m' _ (to_timer o) ts Hts Hi' Ha') as [J1 J2];
     unfold final, timer_events in J1, J2; rewrite Er in J1, J2; simpl in J1, J2;
     rewrite to_timer_app, feed_app; auto). }
  destruct (expiry_progress m e tm Hw Hi1 Hi2) as (t & m' & o & ev & H).
  exists e, t, m', o, ev. tauto.
Qed.
