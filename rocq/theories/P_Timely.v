(** * P_Timely: no timeout comes early (C69). *)
From Verif Require Export NodeBrake.
Set Default Proof Using "Type".

(** ** Specification *)
Section Spec.
Context {T : Type}.
(** Trigger [t] is the timeout that event [ev] of the state machine asked for. *)
Definition times (ev : smr_event) (t : trigger) : Prop :=
  t_src t = SrcTimer /\
  match ev with
  | EvNewRound h r _ _ _ _ _ => t_type t = TProposal /\ t_height t = h /\ t_round t = r
  | EvPrevote h r _ _ => t_type t = TPrevoteQC /\ t_height t = h /\ t_round t = r
  | EvPrecommit h r _ _ => t_type t = TPrecommitQC /\ t_height t = h /\ t_round t = r
  | EvBrake h r _ => t_type t = TBrakeTimeout /\ t_height t = h /\ t_round t = r
  | _ => False
  end.
(** The state machine asked for it; then the timer started it; then it ran out; then the timer
    handed it on. *)
Definition asked (log : list (nlog T)) (ev : smr_event) : Prop := exists a t m o r b, log = a ++ NSmr t m o r :: b /\ ev ∈ to_timer o.
Definition started (log : list (nlog T)) (ev : smr_event) : Prop := exists a b, log = a ++ NArm ev :: b /\ asked a ev.
Definition ran_out (log : list (nlog T)) (ev : smr_event) : Prop := exists a b, log = a ++ NExpire ev :: b /\ started a ev.
Definition handed_on (log : list (nlog T)) (ev : smr_event) : Prop := exists a b, log = a ++ NFire ev :: b /\ ran_out a ev.
(** The state machine is at or after step [k] (0 propose, 1 prevote, 2 precommit, 3 choke, 4 commit)
    of round [r] of height [h]. *)
Definition step_number (s : step) : N := match s with SPropose => 0 | SPrevote => 1 | SPrecommit => 2 | SBrake => 3 | SCommit => 4 end.
Definition at_or_after (h r k : N) (m : smr) : Prop :=
  h < m_height m \/ h = m_height m /\ (r < m_round m \/ r = m_round m /\ k <= step_number (m_step m)).
Definition step_of_timeout (ty : ttype) : N := match ty with TPrevoteQC => 1 | TPrecommitQC => 2 | TBrakeTimeout => 3 | _ => 0 end.
End Spec.

Section E.
Context {T : Type} `{EqDecision T}.
Context (lc : lcfg) (tenc : T -> bytes) (tdec : bytes -> option T) (spill : bool) (cr : crypto).

Lemma asked_app (l l' : list (nlog T)) ev : asked l ev -> asked (l ++ l') ev.
Proof using Type. intros (a & t & m & o & r & b & -> & H). exists a, t, m, o, r, (b ++ l'). by rewrite <-app_assoc. Qed.
Lemma started_app (l l' : list (nlog T)) ev : started l ev -> started (l ++ l') ev.
Proof using Type. intros (a & b & -> & H). exists a, (b ++ l'). by rewrite <-app_assoc. Qed.
Lemma ran_out_app (l l' : list (nlog T)) ev : ran_out l ev -> ran_out (l ++ l') ev.
Proof using Type. intros (a & b & -> & H). exists a, (b ++ l'). by rewrite <-app_assoc. Qed.
Lemma handed_on_app (l l' : list (nlog T)) ev : handed_on l ev -> handed_on (l ++ l') ev.
Proof using Type. intros (a & b & -> & H). exists a, (b ++ l'). by rewrite <-app_assoc. Qed.
Lemma timer_times tm ev t : timer_trigger tm ev = Ok (Some t) -> times ev t.
Proof using Type. intros Ht. unfold times. destruct ev; simpl in Ht; try done; repeat case_match; try done; by injection Ht as <-. Qed.

(** ** The invariant *)
Record tinv (log : list (nlog T)) (n : node T) : Prop := mkTinv {
  ti_tevs : forall ev, ev ∈ nd_tevs n -> asked log ev;
  ti_sleeps : forall ev, ev ∈ nd_sleeps n -> started log ev;
  ti_fired : forall ev, ev ∈ nd_fired n -> ran_out log ev;
  ti_trig : forall t, t ∈ nd_trig n -> t_src t = SrcTimer -> t_type t = TWalInfo \/ exists ev, times ev t /\ handed_on log ev }.
Lemma tinv_same log log' (n n' : node T) : tinv log n ->
  (forall ev, ev ∈ nd_tevs n' -> ev ∈ nd_tevs n \/ asked (log ++ log') ev) ->
  (forall ev, ev ∈ nd_sleeps n' -> ev ∈ nd_sleeps n \/ started (log ++ log') ev) ->
  (forall ev, ev ∈ nd_fired n' -> ev ∈ nd_fired n \/ ran_out (log ++ log') ev) ->
  (forall t, t ∈ nd_trig n' -> t ∈ nd_trig n \/ (t_src t = SrcTimer -> exists ev, times ev t /\ handed_on (log ++ log') ev)) -> tinv (log ++ log') n'.
Proof using Type.
  intros [A1 A2 A3 A4] B1 B2 B3 B4. split.
  - intros ev [?|?]%B1; [by apply asked_app, A1|done].
  - intros ev [?|?]%B2; [by apply started_app, A2|done].
  - intros ev [?|?]%B3; [by apply ran_out_app, A3|done].
  - intros t [Ht|Ht]%B4 Hs; [|right; auto]. destruct (A4 _ Ht Hs) as [?|(ev & ? & ?)]; [by left|right]. exists ev. split; [done|by apply handed_on_app].
Qed.
Lemma noderun_tinv b cfg log n : noderun lc tenc tdec spill cr b cfg log n -> tinv log n.
Proof.
  induction 1 as [n log Hs|log n l n' log' Hr IH Hs].
  - unfold nstart in Hs. destruct (on_start _ _ _ _ _ _) as [[s o] r] eqn:E. injection Hs as <- <-.
    split; simpl; try by intros ? ?%elem_of_nil. intros t Ht%trigs_of_in Hsr. eapply nobrk_start in Ht as [Ht|Ht]; [congruence|auto|exact E].
  - apply nstep_inv in Hs as [m -> ->|e i n0 s o r Ho Hp Hre -> ->|t q m o r ? Eq Hst -> ->|k a m Hk0 -> ->|k h r x bb ok ? -> ->|ev q ? Eq -> ->|k ev Hk0 -> ->|ev q ? Eq -> ->].
    + apply (tinv_same _ _ n); simpl; auto.
    + pose proof (popped_same _ _ _ Hp) as (_ & _ & E3 & _ & _ & _ & E7 & E8 & E9 & _ & _ & E12).
      apply (tinv_same _ _ n); simpl; [auto|rewrite E8; auto|rewrite E12; auto|rewrite E9; auto|].
      intros t [Ht|Ht]%elem_of_app; [rewrite E7 in Ht; auto|]. right. intros Hsr. apply trigs_of_in in Ht.
      apply nobrk_react in Hre. unfold nobrkR in Hre. rewrite Forall_forall in Hre. apply Hre in Ht. congruence.
    + apply (tinv_same _ _ n); simpl; [auto| |auto|auto|rewrite Eq; intros ? ?; left; by right].
      intros ev [?|Hev]%elem_of_app; [by left|right]. exists log, t, (nd_smr n), o, r, []. done.
    + destruct (verify_msg tenc cr a m); apply (tinv_same _ _ n); simpl; auto.
    + destruct ok; apply (tinv_same _ _ n); simpl; auto.
    + pose proof (arm_same ev (set_tevs q n)) as (_ & E2 & E3 & _ & _ & E6 & _ & E8 & E9 & _).
      apply (tinv_same _ _ n); [done|rewrite E8; simpl; rewrite Eq; intros ? ?; left; by right| |rewrite E9; auto|rewrite E6; auto].
      intros ev' [?| ->]%arm_sleeps; [by left|right]. exists log, []. split; [done|]. apply (ti_tevs _ _ IH). rewrite Eq. by left.
    + apply (tinv_same _ _ n); simpl; [done|auto| | |auto].
      * intros ev' Hev'. left. apply elem_of_list_lookup in Hev' as (j & Hj). destruct (decide (j < k)%nat).
        -- rewrite lookup_delete_lt in Hj by done. by eapply elem_of_list_lookup_2.
        -- rewrite lookup_delete_ge in Hj by lia. by eapply elem_of_list_lookup_2.
      * intros ev' [?|Hev']%elem_of_app; [by left|right]. apply elem_of_list_singleton in Hev' as ->. exists log, []. split; [done|].
        apply (ti_sleeps _ _ IH). by eapply elem_of_list_lookup_2.
    + pose proof (fire_same ev (set_fired q n)) as (_ & E2 & E3 & _ & _ & _ & _ & _ & E9 & E10 & _ & _ & _ & _ & E15 & E16).
      apply (tinv_same _ _ n); [done|rewrite E9; auto|rewrite E15; auto|rewrite E10; simpl; rewrite Eq; intros ? ?; left; by right|].
      destruct E16 as [->|(t & Ht & ->)]; [auto|]. intros t' [?|Ht']%elem_of_app; [by left|]. apply elem_of_list_singleton in Ht' as ->. right. intros _.
      exists ev. split; [by eapply timer_times|]. exists log, []. split; [done|]. apply (ti_fired _ _ IH). rewrite Eq. by left.
Qed.

(** C69. In every schedule: a timeout that the state machine treats was asked for by the state
    machine, then started, then ran out, then was handed on by the timer, all before. *)
Theorem C69_timeouts_have_run_out :
  forall b cfg log n l1 t m o r l2,
    noderun lc tenc tdec spill cr b cfg log n -> log = l1 ++ NSmr t m o r :: l2 -> t_src t = SrcTimer -> t_type t <> TWalInfo ->
    exists ev, times ev t /\ handed_on l1 ev.
Proof.
  intros b cfg log n l1 t m o r l2 Hr El Hs Hw.
  destruct (noderun_smr lc tenc tdec spill cr _ _ _ _ _ _ _ _ _ _ Hr El) as (n3 & ch & m' & Hr3 & <- & Hin & _).
  by destruct (ti_trig _ _ (noderun_tinv _ _ _ _ Hr3) _ Hin Hs) as [?|?].
Qed.

Lemma noderun_treated b cfg log n w : noderun lc tenc tdec spill cr b cfg log n -> boots tdec spill b w -> smr_in_range log -> nd_on n = true ->
  forall t m o r, NSmr t m o r ∈ log -> brk_trig m t.
Proof.
  intros Hr Hb. induction Hr as [n log Hs|log n l n' log' Hr IH Hs]; intros Hrg Hon t m o r Hin.
  - unfold nstart in Hs. destruct (on_start _ _ _ _ _ _) as [[s o0] r0] eqn:E. injection Hs as <- <-.
    repeat (apply elem_of_cons in Hin as [Hin|Hin]; [done|]). by apply elem_of_nil in Hin.
  - assert (smr_in_range log) as Hrg1 by (intros t' m' o' r' Hin'; eapply Hrg; apply elem_of_app; by left).
    assert (nd_on n = true) as Hon1.
    { apply nstep_cases in Hs as [(? & ? & ? & ? & ? & ? & _)|(_ & E & _)]; [done|congruence]. }
    apply elem_of_app in Hin as [Hin|Hin]; [by eapply IH|].
    pose proof (noderun_brk _ _ _ _ _ _ _ _ _ _ Hr Hb Hrg1 Hon1) as [Hbk _ _ _].
    apply nstep_inv in Hs as [m0 -> ->|e i n0 s0 o0 r0 Ho Hp Hre -> ->|t0 q m0 o0 r0 ? Eq Hst -> ->|k a m0 Hk0 -> ->|k h r0 x bb ok ? -> ->|ev q ? Eq -> ->|k ev Hk0 -> ->|ev q ? Eq -> ->];
      apply elem_of_list_singleton in Hin; try done.
    injection Hin as -> -> -> ->. apply Hbk. rewrite Eq. by left.
Qed.
(** No timeout is early: as long as the instance runs, whenever the state machine treats the timeout
    of a step, it has reached this step before. *)
Theorem C69_timeouts_are_never_early :
  forall b cfg log n w t m o r,
    noderun lc tenc tdec spill cr b cfg log n -> boots tdec spill b w -> smr_in_range log -> nd_on n = true ->
    NSmr t m o r ∈ log -> t_src t = SrcTimer -> t_type t ∈ [TProposal; TPrevoteQC; TPrecommitQC; TBrakeTimeout] -> 0 < t_height t ->
    at_or_after (t_height t) (t_round t) (step_of_timeout (t_type t)) m.
Proof.
  intros b cfg log n w t m o r Hr Hb Hrg Hon Hin Hs Hty Hh.
  pose proof (noderun_treated _ _ _ _ _ Hr Hb Hrg Hon _ _ _ _ Hin) as Hk. unfold brk_trig in Hk.
  assert (timeout_of (t_type t) = Some (step_of_timeout (t_type t))) as E.
  { repeat (apply elem_of_cons in Hty as [->|Hty]; [done|]). by apply elem_of_nil in Hty. }
  specialize (Hk _ Hs E Hh). unfold ple, plt, mpos, at_or_after in *.
  assert (step_u8 (m_step m) = step_number (m_step m)) as Es by by destruct (m_step m). rewrite Es in Hk. lia.
Qed.
End E.
Print Assumptions C69_timeouts_have_run_out.
Print Assumptions C69_timeouts_are_never_early.
