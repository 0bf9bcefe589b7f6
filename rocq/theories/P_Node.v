(** * P_Node: theorems about a whole instance in every schedule (C45, C46, C47, C50). *)
From Verif Require Export NodeEx TimerProofs.
Set Default Proof Using "Type".

(** ** Triggers *)
(** A trigger the state machine can treat, of height at most [h]. *)
Definition good_trigger (h : N) (t : trigger) : Prop :=
  match t_type t with
  | TBrakeTimeout => t_src t = SrcTimer
  | TContinueRound => t_src t = SrcState
  | TWalInfo => exists i, t_wal t = Some i /\ sb_step i <> SCommit /\ sb_height i <= h
  | TNewHeight s => t_src t = SrcState /\ ss_height s <= h
  | _ => True
  end.
Lemma good_mono h h' t : h <= h' -> good_trigger h t -> good_trigger h' t.
Proof.
  unfold good_trigger. intros Hh. destruct (t_type t); try done.
  - intros [? ?]. split; [done|lia].
  - intros (i & ? & ? & ?). exists i. split_and!; [done..|lia].
Qed.
Lemma timer_good h tm ev t : timer_trigger tm ev = Ok (Some t) -> good_trigger h t.
Proof.
  intros Ht. destruct ev; simpl in Ht; try done;
  (match type of Ht with (if ?b then _ else _) = _ => destruct b end; [done|]; injection Ht as <-; done).
Qed.

Section Trig.
Context {T : Type} `{EqDecision T}.
Context (lc : lcfg) (tenc : T -> bytes) (tdec : bytes -> option T) (spill : bool).
Definition goodR (s : st T) (o : list (action T)) (s' : st T) : Prop :=
  s_height s <= s_height s' /\ forall t, ATrigger t ∈ o -> good_trigger (s_height s') t.
Lemma goodR_comp : comp goodR.
Proof.
  clear lc tenc tdec spill. split; [split; [lia|by intros t ?%elem_of_nil]|].
  intros s1 s2 s3 o1 o2 [H1 H2] [H3 H4]. split; [lia|]. intros t [Ht|Ht]%elem_of_app.
  - eapply good_mono; [exact H3|auto].
  - auto.
Qed.
Lemma goodR_goto e stt : keeps goodR (goto_new_height (T:=T) e stt).
Proof.
  clear lc tenc tdec spill. intros s s' o r Hg.
  apply goto_inv in Hg as [(? & -> & -> & _)|[(? & _ & -> & -> & _)|[(? & _ & -> & -> & _)|(Hlt & _ & -> & tr & -> & Htr)]]].
  - apply goodR_comp.
  - split; simpl; [lia|by intros t ?%elem_of_nil].
  - split; simpl; [lia|]. intros t Ht. apply elem_of_list_singleton in Ht. done.
  - assert (s_height (moved_full stt s) = st_height stt) as E by (unfold moved_full; destruct (st_interval stt); done).
    split; [lia|]. intros t Ht. rewrite E. apply elem_of_cons in Ht as [?|Ht]; [done|].
    apply elem_of_app in Ht as [Ht|Ht]; [by apply elem_of_list_fmap in Ht as (? & ? & ?)|].
    destruct Htr as [[-> _]|[-> _]]; [|by apply elem_of_nil in Ht]. apply elem_of_list_singleton in Ht. injection Ht as ->.
    split; [done|]. simpl. lia.
Qed.
Local Hint Resolve goodR_goto : keepsdb.
Ltac good_fin := intros; split; simpl; [repeat case_match; simpl; lia|];
  let Ht := fresh in intros ? Ht; first [by apply elem_of_nil in Ht|
    apply elem_of_list_singleton in Ht; first [discriminate Ht|injection Ht as ->; unfold good_trigger, vtype_trigger; simpl; repeat case_match; done]].
Lemma goodR_commit e x : keeps goodR (handle_commit lc e x).
Proof. clear tenc tdec spill. keeps_go goodR_comp; good_fin. Qed.
Lemma goodR_brake e rd lr : keeps goodR (handle_brake (T:=T) e rd lr).
Proof. clear lc tenc tdec spill. keeps_go goodR_comp; good_fin. Qed.
Lemma goodR_react e i : keeps goodR (react lc tenc e i).
Proof.
  clear tdec spill. apply (keeps_react _ _ _ goodR_comp).
  - intros m ->. apply (keeps_on_msg _ _ goodR_comp); [good_fin|]. keeps_go goodR_comp; good_fin.
  - intros m _. keeps_go goodR_comp; good_fin.
  - intros m _. keeps_go goodR_comp; good_fin.
  - intros m _. keeps_go goodR_comp; good_fin.
Qed.
End Trig.

Lemma smr_no_panic ch h t m m' o r :
  good_trigger h t -> smr_step ch t m = (m', o, r) -> r <> Panic.
Proof.
  intros Hg Hs. unfold good_trigger in Hg.
  smr_go Hs; try congruence; destruct Hg as (i & ? & ? & ?); congruence.
Qed.
Lemma smr_height_le ch h t m m' o r :
  good_trigger h t -> m_height m <= h -> smr_step ch t m = (m', o, r) -> m_height m' <= h.
Proof.
  intros Hg Hm Hs. unfold good_trigger in Hg.
  smr_go Hs; try done; try lia; destruct Hg as (j & Hj & _ & ?); injection Hj as <-; done.
Qed.

Section NodeInv.
Context {T : Type} `{EqDecision T}.
Context (lc : lcfg) (tenc : T -> bytes) (tdec : bytes -> option T) (spill : bool) (cr : crypto).
Local Notation noderun := (noderun lc tenc tdec spill cr).

Lemma good_start (e : env T) loaded s s' o r :
  on_start lc tdec spill e loaded s = (s', o, r) -> forall t, ATrigger t ∈ o -> good_trigger (s_height s') t.
Proof.
  intros Hs. unfold on_start in Hs. apply logged_inv in Hs as (r' & Hs & _).
  apply start_inv in Hs as [(-> & [->|(t' & -> & E1 & E2 & E3)])|(w & bs & _ & _ & _ & [[-> ->]|(p & _ & Ht)])].
  - by intros t ?%elem_of_nil.
  - intros t Ht%elem_of_list_singleton. injection Ht as ->. unfold good_trigger. rewrite E1. eexists. split; [exact E2|].
    simpl. split; [done|lia].
  - by intros t ?%elem_of_nil.
  - set (s1 := loaded_state w _ p s) in Ht.
    assert (s_height s1 = wi_height w) as Eh by (unfold s1, loaded_state; destruct (wi_lock w); done).
    clearbody s1. unfold start_tail in Ht. destruct (bool_decide (wi_step w = SCommit)) eqn:Ec.
    + destruct (wi_lock w) as [l|]; [|unfold fail in Ht; simplify_eq; by intros t ?%elem_of_nil].
      apply (goodR_commit lc) in Ht. apply Ht.
    + apply bool_decide_eq_false in Ec.
      assert (forall y y' oo rr, trigger_smr e (mkTrigger TWalInfo SrcState [] None (s_round y) (s_height y)
                (Some (into_smr_base w))) y = (y', oo, rr) -> wi_height w <= s_height y ->
                forall t, ATrigger t ∈ oo -> good_trigger (s_height y') t) as Htr.
      { intros y y' oo rr Hy Hle t Hin. apply trigger_inv in Hy as [-> [[-> _]|[-> _]]]; [|by apply elem_of_nil in Hin].
        apply elem_of_list_singleton in Hin. injection Hin as ->. unfold good_trigger. simpl. eexists. split; [done|].
        unfold into_smr_base. simpl. done. }
      destruct (bool_decide (wi_step w = SBrake)).
      * apply bind_inv in Ht as [(a & s2 & o1 & o2 & Hb & Ht & ->)|[(x & Hb & _)|(Hb & _)]].
        -- pose proof (goodR_brake _ _ _ _ _ _ _ Hb) as [Hle Hb']. unfold get in Ht.
           intros t [Hin|Hin]%elem_of_app; [|eapply Htr; eauto; lia].
           assert (s_height s' = s_height s2) as ->; [|auto]. by apply trigger_inv in Ht as [-> _].
        -- pose proof (goodR_brake _ _ _ _ _ _ _ Hb) as [Hle Hb']. auto.
        -- pose proof (goodR_brake _ _ _ _ _ _ _ Hb) as [Hle Hb']. auto.
      * unfold bind, ret, get in Ht. destruct (trigger_smr e _ s1) as [[s2 o2] r2] eqn:Et. simplify_eq.
        eapply Htr; [exact Et|lia].
Qed.

(** ** The invariant *)
Definition ninv (n : node T) : Prop :=
  Forall (good_trigger (s_height (nd_st n))) (nd_trig n) /\ m_height (nd_smr n) <= s_height (nd_st n).
Lemma trigs_of_in (o : list (action T)) t : t ∈ trigs_of o <-> ATrigger t ∈ o.
Proof.
  unfold trigs_of. rewrite elem_of_list_omap. split.
  - intros (a & Ha & E). destruct a; by simplify_eq.
  - intros Ha. by exists (ATrigger t).
Qed.
Lemma ninv_step l (n n' : node T) log : ninv n -> nstep lc tenc cr l n = Some (n', log) -> ninv n'.
Proof.
  intros [H1 H2] Hs. apply nstep_inv in Hs
    as [m -> ->|e i n0 s o r Ho Hp Hr -> ->|t q m o r ? Eq Hr -> ->|k a m ? -> ->|k h r x b ok ? -> ->|ev q ? ? -> ->|k ev ? -> ->|ev q ? ? -> ->].
  - done.
  - apply popped_same in Hp as (Ep1 & Ep2 & Ep3 & Ep4 & Ep5 & Ep6 & Ep7 & _).
    apply goodR_react in Hr as [Hle Hg]. split; simpl; [|rewrite Ep3; lia].
    rewrite Ep7. apply Forall_app. split.
    + eapply Forall_impl; [exact H1|]. intros t. by apply good_mono.
    + apply Forall_forall. intros t Ht%trigs_of_in. auto.
  - rewrite Eq in H1. apply Forall_cons in H1 as [Ht Hq]. split; [exact Hq|]. simpl. eapply smr_height_le; eauto.
  - by destruct (verify_msg tenc cr a m).
  - by destruct ok.
  - unfold ninv. destruct (arm_same ev (set_tevs q n)) as (-> & _ & -> & _ & _ & -> & _). done.
  - done.
  - unfold ninv. destruct (fire_same ev (set_fired q n)) as (-> & _ & -> & _ & _ & _ & _ & _ & _ & _ & _ & _ & _ & _ & _ & [->|(t & Ht & ->)]); [done|].
    split; [|done]. apply Forall_app. split; [done|]. apply Forall_singleton. by eapply timer_good.
Qed.
Lemma noderun_ninv b cfg log n : noderun b cfg log n -> ninv n.
Proof.
  induction 1 as [n log H|log n l n' log' Hr IH H].
  - unfold nstart in H. destruct (on_start _ _ _ _ _ _) as [[s o] r] eqn:E. injection H as <- <-. split; simpl; [|apply N.le_0_l].
    apply Forall_forall. intros t Ht%trigs_of_in. by eapply good_start.
  - by eapply ninv_step.
Qed.

(** ** C45 *)
(** In every schedule: no treatment of a trigger by the state machine panics, and every
    trigger it treated (and every one waiting in the channel) is well formed. *)
Definition well_formed (t : trigger) : Prop :=
  (t_type t = TBrakeTimeout -> t_src t = SrcTimer) /\
  (t_type t = TContinueRound -> t_src t = SrcState) /\
  (t_type t = TWalInfo -> exists i, t_wal t = Some i /\ sb_step i <> SCommit).
Lemma good_well_formed h t : good_trigger h t -> well_formed t.
Proof.
  unfold good_trigger, well_formed. intros Hg. destruct (t_type t); split_and!; try done.
  intros _. destruct Hg as (i & ? & ? & _). eauto.
Qed.
Theorem C45_state_machine_never_aborts :
  forall (b : boot T) cfg log n,
    noderun b cfg log n ->
    Forall well_formed (nd_trig n) /\
    forall t m o r, NSmr t m o r ∈ log -> well_formed t /\ r <> Panic.
Proof.
  intros b cfg log n Hr. split.
  { apply noderun_ninv in Hr as [Hg _]. eapply Forall_impl; [exact Hg|]. intros t. apply good_well_formed. }
  induction Hr as [n log H|log n l n' log' Hr IH Hs].
  { unfold nstart in H. destruct (on_start _ _ _ _ _ _) as [[s o] r]. injection H as <- <-.
    intros t m o' r' Hin%elem_of_list_singleton. done. }
  intros t m o r [Hin|Hin]%elem_of_app; [by eapply IH|].
  apply noderun_ninv in Hr as [Hg _].
  apply nstep_inv in Hs
    as [m0 -> ->|e i n0 s o0 r0 Ho Hp Hr -> ->|t0 q m0 o0 r0 ? Eq Hr -> ->|k a m0 ? -> ->|k h r0 x b0 ok ? -> ->|ev q ? ? -> ->|k ev ? -> ->|ev q ? ? -> ->];
    apply elem_of_list_singleton in Hin; try done.
  injection Hin as -> -> -> ->. rewrite Eq in Hg. apply Forall_cons in Hg as [Ht Hq].
  split; [by eapply good_well_formed|]. by eapply smr_no_panic in Hr.
Qed.

(** ** C47 *)
Theorem C47_state_machine_never_ahead :
  forall (b : boot T) cfg log n,
    noderun b cfg log n -> m_height (nd_smr n) <= s_height (nd_st n).
Proof. intros b cfg log n Hr. by apply noderun_ninv in Hr as [_ ?]. Qed.
End NodeInv.

(** A follows a whole height, with timeouts: seven triggers of five kinds reach its state
    machine, which is at the end at the height of the state module; in the middle of the move to
    the next height it is behind. *)
Definition smr_treated (log : list (nlog bytes)) : list ttype :=
  omap (fun x => match x with NSmr t _ _ _ => Some (t_type t) | _ => None end) log.
Example C45_example :
  ndrun nA (ndlog nA follower_schedule) (ndnode nA follower_schedule) /\
  smr_treated (ndlog nA follower_schedule) =
    [TNewHeight (mkSmrStatus 1 None None); TProposal; TProposal; TPrevoteQC; TPrecommitQC;
     TNewHeight (mkSmrStatus 2 None None); TPrevoteQC].
Proof. split; [apply follower_schedule_runs|]. vm_compute. reflexivity. Qed.
Definition half_way : list (label bytes) := take 32 follower_schedule.
Example C47_example :
  ndrun nA (ndlog nA half_way) (ndnode nA half_way) /\
  m_height (nd_smr (ndnode nA half_way)) = 1 /\ s_height (nd_st (ndnode nA half_way)) = 2.
Proof. split; [apply ndok_run; vm_compute; reflexivity|]. vm_compute. auto. Qed.
Print Assumptions C45_state_machine_never_aborts.
Print Assumptions C47_state_machine_never_ahead.
