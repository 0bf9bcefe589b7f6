(** * NodeBrake: the timeout of the choke step does not run before the step is reached (for C68, C69). *)
From Verif Require Export P_Locked P_Stall.
Set Default Proof Using "Type".

(** Having got as far as step [k] of round [r] of height [h]. *)
Definition arrived (h r k : N) (m : smr) : Prop := 0 < h -> ple (h, r, k) (mpos m).
Definition brk_ev (m : smr) (ev : smr_event) : Prop :=
  match ev with
  | EvNewRound h r _ _ _ _ _ => arrived h r 0 m | EvPrevote h r _ _ => arrived h r 1 m
  | EvPrecommit h r _ _ => arrived h r 2 m | EvBrake h r _ => arrived h r 3 m | _ => True end.
(** The step whose timeout a trigger of the timer is. *)
Definition timeout_of (ty : ttype) : option N :=
  match ty with TProposal => Some 0 | TPrevoteQC => Some 1 | TPrecommitQC => Some 2 | TBrakeTimeout => Some 3 | _ => None end.
Definition brk_trig (m : smr) (t : trigger) : Prop := forall k, t_src t = SrcTimer -> timeout_of (t_type t) = Some k -> arrived (t_height t) (t_round t) k m.

Lemma arrived_mono h r k m m' : ple (mpos m) (mpos m') -> arrived h r k m -> arrived h r k m'.
Proof. intros Hle Hb Hh. eapply ple_trans; [by apply Hb|done]. Qed.
Lemma brk_ev_mono m m' ev : ple (mpos m) (mpos m') -> brk_ev m ev -> brk_ev m' ev.
Proof. destruct ev; try done; simpl; apply arrived_mono. Qed.
Lemma brk_trig_mono m m' t : ple (mpos m) (mpos m') -> brk_trig m t -> brk_trig m' t.
Proof. intros Hle Hb k Hs Ht. by eapply arrived_mono, Hb. Qed.
(** The state machine tells the timer of a step it has reached. *)
Lemma brk_emitted ch t m m' o r :
  smr_step ch t m = (m', o, r) -> brk_trig m t -> trig_in_range t -> forall ev, ev ∈ to_timer o -> brk_ev m' ev.
Proof.
  intros H Hb Hr ev Hev. unfold brk_trig, arrived, trig_in_range in *. unfold to_timer in Hev.
  apply elem_of_list_omap in Hev as (x & Hx & Ex). destruct x; [done|]. injection Ex as ->.
  destruct ev; try done; simpl; unfold arrived; intros Hh.
  all: smr_go H; out_in Hx; try (specialize (Hb _ eq_refl eq_refl)); unfold mpos, ple, plt in *; simpl in *; rewrite ?w64_succ, ?pred_succ in * by lia; try lia.
Qed.
(** A choke timeout does nothing in another step. *)
Lemma brake_quiet ch t m m' o r :
  smr_step ch t m = (m', o, r) -> t_type t = TBrakeTimeout -> t_src t = SrcTimer -> brk_trig m t -> 0 < m_height m -> step_u8 (m_step m) < 3 -> m' = m /\ o = [].
Proof.
  intros H Ht Hs Hb Hh Hst. unfold brk_trig, arrived in *.
  destruct t as [ty tsrc thash tlr trd tht twal], m as [mh mr ms mhash ml]; simpl in *; subst.
  specialize (Hb _ eq_refl eq_refl). unfold smr_step, handle_brake_timeout, throw_event, sbind, sget, sret in H. simpl in H.
  destruct (negb (tht =? mh) || negb (trd =? mr))%bool eqn:E; [by injection H as <- <- <-|].
  bsimp. subst. exfalso. unfold ple, plt, mpos in Hb. simpl in Hb. apply Hb; lia.
Qed.
Lemma timer_brk m tm ev t : timer_trigger tm ev = Ok (Some t) -> brk_ev m ev -> brk_trig m t.
Proof. intros Ht Hb. destruct ev; simpl in Ht; try done; repeat case_match; try done; injection Ht as <-; intros k Hs [= <-]; exact Hb. Qed.
Lemma set_timer_ev tm ev tm' ms ev' : set_timer tm ev = (tm', Ok (Some (ms, ev'))) -> ev' = ev.
Proof. unfold set_timer. intros Hs. destruct ev; repeat case_match; by simplify_eq. Qed.

Section B.
Context {T : Type} `{EqDecision T}.
Context (lc : lcfg) (tenc : T -> bytes) (tdec : bytes -> option T) (spill : bool) (cr : crypto).

(** The state sends no timeouts. *)
Definition nobrkR (_ : st T) (o : list (action T)) (_ : st T) : Prop :=
  Forall (fun a => match a with ATrigger t => t_src t = SrcState | _ => True end) o.
Lemma nobrk_comp : comp nobrkR.
Proof using Type. split; [constructor|]. intros ? ? ? o1 o2 H1 H2. unfold nobrkR. by apply Forall_app. Qed.
Lemma nobrk_goto e stt : keeps nobrkR (goto_new_height (T:=T) e stt).
Proof using Type.
  intros s s' o r Hg.
  apply goto_inv in Hg as [(? & -> & -> & _)|[(? & _ & -> & -> & _)|[(? & _ & -> & -> & _)|(Hlt & _ & -> & tr & -> & Htr)]]];
    try by repeat constructor.
  constructor; [done|]. apply Forall_app. split; [by apply Forall_fmap, Forall_true|].
  destruct Htr as [[-> _]|[-> _]]; by repeat constructor.
Qed.
Local Hint Resolve nobrk_goto : keepsdb.
Ltac nb := intros; unfold nobrkR; (repeat first [apply Forall_nil; done|apply Forall_cons; split]); simpl; (try done); repeat (case_match; try done); try done.
Lemma nobrk_react e i : keeps nobrkR (react lc tenc e i).
Proof using Type.
  apply (keeps_react _ _ _ nobrk_comp).
  - intros m ->. apply (keeps_on_msg _ _ nobrk_comp); [nb|]. keeps_go nobrk_comp; nb.
  - intros m _. keeps_go nobrk_comp; nb.
  - intros m _. keeps_go nobrk_comp; nb.
  - intros ev ->. destruct ev; keeps_go nobrk_comp; nb.
Qed.
Lemma nobrk_tail e w : keeps nobrkR (start_tail (T:=T) lc e w).
Proof using Type.
  unfold start_tail. destruct (bool_decide _); [|destruct (bool_decide _)]; try destruct (wi_lock w); keeps_go nobrk_comp; nb.
Qed.
Lemma nobrk_start (b : boot T) e s s' o r : on_start lc tdec spill e (b_wal b) s = (s', o, r) -> forall t, ATrigger (T:=T) t ∈ o -> t_src t = SrcState \/ t_type t = TWalInfo.
Proof using Type.
  intros Hs t Hin. unfold on_start in Hs. apply logged_inv in Hs as (r' & Hs & _).
  apply start_inv in Hs as [(_ & [->|(t' & -> & Et & _)])|(w & bs & _ & _ & _ & [[_ ->]|(p & _ & Hta)])].
  - by apply elem_of_nil in Hin.
  - apply elem_of_list_singleton in Hin. injection Hin as ->. by right.
  - by apply elem_of_nil in Hin.
  - apply nobrk_tail in Hta. unfold nobrkR in Hta. rewrite Forall_forall in Hta. left. by apply Hta in Hin.
Qed.

Record brk (n : node T) : Prop := mkBrk {
  bk_trig : forall t, t ∈ nd_trig n -> brk_trig (nd_smr n) t;
  bk_tevs : forall ev, ev ∈ nd_tevs n -> brk_ev (nd_smr n) ev;
  bk_sleeps : forall ev, ev ∈ nd_sleeps n -> brk_ev (nd_smr n) ev;
  bk_fired : forall ev, ev ∈ nd_fired n -> brk_ev (nd_smr n) ev }.
Lemma brk_same (n n' : node T) : brk n -> nd_smr n' = nd_smr n -> (forall t, t ∈ nd_trig n' -> t ∈ nd_trig n \/ brk_trig (nd_smr n) t) ->
  (forall ev, ev ∈ nd_tevs n' -> ev ∈ nd_tevs n) -> (forall ev, ev ∈ nd_sleeps n' -> ev ∈ nd_sleeps n \/ brk_ev (nd_smr n) ev) ->
  (forall ev, ev ∈ nd_fired n' -> ev ∈ nd_fired n \/ brk_ev (nd_smr n) ev) -> brk n'.
Proof using Type.
  intros [B1 B2 B3 B4] E H1 H2 H3 H4. split; rewrite E.
  - intros t [?|?]%H1; auto.
  - intros t ?%H2; auto.
  - intros t [?|?]%H3; auto.
  - intros t [?|?]%H4; auto.
Qed.
Lemma arm_sleeps ev (n : node T) ev' : ev' ∈ nd_sleeps (arm_move ev n) -> ev' ∈ nd_sleeps n \/ ev' = ev.
Proof using Type.
  unfold arm_move. intros Hin. destruct (set_timer (nd_tm n) ev) as [t0 rr] eqn:Est.
  assert (forall ms e0, rr = Ok (Some (ms, e0)) -> e0 = ev) as He by (intros ms e0 ->; by eapply set_timer_ev).
  destruct rr as [[[ms e0]|]| |]; [specialize (He _ _ eq_refl) as ->|clear He..]; destruct ev; simpl in Hin; auto;
  apply elem_of_app in Hin as [?|Hin]; auto; apply elem_of_list_singleton in Hin as ->; auto.
Qed.
Lemma noderun_brk b cfg log n w : noderun lc tenc tdec spill cr b cfg log n -> boots tdec spill b w -> smr_in_range log ->
  nd_on n = true -> brk n.
Proof.
  intros Hr Hb. induction Hr as [n log Hs|log n l n' log' Hr IH Hs]; intros Hrg Hon.
  - unfold nstart in Hs. destruct (on_start _ _ _ _ _ _) as [[s o] r] eqn:E. injection Hs as <- <-.
    split; simpl; try by intros ? ?%elem_of_nil. intros t Ht%trigs_of_in k Hsr Hty. apply (nobrk_start _ _ _ _ _ _ E) in Ht as [Ht|Ht]; [congruence|by rewrite Ht in Hty].
  - assert (smr_in_range log) as Hrg1 by (intros t m o r Hin; eapply Hrg; apply elem_of_app; by left).
    assert (smr_in_range log') as Hrg2 by (intros t m o r Hin; eapply Hrg; apply elem_of_app; by right).
    specialize (IH Hrg1). destruct (noderun_flow _ _ _ _ _ _ _ _ _ _ Hr Hb Hrg1) as (F & _ & Hv).
    apply nstep_inv in Hs as [m -> ->|e i n0 s o r Ho Hp Hre -> ->|t q m o r ? Eq Hst -> ->|k a m Hk0 -> ->|k h r x bb ok ? -> ->|ev q ? Eq -> ->|k ev Hk0 -> ->|ev q ? Eq -> ->].
    + by apply (brk_same n); eauto.
    + pose proof (popped_same _ _ _ Hp) as (_ & _ & E3 & _ & _ & _ & E7 & E8 & E9 & _ & _ & E12).
      apply (brk_same n); simpl; [auto|done| |by rewrite E8|rewrite E12; auto|rewrite E9; auto].
      intros t [Ht|Ht]%elem_of_app; [rewrite E7 in Ht; auto|]. right. intros k Hsr Hty. apply trigs_of_in in Ht.
      apply nobrk_react in Hre. unfold nobrkR in Hre. rewrite Forall_forall in Hre. apply Hre in Ht. congruence.
    + simpl in Hon. specialize (IH Hon) as [B1 B2 B3 B4]. specialize (Hv Hon).
      assert (trig_in_range t) as Htr by (eapply Hrg2; by left).
      assert (t ∈ nd_trig n) as Hin by (rewrite Eq; by left).
      assert (ple (mpos (nd_smr n)) (mpos m)) as Hle.
      { destruct (decide (t_type t = TWalInfo)) as [Ew|Hnw]; [|by eapply smr_step_pos].
        destruct Hv as [H0 ? ? ? A4 ? A6|j tw pre post A1 A2 A3 A4 A5 A6 A7 A8 A9 A10 A11 A12|c c' A1 A2 A3 A4 A5 A6].
        - rewrite Eq in A6. apply Forall_cons in A6 as [[(x0 & Ex & _)|(_ & ? & _)] _]; congruence.
        - rewrite A6. unfold ple, plt, mpos, smr_init, INIT_HEIGHT, INIT_ROUND. simpl.
          rewrite Eq in A1. destruct pre as [|t' pre]; simpl in A1; injection A1 as -> ->.
          + destruct (handle_wal_inv _ _ _ _ _ _ _ A2 A3 Hst) as (E1 & E2 & E3 & E4). rewrite E1. lia.
          + apply Forall_cons in A4 as [(_ & ? & _) _]. congruence.
        - rewrite Eq in A4. apply Forall_cons in A4 as [At _]. by apply At in Ew. }
      split; simpl.
      * intros t' Ht'. eapply brk_trig_mono; [exact Hle|]. apply B1. rewrite Eq. by right.
      * intros ev [Hev|Hev]%elem_of_app; [eapply brk_ev_mono; eauto|]. eapply brk_emitted; eauto.
      * intros ev Hev. eapply brk_ev_mono; eauto.
      * intros ev Hev. eapply brk_ev_mono; eauto.
    + destruct (verify_msg tenc cr a m); simpl in *; apply (brk_same n); simpl; eauto.
    + destruct ok; simpl in *; apply (brk_same n); simpl; eauto.
    + pose proof (arm_same ev (set_tevs q n)) as (_ & E2 & E3 & _ & _ & E6 & _ & E8 & E9 & _). rewrite E2 in Hon. specialize (IH Hon).
      apply (brk_same n); [done|by rewrite E3|rewrite E6; auto|rewrite E8; simpl; rewrite Eq; intros ? ?; by right| |rewrite E9; auto].
      assert (brk_ev (nd_smr n) ev) as Hbe by (apply (bk_tevs _ IH); rewrite Eq; by left).
      intros ev' [?| ->]%arm_sleeps; auto.
    + apply (brk_same n); simpl; [auto|done|auto|auto| |].
      * intros ev' Hev'. left. apply elem_of_list_lookup in Hev' as (j & Hj). destruct (decide (j < k)%nat).
        -- rewrite lookup_delete_lt in Hj by done. by eapply elem_of_list_lookup_2.
        -- rewrite lookup_delete_ge in Hj by lia. by eapply elem_of_list_lookup_2.
      * intros ev' [?|Hev']%elem_of_app; [by left|right]. apply elem_of_list_singleton in Hev' as ->. apply (bk_sleeps _ (IH Hon)). by eapply elem_of_list_lookup_2.
    + pose proof (fire_same ev (set_fired q n)) as (_ & E2 & E3 & _ & _ & _ & _ & _ & E9 & E10 & _ & _ & _ & _ & E15 & E16). rewrite E2 in Hon. specialize (IH Hon).
      assert (brk_ev (nd_smr n) ev) as Hbe by (apply (bk_fired _ IH); rewrite Eq; by left).
      apply (brk_same n); [done|by rewrite E3| |by rewrite E9|rewrite E15; auto|rewrite E10; simpl; rewrite Eq; intros ? ?; left; by right].
      destruct E16 as [->|(t & Ht & ->)]; [auto|]. intros t' [?|Ht']%elem_of_app; [by left|]. apply elem_of_list_singleton in Ht' as ->. right. by eapply timer_brk.
Qed.
End B.
