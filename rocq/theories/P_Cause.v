(** * P_Cause: what an instance does, traced back to what it was told (C52). *)
From Verif Require Export VoteOrder P_Round P_Verify Agree.
Set Default Proof Using "Type".

(** ** The state machine *)
Lemma step_lock_origin ch t m m' o r l :
  smr_step ch t m = (m', o, r) -> m_lock m' = Some l ->
  (m_lock m = Some l /\ m_height m' = m_height m) \/
  (t_type t = TPrevoteQC /\ t_src t = SrcState /\ t_height t = m_height m' /\ t_hash t = l_hash l /\ t_round t = l_round l /\ l_hash l <> []) \/
  (t_type t = TWalInfo /\ exists i, t_wal t = Some i /\ sb_polc i = Some l /\ sb_height i = m_height m').
Proof.
  intros H Hl. smr_go H; try congruence; simpl in *; simplify_eq; auto.
  all: try (right; left; split_and!; done).
  all: right; right; eauto.
Qed.

Definition hash_inv (m : smr) : Prop :=
  match m_lock m with Some l => m_hash m = l_hash l | None => True end.
Lemma step_hash_inv ch m t m' o r : smr_step ch t m = (m', o, r) -> hash_inv m -> hash_inv m'.
Proof.
  intros H Hm. unfold hash_inv in *.
  smr_go H; try done; try (destruct ml; simpl in *; tauto).
  all: try (destruct s; simpl in *; simplify_eq; tauto).
Qed.
Lemma step_prevote_hash ch m t m' o r h rd x lr :
  smr_step ch t m = (m', o, r) -> hash_inv m -> ToState (EvPrevote h rd x lr) ∈ o -> x <> [] ->
  (t_type t = TProposal /\ t_src t = SrcState /\ t_height t = h /\ t_round t = rd /\ t_hash t = x) \/
  (exists l, m_lock m = Some l /\ x = l_hash l /\ h = m_height m).
Proof.
  intros H Hi Ho Hx. unfold hash_inv in Hi.
  smr_go H; out_in Ho; simpl in *; try congruence; try (right; eexists; split_and!; [reflexivity|congruence|congruence]).
  all: left; split_and!; congruence.
Qed.

Section C.
Context {T : Type} `{EqDecision T}.
Context (lc : lcfg) (tenc : T -> bytes) (tdec : bytes -> option T) (spill : bool) (cr : crypto).
Local Notation noderun := (noderun lc tenc tdec spill cr).

(** ** Specification *)
(** The block check of [x] was asked for, and ended well. *)
Definition check_passed (log : list (nlog T)) (x : bytes) : Prop :=
  exists h r blk, ACheck h r x blk ∈ actions log /\ NCheck h r x blk true ∈ log.
(** The instance got hold of certificate [q]: received, made by itself, or in its record. *)
Definition holds (b : boot T) (log : list (nlog T)) (q : aggvote) : Prop :=
  qc_known tdec spill (boot_at b) (inputs log) (actions log) q.
(** The record found at start is locked on [x] at height [h], by round [k]. *)
Definition recorded_lock (b : boot T) (h k : N) (x : bytes) : Prop :=
  exists w l, boot_wal tdec spill (boot_at b) w /\ wi_lock w = Some l /\ wi_height w = h /\ wl_round l = k /\ av_hash (wl_votes l) = x.
(** A prevote certificate for a checked block. *)
Definition certified (b : boot T) (log : list (nlog T)) (h k : N) (x : bytes) : Prop :=
  check_passed log x /\
  exists q, holds b log q /\ av_type q = Prevote /\ av_height q = h /\ av_round q = k /\ av_hash q = x.

(** ** Causes *)
Definition sent_trigger (log : list (nlog T)) (t : trigger) : Prop := (t_src t = SrcTimer /\ t_wal t = None) \/ ATrigger t ∈ actions log.
Definition sent_event (log : list (nlog T)) (ev : smr_event) : Prop :=
  exists l1 t m o r l2, log = l1 ++ NSmr t m o r :: l2 /\ ToState ev ∈ o.
Definition locked_by (log : list (nlog T)) (h : N) (l : lock) : Prop :=
  (exists t, ATrigger t ∈ actions log /\ t_type t = TPrevoteQC /\ t_height t = h /\ t_hash t = l_hash l /\ t_round t = l_round l /\ l_hash l <> []) \/
  (exists t i, ATrigger t ∈ actions log /\ t_type t = TWalInfo /\ t_wal t = Some i /\ sb_polc i = Some l /\ sb_height i = h).
Record cinv (log : list (nlog T)) (n : node T) : Prop := mkCinv {
  ci_trig : forall t, t ∈ nd_trig n -> sent_trigger log t;
  ci_evs : forall ev, ev ∈ nd_evs n -> sent_event log ev;
  ci_resp : forall v, v ∈ nd_resp n -> check_passed log (vr_hash v);
  ci_checks : forall h r x b, (h, r, x, b) ∈ nd_checks n -> ACheck h r x b ∈ actions log;
  ci_lock : forall l, m_lock (nd_smr n) = Some l -> locked_by log (m_height (nd_smr n)) l }.
Lemma check_passed_app log log' x : check_passed log x -> check_passed (log ++ log') x.
Proof. intros (h & r & b & H1 & H2). exists h, r, b. rewrite actions_app. split; apply elem_of_app; by left. Qed.
Lemma sent_trigger_app log log' t : sent_trigger log t -> sent_trigger (log ++ log') t.
Proof. intros [?|?]; [by left|right]. rewrite actions_app. apply elem_of_app. by left. Qed.
Lemma sent_event_app log log' ev : sent_event log ev -> sent_event (log ++ log') ev.
Proof. intros (l1 & t & m & o & r & l2 & -> & Hev). exists l1, t, m, o, r, (l2 ++ log'). by rewrite <-app_assoc. Qed.
Lemma locked_by_app log log' h l : locked_by log h l -> locked_by (log ++ log') h l.
Proof.
  intros [(t & ? & ?)|(t & i & ? & ?)]; [left; exists t|right; exists t, i]; (split; [rewrite actions_app; apply elem_of_app; by left|done]).
Qed.
Lemma checks_of_in (o : list (action T)) h r x b : (h, r, x, b) ∈ checks_of o <-> ACheck h r x b ∈ o.
Proof.
  unfold checks_of. rewrite elem_of_list_omap. split.
  - intros (a & Ha & E). destruct a; try done. by injection E as -> -> -> ->.
  - intros Ha. exists (ACheck h r x b). done.
Qed.
Lemma trigs_of_in (o : list (action T)) t : t ∈ trigs_of o <-> ATrigger t ∈ o.
Proof.
  unfold trigs_of. rewrite elem_of_list_omap. split.
  - intros (a & Ha & E). destruct a; try done. by injection E as ->.
  - intros Ha. by exists (ATrigger t).
Qed.
Lemma popped_more i (n n0 : node T) : popped i n n0 ->
  (forall ev, ev ∈ nd_evs n0 -> ev ∈ nd_evs n) /\ (forall v, v ∈ nd_resp n0 -> v ∈ nd_resp n) /\ nd_checks n0 = nd_checks n /\ nd_trig n0 = nd_trig n /\ nd_smr n0 = nd_smr n.
Proof. destruct i; simpl; intros (q & E & ->); simpl; rewrite ?E; split_and!; try done; intros ? ?; by right. Qed.
Lemma nstart_cinv b cfg n log : nstart lc tdec spill b cfg = (n, log) -> cinv log n.
Proof.
  clear tenc cr. unfold nstart. destruct (on_start _ _ _ _ _ _) as [[s o] r]. intros [= <- <-]. split; simpl.
  - intros t Ht. right. unfold actions. simpl. rewrite app_nil_r. by apply trigs_of_in.
  - by intros ev ?%elem_of_nil.
  - by intros ev ?%elem_of_nil.
  - intros h r0 x b0 Hx. unfold actions. simpl. rewrite app_nil_r. by apply checks_of_in.
  - done.
Qed.
Lemma timer_src tm ev t : timer_trigger tm ev = Ok (Some t) -> t_src t = SrcTimer /\ t_wal t = None.
Proof. destruct ev; simpl; try done; repeat case_match; try done; by intros [= <-]. Qed.
Lemma cinv_same log log' (n n' : node T) :
  cinv log n -> (forall t, t ∈ nd_trig n' -> t ∈ nd_trig n \/ t_src t = SrcTimer /\ t_wal t = None) -> (forall ev, ev ∈ nd_evs n' -> ev ∈ nd_evs n) ->
  (forall v, v ∈ nd_resp n' -> v ∈ nd_resp n) -> (forall y, y ∈ nd_checks n' -> y ∈ nd_checks n) -> nd_smr n' = nd_smr n -> cinv (log ++ log') n'.
Proof.
  clear lc tenc tdec spill cr. intros [C1 C2 C3 C4 C5] H1 H2 H3 H4 H5. split.
  - intros t [Ht|Ht]%H1; [by apply sent_trigger_app, C1|by left].
  - intros ev ?%H2. by apply sent_event_app, C2.
  - intros v ?%H3. by apply check_passed_app, C3.
  - intros h r x b ?%H4. rewrite actions_app. apply elem_of_app. left. by eapply C4.
  - rewrite H5. intros l ?. by apply locked_by_app, C5.
Qed.
Lemma cinv_step l log (n n' : node T) log' : cinv log n -> nstep lc tenc cr l n = Some (n', log') -> cinv (log ++ log') n'.
Proof.
  clear tdec spill. intros Hc Hs.
  apply nstep_inv in Hs as [m -> ->|e i n0 s o r Ho Hp Hr -> ->|t q m o r ? Eq Hr -> ->|k a m Hk0 -> ->|k h r x b ok Hk0 -> ->|ev q Htm Eq -> ->|k ev Hk0 -> ->|ev q Htm Eq -> ->].
  - apply (cinv_same _ _ n); simpl; auto.
  - apply popped_more in Hp as (P1 & P2 & P3 & P4 & P5). destruct Hc as [C1 C2 C3 C4 C5].
    assert (forall a, a ∈ o -> a ∈ actions (log ++ [NState (env_at n e) i (nd_st n) o r])) as Hin.
    { intros a Ha. rewrite actions_app. apply elem_of_app. right. unfold actions. simpl. by rewrite app_nil_r. }
    split; simpl.
    + rewrite P4. intros t [Ht|Ht]%elem_of_app; [by apply sent_trigger_app, C1|]. right. apply Hin. by apply trigs_of_in.
    + intros ev Hev. by apply sent_event_app, C2, P1.
    + intros v Hv. by apply check_passed_app, C3, P2.
    + rewrite P3. intros h r0 x b [Hx|Hx]%elem_of_app; [|by apply Hin, checks_of_in]. rewrite actions_app. apply elem_of_app. left. by eapply C4.
    + rewrite P5. intros l0 ?. by apply locked_by_app, C5.
  - destruct Hc as [C1 C2 C3 C4 C5].
    assert (sent_trigger log t) as Ht by (apply C1; rewrite Eq; by left).
    split; simpl.
    + intros t' Ht'. apply sent_trigger_app, C1. rewrite Eq. by right.
    + intros ev [Hev|Hev]%elem_of_app; [by apply sent_event_app, C2|].
      exists log, t, (nd_smr n), o, r, []. split; [done|]. unfold to_state in Hev. apply elem_of_list_omap in Hev as (a & Ha & E).
      by destruct a; [injection E as ->|..].
    + intros v Hv. by apply check_passed_app, C3.
    + intros h r0 x b Hx. rewrite actions_app. apply elem_of_app. left. by eapply C4.
    + intros l0 Hl. apply locked_by_app. destruct (step_lock_origin _ _ _ _ _ _ _ Hr Hl) as [[H1 ->]|[(H1 & H2 & H3 & H4 & H5 & H6)|(H1 & j & H2 & H3 & H4)]].
      * by apply C5.
      * destruct Ht as [[Ht _]|Ht]; [congruence|]. left. by exists t.
      * destruct Ht as [[_ Ht]|Ht]; [congruence|right; by exists t, j].
  - destruct (verify_msg tenc cr a m); apply (cinv_same _ _ n); simpl; auto.
  - destruct Hc as [C1 C2 C3 C4 C5]. assert (ACheck h r x b ∈ actions log) as Ha by (eapply C4, elem_of_list_lookup_2; exact Hk0).
    assert (cinv (log ++ [NCheck h r x b ok]) (set_checks (delete k (nd_checks n)) n)) as Hc.
    { apply (cinv_same _ _ n); simpl; auto; [by split|]. intros y. apply delete_sub. }
    destruct ok; [|exact Hc]. destruct Hc as [D1 D2 D3 D4 D5]. split; simpl in *; try done.
    intros v [Hv|Hv]%elem_of_app; [by apply D3|]. apply elem_of_list_singleton in Hv as ->. simpl. exists h, r, b. rewrite actions_app. split; apply elem_of_app; [by left|right; by left].
  - destruct (arm_same ev (set_tevs q n)) as (E1 & E2 & E3 & E4 & E5 & E6 & E7 & E8 & E9 & E10 & E11 & E12 & E13). simpl in *.
    apply (cinv_same _ _ n); rewrite ?E6, ?E7, ?E11, ?E13; auto.
  - apply (cinv_same _ _ n); simpl; auto.
  - destruct (fire_same ev (set_fired q n)) as (E1 & E2 & E3 & E4 & E5 & E6 & E7 & E8 & E9 & E10 & E11 & E12 & E13 & E14 & E15 & Htr). simpl in *.
    apply (cinv_same _ _ n); rewrite ?E8, ?E12, ?E14; auto.
    destruct Htr as [->|(t & Ht & ->)]; [by left|]. intros t' [?|Hx]%elem_of_app; [by left|]. apply elem_of_list_singleton in Hx as ->.
    right. by eapply timer_src.
Qed.
Lemma noderun_cinv b cfg log n : noderun b cfg log n -> cinv log n.
Proof. induction 1 as [n log Hs|log n l n' log' Hr IH Hs]; [by eapply nstart_cinv|by eapply cinv_step]. Qed.

(** ** Entries and what went before them *)
Lemma noderun_input b cfg log n l1 e i s o r l2 :
  noderun b cfg log n -> log = l1 ++ NState e i s o r :: l2 ->
  exists n1 n0 s', noderun b cfg l1 n1 /\ nd_st n1 = s /\ nd_on n1 = true /\ popped i n1 n0 /\ react lc tenc e i s = (s', o, r).
Proof.
  intros Hr Hl. assert (l1 <> []) as Hne.
  { destruct (noderun_first _ _ _ _ _ _ _ _ _ Hr) as (o0 & r0 & tl & E). intros ->. by rewrite E in Hl. }
  destruct (noderun_split _ _ _ _ _ _ _ _ _ _ _ _ Hr Hl Hne) as (n1 & l & n2 & H1 & H2).
  apply nstep_inv in H2 as [m H3 H4|e0 i0 n0 s0 o0 r0 Ho Hp Hx H3 H4|t q m o0 r0 H0 Eq H3 H4 H5|k a m Hk0 H3 H4|k h r0 x b0 ok Hk0 H3 H4|ev q Htm Eq H3 H4|k ev Hk0 H3 H4|ev q Htm Eq H3 H4]; try discriminate.
  injection H4 as -> -> -> -> ->. by exists n1, n0, s0.
Qed.
Lemma noderun_smr b cfg log n l1 t m o r l2 :
  noderun b cfg log n -> log = l1 ++ NSmr t m o r :: l2 ->
  exists n1 ch m', noderun b cfg l1 n1 /\ nd_smr n1 = m /\ t ∈ nd_trig n1 /\ smr_step ch t m = (m', o, r).
Proof.
  intros Hr Hl. assert (l1 <> []) as Hne.
  { destruct (noderun_first _ _ _ _ _ _ _ _ _ Hr) as (o0 & r0 & tl & E). intros ->. by rewrite E in Hl. }
  destruct (noderun_split _ _ _ _ _ _ _ _ _ _ _ _ Hr Hl Hne) as (n1 & l & n2 & H1 & H2).
  apply nstep_inv in H2 as [m0 H3 H4|e0 i0 n0 s0 o0 r0 Ho Hp Hx H3 H4|t0 q m0 o0 r0 H0 Eq H3 H4 H5|k a m0 Hk0 H3 H4|k h r0 x b0 ok Hk0 H3 H4|ev q Htm Eq H3 H4|k ev Hk0 H3 H4|ev q Htm Eq H3 H4]; try discriminate.
  injection H5 as -> -> -> ->. eexists n1, _, m0. split_and!; [done|done|rewrite Eq; by left|exact H3].
Qed.
Lemma input_entry (log : list (nlog T)) e i : (e, i) ∈ inputs log -> exists l1 s o r l2, log = l1 ++ NState e i s o r :: l2.
Proof.
  clear lc tenc tdec spill cr. unfold inputs. intros (x & Hx & E)%elem_of_list_omap. destruct x; try done. injection E as -> ->.
  apply elem_of_list_split in Hx as (l1 & l2 & ->). eauto 10.
Qed.
Lemma action_entry (log : list (nlog T)) a : a ∈ actions log ->
  (exists l1 o r l2, log = l1 ++ NStart o r :: l2 /\ a ∈ o) \/ (exists l1 e i s o r l2, log = l1 ++ NState e i s o r :: l2 /\ a ∈ o).
Proof.
  clear lc tenc tdec spill cr. unfold actions. intros Ha. apply elem_of_list_In, in_concat in Ha as (o & Ho & Ha).
  apply elem_of_list_In in Ha. apply elem_of_list_In, elem_of_list_fmap in Ho as (x & -> & Hx). apply elem_of_list_split in Hx as (l1 & l2 & ->).
  destruct x; simpl in Ha; try by apply elem_of_nil in Ha.
  - left. eauto 10.
  - right. eauto 10.
Qed.
Lemma resp_passed b cfg log n rs : noderun b cfg log n -> received (inputs log) (IResp rs) -> check_passed log (vr_hash rs).
Proof.
  intros Hr (e & Hin). apply input_entry in Hin as (l1 & s & o & r & l2 & El). destruct (noderun_input _ _ _ _ _ _ _ _ _ _ _ Hr El) as (n1 & n0 & s' & Hr1 & _ & _ & Hp & _).
  rewrite El. apply check_passed_app. apply noderun_cinv in Hr1 as [_ _ C3 _ _]. apply C3. destruct Hp as (q & -> & _). by left.
Qed.
Lemma trig_known b cfg log n t : noderun b cfg log n -> ATrigger t ∈ actions log -> t_type t = TPrevoteQC \/ t_type t = TPrecommitQC ->
  (t_hash t <> [] -> check_passed log (t_hash t)) /\
  exists q, holds b log q /\ t_type t = (match av_type q with Prevote => TPrevoteQC | Precommit => TPrecommitQC end) /\
    av_height q = t_height t /\ av_round q = t_round t /\ av_hash q = t_hash t.
Proof.
  intros Hr Hin Ht. pose proof (noderun_run _ _ _ _ _ _ _ _ _ Hr) as Hrun.
  destruct (C38_only_checked_blocks_reach_the_state_machine _ _ _ _ _ _ _ _ _ _ Hrun Hin Ht) as [(q & Hq & E1 & E2 & E3 & E4) Hrs].
  split; [|by exists q]. intros Hne. destruct (Hrs Hne) as (rs & Hrs' & <-). by eapply resp_passed.
Qed.
Lemma trig_certified b cfg log n t : noderun b cfg log n -> ATrigger t ∈ actions log -> t_type t = TPrevoteQC -> t_hash t <> [] ->
  certified b log (t_height t) (t_round t) (t_hash t).
Proof.
  intros Hr Hin Ht Hne. destruct (trig_known _ _ _ _ _ Hr Hin (or_introl Ht)) as [Hp (q & Hq & E & ? & ? & ?)].
  split; [auto|]. exists q. split_and!; try done. rewrite Ht in E. by destruct (av_type q).
Qed.

(** Only the start hands the record to the state machine. *)
Definition nowalR (_ : st T) (o : list (action T)) (_ : st T) : Prop :=
  Forall (fun a => match a with ATrigger t => t_type t <> TWalInfo | _ => True end) o.
Lemma nowal_comp : comp nowalR.
Proof. clear lc tenc tdec spill cr. split; [constructor|]. intros ? ? ? o1 o2 H1 H2. unfold nowalR. by apply Forall_app. Qed.
Lemma nowal_goto e stt : keeps nowalR (goto_new_height (T:=T) e stt).
Proof.
  clear lc tenc tdec spill cr. intros s s' o r Hg.
  apply goto_inv in Hg as [(? & -> & -> & _)|[(? & _ & -> & -> & _)|[(? & _ & -> & -> & _)|(Hlt & _ & -> & tr & -> & Htr)]]];
    try by repeat constructor.
  constructor; [done|]. apply Forall_app. split; [by apply Forall_fmap, Forall_true|].
  destruct Htr as [[-> _]|[-> _]]; by repeat constructor.
Qed.
Local Hint Resolve nowal_goto : keepsdb.
Lemma vtype_nowal t : vtype_trigger t <> TWalInfo.
Proof. by destruct t. Qed.
Ltac nw := intros; unfold nowalR; (repeat first [apply Forall_nil; done|apply Forall_cons; split]); simpl; (try done); (try apply vtype_nowal); repeat (case_match; try done); try done.
Lemma nowal_react e i : keeps nowalR (react lc tenc e i).
Proof.
  clear tdec spill cr. apply (keeps_react _ _ _ nowal_comp).
  - intros m ->. apply (keeps_on_msg _ _ nowal_comp); [nw|]. keeps_go nowal_comp; nw.
  - intros m _. keeps_go nowal_comp; nw.
  - intros m _. keeps_go nowal_comp; nw.
  - intros ev ->. destruct ev; keeps_go nowal_comp; nw.
Qed.

Definition walR (w : smrbase) (_ : st T) (o : list (action T)) (_ : st T) : Prop :=
  Forall (fun a => match a with ATrigger t => t_type t = TWalInfo -> t_wal t = Some w | _ => True end) o.
Lemma walR_comp w : comp (walR w).
Proof. clear lc tenc tdec spill cr. split; [constructor|]. intros ? ? ? o1 o2 H1 H2. unfold walR. by apply Forall_app. Qed.
Lemma walR_goto w e stt : keeps (walR w) (goto_new_height (T:=T) e stt).
Proof.
  clear lc tenc tdec spill cr. intros s s' o r Hg. apply nowal_goto in Hg. eapply Forall_impl; [exact Hg|]. intros [] ?; by try intros ?.
Qed.
Local Hint Resolve walR_goto : keepsdb.
Lemma wal_tail e w : keeps (walR (into_smr_base w)) (start_tail (T:=T) lc e w).
Proof.
  clear tenc tdec spill cr.
  unfold start_tail. destruct (bool_decide _); [|destruct (bool_decide _)]; try destruct (wi_lock w); keeps_go (walR_comp (into_smr_base w)); (repeat constructor); (try done).
Qed.
Lemma start_wal b e s s' o r t i l :
  on_start lc tdec spill e (b_wal b) s = (s', o, r) ->
  ATrigger t ∈ o -> t_type t = TWalInfo -> t_wal t = Some i -> sb_polc i = Some l ->
  recorded_lock b (sb_height i) (l_round l) (l_hash l).
Proof.
  clear tenc cr. intros Hs Hin Ht Hi Hl. unfold on_start in Hs. apply logged_inv in Hs as (r' & Hs & _).
  apply start_inv in Hs as [(_ & [->|(t' & -> & _ & Ew & _)])|(w & bs & Hw & Hd & _ & [[_ ->]|(p & Hg & Hta)])].
  - by apply elem_of_nil in Hin.
  - apply elem_of_list_singleton in Hin. injection Hin as ->. rewrite Ew in Hi. injection Hi as <-. done.
  - by apply elem_of_nil in Hin.
  - apply wal_tail in Hta. unfold walR in Hta. rewrite Forall_forall in Hta. apply Hta in Hin. simpl in Hin. specialize (Hin Ht).
    rewrite Hin in Hi. injection Hi as <-. simpl in *. destruct (wi_lock w) as [k|] eqn:Ek; [|done]. simpl in Hl. injection Hl as <-.
    exists w, k. split_and!; try done. by exists bs.
Qed.
Lemma wal_trigger b cfg log n t i l : noderun b cfg log n -> ATrigger t ∈ actions log -> t_type t = TWalInfo -> t_wal t = Some i -> sb_polc i = Some l ->
  recorded_lock b (sb_height i) (l_round l) (l_hash l).
Proof.
  intros Hr Hin Ht Hi Hl. apply noderun_run in Hr. remember (boot_at b) as b' eqn:Eb.
  assert (b_wal b' = b_wal b) as Ewb by by rewrite Eb. clear Eb.
  assert (forall is o s al, StateHist.run lc tenc tdec spill b' is o s al -> ATrigger t ∈ o -> recorded_lock b (sb_height i) (l_round l) (l_hash l)) as Hk; [|by eapply Hk].
  clear Hr Hin. intros is o s al Hrun Hin. induction Hrun as [s o r Hs|is o s e ii s' o' r Hr IH Hs].
  - rewrite Ewb in Hs. by eapply start_wal.
  - apply elem_of_app in Hin as [Hin|Hin]; [auto|]. exfalso. apply nowal_react in Hs. unfold nowalR in Hs. rewrite Forall_forall in Hs. by apply Hs in Hin.
Qed.

(** ** Locks *)
Lemma locked_known b cfg log n h l : noderun b cfg log n -> locked_by log h l ->
  certified b log h (l_round l) (l_hash l) \/ recorded_lock b h (l_round l) (l_hash l).
Proof.
  intros Hr [(t & Ha & Ht & Eh & Ex & Er & Hne)|(t & i & Ha & Ht & Hi & Hl & Eh)].
  - left. rewrite <-Eh, <-Ex, <-Er. eapply trig_certified; try done. by rewrite Ex.
  - right. rewrite <-Eh. by eapply wal_trigger.
Qed.

(** C52 (C24 for a whole instance): whenever the state machine is locked, the instance had got hold of
    a prevote certificate for the locked hash at that height and round, and the check of the
    block had ended well — or the lock comes from the record found at start. *)
Theorem C52_locks_have_certificates :
  forall b cfg log n l1 t m o r l2 l,
    noderun b cfg log n -> log = l1 ++ NSmr t m o r :: l2 -> m_lock m = Some l ->
    certified b l1 (m_height m) (l_round l) (l_hash l) \/ recorded_lock b (m_height m) (l_round l) (l_hash l).
Proof.
  intros b cfg log n l1 t m o r l2 l Hr Hl Hm. destruct (noderun_smr _ _ _ _ _ _ _ _ _ _ Hr Hl) as (n1 & ch & m' & Hr1 & <- & _ & _).
  eapply locked_known; [done|]. by apply noderun_cinv in Hr1 as [_ _ _ _ C5]; apply C5.
Qed.

(** ** Votes and blocks *)
Lemma certified_app b log log' h k x : certified b log h k x -> certified b (log ++ log') h k x.
Proof.
  intros (Hp & q & Hq & ?). split; [by apply check_passed_app|]. exists q. split; [|done].
  unfold holds in *. rewrite inputs_app, actions_app. destruct Hq as [(i & (e & Hi) & Hq)|[Hq|Hq]]; [left|right; left|by right; right].
  - exists i. split; [|done]. exists e. apply elem_of_app. by left.
  - apply elem_of_app. by left.
Qed.
Lemma event_popped b cfg log n e ev s o r l1 l2 : noderun b cfg log n -> log = l1 ++ NState e (IEvent ev) s o r :: l2 ->
  exists l3 t m o' r' l4, l1 = l3 ++ NSmr t m o' r' :: l4 /\ ToState ev ∈ o'.
Proof.
  intros Hr Hl. destruct (noderun_input _ _ _ _ _ _ _ _ _ _ _ Hr Hl) as (n1 & n0 & s' & Hr1 & _ & _ & (q & E & _) & _).
  apply noderun_cinv in Hr1 as [_ C2 _ _ _]. apply (C2 ev). rewrite E. by left.
Qed.
Lemma vote_input e i s s' o r ops v a :
  s_votes s = vops ops -> s_stopped s = false -> react lc tenc e i s = (s', o, r) -> a ∈ o -> vote_of a = Some v ->
  exists ev h rd, s_power s = true /\ i = IEvent ev /\ vote_event ev = Some (h, rd, v_type v, v_hash v) /\ v_height v = s_height s /\ v_round v = s_round s.
Proof.
  clear tdec spill cr. intros Ev Hst Hr Ha Hv.
  assert ((forall ev, i = IEvent ev -> vote_event ev = None) \/ exists ev h rd t x, i = IEvent ev /\ vote_event ev = Some (h, rd, t, x)) as [Hi|(ev & h & rd & t & x & -> & He)].
  { destruct i as [m|ev|rs|m]; try (left; by intros ? [=]). destruct (vote_event ev) as [[[[h rd] t] x]|] eqn:E; [right; eauto 10|left; by intros ? [= <-]]. }
  - apply (novote_react lc tenc e i Hi) in Hr. unfold novoteR in Hr. rewrite Forall_forall in Hr. apply Hr in Ha. congruence.
  - destruct (vote_react _ _ _ _ _ _ _ _ _ _ _ _ _ Ev Hst He Hr) as [Hn|(Hpw & w & a' & o2 & -> & _ & Hv' & Hn)].
    + rewrite Forall_forall in Hn. apply Hn in Ha. congruence.
    + exists ev, h, rd. assert (v = mkVote (s_height s) (s_round s) t x) as ->; [|done].
      apply elem_of_cons in Ha as [->|Ha]; [done|]. apply elem_of_cons in Ha as [->|Ha]; [congruence|].
      rewrite Forall_forall in Hn. apply Hn in Ha as [? _]. congruence.
Qed.
Lemma node_vote b cfg log n l1 e i s o r l2 a v : noderun b cfg log n -> log = l1 ++ NState e i s o r :: l2 -> a ∈ o -> vote_of a = Some v ->
  exists ev h rd, s_power s = true /\ i = IEvent ev /\ vote_event ev = Some (h, rd, v_type v, v_hash v) /\ v_height v = s_height s /\ v_round v = s_round s.
Proof.
  intros Hr Hl Ha Hv. destruct (noderun_input _ _ _ _ _ _ _ _ _ _ _ Hr Hl) as (n1 & n0 & s' & Hr1 & <- & _ & _ & Hre).
  pose proof (noderun_run _ _ _ _ _ _ _ _ _ Hr1) as Hrun. apply run_run_inv in Hrun. destruct Hrun as [(ops & Ev & _) _ _ _ _ _].
  apply noderun_nostop in Hr1. eapply vote_input; try done. apply Hr1.
Qed.

Lemma noderun_hash_inv b cfg log n : noderun b cfg log n -> hash_inv (nd_smr n).
Proof.
  induction 1 as [n log H|log n l n' log' Hr IH H].
  - unfold nstart in H. destruct (on_start _ _ _ _ _ _) as [[s o] r] eqn:E. injection H as <- <-. done.
  - apply nstep_inv in H as [m -> ->|e i n0 s o r Ho Hp Hre -> ->|t q m o r ? Eq Hre -> ->|k a m Hk0 -> ->|k h r x b0 ok Hk0 -> ->|ev q Htm Eq -> ->|k ev Hk0 -> ->|ev q Htm Eq -> ->]; simpl; try done.
    + apply popped_more in Hp as (_ & _ & _ & _ & ->). done.
    + by eapply step_hash_inv.
    + by destruct (verify_msg tenc cr a m).
    + by destruct ok.
    + destruct (arm_same ev (set_tevs q n)) as (_ & _ & -> & _). done.
    + destruct (fire_same ev (set_fired q n)) as (_ & _ & -> & _). done.
Qed.
(** The round of a vote and that of the event it answers. *)
Lemma vote_round b cfg log n w l1 e i s o r l2 a v ev h rd : noderun b cfg log n -> boots tdec spill b w -> smr_in_range log ->
  log = l1 ++ NState e i s o r :: l2 -> a ∈ o -> vote_of a = Some v -> i = IEvent ev -> vote_event ev = Some (h, rd, v_type v, v_hash v) ->
  h <= v_height v /\ (v_height v = h -> v_round v = rd).
Proof.
  intros Hr Hb Hrg Hl Ha Hv -> He. destruct (node_vote _ _ _ _ _ _ _ _ _ _ _ _ _ Hr Hl Ha Hv) as (ev' & h' & rd' & Hp & [= <-] & He' & Eh & Er).
  rewrite He in He'. injection He' as <- <-.
  destruct (noderun_input _ _ _ _ _ _ _ _ _ _ _ Hr Hl) as (n1 & n0 & s' & Hr1 & <- & Hon & Hpop & Hre).
  assert (smr_in_range l1) as Hrg1 by (intros t m o0 r0 Hin; eapply Hrg; rewrite Hl; apply elem_of_app; left; exact Hin).
  destruct (noderun_flow _ _ _ _ _ _ _ _ _ _ Hr1 Hb Hrg1) as (F & _ & Hvm). specialize (Hvm Hon). apply noderun_ninv in Hr1 as [_ Hni].
  destruct Hpop as (q & Eq & _). rewrite Eh, Er.
  destruct Hvm as [H0 ? ? ? ? (B2 & _) ?|i t pre post ? ? ? ? ? ? (B2 & _) ? ? ? ? ?|c c' Hple Hrun Hat Hnw Hsr Hst].
  1,2: by rewrite B2 in Eq.
  rewrite Eq in Hrun. destruct Hrun as (c1 & Hs1 & Hrun). apply evs_run_le in Hrun. destruct Hat as (k & -> & _).
  destruct c as [[h0 r0] k0]. unfold ph, pr in *. simpl in *.
  assert (h = h0 /\ rd = r0 /\ c1.1 = (h0, r0)) as (-> & -> & Ec).
  { destruct ev; try discriminate He; simpl in He, Hs1; injection He as -> -> _ _; destruct Hs1 as (-> & -> & _ & ->); done. }
  split; [|auto]. destruct c1 as [p1 k1]. simpl in Ec. subst p1. revert Hrun. unfold ple, plt. simpl. lia.
Qed.

(** The proposal of the leader of height [h], round [rd]: received, or made by the instance. *)
Definition proposed (b : boot T) (log : list (nlog T)) (h rd : N) (x : bytes) : Prop :=
  exists l p, supplied (boot_at b) (inputs log) (actions log) l /\
    p_height (sp_prop p) = h /\ p_round (sp_prop p) = rd /\ p_hash (sp_prop p) = x /\
    p_proposer (sp_prop p) ∈ n_addr <$> l /\ get_proposer lc (auth_update l) h rd = Ok (p_proposer (sp_prop p)) /\
    (received (inputs log) (IMsg (MProposal p)) \/ p_proposer (sp_prop p) = b_addr b /\ p ∈ sent_props (actions log)).
Lemma received_app_l is is' (i : input T) : received is i -> received (is ++ is') i.
Proof. intros (e & Hi). exists e. apply elem_of_app. by left. Qed.
Lemma proposed_app b log log' h rd x : proposed b log h rd x -> proposed b (log ++ log') h rd x.
Proof.
  intros (l & p & Hs & E1 & E2 & E3 & E4 & E5 & Hp). exists l, p. rewrite inputs_app, actions_app. split_and!; try done; [by apply supplied_app|].
  destruct Hp as [Hp|[Ho Hp]]; [left; by apply received_app_l|right; split; [done|]]. unfold sent_props. rewrite omap_app. apply elem_of_app. by left.
Qed.
Lemma start_noprop (b : boot T) e s s' o r : on_start lc tdec spill e (b_wal b) s = (s', o, r) -> prop_triggers (T:=T) o = [].
Proof.
  clear tenc cr. intros Hs. unfold on_start in Hs. apply logged_inv in Hs as (r' & Hs & _).
  apply start_inv in Hs as [(_ & [->|(t' & -> & Et & _)])|(w & bs & Hw & Hd & _ & [[_ ->]|(p & Hg & Hta)])]; try done.
  - unfold prop_triggers. simpl. by rewrite Et.
  - apply plain_tail in Hta. by apply plain_outs in Hta as (_ & ? & _).
Qed.
Lemma trig_proposed b cfg log n t : noderun b cfg log n -> ATrigger t ∈ actions log -> t_type t = TProposal ->
  proposed b log (t_height t) (t_round t) (t_hash t).
Proof.
  intros Hr Hin Ht.
  assert (forall o : list (action T), ATrigger t ∈ o -> t ∈ prop_triggers o) as Hpt.
  { intros o Ho. unfold prop_triggers. apply elem_of_list_omap. exists (ATrigger t). split; [done|]. by rewrite bool_decide_eq_true_2. }
  apply action_entry in Hin as [(l1 & o & r & l2 & El & Ha)|(l1 & e & i & s & o & r & l2 & El & Ha)].
  - exfalso. assert (l1 = []) as ->.
    { destruct l1 as [|x l1]; [done|]. exfalso. destruct (noderun_split _ _ _ _ _ _ _ _ _ _ _ _ Hr El) as (n1 & l & n2 & H1 & H2); [done|].
      by apply nstep_inv in H2 as [m0 H3 H4|e0 i0 n0 s0 o0 r0 Ho Hp Hx H3 H4|t0 q m0 o0 r0 H0 Eq H3 H4 H5|k a m0 Hk0 H3 H4|k h r0 x0 b0 ok Hk0 H3 H4|ev q Htm Eq H3 H4|k ev Hk0 H3 H4|ev q Htm Eq H3 H4]. }
    assert (forall log n, noderun b cfg log n -> exists o r l2, log = NStart o r :: l2 /\ prop_triggers o = []) as Hst.
    { clear -EqDecision0. induction 1 as [n log H|log n l n' log' Hr IH H].
      - unfold nstart in H. destruct (on_start _ _ _ _ _ _) as [[s o] r] eqn:E. injection H as <- <-. exists o, r, []. split; [done|]. by eapply start_noprop.
      - destruct IH as (o & r & l2 & -> & Ho). by exists o, r, (l2 ++ log'). }
    destruct (Hst _ _ Hr) as (o' & r' & l2' & E' & Hno). rewrite El in E'. injection E' as -> -> ->. apply Hpt in Ha. rewrite Hno in Ha. by apply elem_of_nil in Ha.
  - destruct (noderun_input _ _ _ _ _ _ _ _ _ _ _ Hr El) as (n1 & n0 & s' & Hr1 & <- & Hon & Hpop & Hre).
    pose proof (noderun_run _ _ _ _ _ _ _ _ _ Hr1) as Hrun. rewrite Hon in Hrun.
    destruct (C41_acted_on_proposals _ _ _ _ _ _ _ _ _ _ _ _ _ _ Hrun Hre (Hpt _ Ha)) as (E1 & E2 & E3 & l & p & Eau & Hsup & G1 & G2 & G3 & G4 & G5 & G6 & G7).
    exists l, p. assert (inputs log = inputs l1 ++ [(e, i)] ++ inputs l2) as Ei by (rewrite El, inputs_app; done).
    assert (actions log = actions l1 ++ o ++ actions l2) as Eac by (rewrite El, actions_app; done). rewrite Ei, Eac.
    split_and!; try done; [by apply supplied_app|]. destruct G7 as [G7|[G7 G8]].
    + left. rewrite app_assoc. by apply received_app_l.
    + right. split; [done|]. unfold sent_props. rewrite !omap_app. fold (sent_props o). rewrite G8. set_solver.
Qed.

(** C52 (C38 and C25 for a whole instance): a precommit for a block is preceded by a prevote certificate
    the instance had got hold of for that block, and by a check of that block that ended well.
    The certificate is of the height [h] of the event the precommit answers, and of the round
    [rd] of that event, or of the round before; if the instance is still at that height, the
    precommit is for the round of the event. *)
Theorem C52_precommits_have_certificates :
  forall b cfg log n w l1 e i s o r l2 a v,
    noderun b cfg log n -> boots tdec spill b w -> smr_in_range log ->
    log = l1 ++ NState e i s o r :: l2 -> a ∈ o -> vote_of a = Some v -> v_type v = Precommit -> v_hash v <> [] ->
    exists h k rd, certified b l1 h k (v_hash v) /\ (k = rd \/ k + 1 = rd) /\
      h <= v_height v /\ (v_height v = h -> v_round v = rd).
Proof.
  intros b cfg log n w l1 e i s o r l2 a v Hr Hb Hrg Hl Ha Hv Ht Hne.
  destruct (node_vote _ _ _ _ _ _ _ _ _ _ _ _ _ Hr Hl Ha Hv) as (ev & h & rd & Hp & -> & He & Eh & Er).
  destruct (vote_round _ _ _ _ _ _ _ _ _ _ _ _ _ _ _ _ _ Hr Hb Hrg Hl Ha Hv eq_refl He) as [Hle Hrd].
  destruct (event_popped _ _ _ _ _ _ _ _ _ _ _ Hr Hl) as (l3 & t & m & o' & r' & l4 & El1 & Hev).
  assert (log = l3 ++ NSmr t m o' r' :: (l4 ++ NState e (IEvent ev) s o r :: l2)) as El by (rewrite Hl, El1, <-app_assoc; done).
  destruct (noderun_smr _ _ _ _ _ _ _ _ _ _ Hr El) as (n3 & ch & m' & Hr3 & <- & Hin & Hs).
  assert (exists lr, ev = EvPrecommit h rd (v_hash v) lr) as [lr ->] by (rewrite Ht in He; destruct ev; try discriminate He; injection He as -> -> ->; eauto).
  assert (trig_in_range t) as Htr by (eapply Hrg; rewrite El; apply elem_of_app; right; by left).
  destruct (step_precommit_cert _ _ _ _ _ _ _ _ _ _ Hs Htr Hev Hne) as (T1 & T2 & T3 & T4 & T5 & T6).
  pose proof (noderun_cinv _ _ _ _ Hr3) as [C1 _ _ _ _]. destruct (C1 _ Hin) as [[Ht' _]|Hat]; [congruence|].
  exists h, (t_round t), rd. split_and!; try done; [|destruct T6; lia].
  rewrite El1. apply certified_app. rewrite <-T3, <-T4. eapply trig_certified; try done. by rewrite T3.
Qed.

(** C52 (C23 for a whole instance): a prevote for a block answers the proposal of the leader of its
    height and round, or is for the block the instance is locked on: then the instance had got
    hold of a prevote certificate for it and the check of the block had ended well, or the lock
    comes from the record found at start. *)
Theorem C52_prevotes_have_an_origin :
  forall b cfg log n w l1 e i s o r l2 a v,
    noderun b cfg log n -> boots tdec spill b w -> smr_in_range log ->
    log = l1 ++ NState e i s o r :: l2 -> a ∈ o -> vote_of a = Some v -> v_type v = Prevote -> v_hash v <> [] ->
    exists h rd, h <= v_height v /\ (v_height v = h -> v_round v = rd) /\
      (proposed b l1 h rd (v_hash v) \/ exists k, certified b l1 h k (v_hash v) \/ recorded_lock b h k (v_hash v)).
Proof.
  intros b cfg log n w l1 e i s o r l2 a v Hr Hb Hrg Hl Ha Hv Ht Hne.
  destruct (node_vote _ _ _ _ _ _ _ _ _ _ _ _ _ Hr Hl Ha Hv) as (ev & h & rd & Hp & -> & He & Eh & Er).
  destruct (vote_round _ _ _ _ _ _ _ _ _ _ _ _ _ _ _ _ _ Hr Hb Hrg Hl Ha Hv eq_refl He) as [Hle Hrd].
  destruct (event_popped _ _ _ _ _ _ _ _ _ _ _ Hr Hl) as (l3 & t & m & o' & r' & l4 & El1 & Hev).
  assert (log = l3 ++ NSmr t m o' r' :: (l4 ++ NState e (IEvent ev) s o r :: l2)) as El by (rewrite Hl, El1, <-app_assoc; done).
  destruct (noderun_smr _ _ _ _ _ _ _ _ _ _ Hr El) as (n3 & ch & m' & Hr3 & <- & Hin & Hs).
  assert (exists lr, ev = EvPrevote h rd (v_hash v) lr) as [lr ->] by (rewrite Ht in He; destruct ev; try discriminate He; injection He as -> -> ->; eauto).
  exists h, rd. split_and!; try done. rewrite El1. pose proof (noderun_cinv _ _ _ _ Hr3) as [C1 _ _ _ C5].
  destruct (step_prevote_hash _ _ _ _ _ _ _ _ _ _ Hs (noderun_hash_inv _ _ _ _ Hr3) Hev Hne) as [(T1 & T2 & T3 & T4 & T5)|(l & T1 & T2 & T3)].
  - left. apply proposed_app. rewrite <-T3, <-T4, <-T5. eapply trig_proposed; try done. destruct (C1 _ Hin) as [[Ht' _]|Hat]; [congruence|done].
  - right. exists (l_round l). rewrite T2, T3. destruct (locked_known _ _ _ _ _ _ Hr3 (C5 _ T1)) as [Hc|Hc]; [left; by apply certified_app|by right].
Qed.

(** C52 (C38 for a whole instance): a block committed during operation was checked, and the check ended
    well, before. (A block committed at start is the one of the record found.) *)
Theorem C52_committed_blocks_were_checked :
  forall b cfg log n l1 e i s o r l2 h c,
    noderun b cfg log n -> log = l1 ++ NState e i s o r :: l2 -> ACommit h c ∈ o ->
    check_passed l1 (pf_hash (c_proof c)).
Proof.
  intros b cfg log n l1 e i s o r l2 h c Hr Hl Ha. apply elem_of_list_split in Ha as (o1 & o2 & Eo).
  destruct (noderun_input _ _ _ _ _ _ _ _ _ _ _ Hr Hl) as (n1 & n0 & s' & Hr1 & <- & Hon & Hpop & Hre).
  destruct (commit_step _ _ _ _ _ _ _ _ _ _ _ _ Hre Eo) as (x & content & qc & -> & _ & _ & _ & -> & _ & _). simpl.
  destruct (event_popped _ _ _ _ _ _ _ _ _ _ _ Hr Hl) as (l3 & t & m & o' & r' & l4 & El1 & Hev).
  assert (log = l3 ++ NSmr t m o' r' :: (l4 ++ NState e (IEvent (EvCommit x)) (nd_st n1) o r :: l2)) as El by (rewrite Hl, El1, <-app_assoc; done).
  destruct (noderun_smr _ _ _ _ _ _ _ _ _ _ Hr El) as (n3 & ch & m' & Hr3 & <- & Hin & Hs).
  destruct (step_commit _ _ _ _ _ _ _ Hs Hev) as (T1 & T2 & T3 & T4 & _).
  pose proof (noderun_cinv _ _ _ _ Hr3) as [C1 _ _ _ _]. destruct (C1 _ Hin) as [[Ht' _]|Hat]; [congruence|].
  rewrite El1. apply check_passed_app. rewrite <-T3. eapply trig_known; [exact Hr3|exact Hat|by right|by rewrite T3].
Qed.
End C.
Print Assumptions C52_locks_have_certificates.
Print Assumptions C52_precommits_have_certificates.
Print Assumptions C52_prevotes_have_an_origin.
Print Assumptions C52_committed_blocks_were_checked.
