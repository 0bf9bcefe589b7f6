(** * P_Safe: what can end an instance (C46, C50), and examples for whole instances. *)
From Verif Require Export NodeSafe.
Set Default Proof Using "Type".

Section P.
Context {T : Type} `{EqDecision T}.
Context (lc : lcfg) (tenc : T -> bytes) (tdec : bytes -> option T) (spill : bool) (cr : crypto).
Local Notation noderun := (noderun lc tenc tdec spill cr).

(** ** Nothing about [Stop] gets past the handler's channel *)
Definition nostop (n : node T) : Prop :=
  s_stopped (nd_st n) = false /\
  (forall m, m ∈ nd_queue n -> m <> MStop) /\
  (forall a m, (a, m) ∈ nd_verifs n -> m <> MStop) /\
  (forall t, t ∈ nd_trig n -> t_type t <> TStop) /\
  EvStop ∉ nd_evs n /\ EvStop ∉ nd_tevs n /\ nd_smr_on n = true /\ nd_tm_on n = true.
Lemma queued_of_in (o : list (action T)) m : m ∈ queued_of o <-> AQueue m ∈ o.
Proof.
  unfold queued_of. rewrite elem_of_list_omap. split.
  - intros (a & Ha & E). destruct a; by simplify_eq.
  - intros Ha. by exists (AQueue m).
Qed.
Lemma verifs_of_in (o : list (action T)) a m : (a, m) ∈ verifs_of o <-> AVerify a m ∈ o.
Proof.
  unfold verifs_of. rewrite elem_of_list_omap. split.
  - intros (x & Ha & E). destruct x; by simplify_eq.
  - intros Ha. by exists (AVerify a m).
Qed.
Lemma delete_sub {A} (l : list A) k x : x ∈ delete k l -> x ∈ l.
Proof. intros Hx. eapply elem_of_submseteq; [exact Hx|]. apply sublist_submseteq, sublist_delete. Qed.
Lemma timer_not_stop tm ev t : timer_trigger tm ev = Ok (Some t) -> t_type t <> TStop.
Proof.
  intros Ht. destruct ev; simpl in Ht; try done;
  (match type of Ht with (if ?b then _ else _) = _ => destruct b end; [done|]; injection Ht as <-; done).
Qed.
Lemma smr_no_stop ch t m m' o r :
  t_type t <> TStop -> smr_step ch t m = (m', o, r) -> EvStop ∉ to_state o /\ EvStop ∉ to_timer o /\ r <> Ok false.
Proof.
  intros Hg Hs.
  smr_go Hs; try congruence; unfold to_state, to_timer; simpl; split_and!; try done;
    rewrite ?elem_of_cons, ?elem_of_nil; intros Hx; destruct_or?; done.
Qed.
Lemma react_to_stop e s s' o r : react lc tenc e (IRaw MStop) s = (s', o, r) -> s' = s /\ o = [] /\ r = Panic.
Proof. intros Hr. unfold react, on_raw, bind, lift in Hr. simpl in Hr. by injection Hr as <- <- <-. Qed.
Lemma popped_queues i (n n0 : node T) : popped i n n0 ->
  (forall m, m ∈ nd_queue n0 -> m ∈ nd_queue n) /\ (forall ev, ev ∈ nd_evs n0 -> ev ∈ nd_evs n) /\
  (forall m, m ∈ nd_raw n0 -> m ∈ nd_raw n) /\
  match i with IRaw m => m ∈ nd_raw n | IEvent ev => ev ∈ nd_evs n | IMsg m => m ∈ nd_queue n | _ => True end.
Proof.
  destruct i; simpl; intros (q & E & ->); simpl; rewrite ?E; split_and!; try done;
    intros; by (right + left).
Qed.
Lemma nostop_step l (n n' : node T) log :
  ninv n -> nostop n -> nstep lc tenc cr l n = Some (n', log) -> nostop n'.
Proof.
  intros [Hg _] (A1 & A2 & A3 & A4 & A5 & A6 & A7 & A8) Hs. apply nstep_inv in Hs
    as [m -> ->|e i n0 s o r Ho Hp Hr -> ->|t q m o r ? Eq Hr -> ->|k a m Hk -> ->|k h r x b ok ? -> ->|ev q ? Eq -> ->|k ev ? -> ->|ev q ? ? -> ->].
  - done.
  - pose proof (popped_queues _ _ _ Hp) as (Q1 & Q2 & _ & Q4).
    apply popped_same in Hp as (Ep1 & Ep2 & Ep3 & Ep4 & Ep5 & Ep6 & Ep7 & Ep8 & Ep9 & Ep10 & _).
    apply quiet_react in Hr as (B1 & B2 & B3 & B4); [|intros ->; by apply A2 in Q4].
    split_and!; simpl.
    + congruence.
    + intros m [?|?%queued_of_in]%elem_of_app; eauto.
    + rewrite Ep10. intros a m [?|?%verifs_of_in]%elem_of_app; eauto.
    + rewrite Ep7. intros t [?|?%trigs_of_in]%elem_of_app; eauto.
    + auto.
    + by rewrite Ep8.
    + by rewrite Ep4.
    + by rewrite Ep6.
  - rewrite Eq in Hg, A4. apply Forall_cons in Hg as [Ht _].
    pose proof (smr_no_panic _ _ _ _ _ _ _ Ht Hr) as Hn.
    apply smr_no_stop in Hr as (B1 & B2 & B3); [|apply A4; left].
    split_and!; simpl; try done.
    + intros t' Ht'. apply A4. by right.
    + rewrite elem_of_app. by intros [?|?].
    + rewrite elem_of_app. by intros [?|?].
    + destruct r as [[]| |]; done.
  - assert (m <> MStop) as Hm by (eapply A3, elem_of_list_lookup_2, Hk).
    assert (forall a' m', (a', m') ∈ delete k (nd_verifs n) -> m' <> MStop) as Hd by (intros ? ? ?%delete_sub; eauto).
    destruct (verify_msg tenc cr a m); split_and!; simpl; try done.
    intros m' [?| ->%elem_of_list_singleton]%elem_of_app; auto.
  - by destruct ok.
  - rewrite Eq in A6. assert (ev <> EvStop) as He by (intros ->; apply A6; left).
    assert (EvStop ∉ q) as Hq by (intros Hx; apply A6; by right).
    unfold arm_move. destruct ev; try done; destruct (set_timer _ _) as [t [[[ms e]|]| |]]; done.
  - done.
  - unfold nostop. destruct (fire_same ev (set_fired q n)) as (-> & _ & _ & -> & _ & -> & _ & -> & -> & _ & -> & _ & -> & _ & _ & [->|(t & Ht & ->)]); [done|].
    split_and!; try done. intros t' [?| ->%elem_of_list_singleton]%elem_of_app; [auto|]. by eapply timer_not_stop.
Qed.
Lemma noderun_nostop b cfg log n : noderun b cfg log n -> nostop n.
Proof.
  induction 1 as [n log H|log n l n' log' Hr IH H].
  - unfold nstart in H. destruct (on_start _ _ _ _ _ _) as [[s o] r] eqn:E. injection H as <- <-.
    apply quiet_start in E as (B1 & B2 & B3 & B4). split_and!; simpl; try done.
    + intros m ?%queued_of_in; eauto.
    + intros a m ?%verifs_of_in; eauto.
    + intros t ?%trigs_of_in; eauto.
    + by intros ?%elem_of_nil.
    + by intros ?%elem_of_nil.
  - eapply nostop_step; eauto. by eapply noderun_ninv.
Qed.

(** ** C46 *)
(** The claim fails: whenever the instance takes a [Stop] handed over by the user, it panics. *)
Theorem C46_stop_refuted :
  forall (b : boot T) cfg log n e q,
    noderun b cfg log n -> nd_on n = true -> nd_raw n = MStop :: q ->
    exists n', nstep lc tenc cr (LRaw e) n = Some (n', [NState (env_at n e) (IRaw MStop) (nd_st n) [] Panic]) /\
      nd_on n' = false.
Proof.
  intros b cfg log n e q _ Ho Eq. unfold nstep. rewrite Ho, Eq. unfold state_move.
  destruct (react _ _ _ _ _) as [[s o] r] eqn:E. apply react_to_stop in E as (-> & -> & ->). eauto.
Qed.
(** What does hold: a [Stop] is harmless until the event loop takes it, it never gets further
    than that (no later stage of the shutdown is ever reached): the state machine and the timer
    go on in every schedule, and the event loop never ends in an orderly way. *)
Theorem C46_stop_partial :
  forall (b : boot T) cfg log n,
    noderun b cfg log n ->
    nd_smr_on n = true /\ nd_tm_on n = true /\
    (forall e i s o r, NState e i s o r ∈ log -> r <> Ok false /\ i <> IMsg MStop) /\
    (forall e s o r, NState e (IRaw MStop) s o r ∈ log -> o = [] /\ r = Panic /\ nd_on n = false).
Proof.
  intros b cfg log n Hr. pose proof (noderun_nostop _ _ _ _ Hr) as (_ & _ & _ & _ & _ & _ & ? & ?).
  split_and!; [done..| |].
  - induction Hr as [n log H1|log n l n' log' Hr IH Hs].
    { unfold nstart in H1. destruct (on_start _ _ _ _ _ _) as [[s o] r]. injection H1 as <- <-.
      intros e i s' o' r' Hin%elem_of_list_singleton. done. }
    pose proof (noderun_nostop _ _ _ _ Hr) as (B1 & B2 & _ & _ & B5 & _ & B6 & B7).
    intros e i s o r [Hin|Hin]%elem_of_app; [by eapply IH|].
    apply nstep_inv in Hs
      as [m0 -> ->|e0 i0 n0 s0 o0 r0 Ho Hp Hr0 -> ->|t0 q m0 o0 r0 ? Eq Hr0 -> ->|k a m0 ? -> ->|k h r0 x b0 ok ? -> ->|ev q ? ? -> ->|k ev ? -> ->|ev q ? ? -> ->];
      apply elem_of_list_singleton in Hin; try done.
    injection Hin as -> -> -> -> ->. apply popped_queues in Hp as (_ & _ & _ & Hq).
    split; [|intros ->; by apply B2 in Hq]. intros ->.
    destruct i0 as [m|ev|rs|m]; simpl in Hr0.
    + apply bind_inv in Hr0 as [(? & ? & ? & ? & _ & H2 & _)|[(? & _ & ?)|(_ & ?)]]; [|done..]. unfold ret in H2. done.
    + unfold on_event, get in Hr0. rewrite B1 in Hr0. destruct (negb _); [unfold ret in Hr0; done|].
      apply bind_inv in Hr0 as [(? & ? & ? & ? & _ & H2 & _)|[(? & _ & ?)|(_ & ?)]]; [|done..]. unfold ret in H2. done.
    + apply bind_inv in Hr0 as [(? & ? & ? & ? & _ & H2 & _)|[(? & _ & ?)|(_ & ?)]]; [|done..]. unfold ret in H2. done.
    + apply bind_inv in Hr0 as [(? & ? & ? & ? & _ & H2 & _)|[(? & _ & ?)|(_ & ?)]]; [|done..]. unfold ret in H2. done.
  - induction Hr as [n log H1|log n l n' log' Hr IH Hs].
    { unfold nstart in H1. destruct (on_start _ _ _ _ _ _) as [[s o] r]. injection H1 as <- <-.
      intros e s' o' r' Hin%elem_of_list_singleton. done. }
    pose proof (noderun_nostop _ _ _ _ Hr) as (_ & _ & _ & _ & _ & _ & B6 & B7).
    intros e s o r [Hin|Hin]%elem_of_app.
    + apply IH in Hin as (-> & -> & Hf); [|done..]. split_and!; try done.
      apply nstep_cases in Hs as [(? & ? & ? & ? & ? & Hx & _)|(_ & -> & _)]; congruence.
    + apply nstep_cases in Hs as [(e0 & i0 & s0 & o0 & r0 & _ & Hr0 & _ & Hf & ->)|(_ & _ & Hi & _)].
      * apply elem_of_list_singleton in Hin. injection Hin as -> <- -> -> ->.
        apply react_to_stop in Hr0 as (_ & -> & ->). done.
      * assert ((e, IRaw (T:=T) MStop) ∈ inputs log') as Hx.
        { apply elem_of_list_omap. by exists (NState e (IRaw MStop) s o r). }
        rewrite Hi in Hx. by apply elem_of_nil in Hx.
Qed.

(** ** C50 *)
(** The validator list selects a leader for every height and round. *)
Definition selects_leader (l : list vnode) : Prop :=
  forall h r, get_proposer lc (auth_update l) h r <> Panic.
(** The user does not ask to stop and supplies validator lists with a leader. *)
Definition decent_msg (m : omsg T) : Prop :=
  m <> MStop /\ forall stt, m = MStatus stt -> selects_leader (st_auth stt).
Definition decent_env (e : env T) : Prop :=
  forall h c stt, e_commit e h c = Some stt -> selects_leader (st_auth stt).
Definition decent (b : boot T) (log : list (nlog T)) : Prop :=
  selects_leader (b_vals b) /\ decent_env (b_env b) /\ load_wal tdec spill (b_wal b) <> Panic /\
  (forall m, NSend m ∈ log -> decent_msg m) /\
  (forall e i s o r, NState e i s o r ∈ log -> decent_env e).
Definition alive_inv (n : node T) : Prop :=
  nd_on n = true /\ leader_ok lc (s_auth (nd_st n)) /\
  (forall m, m ∈ nd_raw n -> decent_msg m) /\ (forall m, m ∈ nd_queue n -> decent_msg m) /\
  (forall a m, (a, m) ∈ nd_verifs n -> decent_msg m).
(** what the state module queues or has verified is what it received, or no status *)
Definition passR (m0 : option (omsg T)) (s : st T) (o : list (action T)) (s' : st T) : Prop :=
  forall m, (AQueue m ∈ o \/ exists a, AVerify a m ∈ o) -> Some m = m0 \/ is_rich_status m = false.
Lemma passR_comp m0 : comp (passR m0).
Proof.
  clear. split; [intros s m [?%elem_of_nil|(a & ?%elem_of_nil)]; done|].
  intros s1 s2 s3 o1 o2 H1 H2 m [[?|?]%elem_of_app|(a & [?|?]%elem_of_app)]; [apply H1|apply H2|apply H1|apply H2]; eauto.
Qed.
Lemma passR_goto m0 e stt : keeps (passR m0) (goto_new_height (T:=T) e stt).
Proof.
  clear lc tenc tdec spill cr. intros s s' o r Hg.
  apply goto_inv in Hg as [(? & -> & -> & _)|[(? & _ & -> & -> & _)|[(? & _ & -> & -> & _)|(Hlt & _ & -> & tr & -> & Htr)]]].
  1,2: intros m [?%elem_of_nil|(a & ?%elem_of_nil)]; done.
  { intros m [?%elem_of_list_singleton|(a & ?%elem_of_list_singleton)]; done. }
  assert (forall x, x ∈ tr -> x = ATrigger (new_height_trigger (status_smr stt))) as Ht.
  { destruct Htr as [[-> _]|[-> _]]; [by intros x ?%elem_of_list_singleton|by intros x ?%elem_of_nil]. }
  intros m [Hx|(a & Hx)]; apply elem_of_cons in Hx as [?|[(m' & Hm & Hx)%elem_of_list_fmap|Hx%Ht]%elem_of_app]; try done.
  injection Hm as -> ->. right. unfold goto_reverify in Hx. apply elem_of_app in Hx as [(? & -> & _)%elem_of_list_fmap|Hx]; [done|].
  destruct (vc_take_height _ _).2 as [[vs qs]|]; [|by apply elem_of_nil in Hx].
  by apply elem_of_app in Hx as [(? & -> & _)%elem_of_list_fmap|(? & -> & _)%elem_of_list_fmap].
Qed.
Local Hint Resolve passR_goto : keepsdb.
Ltac pass_fin := intros; intros ? [Ht|(? & Ht)]; first [by apply elem_of_nil in Ht|
    apply elem_of_list_singleton in Ht; first [discriminate Ht|injection Ht as ->; by left|injection Ht as -> ->; by left]].
Lemma passR_react e i : keeps (passR (match i with IRaw m => Some m | _ => None end)) (react lc tenc e i).
Proof.
  clear tdec spill cr. apply (keeps_react _ _ _ (passR_comp _)).
  - intros m ->. apply (keeps_on_msg _ _ (passR_comp _)); [pass_fin|]. unfold handle_msg; keeps_go (passR_comp None); pass_fin.
  - intros m ->. unfold on_raw. keeps_go (passR_comp (Some m)); pass_fin.
  - intros m ->. keeps_go (passR_comp None); pass_fin.
  - intros m ->. keeps_go (passR_comp None); pass_fin.
Qed.
Lemma passR_start e l : keeps (passR None) (on_start lc tdec spill e l).
Proof.
  clear tenc cr. unfold on_start. apply keeps_logged. unfold start_with_wal. keeps_go (passR_comp None); pass_fin.
Qed.
Lemma react_ok e i s s' o r :
  s_stopped s = false -> r <> Panic -> react lc tenc e i s = (s', o, r) -> r = Ok true.
Proof.
  clear tdec spill cr. intros Hs Hn Hr.
  assert (forall (x : M T unit), (forall s s' o z, x s <> (s', o, Err z)) ->
    bind x (fun _ => ret true) s = (s', o, r) -> r = Ok true) as Hx.
  { intros x Hx Hb. apply bind_inv in Hb as [(? & ? & ? & ? & _ & H2 & _)|[(? & H1 & ?)|(_ & ?)]]; [|by apply Hx in H1|done].
    unfold ret in H2. by injection H2 as _ _ <-. }
  assert (forall (x : M T unit) s s' o z, logged x s <> (s', o, Err z)) as Hlog.
  { intros x y y' oo z Hl. by apply logged_inv in Hl as (? & _ & [[_ ?]|[_ ?]]). }
  destruct i as [m|ev|rs|m]; simpl in Hr.
  - revert Hr. apply Hx. intros y y' oo z Hy. unfold on_raw, bind, get, ret, emit, lift in Hy.
    destruct m; simpl in Hy; repeat case_match; simplify_eq.
  - unfold on_event, get in Hr. rewrite Hs in Hr. destruct (negb _); [unfold ret in Hr; by simplify_eq|].
    revert Hr. apply Hx, Hlog.
  - revert Hr. apply Hx. intros y y' oo z Hy. unfold on_resp, get, ret in Hy. destruct (negb _); [done|]. by apply Hlog in Hy.
  - revert Hr. apply Hx. intros y y' oo z Hy. unfold on_msg in Hy. destruct (handle_msg _ _ _ _) as [[y1 o1] [|x|]]; done.
Qed.
Lemma decent_weak b log log' : decent b (log ++ log') -> decent b log.
Proof.
  intros (H1 & H2 & H3 & H4 & H5). split_and!; try done.
  - intros m Hm. apply H4, elem_of_app. by left.
  - intros e i s o r Hm. eapply H5, elem_of_app. by left.
Qed.
Lemma noderun_alive b cfg log n : noderun b cfg log n -> decent b log -> alive_inv n.
Proof.
  induction 1 as [n log Hn|log n l n' log' Hr IH Hs]; intros Hd.
  - destruct Hd as (H1 & H2 & H3 & H4 & H5).
    unfold nstart in Hn. destruct (on_start _ _ _ _ _ _) as [[s o] r] eqn:E. injection Hn as <- <-.
    pose proof (quiet_start _ _ _ _ _ _ _ _ _ E) as (_ & _ & Q1 & Q2).
    pose proof (passR_start _ _ _ _ _ _ E) as Hp.
    pose proof E as E0. apply safe_start in E0 as [E1 E2]; [|exact H2|exact H3|exact H1].
    assert (forall m, (AQueue m ∈ o \/ exists a, AVerify a m ∈ o) -> decent_msg m) as Ho.
    { intros m Hm. split; [destruct Hm as [?|(a & ?)]; eauto|]. intros stt ->. by apply Hp in Hm as [?|?]. }
    unfold on_start in E. split_and!; simpl.
    + apply logged_inv in E as (r' & _ & [[_ ->]|[_ ->]]); done.
    + done.
    + by intros m ?%elem_of_nil.
    + intros m Hm%queued_of_in. eauto.
    + intros a m Hm%verifs_of_in. eauto.
  - pose proof (noderun_nostop _ _ _ _ Hr) as (Hst & _ & _ & _ & Hev & _).
    destruct (IH (decent_weak _ _ _ Hd)) as (A1 & A2 & A3 & A4 & A5).
    assert (forall m, NSend m ∈ log' -> decent_msg m) as Hsend by (intros; apply Hd, elem_of_app; by right).
    assert (forall e i s o r, NState e i s o r ∈ log' -> decent_env e) as Henv
      by (intros; eapply Hd, elem_of_app; by right).
    apply nstep_inv in Hs
      as [m -> ->|e i n0 s o r Ho Hp Hr0 -> ->|t q m o r ? Eq Hr0 -> ->|k a m Hk -> ->|k h r x b0 ok ? -> ->|ev q ? Eq -> ->|k ev ? -> ->|ev q ? ? -> ->].
    + split_and!; try done. intros m' [?| ->%elem_of_list_singleton]%elem_of_app; [auto|]. apply Hsend. left.
    + pose proof (popped_queues _ _ _ Hp) as (Q1 & Q2 & Q3 & Q4).
      apply popped_same in Hp as (Ep1 & Ep2 & Ep3 & Ep4 & Ep5 & Ep6 & Ep7 & Ep8 & Ep9 & Ep10 & _).
      assert (i <> IMsg MStop) as Hi by (intros ->; apply A4 in Q4 as [? _]; done).
      pose proof (quiet_react _ _ _ _ Hi _ _ _ _ Hr0) as (_ & _ & B3 & B4).
      pose proof (passR_react _ _ _ _ _ _ Hr0) as Hps.
      pose proof Hr0 as Hok. apply safe_react in Hr0 as [B1 B2]; [| |..|done].
      2: { eapply Henv. left. }
      2: { split_and!.
           - intros ->. by apply A3 in Q4 as [? _].
           - intros ->. done.
           - intros stt ->. apply A4 in Q4 as [_ Hq]. by apply Hq. }
      assert (forall m, (AQueue m ∈ o \/ exists a, AVerify a m ∈ o) -> decent_msg m) as Hmo.
      { intros m Hm. split; [destruct Hm as [?|(a & ?)]; eauto|]. intros stt ->. apply Hps in Hm as [Hm|?]; [|done].
        destruct i; try done. injection Hm as <-. by eapply A3. }
      apply react_ok in Hok; [|done..].
      split_and!; simpl; try done.
      * by rewrite Hok.
      * eauto.
      * intros m [?|?%queued_of_in]%elem_of_app; eauto.
      * rewrite Ep10. intros a m [?|?%verifs_of_in]%elem_of_app; eauto.
    + done.
    + assert (forall a' m', (a', m') ∈ delete k (nd_verifs n) -> decent_msg m') as Hdl by (intros ? ? ?%delete_sub; eauto).
      apply elem_of_list_lookup_2 in Hk. destruct (verify_msg tenc cr a m); split_and!; simpl; try done.
      intros m' [?| ->%elem_of_list_singleton]%elem_of_app; eauto.
    + by destruct ok.
    + unfold alive_inv. destruct (arm_same ev (set_tevs q n)) as (-> & -> & _ & _ & -> & _ & _ & _ & _ & -> & _ & -> & _). done.
    + done.
    + unfold alive_inv. destruct (fire_same ev (set_fired q n)) as (-> & -> & _ & _ & _ & _ & -> & _ & _ & _ & -> & _ & -> & _). done.
Qed.
(** As long as the user does not ask to stop and every validator list it supplies selects a
    leader, no schedule and no message (of whatever peer, with whatever contents) ends the event
    loop, the state machine or the timer; only a write-ahead-log record whose decoding panics
    (see C04) can, at start. *)
Theorem C50_nothing_ends_the_instance :
  forall (b : boot T) cfg log n,
    noderun b cfg log n -> decent b log ->
    nd_on n = true /\ nd_smr_on n = true /\ nd_tm_on n = true /\
    (forall e i s o r, NState e i s o r ∈ log -> r = Ok true) /\
    (forall t m o r, NSmr t m o r ∈ log -> r <> Panic).
Proof.
  intros b cfg log n Hr Hd. pose proof (noderun_alive _ _ _ _ Hr Hd) as (A1 & _).
  pose proof (noderun_nostop _ _ _ _ Hr) as (_ & _ & _ & _ & _ & _ & ? & ?). split_and!; [done..| |].
  - clear A1. induction Hr as [n log H1|log n l n' log' Hr IH Hs].
    { unfold nstart in H1. destruct (on_start _ _ _ _ _ _) as [[s o] r]. injection H1 as <- <-.
      intros e i s' o' r' Hin%elem_of_list_singleton. done. }
    pose proof (noderun_nostop _ _ _ _ Hr) as (B1 & _ & _ & _ & _ & _ & B6 & B7).
    intros e i s o r [Hin|Hin]%elem_of_app; [eapply IH; eauto using decent_weak|].
    assert (nd_on n' = true) as Hon by (by eapply noderun_alive; [eapply noderun_step|]).
    apply nstep_cases in Hs as [(e0 & i0 & s0 & o0 & r0 & _ & Hr0 & _ & Hf & ->)|(_ & _ & Hi & _)].
    + apply elem_of_list_singleton in Hin. injection Hin as -> -> -> -> ->. rewrite Hf in Hon. by destruct r0 as [[]| |].
    + assert ((e, i) ∈ inputs log') as Hx by (apply elem_of_list_omap; by exists (NState e i s o r)).
      rewrite Hi in Hx. by apply elem_of_nil in Hx.
  - intros t m o r Hin. by eapply C45_state_machine_never_aborts in Hin as [_ ?].
Qed.
End P.
(** With the default leader selection every list of 1 to 2^32-1 validators will do. *)
Theorem C50_round_robin_selects :
  forall lc l, lc_random lc = false -> 0 < N.of_nat (length l) < U32 -> selects_leader lc l.
Proof. intros lc l. apply rotation_leader_ok. Qed.
(** With none, the first leader selection panics. *)
Theorem C50_empty_list_refuted :
  forall lc h r, lc_random lc = false -> get_proposer lc (auth_update []) h r = Panic.
Proof. intros lc h r Hr. unfold get_proposer. by rewrite Hr. Qed.

(** ** Examples *)
(** A is at height 2 after following a whole height; then the user asks to stop. *)
Definition stop_schedule : list (label bytes) := follower_schedule ++ [LSend MStop].
Example C46_example :
  ndrun nA (ndlog nA stop_schedule) (ndnode nA stop_schedule) /\
  nd_on (ndnode nA stop_schedule) = true /\ nd_raw (ndnode nA stop_schedule) = [MStop] /\
  nd_on (ndnode nA (stop_schedule ++ [LRaw (nenv nA true)])) = false.
Proof. split_and!; [apply ndok_run|..]; vm_compute; reflexivity. Qed.
Lemma selects_nvals : selects_leader nlc nvals.
Proof. apply C50_round_robin_selects; [done|]. vm_compute. done. Qed.
Definition good_label (l : label bytes) : Prop :=
  match l with
  | LSend m => decent_msg nlc m
  | LRaw e | LEvent e | LResp e | LMsg e => decent_env nlc e
  | _ => True
  end.
Definition good_entry (x : nlog bytes) : Prop :=
  match x with NSend m => decent_msg nlc m | NState e _ _ _ _ => decent_env nlc e | _ => True end.
Lemma good_step me l n n' log : nstep nlc ntenc (ncr me) l n = Some (n', log) -> good_label l -> Forall good_entry log.
Proof.
  intros Hs Hl. unfold nstep, state_move, smr_move in Hs. destruct l; repeat case_match; simplify_eq;
    apply Forall_singleton; try done; intros h c stt Hc; by eapply Hl.
Qed.
Lemma good_labels me ls x n l :
  run_labels nlc ntenc (ncr me) ls x = Some (n, l) -> Forall good_label ls -> Forall good_entry x.2 -> Forall good_entry l.
Proof.
  revert x. induction ls as [|a ls IH]; intros [n0 l0] Hx Hl H0; simpl in Hx; [by simplify_eq|].
  apply Forall_cons in Hl as [Ha Hl]. destruct (nstep _ _ _ a n0) as [[n1 l1]|] eqn:E; [|done].
  eapply IH; [exact Hx|done|]. apply Forall_app. split; [done|]. by eapply good_step.
Qed.
Lemma ndecent me ls : ndok me ls = true -> Forall good_label ls -> decent nlc ntdec true (nboot me None) (ndlog me ls).
Proof.
  unfold ndok, ndlog. destruct (ndexec me ls) as [[n l]|] eqn:E; [|done]. intros _ Hl.
  apply good_labels in E; [|done|].
  2: { unfold nstart. destruct (on_start _ _ _ _ _ _) as [[? ?] ?]. by repeat constructor. }
  rewrite Forall_forall in E.
  split_and!; [apply selects_nvals|intros h c stt [= <-]; apply selects_nvals|done|..].
  - intros m Hm. by apply E in Hm.
  - intros e i s o r Hm. by apply E in Hm.
Qed.
(** The same schedule, with an unsigned vote of an outsider, a certificate signed by nobody
    naming validators that do not exist, and a choke for the last possible round in between. *)
Definition junk_schedule : list (label bytes) :=
  let e := nenv nA true in
  status_through nA (nstatus 1) ++
  [LSend (MVote (mkSVote [] (mkVote 1 7 Prevote []) [xee])); LSend (MAgg (mkAggVote (mkAggSig [] [xff; xff]) Precommit 1 9 [] []));
   LSend (MChoke (nchoke nD 1 u64_max (UFPrecommit mock_init_qc)));
   LSend (MProposal (nprop nD 5 u64_max [] None)); LRaw e; LRaw e; LRaw e; LRaw e;
   LVerify 0; LVerify 0; LVerify 0; LMsg e; LMsg e] ++ [LSmr; LEvent e; LArm] ++
  through nA (MProposal (nprop nB 1 0 blk None)) ++ [LSmr; LArm; LEvent e].
Example C50_example :
  ndrun nA (ndlog nA junk_schedule) (ndnode nA junk_schedule) /\
  decent nlc ntdec true (nboot nA None) (ndlog nA junk_schedule) /\
  length (omap (fun x => match x with (_, MVote v) => Some (sv_vote v) | _ => None end) (sent_to (ndlog nA junk_schedule))) = 1%nat.
Proof.
  split; [apply ndok_run; vm_compute; reflexivity|]. split; [|vm_compute; reflexivity].
  apply ndecent; [vm_compute; reflexivity|].
  assert (decent_env nlc (nenv nA true)) as He by (intros h c stt [= <-]; apply selects_nvals).
  unfold junk_schedule, status_through, through. simpl app.
  repeat (apply Forall_cons; split); try exact I; try exact He; try (split; [discriminate|]; intros stt Hs);
    try discriminate Hs; [|by apply Forall_nil].
  injection Hs as <-. apply selects_nvals.
Qed.
Print Assumptions C46_stop_refuted.
Print Assumptions C46_stop_partial.
Print Assumptions C50_nothing_ends_the_instance.
Print Assumptions C50_round_robin_selects.
Print Assumptions C50_empty_list_refuted.
