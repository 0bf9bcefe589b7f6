(** * P_Smr: theorems about the state machine and the timer (C21-C27, C29-C31, C33 first half). *)
From Verif Require Import TimerProofs.

(** A few triggers, for the examples. *)
Definition ex_newheight (h : N) : trigger := new_height_trigger (mkSmrStatus h None None).
Definition ex_prop (src : tsource) (hash : bytes) (lr : option N) (r h : N) : trigger :=
  mkTrigger TProposal src hash lr r h None.
Definition ex_prevote (src : tsource) (hash : bytes) (r h : N) : trigger :=
  mkTrigger TPrevoteQC src hash None r h None.
Definition ex_precommit (src : tsource) (hash : bytes) (r h : N) : trigger :=
  mkTrigger TPrecommitQC src hash None r h None.
Definition ex_continue (r h : N) : trigger :=
  mkTrigger TContinueRound SrcState [] None r h None.
Definition hA : bytes := [x41].
Definition hB : bytes := [x42].
(** A run that goes through locking, a round change, an unlock, and a commit. *)
Definition ex_run : list trigger :=
  [ex_newheight 1; ex_prop SrcState hA None 0 1; ex_prevote SrcState hA 0 1;
   ex_precommit SrcTimer [] 0 1; ex_continue 1 1; ex_prop SrcTimer [] None 1 1;
   ex_prevote SrcTimer [] 1 1; ex_precommit SrcState [] 1 1; ex_prop SrcState hA (Some 0) 2 1;
   ex_prevote SrcState hA 2 1; ex_precommit SrcState hA 2 1].

(** ** C21 *)
(** Lexicographic order on (height, round). *)
Definition hr_le (a b : smr) : Prop :=
  m_height a < m_height b \/ m_height a = m_height b /\ m_round a <= m_round b.

(** In every run without WAL reload and with certificate rounds below [u64::MAX], (height,
    round) of any earlier state is not above that of any later state, whatever the initial
    state and even if the event channels are closed. *)
Theorem C21_height_round_never_decrease :
  forall (ch : chans) (m0 : smr) (ts : list trigger),
    Forall (fun t => t_type t <> TWalInfo /\ t_round t < 2 ^ 64 - 1) ts ->
    forall i j e1 e2,
      smr_trace ch m0 ts !! i = Some e1 -> smr_trace ch m0 ts !! j = Some e2 ->
      (i < j)%nat ->
      hr_le (e_pre e1) (e_post e1) /\ hr_le (e_post e1) (e_pre e2).
Proof.
  intros ch m0 ts Ht i j e1 e2 H1 H2 Hij.
  assert (trigs_ok ts) as Hok by exact Ht.
  assert (forall a b, ple (mpos a) (mpos b) -> hr_le a b) as Hhr
    by (intros a b; unfold ple, plt, mpos, hr_le; lia).
  split; apply Hhr.
  - pose proof (elem_of_list_lookup_2 _ _ _ H1) as He.
    destruct (smr_trace_entry _ _ _ _ Hok He) as (Hs & Hin & _).
    pose proof (proj1 (stdpp.list.Forall_forall _ _) Hok _ Hin) as [? ?].
    eapply smr_step_pos; eauto.
  - eapply smr_trace_mono; eauto.
Qed.
(** The guard on rounds is needed: a certificate of round [u64::MAX] wraps the round to 0. *)
Theorem C21_unguarded_refuted :
  exists m t m' o r,
    t_type t = TPrevoteQC /\ t_round t = 2 ^ 64 - 1 /\
    smr_step open_chans t m = (m', o, r) /\ ~ hr_le m m'.
Proof.
  exists (mkSmr 1 3 SPropose [] None), (ex_prevote SrcState hA (2 ^ 64 - 1) 1).
  eexists _, _, _. split; [done|]. split; [done|]. split; [vm_compute; reflexivity|].
  unfold hr_le. simpl. lia.
Qed.
Example C21_example :
  Forall (fun t => t_type t <> TWalInfo /\ t_round t < 2 ^ 64 - 1) ex_run /\
  (fun e => (m_height (e_post e), m_round (e_post e), m_step (e_post e))) <$>
     smr_trace open_chans smr_init ex_run =
  [(1, 0, SPropose); (1, 0, SPrevote); (1, 0, SPrecommit); (1, 0, SBrake); (1, 1, SPropose);
   (1, 1, SPrevote); (1, 1, SPrecommit); (1, 2, SPropose); (1, 2, SPrevote); (1, 2, SPrecommit);
   (1, 2, SCommit)].
Proof. split; [repeat constructor; done|vm_compute; reflexivity]. Qed.

(** ** C22 *)
(** The events received by the state module during a run. *)
Definition emitted (ch : chans) (m0 : smr) (ts : list trigger) : list smr_event :=
  omap (fun x => match x with ToState e => Some e | ToTimer _ => None end) (smr_run ch m0 ts).2.
(** The (height, round) pairs of the prevote (precommit) events among them, with repetitions. *)
Definition prevoted (evs : list smr_event) : list (N * N) :=
  omap (fun e => match e with EvPrevote h r _ _ => Some (h, r) | _ => None end) evs.
Definition precommitted (evs : list smr_event) : list (N * N) :=
  omap (fun e => match e with EvPrecommit h r _ _ => Some (h, r) | _ => None end) evs.

Theorem C22_one_vote_per_round :
  forall (ch : chans) (m0 : smr) (ts : list trigger),
    (ch_state ch = true -> ch_timer ch = true) ->
    Forall (fun t => t_type t <> TWalInfo /\ t_round t < 2 ^ 64 - 1) ts ->
    NoDup (prevoted (emitted ch m0 ts)) /\ NoDup (precommitted (emitted ch m0 ts)).
Proof.
  intros ch m0 ts Hc Ht. unfold emitted. rewrite smr_run_trace. split.
  - exact (prevote_keys_nodup ch m0 ts Ht Hc).
  - exact (precommit_keys_nodup ch m0 ts Ht Hc).
Qed.
(** If the timer task is gone while the state task is alive, the event is delivered but the
    step is not advanced, and two different prevotes of one round come out. *)
Theorem C22_without_timer_refuted :
  exists m ts h r x y lx ly,
    Forall (fun t => t_type t <> TWalInfo /\ t_round t < 2 ^ 64 - 1) ts /\
    EvPrevote h r x lx ∈ emitted (mkChans true false) m ts /\
    EvPrevote h r y ly ∈ emitted (mkChans true false) m ts /\ x <> y.
Proof.
  exists (mkSmr 1 0 SPropose [] None),
    [ex_prop SrcState hA None 0 1; ex_prop SrcState hB None 0 1], 1, 0, hA, hB, None, None.
  split; [repeat constructor; done|]. vm_compute.
  split; [|split]; [repeat constructor..|discriminate].
Qed.
Example C22_example :
  prevoted (emitted open_chans smr_init ex_run) = [(1, 0); (1, 1); (1, 2)] /\
  precommitted (emitted open_chans smr_init ex_run) = [(1, 0); (1, 1); (1, 2)].
Proof. vm_compute. done. Qed.

(** ** C23 *)
(** In every run from the initial state (WAL reloads allowed, provided the recorded lock is
    for a non-empty hash): if the machine is locked on [l] when it sends a prevote, the
    prevote is for the locked hash, unless the trigger is a proposal from the state module
    with a proof of lock of a strictly higher round, and then it is for the proposed hash. *)
Theorem C23_locked_prevotes_lock :
  forall (ch : chans) (ts : list trigger) e h r x lr l,
    Forall (fun t => forall i lk, t_wal t = Some i -> sb_polc i = Some lk -> l_hash lk <> []) ts ->
    e ∈ smr_trace ch smr_init ts ->
    ToState (EvPrevote h r x lr) ∈ e_out e ->
    m_lock (e_pre e) = Some l ->
    x = l_hash l \/
    (t_type (e_trig e) = TProposal /\ t_src (e_trig e) = SrcState /\ x = t_hash (e_trig e) /\
     exists lr', t_lock_round (e_trig e) = Some lr' /\ l_round l < lr').
Proof.
  intros ch ts e h r x lr l Hw He Ho Hl.
  assert (lock_inv (e_pre e)) as Hi.
  { assert (lock_inv (e_pre e) /\ lock_inv (e_post e)) as [? _]; [|done].
    eapply (smr_trace_inv lock_inv ch smr_init ts); [|done|done].
    intros t m m' o r0 Hs Hin Hm.
    pose proof (proj1 (stdpp.list.Forall_forall _ _) Hw _ Hin) as Hwt.
    eapply smr_step_lock_inv; [exact Hs| |exact Hm].
    unfold wal_lock_ok. destruct (t_wal t) as [i|] eqn:Ew; [|done].
    destruct (sb_polc i) as [lk|] eqn:E; [|done]. exact (Hwt _ _ Ew E). }
  eapply step_prevote_locked; eauto using smr_trace_step.
Qed.
(** An unlocked machine prevotes the proposed hash, or the empty hash on timeout. *)
Theorem C23_unlocked_prevote :
  forall ch t m m' o r h rd x lr,
    smr_step ch t m = (m', o, r) -> m_lock m = None -> ToState (EvPrevote h rd x lr) ∈ o ->
    t_type t = TProposal /\ t_height t = h /\ t_round t = rd /\
    (t_src t = SrcState /\ x = t_hash t /\ x <> [] \/ t_src t = SrcTimer /\ x = []).
Proof. intros ch t m m' o r h rd x lr H. exact (step_prevote_unlocked ch m t m' o r h rd x lr H). Qed.
(** A proposal proving another block at the very round of the lock: error, no vote, no change. *)
Theorem C23_fork_is_error :
  forall ch m hash l wal,
    m_step m = SPropose -> m_lock m = Some l -> m_hash m = l_hash l -> l_hash l <> [] ->
    hash <> [] -> hash <> l_hash l ->
    smr_step ch (mkTrigger TProposal SrcState hash (Some (l_round l)) (m_round m) (m_height m) wal) m
      = (m, [], Err ECorrectness).
Proof.
  intros ch m hash l wal H1 H2 H3 H4 H5 H6. apply step_fork_error; auto.
  unfold lock_inv. rewrite H2. done.
Qed.
(** Both branches of C23 occur. *)
Example C23_example :
  (exists e, e ∈ smr_trace open_chans smr_init ex_run /\
     m_lock (e_pre e) = Some (mkLock 0 hA) /\
     ToState (EvPrevote 1 1 hA (Some 0)) ∈ e_out e) /\
  (exists e, e ∈ smr_trace open_chans (mkSmr 1 2 SPropose hA (Some (mkLock 0 hA)))
                  [ex_prop SrcState hB (Some 1) 2 1] /\
     m_lock (e_pre e) = Some (mkLock 0 hA) /\
     ToState (EvPrevote 1 2 hB None) ∈ e_out e).
Proof.
  split.
  - exists (default (mkEntry smr_init (ex_newheight 1) [] Panic smr_init)
      (smr_trace open_chans smr_init ex_run !! 5%nat)).
    split; [vm_compute; repeat constructor|]. vm_compute. split; [done|repeat constructor].
  - eexists. split; [left|]. vm_compute. split; [done|repeat constructor].
Qed.

(** ** C24 *)
Theorem C24_lock_created_by_certificate :
  forall ch t m m' o r l,
    smr_step ch t m = (m', o, r) -> m_lock m' = Some l -> m_lock m <> Some l ->
    (t_type t = TPrevoteQC /\ t_src t = SrcState /\ t_height t = m_height m /\
     t_hash t = l_hash l /\ l_hash l <> [] /\ t_round t = l_round l /\ m_round m <= l_round l) \/
    (t_type t = TWalInfo /\ exists i, t_wal t = Some i /\ sb_polc i = Some l).
Proof. intros ch t m m' o r l. exact (step_lock_set ch m t m' o r l). Qed.
Theorem C24_lock_removed_only_by :
  forall ch t m m' o r l,
    smr_step ch t m = (m', o, r) -> m_lock m = Some l -> m_lock m' = None ->
    (t_type t = TPrevoteQC /\ t_src t = SrcState /\ t_height t = m_height m /\
     t_hash t = [] /\ m_round m <= t_round t) \/
    (t_type t = TProposal /\ t_src t = SrcState /\ t_height t = m_height m /\
     t_round t = m_round m /\ t_hash t <> [] /\
     exists lr, t_lock_round t = Some lr /\ l_round l < lr) \/
    (exists s, t_type t = TNewHeight s /\ t_src t = SrcState /\ m_height m < ss_height s) \/
    t_type t = TWalInfo.
Proof. intros ch t m m' o r l. exact (step_lock_lost ch m t m' o r l). Qed.
Theorem C24_timeouts_and_chokes_keep_lock :
  forall ch t m m' o r,
    smr_step ch t m = (m', o, r) -> t_type t <> TWalInfo ->
    (t_src t = SrcTimer \/ t_type t = TContinueRound \/ t_type t = TBrakeTimeout \/
     t_type t = TPrecommitQC \/ t_type t = TStop) ->
    m_lock m' = m_lock m.
Proof. intros ch t m m' o r. exact (step_lock_timer ch m t m' o r). Qed.
(** Conversely a current, non-empty prevote certificate does lock. *)
Theorem C24_certificate_locks :
  forall m b hash wal lr,
    m_step m = SPropose \/ m_step m = SPrevote ->
    exists m' o,
      smr_step open_chans (mkTrigger TPrevoteQC SrcState (b :: hash) lr (m_round m) (m_height m) wal) m
        = (m', o, Ok true) /\
      m_lock m' = Some (mkLock (m_round m) (b :: hash)) /\ m_step m' = SPrecommit /\
      ToState (EvPrecommit (m_height m) (m_round m) (b :: hash) (Some (m_round m))) ∈ o.
Proof.
  intros [mh mr ms mhash ml] b hash wal lr Hs; simpl in *.
  eexists _, _. unfold open_chans; smr_unfold; simpl.
  rewrite !N.eqb_refl, N.ltb_irrefl; simpl.
  destruct Hs; subst ms; simpl; (split; [reflexivity|]); repeat split; repeat constructor.
Qed.
(** And each of the ways named to lose the lock does so: an empty certificate of its height, of its
    round (prevote phase not over) or a later one; a proposal of its round with a newer proof of
    lock; a new height. *)
Theorem C24_empty_certificate_unlocks :
  forall ch t m m' o r,
    smr_step ch t m = (m', o, r) -> t_type t = TPrevoteQC -> t_src t = SrcState ->
    t_height t = m_height m -> t_hash t = [] ->
    (m_round m < t_round t \/ t_round t = m_round m /\ (m_step m = SPropose \/ m_step m = SPrevote)) ->
    m_lock m' = None /\ (ch_state ch = true -> ch_timer ch = true ->
      ToState (EvPrecommit (m_height m') (m_round m') [] None) ∈ o).
Proof.
  intros [cs ct] [ty src hash lr rd ht w] [mh mr ms mhash ml] m' o r Hs E1 E2 E3 E4 Hc. simpl in *. subst ty src hash ht.
  revert Hs. smr_unfold; simpl. rewrite N.eqb_refl. simpl.
  destruct Hc as [Hc|[-> Hc]].
  - assert (rd =? mr = false) as -> by (apply N.eqb_neq; lia). simpl.
    assert (rd <? mr = false) as -> by (apply N.ltb_ge; lia).
    assert (mr <? rd = true) as -> by (by apply N.ltb_lt).
    destruct cs, ct; simpl; intros [= <- <- <-]; simpl; (split; [done|]); intros; try done; set_solver.
  - rewrite N.eqb_refl, N.ltb_irrefl. destruct Hc; subst ms; simpl;
      destruct cs, ct; simpl; intros [= <- <- <-]; simpl; (split; [done|]); intros; try done; set_solver.
Qed.
Theorem C24_newer_proof_unlocks :
  forall ch t m m' o r l lr,
    smr_step ch t m = (m', o, r) -> t_type t = TProposal -> t_src t = SrcState ->
    t_height t = m_height m -> t_round t = m_round m -> m_step m = SPropose -> t_hash t <> [] ->
    m_lock m = Some l -> t_lock_round t = Some lr -> l_round l < lr ->
    m_lock m' = None /\ (ch_state ch = true -> ch_timer ch = true ->
      ToState (EvPrevote (m_height m) (m_round m) (t_hash t) None) ∈ o).
Proof.
  intros [cs ct] [ty src hash lr' rd ht w] [mh mr ms mhash ml] m' o r l lr Hs E1 E2 E3 E4 E5 E6 E7 E8 Hlt. simpl in *. subst.
  revert Hs. smr_unfold; simpl. rewrite !N.eqb_refl. simpl. destruct hash as [|b hash]; [done|].
  apply N.ltb_lt in Hlt as ->.
  destruct cs, ct; simpl; intros [= <- <- <-]; simpl; (split; [done|]); intros; try done; set_solver.
Qed.
Theorem C24_new_height_unlocks :
  forall ch t m m' o r s,
    smr_step ch t m = (m', o, r) -> t_type t = TNewHeight s -> t_src t = SrcState -> m_height m < ss_height s ->
    m_lock m' = None /\ m_hash m' = [].
Proof.
  intros [cs ct] [ty src hash lr' rd ht w] [mh mr ms mhash ml] m' o r s Hs E1 E2 Hlt. simpl in *. subst.
  revert Hs. smr_unfold; simpl. assert (ss_height s <=? mh = false) as -> by (apply N.leb_gt; lia).
  destruct cs, ct; simpl; by intros [= <- <- <-].
Qed.
Example C24_unlock_examples :
  let m := mkSmr 1 2 SPropose hA (Some (mkLock 0 hA)) in
  m_lock (smr_step open_chans (mkTrigger TPrevoteQC SrcState [] None 2 1 None) m).1.1 = None /\
  m_lock (smr_step open_chans (mkTrigger TPrevoteQC SrcState [] None 5 1 None) m).1.1 = None /\
  m_lock (smr_step open_chans (mkTrigger TProposal SrcState hB (Some 1) 2 1 None) m).1.1 = None /\
  m_lock (smr_step open_chans (mkTrigger TProposal SrcState hA (Some 0) 2 1 None) m).1.1 = Some (mkLock 0 hA).
Proof. by vm_compute. Qed.
Example C24_example :
  (fun e => m_lock (e_post e)) <$> smr_trace open_chans smr_init ex_run =
  [None; None; Some (mkLock 0 hA); Some (mkLock 0 hA); Some (mkLock 0 hA); Some (mkLock 0 hA);
   Some (mkLock 0 hA); Some (mkLock 0 hA); Some (mkLock 0 hA); Some (mkLock 2 hA);
   Some (mkLock 2 hA)].
Proof. vm_compute. done. Qed.

(** ** C25 *)
(** In every run: a precommit for a non-empty hash is sent only while processing a prevote
    certificate for that hash and height from the state module. Its round is the precommit's,
    or the one before; in the latter case no prevote event for the precommit's height and
    round occurs anywhere in the run. *)
Theorem C25_precommit_justified :
  forall (ch : chans) (m0 : smr) (ts : list trigger) e h r x lr,
    (ch_state ch = true -> ch_timer ch = true) ->
    Forall (fun t => t_type t <> TWalInfo /\ t_round t < 2 ^ 64 - 1) ts ->
    e ∈ smr_trace ch m0 ts ->
    ToState (EvPrecommit h r x lr) ∈ e_out e -> x <> [] ->
    t_type (e_trig e) = TPrevoteQC /\ t_src (e_trig e) = SrcState /\
    t_hash (e_trig e) = x /\ t_height (e_trig e) = h /\
    (t_round (e_trig e) = r \/
     t_round (e_trig e) + 1 = r /\ (h, r) ∉ prevoted (emitted ch m0 ts)).
Proof.
  intros ch m0 ts e h r x lr Hc Ht He Ho Hx.
  pose proof (smr_trace_step _ _ _ _ He) as Hs.
  destruct (smr_trace_entry _ _ _ _ Ht He) as (_ & Hin & _).
  pose proof (proj1 (stdpp.list.Forall_forall _ _) Ht _ Hin) as [Hw Hr].
  destruct (step_precommit_cert _ _ _ _ _ _ _ _ _ _ Hs Hr Ho Hx)
    as (H1 & H2 & H3 & H4 & H5 & [[H6 H7]|[H6 H7]]); (split; [done|]); (split; [done|]);
    (split; [done|]); (split; [done|]); [by left|right].
  split; [done|]. intros Hk. unfold emitted in Hk. rewrite smr_run_trace in Hk.
  apply (elem_of_prevote_keys (h, r)) in Hk as (x' & lr' & Hk). simpl in Hk.
  apply elem_of_concat in Hk as (l & Hl & Hin').
  apply elem_of_list_fmap in Hin' as (e' & -> & He').
  destruct (smr_trace_entry _ _ _ _ Ht He') as (Hs' & Hint & _).
  pose proof (proj1 (stdpp.list.Forall_forall _ _) Ht _ Hint) as [Hw' Hr'].
  destruct (smr_step_prevote _ _ _ _ _ _ _ _ _ _ Hs' Hw' Hr' Hc Hl) as [P1 P2].
  destruct (step_prevote_current _ _ _ _ _ _ _ _ _ _ Hs' Hl) as (Q1 & Q2 & Q3 & Q4 & _).
  destruct (smr_step_precommit _ _ _ _ _ _ _ _ _ _ Hs Hw Hr Hc Ho) as [R1 R2].
  apply elem_of_list_lookup in He as [i Hi]. apply elem_of_list_lookup in He' as [j Hj].
  destruct (decide (i = j)) as [->|Hij].
  { rewrite Hi in Hj. simplify_eq. rewrite Q4 in H1. done. }
  destruct (decide (i < j)%nat) as [Hlt|Hge].
  - pose proof (smr_trace_mono _ _ _ _ _ _ _ Ht Hi Hj Hlt) as Hm. rewrite R2 in Hm.
    eapply plt_irrefl, plt_ple_trans; [|exact Hm].
    eapply plt_ple_trans; [exact P1|]. unfold ple, plt. lia.
  - assert (j < i)%nat as Hlt by lia.
    pose proof (smr_trace_mono _ _ _ _ _ _ _ Ht Hj Hi Hlt) as Hm. rewrite P2 in Hm.
    unfold ple, plt, mpos in Hm. apply Hm. rewrite H5. lia.
Qed.
(** Empty precommits only come from an empty certificate or the prevote timeout. *)
Theorem C25_empty_precommit :
  forall ch t m m' o r h rd lr,
    smr_step ch t m = (m', o, r) -> t_round t < 2 ^ 64 - 1 ->
    ToState (EvPrecommit h rd [] lr) ∈ o ->
    t_type t = TPrevoteQC /\ t_height t = h /\
    (t_src t = SrcTimer /\ t_round t = rd \/ t_src t = SrcState /\ t_hash t = []).
Proof.
  intros ch t m m' o r h rd lr H Hr Ho.
  destruct (step_precommit_any _ _ _ _ _ _ _ _ _ _ H Hr Ho) as (H1 & H2 & H3 & [(?&?&?)|(?&?&?&?)]);
  repeat split; try done; [right|left]; done.
Qed.
Example C25_example :
  EvPrecommit 1 4 hA (Some 3) ∈ emitted open_chans smr_init [ex_newheight 1; ex_prevote SrcState hA 3 1] /\
  EvPrecommit 1 2 hA (Some 2) ∈ emitted open_chans smr_init ex_run.
Proof. vm_compute. split; repeat constructor. Qed.

(** ** C26 *)
Theorem C26_commit_justified :
  forall (ch : chans) (m0 : smr) (ts : list trigger) e x,
    e ∈ smr_trace ch m0 ts -> ToState (EvCommit x) ∈ e_out e ->
    t_type (e_trig e) = TPrecommitQC /\ t_src (e_trig e) = SrcState /\
    t_hash (e_trig e) = x /\ x <> [] /\ t_height (e_trig e) = m_height (e_pre e) /\
    m_step (e_pre e) <> SCommit /\
    ((ch_state ch = true -> ch_timer ch = true) ->
     m_step (e_post e) = SCommit /\ m_height (e_post e) = m_height (e_pre e)).
Proof.
  intros ch m0 ts e x He Ho. exact (step_commit _ _ _ _ _ _ _ (smr_trace_step _ _ _ _ He) Ho).
Qed.
(** A commit certificate of the current height is acted upon whatever its round. *)
Theorem C26_commit_whatever_round :
  forall m b hash r wal lr,
    m_step m <> SCommit ->
    smr_step open_chans (mkTrigger TPrecommitQC SrcState (b :: hash) lr r (m_height m) wal) m =
      (mkSmr (m_height m) (m_round m) SCommit (m_hash m) (m_lock m),
       [ToState (EvCommit (b :: hash)); ToTimer (EvCommit (b :: hash))], Ok true).
Proof.
  intros [mh mr ms mhash ml] b hash r wal lr Hs; simpl in *.
  unfold open_chans; smr_unfold; simpl. rewrite !N.eqb_refl; simpl.
  rewrite bool_decide_eq_false_2 by done. done.
Qed.
(** The commit step is left only by the four kinds of triggers listed. *)
Theorem C26_commit_step_stable :
  forall ch t m m' o r,
    smr_step ch t m = (m', o, r) -> m_step m = SCommit ->
    (exists s, t_type t = TNewHeight s) \/
    (t_type t = TPrevoteQC /\ t_src t = SrcState /\ m_round m < t_round t) \/
    (t_type t = TContinueRound /\ m_round m < t_round t) \/
    t_type t = TWalInfo \/
    (m' = m /\ forall e, ToState e ∈ o ->
       e = EvStop \/ exists lr, e = EvBrake (m_height m) (m_round m) lr).
Proof. intros ch t m m' o r. exact (step_commit_stays ch m t m' o r). Qed.
Example C26_example : EvCommit hA ∈ emitted open_chans smr_init ex_run.
Proof. vm_compute. repeat constructor. Qed.

(** ** C27 *)
(** Full claim: after a commit event, no vote or commit event for that height. *)
Definition quiet_after_commit (ts1 ts2 : list trigger) : Prop :=
  let m := final open_chans smr_init ts1 in
  m_step m = SCommit ->
  Forall (fun t => forall s, t_type t = TNewHeight s -> ss_height s <= m_height m) ts2 ->
  Forall (fun e => match e with
                   | EvPrevote _ _ _ _ | EvPrecommit _ _ _ _ | EvCommit _ => False
                   | _ => True end) (emitted open_chans m ts2).
Theorem C27_quiet_after_commit_refuted :
  exists ts1 ts2,
    Forall (fun t => t_type t <> TWalInfo /\ t_round t < 2 ^ 64 - 1) (ts1 ++ ts2) /\
    EvCommit hA ∈ emitted open_chans smr_init ts1 /\
    EvCommit hB ∈ emitted open_chans (final open_chans smr_init ts1) ts2 /\
    ~ quiet_after_commit ts1 ts2.
Proof.
  exists [ex_newheight 1; ex_precommit SrcState hA 0 1],
    [ex_prevote SrcState hB 1 1; ex_precommit SrcState hB 2 1].
  split; [repeat constructor; done|].
  split; [vm_compute; repeat constructor|].
  split; [vm_compute; repeat constructor|].
  unfold quiet_after_commit. intros H.
  specialize (H eq_refl ltac:(repeat constructor; simpl; congruence)).
  vm_compute in H. inversion H as [|? ? ? H']; subst. inversion H'; subst. done.
Qed.
(** What holds: without a prevote certificate or choke continuation of a later round (and
    without reload or later height), the machine stays put and sends only brake/stop events. *)
Theorem C27_quiet_after_commit_partial :
  forall ch m ts,
    m_step m = SCommit ->
    Forall (fun t =>
      t_type t <> TWalInfo /\
      (t_type t = TPrevoteQC -> t_round t <= m_round m) /\
      (t_type t = TContinueRound -> t_round t <= m_round m) /\
      (forall s, t_type t = TNewHeight s -> ss_height s <= m_height m)) ts ->
    (smr_run ch m ts).1 = m /\
    forall e, e ∈ emitted ch m ts -> e = EvStop \/ exists lr, e = EvBrake (m_height m) (m_round m) lr.
Proof.
  intros ch m ts Hs. unfold emitted. induction ts as [|t ts IH]; intros Ht; simpl.
  { split; [done|]. intros e He. by apply elem_of_nil in He. }
  inversion Ht as [|? ? (H1 & H2 & H3 & H4) Ht']; subst.
  destruct (smr_step ch t m) as [[m' o] r] eqn:E.
  assert (m' = m /\ forall e, ToState e ∈ o ->
       e = EvStop \/ exists lr, e = EvBrake (m_height m) (m_round m) lr) as [-> Ho].
  { destruct (step_commit_stays _ _ _ _ _ _ E Hs)
      as [[s Hh]|[(Hp & _ & Hlt)|[[Hp Hlt]|[Hw|?]]]]; try done.
    - clear IH. specialize (H4 _ Hh). destruct t as [ty tsrc ? ? ? ? ?]; simpl in *. subst ty.
      smr_unfold. simpl in E. destruct tsrc; [|by simplify_eq; split; [done|]; intros ? Hx; apply elem_of_nil in Hx].
      rewrite (proj2 (N.leb_le _ _) H4) in E. simplify_eq.
      split; [done|]. intros ? Hx. by apply elem_of_nil in Hx.
    - specialize (H2 Hp). lia.
    - specialize (H3 Hp). lia. }
  specialize (IH Ht'). destruct (smr_run ch m ts) as [mf of]; simpl in IH.
  destruct r as [[]|er|]; simpl; (split; [tauto|]); intros e' He;
  apply elem_of_list_omap in He as (x & Hx & Hxe); destruct x; simplify_eq;
  try (apply elem_of_app in Hx as [Hx|Hx]); eauto;
  apply (proj2 IH); apply elem_of_list_omap; eauto.
Qed.
Example C27_example :
  m_step (final open_chans smr_init ex_run) = SCommit /\
  (smr_run open_chans (final open_chans smr_init ex_run)
     [ex_prop SrcState hB None 2 1; ex_prevote SrcState hB 2 1; ex_precommit SrcState hB 5 1;
      ex_precommit SrcTimer [] 2 1]).2 = [].
Proof. vm_compute. done. Qed.

(** ** C29 *)
Theorem C29_stale_timeout_no_effect :
  forall ch t m,
    t_src t = SrcTimer ->
    t_type t = TProposal \/ t_type t = TPrevoteQC \/ t_type t = TPrecommitQC \/
      t_type t = TBrakeTimeout ->
    t_height t <> m_height m \/ t_round t <> m_round m ->
    smr_step ch t m = (m, [], Ok true).
Proof. intros ch t m H1 H2. exact (stale_timeout_noop ch m t (conj H1 H2)). Qed.
Theorem C29_late_timeout_no_effect :
  forall ch t m,
    t_src t = SrcTimer ->
    (t_type t = TProposal /\ m_step m <> SPropose) \/
    (t_type t = TPrevoteQC /\ m_step m <> SPropose /\ m_step m <> SPrevote) \/
    (t_type t = TPrecommitQC /\ m_step m = SCommit) ->
    smr_step ch t m = (m, [], Ok true).
Proof.
  intros ch t m H1 H2. apply late_timeout_noop.
  - split; [done|]. destruct H2 as [[? ?]|[[? ?]|[? ?]]]; auto.
  - destruct H2 as [[? ?]|[?|?]]; auto.
Qed.
(** A timeout never changes height or round and never produces a vote for a non-empty hash
    other than the locked one. *)
Theorem C29_timeout_effect_bounded :
  forall ch t m m' o r,
    smr_step ch t m = (m', o, r) -> t_src t = SrcTimer -> t_type t <> TWalInfo ->
    m_height m' = m_height m /\ m_round m' = m_round m /\ m_lock m' = m_lock m /\
    forall e, ToState e ∈ o ->
      match e with
      | EvPrevote h rd x _ => h = m_height m /\ rd = m_round m /\
          x = match m_lock m with Some l => l_hash l | None => [] end
      | EvPrecommit h rd x _ => h = m_height m /\ rd = m_round m /\ x = []
      | EvBrake h rd _ => h = m_height m /\ rd = m_round m
      | EvStop => True
      | EvCommit _ | EvNewRound _ _ _ _ _ _ _ => False
      end.
Proof.
  intros ch t m m' o r H Hs Hw.
  smr_go H; try congruence; repeat split; try done; intros e He; out_in He; repeat split.
Qed.
Example C29_example :
  smr_step open_chans (ex_prevote SrcTimer [] 0 1) (mkSmr 1 0 SPrecommit hA (Some (mkLock 0 hA))) =
    (mkSmr 1 0 SPrecommit hA (Some (mkLock 0 hA)), [], Ok true).
Proof. vm_compute. done. Qed.

(** ** C30 *)
(** For every run from start-up (fresh, or beginning with a WAL reload), if the machine waits
    in some step other than commit, then some event [e] it sent to the timer is such that the
    expiry of [e] (with the timer having processed all events) produces a trigger which takes
    the machine to the next step of the same round and sends an event to both the state module
    and the timer, for which the same holds again. *)
Theorem C30_never_waits_forever :
  forall interval cfg ts,
    (ts = [] \/ exists t ts', ts = t :: ts' /\ t_round t < 2 ^ 64 - 1 /\
       (t_type t <> TWalInfo \/ exists i, t_type t = TWalInfo /\ t_wal t = Some i) /\
       Forall (fun t => t_type t <> TWalInfo /\ t_round t < 2 ^ 64 - 1) ts') ->
    let '(m, out) := smr_run open_chans smr_init ts in
    let tm := fold_left (fun t e => fst (set_timer t e)) (to_timer out) (timer_new interval cfg) in
    m_step m <> SCommit ->
    exists e t m' o ev,
      e ∈ to_timer out /\
      timer_trigger tm e = Ok (Some t) /\ smr_step open_chans t m = (m', o, Ok true) /\
      m_height m' = m_height m /\ m_round m' = m_round m /\
      m_step m' = next_step (m_step m) /\
      o = [ToState ev; ToTimer ev] /\ waits_for m' ev.
Proof.
  intros interval cfg ts Hb. destruct (smr_run open_chans smr_init ts) as [m out] eqn:E.
  intros tm Hs. pose proof (never_stuck interval cfg ts) as H.
  unfold final, timer_events, feed in H. rewrite E in H. simpl in H. apply H; [|done].
  destruct Hb as [->|(t & ts' & -> & ? & ? & ?)]; simpl; [done|]. auto.
Qed.
(** ... and so on: the expiry of what was re-armed is again as above. *)
Theorem C30_timeout_chain :
  forall m e tm,
    waits_for m e -> tm_height tm <= m_height m -> tm_round tm <= m_round m ->
    exists t m' o ev,
      timer_trigger tm e = Ok (Some t) /\ smr_step open_chans t m = (m', o, Ok true) /\
      m_height m' = m_height m /\ m_round m' = m_round m /\ m_step m' = next_step (m_step m) /\
      o = [ToState ev; ToTimer ev] /\ waits_for m' ev.
Proof. exact expiry_progress. Qed.
Example C30_example :
  let '(m, out) := smr_run open_chans smr_init (take 7 ex_run) in
  m_step m = SPrecommit /\ (length (to_timer out) = 7)%nat.
Proof. vm_compute. done. Qed.

(** ** C31 *)
(** [last_some f d evs]: the last value [f] yields along [evs], or [d]. *)
Theorem C31_timeout_length :
  forall interval0 cfg0 (evs : list smr_event) (e : smr_event) ratio,
    let evs' := evs ++ [e] in
    let interval := last_some ev_interval interval0 evs' in
    let round := last_some ev_round 0 evs' in
    ratio_of (last_some ev_config (default default_ratios cfg0) evs') e = Some ratio ->
    interval * ratio < 2 ^ 64 -> round < 2 ^ 32 ->
    snd (set_timer (timer_after interval0 cfg0 evs) e) =
      Ok (Some (interval * ratio / 10 * (if is_brake e then 1 else 2 ^ N.min round 5), e)).
Proof. exact timeout_length. Qed.
Example C31_example :
  snd (set_timer (timer_after 3000 None
        [EvNewRound 1 0 None None (FWPrecommit u64_max) None None;
         EvNewRound 1 7 None None (FWChoke 6) (Some 1000) (Some (mkDurCfg 15 10 10 7))])
        (EvPrevote 1 7 [] None)) = Ok (Some (32000, EvPrevote 1 7 [] None)).
Proof. vm_compute. done. Qed.

(** ** C33 (state machine half) *)
(** After a reload of a record with a step other than commit the machine is exactly where the
    record says, only the timer is told, and no later prevote (precommit) event concerns a
    round whose prevote (precommit) step the record has reached. *)
Theorem C33_reload_restores_and_never_revotes :
  forall ch m0 i t ts,
    t_type t = TWalInfo -> t_wal t = Some i -> sb_step i <> SCommit ->
    (ch_state ch = true -> ch_timer ch = true) ->
    Forall (fun t => t_type t <> TWalInfo /\ t_round t < 2 ^ 64 - 1) ts ->
    exists m1 o r,
      smr_step ch t m0 = (m1, o, r) /\ r <> Panic /\
      m_height m1 = sb_height i /\ m_round m1 = sb_round i /\ m_step m1 = sb_step i /\
      m_lock m1 = sb_polc i /\ to_state o = [] /\
      (forall x lr, sb_step i <> SPropose ->
         EvPrevote (sb_height i) (sb_round i) x lr ∉ emitted ch m1 ts) /\
      (forall x lr, sb_step i <> SPropose -> sb_step i <> SPrevote ->
         EvPrecommit (sb_height i) (sb_round i) x lr ∉ emitted ch m1 ts) /\
      (forall h r x lr, h < sb_height i \/ h = sb_height i /\ r < sb_round i ->
         EvPrevote h r x lr ∉ emitted ch m1 ts /\ EvPrecommit h r x lr ∉ emitted ch m1 ts).
Proof.
  intros ch m0 i t ts Hty Hwal Hst Hc Ht.
  assert (exists m1 o r, smr_step ch t m0 = (m1, o, r) /\ r <> Panic /\
      m_height m1 = sb_height i /\ m_round m1 = sb_round i /\ m_step m1 = sb_step i /\
      m_lock m1 = sb_polc i /\ to_state o = []) as (m1 & o & r & H1 & H2 & H3 & H4 & H5 & H6 & H7).
  { unfold smr_step. rewrite Hty, Hwal. destruct i as [h rd st pl]; simpl in *.
    destruct m0 as [mh mr ms mhash ml], ch as [cs ct]; simpl.
    smr_unfold; simpl. destruct pl, st, ct; try done; simpl;
    eexists _, _, _; (split; [reflexivity|]); (split; [done|]); simpl; repeat split. }
  exists m1, o, r. do 7 (split; [done|]).
  assert (forall ev, ev ∈ emitted ch m1 ts -> ev ∈ state_events (smr_trace ch m1 ts)) as Hem.
  { intros ev He. unfold emitted in He. rewrite smr_run_trace in He. exact He. }
  assert (mpos m1 = (sb_height i, sb_round i, step_u8 (sb_step i))) as Hp
    by (unfold mpos; congruence).
  split; [|split].
  - intros x lr Hs He. apply Hem in He. revert He. apply no_prevote_below; try done.
    rewrite Hp. unfold ple, plt. destruct (sb_step i); try done; simpl; lia.
  - intros x lr Hs1 Hs2 He. apply Hem in He. revert He. apply no_precommit_below; try done.
    rewrite Hp. unfold ple, plt. destruct (sb_step i); try done; simpl; lia.
  - intros h r' x lr Hlt. split; intros He; apply Hem in He; revert He;
      [apply no_prevote_below|apply no_precommit_below]; try done; rewrite Hp; unfold ple, plt; lia.
Qed.
Example C33_example :
  let i := mkSmrBase 4 2 SPrevote (Some (mkLock 1 hA)) in
  let t := mkTrigger TWalInfo SrcState [] None 2 4 (Some i) in
  emitted open_chans smr_init [t; ex_prop SrcState hB None 2 4; ex_prevote SrcState hB 2 4] =
    [EvPrecommit 4 2 hB (Some 2)].
Proof. vm_compute. done. Qed.

Print Assumptions C21_height_round_never_decrease.
Print Assumptions C21_unguarded_refuted.
Print Assumptions C22_one_vote_per_round.
Print Assumptions C22_without_timer_refuted.
Print Assumptions C23_locked_prevotes_lock.
Print Assumptions C23_unlocked_prevote.
Print Assumptions C23_fork_is_error.
Print Assumptions C24_lock_created_by_certificate.
Print Assumptions C24_lock_removed_only_by.
Print Assumptions C24_timeouts_and_chokes_keep_lock.
Print Assumptions C24_certificate_locks.
Print Assumptions C25_precommit_justified.
Print Assumptions C25_empty_precommit.
Print Assumptions C26_commit_justified.
Print Assumptions C26_commit_whatever_round.
Print Assumptions C26_commit_step_stable.
Print Assumptions C27_quiet_after_commit_refuted.
Print Assumptions C27_quiet_after_commit_partial.
Print Assumptions C29_stale_timeout_no_effect.
Print Assumptions C29_late_timeout_no_effect.
Print Assumptions C29_timeout_effect_bounded.
Print Assumptions C30_never_waits_forever.
Print Assumptions C30_timeout_chain.
Print Assumptions C31_timeout_length.
Print Assumptions C33_reload_restores_and_never_revotes.
Print Assumptions C24_empty_certificate_unlocks.
Print Assumptions C24_newer_proof_unlocks.
Print Assumptions C24_new_height_unlocks.
