(** * P_Record: the records of the log are self-consistent (C49). *)
From Verif Require Export P_Cert P_Wal.
Set Default Proof Using "Type".

Section R.
Context {T : Type} `{EqDecision T}.
Context (lc : lcfg) (tenc : T -> bytes) (tdec : bytes -> option T) (spill : bool).
Local Notation react := (react lc tenc).

(** A record written in state [s] holding certificates [ops]. *)
Definition rec_in (s : st T) (w : walinfo T) : Prop :=
  forall l, wi_lock w = Some l ->
    wi_height w = s_height s /\ s_blocks s !! av_hash (wl_votes l) = Some (wl_content l) /\
    ((wi_step w <> SCommit /\ vc_get_qc_by_id (s_votes s) (s_height s) (wl_round l) Prevote = Ok (wl_votes l)) \/
     (wi_step w = SCommit /\ wl_round l = wi_round w /\
      vc_get_qc_by_hash (s_votes s) (s_height s) (av_hash (wl_votes l)) Precommit = Some (wl_votes l))).

Definition nosaveR (_ : st T) (o : list (action T)) (_ : st T) : Prop := Forall (fun a => is_save a = false) o.
Lemma nosave_comp : comp nosaveR.
Proof. clear lc tenc tdec spill. split; [constructor|]. intros ? ? ? o1 o2 H1 H2. unfold nosaveR. by apply Forall_app. Qed.
Local Ltac ns := intros; unfold nosaveR; repeat first [apply List.Forall_nil|apply List.Forall_cons]; done.
Lemma nosave_propose e lr lp : keeps nosaveR (propose_part lc tenc e lr lp).
Proof. clear tdec spill. unfold propose_part, make_proposal. keeps_go nosave_comp; try (by repeat constructor).
Qed.
Lemma nosave_not_event e i :
  (forall ev, i <> IEvent ev) -> (forall stt, i <> IMsg (MStatus stt)) -> keeps nosaveR (react e i).
Proof.
  clear tdec spill. intros H1 H2. destruct i as [m|ev|rs|m]; [| by destruct (H1 ev)| |].
  3: destruct m; try by edestruct H2.
  all: unfold StateHist.react; keeps_go nosave_comp.
  all: try ns.
  all: apply (keeps_on_msg _ _ nosave_comp); [ns|]; keeps_go nosave_comp; ns.

Qed.
Lemma nosave_in o w b : Forall (fun a : action T => is_save a = false) o -> ASave w b ∉ o.
Proof. intros Hf Hin. rewrite Forall_forall in Hf. by apply Hf in Hin. Qed.

Lemma rec_lock s st rd lr l uf :
  lock_to_save s lr = Some l -> st <> SCommit -> rec_in s (mkWalInfo (s_height s) rd st l uf).
Proof.
  intros Hl Hst l' E. simpl in E. subst l. unfold lock_to_save in Hl. destruct lr as [k|]; [|done].
  destruct (vc_get_qc_by_id _ _ _ _) as [q| |] eqn:Eq; [|done..].
  destruct (s_blocks s !! av_hash q) eqn:Eb; [|done]. simpl in Hl. injection Hl as <-. simpl. split_and!; [done..|]. by left.
Qed.
Lemma rec_goto e stt s s' o r w b : goto_new_height (T:=T) e stt s = (s', o, r) -> ASave w b ∈ o -> wi_lock w = None.
Proof.
  intros Hg Hw. apply goto_inv in Hg as [(? & -> & -> & _)|[(? & _ & -> & -> & _)|[(? & _ & -> & -> & _)|(Hlt & _ & -> & tr & -> & Htr)]]].
  - by apply elem_of_nil in Hw.
  - by apply elem_of_nil in Hw.
  - apply elem_of_list_singleton in Hw. by injection Hw as -> _.
  - apply elem_of_cons in Hw as [Hw|Hw]; [by injection Hw as -> _|].
    apply elem_of_app in Hw as [Hw|Hw]; [by apply elem_of_list_fmap in Hw as (? & ? & ?)|].
    destruct Htr as [[-> _]|[-> _]]; [by apply elem_of_list_singleton in Hw|by apply elem_of_nil in Hw].
Qed.
Lemma rec_commit e x s s' o r w b :
  (exists ops, s_votes s = vops ops) ->
  handle_commit lc e x s = (s', o, r) -> ASave w b ∈ o -> rec_in s w.
Proof.
  clear tenc tdec spill. intros [ops Ev] Hx Hw.
  assert (forall w, wi_lock w = None -> rec_in s w) as Hn by (intros w0 E l; by rewrite E).
  assert (forall content qc, s_blocks s !! x = Some content -> vc_get_qc_by_hash (s_votes s) (s_height s) x Precommit = Some qc ->
            rec_in s (commit_record s qc content)) as Hc.
  { intros content qc H1 H2 l E. simpl in E. injection E as <-. simpl. rewrite Ev in H2. apply lookup_hash in H2 as Hq.
    destruct Hq as (_ & _ & E & _). rewrite E, Ev. split_and!; [done..|]. by right. }
  apply commit_inv in Hx as [(-> & -> & _)|(content & qc & H1 & H2 & [(_ & -> & ->)|(_ & Hx)])].
  - by apply elem_of_nil in Hw.
  - apply elem_of_list_singleton in Hw. injection Hw as -> _. auto.
  - destruct (e_commit e _ _) as [stt|].
    + destruct Hx as (o2 & -> & Hx). apply elem_of_cons in Hw as [Hw|[?|Hw]%elem_of_cons]; [injection Hw as -> _; auto|done|].
      destruct (get_proposer _ _ _ _); [|destruct Hx as (_ & -> & _); by apply elem_of_nil in Hw..].
      apply Hn. by eapply rec_goto.
    + destruct Hx as (_ & -> & _). apply elem_of_cons in Hw as [Hw|?%elem_of_list_singleton]; [|done]. injection Hw as -> _; auto.
Qed.
Lemma rec_brake e rd lr s s' o r w b : handle_brake (T:=T) e rd lr s = (s', o, r) -> ASave w b ∈ o -> rec_in s w.
Proof.
  clear lc tenc tdec spill. intros Hb Hw. unfold handle_brake, get in Hb.
  destruct (negb _); [unfold fail in Hb; simplify_eq; by apply elem_of_nil in Hw|].
  destruct (cr_sign _ _) as [sig|]; [|unfold fail in Hb; simplify_eq; by apply elem_of_nil in Hw].
  revert Hb. generalize (mkSChoke sig (mkChoke (s_height s) (s_round s) (s_from s)) (s_addr s)). intros sc Hb.
  unfold bind at 1, emit at 1 in Hb. unfold bind at 1, modify at 1 in Hb.
  set (s1 := set_s_chokes _ s) in Hb.
  match type of Hb with context [bind ?x ?k s1] => destruct (bind x k s1) as [[s2 o2] r2] eqn:E2 end.
  assert (o = AOwnChoke sc :: o2) as -> by (simplify_eq; done). apply elem_of_cons in Hw as [?|Hw]; [done|].
  apply bind_inv in E2 as [(u & s3 & o3 & o4 & H1 & H2 & ->)|[(x & H1 & ->)|(H1 & ->)]].
  - apply elem_of_app in Hw as [Hw|Hw].
    + apply save_lr_inv in H1 as [-> H1]. destruct (lock_to_save s1 lr) as [l|] eqn:El; destruct H1 as [-> _]; [|by apply elem_of_nil in Hw].
      apply elem_of_list_singleton in Hw. injection Hw as -> _. by apply (rec_lock s SBrake (s_round s) lr l (s_from s)).
    + exfalso. assert (keeps nosaveR (bind (broadcast (MChoke sc)) (fun _ => check_choke_above_threshold (T:=T) e))) as Hk
        by (keeps_go nosave_comp; ns).
      apply Hk in H2. by apply nosave_in in Hw.
  - apply save_lr_inv in H1 as [-> H1]. destruct (lock_to_save s1 lr) as [l|] eqn:El; destruct H1 as [-> _]; [|by apply elem_of_nil in Hw].
    apply elem_of_list_singleton in Hw. injection Hw as -> _. by apply (rec_lock s SBrake (s_round s) lr l (s_from s)).
  - apply save_lr_inv in H1 as [-> H1]. destruct (lock_to_save s1 lr) as [l|] eqn:El; destruct H1 as [-> ?]; [|by apply elem_of_nil in Hw].
    apply elem_of_list_singleton in Hw. injection Hw as -> _. by apply (rec_lock s SBrake (s_round s) lr l (s_from s)).
Qed.
Lemma rec_react e i s s' o r w b :
  (exists ops, s_votes s = vops ops) -> react e i s = (s', o, r) -> ASave w b ∈ o -> rec_in s w.
Proof.
  clear tdec spill. intros Ev Hr Hw.
  assert (forall w, wi_lock w = None -> rec_in s w) as Hn by (intros w0 E l; by rewrite E).
  destruct i as [m|ev|rs|m].
  1, 3: exfalso; eapply nosave_in; [|exact Hw]; eapply nosave_not_event; [..|exact Hr]; done.
  2: { destruct m as [sp|v|q|stt|sc|].
       4: { eapply react_core in Hr; [|reflexivity]. destruct Hr as [(_ & _ & -> & _)|(_ & r' & Hx & _)]; [by apply elem_of_nil in Hw|].
            apply Hn. by eapply rec_goto. }
       all: exfalso; eapply nosave_in; [|exact Hw]; eapply nosave_not_event; [..|exact Hr]; done. }
  destruct ev as [h rd lr lp from iv cf|h rd hash lr|h rd hash lr|hash|h rd lr|].
  6: { exfalso. revert Hr. unfold StateHist.react, on_event, get, bind, logged, ret, handle_event.
       destruct (s_stopped s); [intros; simplify_eq; by apply elem_of_nil in Hw|].
       destruct (negb _); [intros; simplify_eq; by apply elem_of_nil in Hw|]. simpl. intros; simplify_eq. by apply elem_of_nil in Hw. }
  all: eapply react_core in Hr; [|reflexivity]; destruct Hr as [(_ & _ & -> & _)|(_ & r' & Hx & _)]; [by apply elem_of_nil in Hw|].
  - apply new_round_inv in Hx as (o1 & -> & Hx).
    assert (ASave w b ∈ o1) as Hw1.
    { apply elem_of_app in Hw as [Hw|Hw]; [|done]. unfold view_changes in Hw.
      destruct (rd =? INIT_ROUND); [by apply elem_of_nil in Hw|by apply elem_of_list_singleton in Hw]. }
    destruct Hx as [(-> & _)|(uf & l & _ & _ & Hl & Hx)]; [by apply elem_of_nil in Hw1|].
    pose proof (rec_lock _ SPropose rd _ _ uf Hl ltac:(done)) as Hrec.
    destruct Hx as [(_ & -> & _)|(_ & o2 & -> & Hx)].
    + apply elem_of_list_singleton in Hw1. injection Hw1 as -> _. exact Hrec.
    + apply elem_of_cons in Hw1 as [Hw1|Hw1]; [injection Hw1 as -> _; exact Hrec|].
      apply nosave_propose in Hx. by apply nosave_in in Hw1.
  - apply vote_event_inv in Hx as [(_ & -> & _)|(sig & l & _ & Hl & [(_ & _ & -> & _)|(_ & o2 & Hx)])]; [by apply elem_of_nil in Hw|..].
    + apply elem_of_list_singleton in Hw. injection Hw as -> _. by eapply rec_lock.
    + destruct (s_leader s); destruct Hx as [-> Hx]; (apply elem_of_cons in Hw as [Hw|[?|Hw]%elem_of_cons]; [injection Hw as -> _; by eapply rec_lock|done|]);
        apply quiet_vp in Hx; unfold quietR in Hx; rewrite Forall_forall in Hx; by apply Hx in Hw as [? _].
  - apply vote_event_inv in Hx as [(_ & -> & _)|(sig & l & _ & Hl & [(_ & _ & -> & _)|(_ & o2 & Hx)])]; [by apply elem_of_nil in Hw|..].
    + apply elem_of_list_singleton in Hw. injection Hw as -> _. by eapply rec_lock.
    + destruct (s_leader s); destruct Hx as [-> Hx]; (apply elem_of_cons in Hw as [Hw|[?|Hw]%elem_of_cons]; [injection Hw as -> _; by eapply rec_lock|done|]);
        apply quiet_vp in Hx; unfold quietR in Hx; rewrite Forall_forall in Hx; by apply Hx in Hw as [? _].
  - by eapply rec_commit.
  - unfold get in Hx. destruct (negb _); [unfold ret in Hx; simplify_eq; by apply elem_of_nil in Hw|]. by eapply rec_brake.
Qed.
End R.

(** ** C49: every record written is self-consistent. *)
(** Every record an instance attempts to write, at its start or later: its lock, if any, is a
    certificate of the record's own height: a prevote certificate of exactly the lock's round or,
    in a record of the commit step, a precommit certificate; the certificate and the block under
    its hash came to the node from outside, from its own aggregation, from get_block, or from
    the record it started from. *)
Theorem C49_records_are_consistent :
  forall (T : Type) (D : EqDecision T) lc tenc tdec spill (b : boot T) is o s alive w ok l,
    run lc tenc tdec spill b is o s alive -> ASave w ok ∈ o -> wi_lock w = Some l ->
    av_height (wl_votes l) = wi_height w /\
    ((wi_step w <> SCommit /\ av_type (wl_votes l) = Prevote /\ av_round (wl_votes l) = wl_round l) \/
     (wi_step w = SCommit /\ av_type (wl_votes l) = Precommit /\ wl_round l = wi_round w)) /\
    qc_known tdec spill b is o (wl_votes l) /\
    block_known tdec spill b is (av_hash (wl_votes l)) (wl_content l).
Proof.
  intros T D lc tenc tdec spill b is o s alive w ok l Hr Hw Hl.
  assert (forall is0 o0 s0 ops, s_votes s0 = vops ops -> Forall (vsrc_run tdec spill b is0 o0) ops ->
            (forall h x, s_blocks s0 !! h = Some x -> block_known tdec spill b is0 h x) -> rec_in s0 w ->
            av_height (wl_votes l) = wi_height w /\
            ((wi_step w <> SCommit /\ av_type (wl_votes l) = Prevote /\ av_round (wl_votes l) = wl_round l) \/
             (wi_step w = SCommit /\ av_type (wl_votes l) = Precommit /\ wl_round l = wi_round w)) /\
            qc_known tdec spill b is0 o0 (wl_votes l) /\
            block_known tdec spill b is0 (av_hash (wl_votes l)) (wl_content l)) as Hrec.
  { intros is0 o0 s0 ops Ev Fv Hb Hrec. destruct (Hrec _ Hl) as (Eh & Hblk & Hq). rewrite Ev in Hq.
    assert (VQC (wl_votes l) ∈ ops /\ av_height (wl_votes l) = s_height s0) as [Hin Eqh].
    { destruct Hq as [[_ Hq]|(_ & _ & Hq)]; [apply lookup_id in Hq|apply lookup_hash in Hq]; naive_solver. }
    split_and!; [congruence| | |auto].
    - destruct Hq as [[? Hq]|(? & ? & Hq)]; [apply lookup_id in Hq|apply lookup_hash in Hq]; naive_solver.
    - rewrite Forall_forall in Fv. by apply Fv in Hin. }
  induction Hr as [s o r Hs|is o s e i s' o' r Hr IH Hs].
  - pose proof (start_src _ _ _ _ _ _ _ Hs) as (_ & _ & _ & _ & _ & _).
    unfold on_start in Hs. apply logged_inv in Hs as (r' & Hs & _).
    apply start_inv in Hs as [(-> & [->|(t & -> & _)])|(w' & bs & Hwal & Hd & _ & [[-> ->]|(p & _ & Ht)])].
    1, 3: by apply elem_of_nil in Hw.
    1: by apply elem_of_list_singleton in Hw.
    assert (boot_wal tdec spill b w') as Hbw by by exists bs.
    set (s1 := loaded_state _ _ _ _) in Ht.
    assert (exists ops, s_votes s1 = vops ops /\ Forall (vsrc_run tdec spill b [] o) ops) as (ops & Ev & Fv).
    { unfold s1, loaded_state. destruct (wi_lock w') as [l'|] eqn:El.
      - exists [VQC (wl_votes l')]. split; [done|]. apply Forall_singleton. simpl. right. right. eauto.
      - exists []. split; done. }
    assert (forall h x, s_blocks s1 !! h = Some x -> block_known tdec spill b [] h x) as Hb.
    { unfold s1, loaded_state. intros h x. destruct (wi_lock w') as [l'|] eqn:El; simpl; [|by rewrite lookup_empty].
      intros [[<- <-]|[_ Hx]]%lookup_insert_Some; [|by rewrite lookup_empty in Hx]. right. right. eauto 6. }
    eapply (Hrec [] o s1 ops); try done. clearbody s1. unfold start_tail in Ht.
    destruct (bool_decide (wi_step w' = SCommit)).
    + destruct (wi_lock w') as [l'|]; [|unfold fail in Ht; simplify_eq; by apply elem_of_nil in Hw].
      eapply rec_commit; eauto.
    + destruct (bool_decide (wi_step w' = SBrake)).
      * apply bind_inv in Ht as [(a & s2 & o1 & o2 & Hx & Ht & ->)|[(x & Hx & _)|(Hx & _)]]; [|by eapply rec_brake..].
        apply elem_of_app in Hw as [Hw|Hw]; [by eapply rec_brake|]. unfold get in Ht.
        apply trigger_inv in Ht as [_ [[-> _]|[-> _]]]; [by apply elem_of_list_singleton in Hw|by apply elem_of_nil in Hw].
      * unfold bind, ret, get in Ht. destruct (trigger_smr _ _ _) as [[s2 o2] r2] eqn:E. simplify_eq. simpl in Hw.
        apply trigger_inv in E as [_ [[-> _]|[-> _]]]; [by apply elem_of_list_singleton in Hw|by apply elem_of_nil in Hw].
  - apply run_run_inv in Hr as [(ops & Ev & Fv) _ _ Hb _ _].
    apply elem_of_app in Hw as [Hw|Hw].
    + destruct IH as (A1 & A2 & A3 & A4); [done..|]. split_and!; [done..| |by apply block_known_app].
      pose proof (vsrc_run_app tdec spill b is [(e, i)] o o' (VQC (wl_votes l)) A3) as Hq. exact Hq.
    + assert (rec_in s w) as Hin by (eapply rec_react; eauto).
      destruct (Hrec is o s ops Ev Fv Hb Hin) as (A1 & A2 & A3 & A4). split_and!; [done..| |by apply block_known_app].
      pose proof (vsrc_run_app tdec spill b is [(e, i)] o o' (VQC (wl_votes l)) A3) as Hq. exact Hq.
Qed.
(** In particular a record never fails the condition under which C42 bounds what the next
    start keeps cached. *)
Theorem C49_records_meet_the_cache_bound :
  forall (T : Type) (D : EqDecision T) lc tenc tdec spill (b : boot T) is o s alive w ok l,
    run lc tenc tdec spill b is o s alive -> ASave w ok ∈ o -> wi_lock w = Some l ->
    av_height (wl_votes l) <= wi_height w + 5.
Proof.
  intros. destruct (C49_records_are_consistent _ _ _ _ _ _ _ _ _ _ _ _ _ _ H H0 H1) as [-> _]. lia.
Qed.
(** A run that writes a record with a lock, and one of the commit step. *)
Example records_written :
  exists s, nrun nA None follower_history (nouts nA None follower_history) s true /\
    (exists w l, ASave w true ∈ nouts nA None follower_history /\ wi_lock w = Some l /\ wi_step w = SPrecommit) /\
    (exists w l, ASave w true ∈ nouts nA None follower_history /\ wi_lock w = Some l /\ wi_step w = SCommit).
Proof.
  destruct follower_run as [s Hs]. exists s. split; [exact Hs|]. split.
  - destruct C32_lock_example as (w & Hw & E & El). by exists w, (mkWalLock 0 pvqc blk).
  - exists crec, (mkWalLock 0 pcqc blk). split; [exact (proj1 C34_example)|done].
Qed.
