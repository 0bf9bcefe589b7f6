(** * P_LockedEx: an endless fair execution that meets the hypotheses of P_Locked (C67). *)
From Verif Require Export P_AnswerEx P_Locked.
Set Default Proof Using "Type".

(** A prevotes and precommits B's block in round 0 of height 1 and is locked on it, a certificate of
    nil precommits takes it to round 1, and C proposes the same block there, without showing a
    certificate. *)
Definition nilqc := nqc x70 [nB; nC; nD] nB 1 0 Precommit [].
Definition pcqc1 := nqc x70 [nB; nC; nD] nC 1 1 Precommit hsh.
Definition until_locked : list (label bytes) :=
  let e := nenv nA true in
  until_proposed ++ [LMsg e; LSmr; LArm; LEvent e; LExpire 0; LFire; LSmr; LCheck 0 true; LResp e] ++
  through nA (MAgg pvqc) ++ [LSmr; LEvent e; LArm] ++ through nA (MAgg nilqc) ++ [LSmr; LEvent e; LArm] ++
  [LSend (MProposal (nprop nC 1 1 blk None)); LRaw e; LVerify 0].
Definition locked_then : list (label bytes) :=
  let e := nenv nA true in
  [LMsg e; LSmr; LArm; LEvent e; LCheck 0 true; LResp e] ++ through nA (MAgg pcqc1) ++ [LSmr; LArm; LEvent no_answer] ++
  [LExpire 0; LFire; LExpire 0; LFire; LExpire 0; LFire; LExpire 0; LFire; LSmr; LSmr; LSmr; LSmr].
Definition lknode : node bytes := ndnode nA until_locked.
Lemma until_locked_ok : ndok nA until_locked = true. Proof. vm_compute. reflexivity. Qed.
Lemma until_locked_range : in_rangeb (ndlog nA until_locked) = true. Proof. vm_compute. reflexivity. Qed.
Lemma locked_sched : schedb (ncr nA) locked_then lknode = true. Proof. vm_compute. reflexivity. Qed.
Lemma locked_signs n : signs (sg (ncr nA) locked_then n).
Proof.
  apply sg_signs. unfold locked_then, through. simpl app.
  repeat (apply Forall_cons; split; [intros e [= <-]; intros z; by eexists|]). by apply Forall_nil.
Qed.
Definition locked_now (n : node bytes) (g : list (nlog bytes)) : bool :=
  match g with
  | NState _ _ s o _ :: [] =>
      s_power s && (s_height s =? 1) &&
      existsb (fun a => match a with ACheck h r x _ => (h =? 1) && (r =? 1) && bool_decide (x = hsh) | _ => false end) o &&
      bool_decide (locked 1 1 0 hsh (nd_smr n)) && match s_blocks s !! hsh with Some _ => true | None => false end &&
      match vc_get_qc_by_id (s_votes s) 1 0 Prevote with Ok q => bool_decide (av_hash q = hsh) | _ => false end
  | _ => false
  end.
Lemma locked_from (n : node bytes) g : locked_now n g = true ->
  exists e inp s o r, g = [NState e inp s o r] /\ checks o 1 1 hsh /\ s_height s = 1 /\ s_power s = true /\
    is_Some (s_blocks s !! hsh) /\ (exists q, vc_get_qc_by_id (s_votes s) 1 0 Prevote = Ok q /\ av_hash q = hsh) /\ locked 1 1 0 hsh (nd_smr n).
Proof.
  unfold locked_now. destruct g as [|[| |e i s o r| | | | | |] [|g0 g]]; try done.
  rewrite !andb_true_iff, !bool_decide_eq_true, !N.eqb_eq. intros (((((H1 & H2) & (a & Ha & Hc)%existsb_exists) & H4) & H5) & H6).
  do 5 eexists. split; [reflexivity|]. split; [|split; [exact H2|split; [exact H1|split; [|split; [|exact H4]]]]].
  - apply elem_of_list_In in Ha. destruct a; try done. rewrite !andb_true_iff, !N.eqb_eq, bool_decide_eq_true in Hc. destruct Hc as ((-> & ->) & ->). by eexists.
  - destruct (s_blocks s !! hsh) as [c|]; [by exists c|done].
  - destruct (vc_get_qc_by_id (s_votes s) 1 0 Prevote) as [q| |]; try done. exists q. split; [done|]. by apply bool_decide_eq_true in H6.
Qed.
Lemma locked_now_ok : locked_now (sx (ncr nA) locked_then lknode 0) (sg (ncr nA) locked_then lknode 0) = true.
Proof. vm_compute. reflexivity. Qed.
Lemma lknode_runs : ndrun nA (ndlog nA until_locked) lknode.
Proof. exact (ndok_run _ _ until_locked_ok). Qed.
Example locking_execution :
  let x := sx (ncr nA) locked_then lknode in let lab := sl locked_then in let lg := sg (ncr nA) locked_then lknode in
  execution nlc ntenc ntdec true (ncr nA) (nboot nA None) None x lab lg /\ fair x lab lg /\ boots ntdec true (nboot nA None) None /\ signs lg /\ hsh <> [] /\
  exists e inp s o r, lg 0%nat = [NState e inp s o r] /\ checks o 1 1 hsh /\ s_height s = 1 /\ s_power s = true /\ is_Some (s_blocks s !! hsh) /\
    (exists q, vc_get_qc_by_id (s_votes s) 1 0 Prevote = Ok q /\ av_hash q = hsh) /\ locked 1 1 0 hsh (nd_smr (x 0%nat)).
Proof.
  cbv zeta. pose proof lknode_runs as Hr. pose proof until_locked_range as Hl. pose proof locked_sched as Hs. pose proof locked_now_ok as Hd.
  unfold ndrun in Hr. generalize dependent (ndlog nA until_locked). generalize dependent lknode. intros n Hs Hd log Hr Hl.
  destruct (sched_execution _ _ _ _ _ _ Hr Hl Hs) as [He Hf]. split; [exact He|]. split; [exact Hf|]. split; [reflexivity|]. split; [apply locked_signs|].
  split; [discriminate|]. exact (locked_from _ _ Hd).
Qed.
(** What the theorem promises is what happens: A prevotes the block it is locked on. *)
Example locking_votes :
  omap vote_of (actions (all_logs (ncr nA) locked_then lknode)) = [mkVote 1 1 Prevote hsh].
Proof. vm_compute. reflexivity. Qed.
