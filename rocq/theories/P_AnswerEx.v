(** * P_AnswerEx: an endless fair execution that meets the hypotheses of P_Answer (C56, C57). *)
From Verif Require Export P_Answer P_DecideEx.
Set Default Proof Using "Type".

(** A follows B through height 1, as in [P_DecideEx]: the proposal, the check, the prevote
    certificate, the precommit certificate. *)
Definition until_proposed : list (label bytes) :=
  let e := nenv nA true in
  status_through nA (nstatus 1) ++ [LSmr; LEvent e; LArm] ++ [LSend (MProposal (nprop nB 1 0 blk None)); LRaw e; LVerify 0].
Definition proposed_then : list (label bytes) :=
  let e := nenv nA true in
  [LMsg e; LSmr; LArm; LEvent e; LExpire 0; LFire; LSmr; LCheck 0 true; LResp e] ++
  through nA (MAgg pvqc) ++ [LSmr; LEvent e; LArm] ++ [LSend (MAgg pcqc); LRaw e; LVerify 0] ++ decided_then.
Definition pnode : node bytes := ndnode nA until_proposed.
Lemma until_proposed_ok : ndok nA until_proposed = true.
Proof. vm_compute. reflexivity. Qed.
Lemma until_proposed_range : in_rangeb (ndlog nA until_proposed) = true.
Proof. vm_compute. reflexivity. Qed.
Lemma proposed_sched : schedb (ncr nA) proposed_then pnode = true.
Proof. vm_compute. reflexivity. Qed.

(** Signing never fails. *)
Definition label_env (l : label bytes) : option (env bytes) :=
  match l with LRaw e | LEvent e | LResp e | LMsg e => Some e | _ => None end.
Lemma sg_signs cr ls n : Forall (fun l => forall e, label_env l = Some e -> forall z, is_Some (cr_sign (e_crypto e) z)) ls -> signs (sg cr ls n).
Proof.
  intros Hl j. revert n j. induction ls as [|l ls IH]; intros n j e inp s o r Hin; [by apply elem_of_nil in Hin|]. apply Forall_cons in Hl as [H1 H2].
  simpl in Hin. destruct (nstep nlc ntenc cr l n) as [[n' g]|] eqn:E; [|by apply elem_of_nil in Hin]. destruct j as [|j]; [|by eapply (IH H2 n' j)].
  clear IH H2. destruct l; simpl in E; try (injection E as <- <-; by apply elem_of_list_singleton in Hin);
    repeat (case_match; try done); unfold state_move, smr_move in *;
    repeat match type of E with context [react ?a ?b ?c ?d ?e] => destruct (react a b c d e) as [[??]?] | context [smr_step ?a ?b ?c] => destruct (smr_step a b c) as [[??]?] end;
    injection E as <- <-; apply elem_of_list_singleton in Hin; try discriminate Hin; injection Hin as -> -> -> -> ->; by apply (H1 _ eq_refl).
Qed.
Lemma proposed_signs n : signs (sg (ncr nA) proposed_then n).
Proof.
  apply sg_signs. unfold proposed_then, decided_then, through. simpl app.
  repeat (apply Forall_cons; split; [intros e [= <-]; intros z; by eexists|]). apply Forall_nil. done.
Qed.

Definition proposed_now (n : node bytes) (g : list (nlog bytes)) : bool :=
  match g with
  | NState _ _ s o _ :: [] =>
      s_power s && (s_height s =? 1) &&
      existsb (fun a => match a with ACheck h r x _ => (h =? 1) && (r =? 0) && bool_decide (x = hsh) | _ => false end) o &&
      bool_decide (waiting 1 0 (nd_smr n))
  | _ => false
  end.
Lemma proposed_from (n : node bytes) g : proposed_now n g = true ->
  exists e inp s o r, g = [NState e inp s o r] /\ checks o 1 0 hsh /\ s_height s = 1 /\ s_power s = true /\ waiting 1 0 (nd_smr n).
Proof.
  unfold proposed_now. destruct g as [|[| |e i s o r| | | | | |] [|g0 g]]; try done.
  rewrite !andb_true_iff, !bool_decide_eq_true, !N.eqb_eq. intros (((H1 & H2) & (a & Ha & Hc)%existsb_exists) & H4).
  do 5 eexists. split; [reflexivity|]. split; [|split; [exact H2|split; [exact H1|exact H4]]].
  apply elem_of_list_In in Ha. destruct a; try done. rewrite !andb_true_iff, !N.eqb_eq, bool_decide_eq_true in Hc. destruct Hc as ((-> & ->) & ->). by eexists.
Qed.
Lemma proposed_now_ok : proposed_now (sx (ncr nA) proposed_then pnode 0) (sg (ncr nA) proposed_then pnode 0) = true.
Proof. vm_compute. reflexivity. Qed.

Definition polka_now (n : node bytes) (g : list (nlog bytes)) : bool :=
  match g with
  | NState _ (IMsg (MAgg q)) s _ _ :: [] =>
      bool_decide (q = pvqc) && s_power s && (s_height s =? 1) && (s_round s =? 0) && bool_decide (s_full s !! hsh = Some true) &&
      match s_blocks s !! hsh with Some _ => true | None => false end && bool_decide (undecided 1 0 (nd_smr n))
  | _ => false
  end.
Lemma polka_from (n : node bytes) g : polka_now n g = true ->
  exists e inp s o r, g = [NState e inp s o r] /\ polka inp s o 0 hsh /\ is_Some (s_blocks s !! hsh) /\ s_height s = 1 /\ s_power s = true /\ undecided 1 0 (nd_smr n).
Proof.
  unfold polka_now. destruct g as [|[| |e i s o r| | | | | |] [|g0 g]]; try done; [|by destruct i as [| | |]; try done; destruct m]. destruct i; try done; destruct m; try done.
  rewrite !andb_true_iff, !bool_decide_eq_true, !N.eqb_eq. intros ((((((-> & H1) & H2) & H3) & H4) & H5) & H6).
  do 5 eexists. split; [reflexivity|]. split; [|split; [|split; [exact H2|split; [exact H1|exact H6]]]].
  2: { destruct (s_blocks s !! hsh) as [c|]; [by exists c|done]. }
  left. exists pvqc. split; [|split; [reflexivity|split; [reflexivity|split; [reflexivity|exact H4]]]]. left. split; [done|]. rewrite H2, H3. done.
Qed.
Lemma polka_now_ok : polka_now (sx (ncr nA) proposed_then pnode 12) (sg (ncr nA) proposed_then pnode 12) = true.
Proof. vm_compute. reflexivity. Qed.
Lemma pnode_runs : ndrun nA (ndlog nA until_proposed) pnode.
Proof. exact (ndok_run _ _ until_proposed_ok). Qed.
Example answering_execution :
  let x := sx (ncr nA) proposed_then pnode in let lab := sl proposed_then in let lg := sg (ncr nA) proposed_then pnode in
  execution nlc ntenc ntdec true (ncr nA) (nboot nA None) None x lab lg /\ fair x lab lg /\ boots ntdec true (nboot nA None) None /\ signs lg /\ hsh <> [] /\
  (exists e inp s o r, lg 0%nat = [NState e inp s o r] /\ checks o 1 0 hsh /\ s_height s = 1 /\ s_power s = true /\ waiting 1 0 (nd_smr (x 0%nat))) /\
  (exists e inp s o r, lg 12%nat = [NState e inp s o r] /\ polka inp s o 0 hsh /\ is_Some (s_blocks s !! hsh) /\ s_height s = 1 /\ s_power s = true /\
     undecided 1 0 (nd_smr (x 12%nat))).
Proof.
  cbv zeta. pose proof pnode_runs as Hr. pose proof until_proposed_range as Hl. pose proof proposed_sched as Hs. pose proof proposed_now_ok as Hd. pose proof polka_now_ok as Hk.
  unfold ndrun in Hr. generalize dependent (ndlog nA until_proposed). generalize dependent pnode. intros n Hs Hd Hk log Hr Hl.
  destruct (sched_execution _ _ _ _ _ _ Hr Hl Hs) as [He Hf]. split; [exact He|]. split; [exact Hf|]. split; [reflexivity|]. split; [apply proposed_signs|].
  split; [discriminate|]. split; [exact (proposed_from _ _ Hd)|exact (polka_from _ _ Hk)].
Qed.
(** What the theorems promise is what happens: A prevotes and precommits B's block. *)
Example answering_votes :
  omap vote_of (actions (all_logs (ncr nA) proposed_then pnode)) = [mkVote 1 0 Prevote hsh; mkVote 1 0 Precommit hsh].
Proof. vm_compute. reflexivity. Qed.
