(** * P_WaitingEx: an endless fair execution that meets the hypotheses of P_Waiting (C68). *)
From Verif Require Export P_LockedEx P_Waiting.
Set Default Proof Using "Type".

(** A is locked on B's block since round 0, as in [P_LockedEx], and no proposal comes in round 1. *)
Definition until_round : list (label bytes) :=
  let e := nenv nA true in
  until_proposed ++ [LMsg e; LSmr; LArm; LEvent e; LExpire 0; LFire; LSmr; LCheck 0 true; LResp e] ++
  through nA (MAgg pvqc) ++ [LSmr; LEvent e; LArm] ++ through nA (MAgg nilqc) ++ [LSmr; LEvent e; LArm].
Definition round_then : list (label bytes) :=
  let e := nenv nA true in
  [LExpire 2; LFire; LSmr; LArm; LEvent e] ++ through nA (MAgg pcqc1) ++ [LSmr; LArm; LEvent no_answer] ++
  [LExpire 0; LFire; LExpire 0; LFire; LExpire 0; LFire; LSmr; LSmr; LSmr].
Definition wnode : node bytes := ndnode nA until_round.
Lemma until_round_ok : ndok nA until_round = true. Proof. vm_compute. reflexivity. Qed.
Lemma until_round_range : in_rangeb (ndlog nA until_round) = true. Proof. vm_compute. reflexivity. Qed.
Lemma round_sched : schedb (ncr nA) round_then wnode = true. Proof. vm_compute. reflexivity. Qed.
Lemma round_signs n : P_Answer.signs (sg (ncr nA) round_then n).
Proof.
  apply sg_signs. unfold round_then, through. simpl app.
  repeat (apply Forall_cons; split; [intros e [= <-]; intros z; by eexists|]). by apply Forall_nil.
Qed.
Lemma round_now : bool_decide (locked 1 1 0 hsh (nd_smr (sx (ncr nA) round_then wnode 0))) = true. Proof. vm_compute. reflexivity. Qed.
Lemma wnode_runs : ndrun nA (ndlog nA until_round) wnode.
Proof. exact (ndok_run _ _ until_round_ok). Qed.
Example waiting_execution :
  let x := sx (ncr nA) round_then wnode in let lab := sl round_then in let lg := sg (ncr nA) round_then wnode in
  execution nlc ntenc ntdec true (ncr nA) (nboot nA None) None x lab lg /\ fair x lab lg /\ boots ntdec true (nboot nA None) None /\ P_Answer.signs lg /\
  locked 1 1 0 hsh (nd_smr (x 0%nat)) /\ proposing 1 1 (nd_smr (x 0%nat)).
Proof.
  cbv zeta. pose proof wnode_runs as Hr. pose proof until_round_range as Hl. pose proof round_sched as Hs. pose proof round_now as Hd.
  unfold ndrun in Hr. generalize dependent (ndlog nA until_round). generalize dependent wnode. intros n Hs Hd log Hr Hl.
  destruct (sched_execution _ _ _ _ _ _ Hr Hl Hs) as [He Hf]. apply bool_decide_eq_true in Hd. pose proof Hd as (D1 & D2 & D3 & _).
  split; [exact He|]. split; [exact Hf|]. split; [reflexivity|]. split; [apply round_signs|]. split; [exact Hd|]. split_and!; assumption.
Qed.
(** What the theorems promise is what happens: when the propose timeout rings, A prevotes the block
    it is locked on. *)
Example waiting_votes :
  omap vote_of (actions (all_logs (ncr nA) round_then wnode)) = [mkVote 1 1 Prevote hsh].
Proof. vm_compute. reflexivity. Qed.
