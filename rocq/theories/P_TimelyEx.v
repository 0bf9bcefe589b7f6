(** * P_TimelyEx: a history in which the timeouts of all steps are treated (C69). *)
From Verif Require Export P_Timely P_AnswerEx.
Set Default Proof Using "Type".

(** A is told of height 1 and hears nothing more; the timeouts of its four steps run out. *)
Definition alone : list (label bytes) :=
  let ring := [LExpire 0; LFire; LSmr; LArm] in
  status_through nA (nstatus 1) ++ [LSmr; LEvent (nenv nA true); LArm] ++ ring ++ ring ++ ring ++ ring.
Definition rung (g : nlog bytes) : option (ttype * N * N * N) :=
  match g with NSmr t m _ _ => match t_src t with SrcTimer => Some (t_type t, t_height t, t_round t, step_number (m_step m)) | _ => None end | _ => None end.
Definition is_choke_timeout (g : nlog bytes) : bool :=
  match g with NSmr t m _ _ => bool_decide (t_src t = SrcTimer) && bool_decide (t_type t = TBrakeTimeout) && (t_height t =? 1) | _ => false end.
Lemma alone_ok : ndok nA alone = true. Proof. vm_compute. reflexivity. Qed.
Lemma alone_range : in_rangeb (ndlog nA alone) = true. Proof. vm_compute. reflexivity. Qed.
Lemma alone_on : nd_on (ndnode nA alone) = true. Proof. vm_compute. reflexivity. Qed.
Lemma alone_choke : existsb is_choke_timeout (ndlog nA alone) = true. Proof. vm_compute. reflexivity. Qed.
(** The timeouts come in order, each in the step it belongs to: A is in the step already. *)
Example C69_example_timeouts :
  omap rung (ndlog nA alone) = [(TProposal, 1, 0, 0); (TPrevoteQC, 1, 0, 1); (TPrecommitQC, 1, 0, 2); (TBrakeTimeout, 1, 0, 3)].
Proof. vm_compute. reflexivity. Qed.
Lemma alone_runs : ndrun nA (ndlog nA alone) (ndnode nA alone).
Proof. exact (ndok_run _ _ alone_ok). Qed.
Lemma choke_timeout_in log : existsb is_choke_timeout log = true ->
  exists t m o r, NSmr t m o r ∈ log /\ t_src t = SrcTimer /\ t_type t = TBrakeTimeout /\ 0 < t_height t.
Proof.
  intros (g & Hg & Hb)%existsb_exists. apply elem_of_list_In in Hg. destruct g as [| | |t m o r| | | | |]; try done. simpl in Hb.
  rewrite !andb_true_iff, !bool_decide_eq_true, N.eqb_eq in Hb. destruct Hb as ((H1 & H2) & H3).
  exists t, m, o, r. split; [done|]. split; [done|]. split; [done|]. lia.
Qed.
Example C69_example_hypotheses :
  exists log n t m o r, noderun nlc ntenc ntdec true (ncr nA) (nboot nA None) None log n /\ boots ntdec true (nboot nA None) None /\ smr_in_range log /\
    nd_on n = true /\ NSmr t m o r ∈ log /\ t_src t = SrcTimer /\ t_type t = TBrakeTimeout /\ 0 < t_height t.
Proof.
  pose proof alone_runs as Hr. pose proof alone_range as Hl. pose proof alone_on as Ho. pose proof alone_choke as Hc.
  unfold ndrun in Hr. generalize dependent (ndlog nA alone). generalize dependent (ndnode nA alone). intros n Ho log Hr Hl Hc.
  destruct (choke_timeout_in _ Hc) as (t & m & o & r & H). exists log, n, t, m, o, r. split; [exact Hr|]. split; [reflexivity|].
  split; [by apply in_rangeb_ok|]. split; [exact Ho|]. exact H.
Qed.
