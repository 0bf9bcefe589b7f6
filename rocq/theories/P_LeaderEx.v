(** * P_LeaderEx: instances that meet the hypotheses of P_Leader, and the one start for which votes
    go nowhere (C58). *)
From Verif Require Export P_Leader P_CauseEx.
Set Default Proof Using "Type".

(** An instance that starts at height 1 and finds no record: [wal_lost]. *)
Definition lboot : boot bytes := mkBoot nA 1 3000 nvals (nenv nA true) (Some None).
Definition lexec (ls : list (label bytes)) : option (node bytes * list (nlog bytes)) :=
  run_labels nlc ntenc (ncr nA) ls (nstart nlc ntdec true lboot None).
(** It takes the proposal of B, the leader of height 1, round 0, and votes for it. *)
Definition lost_schedule : list (label bytes) :=
  let e := nenv nA true in [LSmr] ++ through nA (MProposal (nprop nB 1 0 blk None)) ++ [LSmr; LArm; LEvent e].
Definition llogs ls : list (nlog bytes) := match lexec ls with Some (_, l) => l | None => [] end.
Definition lnodes ls : node bytes := match lexec ls with Some (n, _) => n | None => (nstart nlc ntdec true lboot None).1 end.
Definition lok ls : bool := match lexec ls with Some _ => true | None => false end.
Lemma lok_run ls : lok ls = true -> noderun nlc ntenc ntdec true (ncr nA) lboot None (llogs ls) (lnodes ls).
Proof.
  unfold lok, llogs, lnodes, lexec. destruct (run_labels _ _ _ _ _) as [[n l]|] eqn:E; [|done]. intros _. by eapply run_labels_run.
Qed.
Definition llog : list (nlog bytes) := llogs lost_schedule.
Definition lnode : node bytes := lnodes lost_schedule.
Lemma llog_ok : lok lost_schedule = true.
Proof. vm_compute. reflexivity. Qed.
Lemma llog_runs : noderun nlc ntenc ntdec true (ncr nA) lboot None llog lnode.
Proof. exact (lok_run lost_schedule llog_ok). Qed.
Lemma llog_range : in_rangeb llog = true.
Proof. vm_compute. reflexivity. Qed.
(** A vote for the height and round of its event, sent to [d]. *)
Definition votes_to (h rd : N) (t : vtype) (d : bytes) (x : nlog bytes) : bool :=
  match x with
  | NState _ (IEvent ev) s o _ =>
      match vote_event ev with
      | Some (h', rd', t', _) => (h' =? h) && (rd' =? rd) && bool_decide (t' = t) && (s_height s =? h) &&
          existsb (fun a => match cast_to (s_addr s) a with Some (d', _) => bool_decide (d' = d) | None => false end) o
      | None => false
      end
  | _ => false
  end.
Lemma votes_to_of h rd t d log : existsb (votes_to h rd t d) log = true ->
  exists l1 e ev s o r l2 x a v, log = l1 ++ NState e (IEvent ev) s o r :: l2 /\ vote_event ev = Some (h, rd, t, x) /\ h = s_height s /\
    a ∈ o /\ cast_to (s_addr s) a = Some (d, v).
Proof.
  intros (x & Hx & Hf)%existsb_exists. apply elem_of_list_In, elem_of_list_split in Hx as (l1 & l2 & ->).
  destruct x as [| |e i s o r| | | | | |]; try discriminate Hf. destruct i as [|ev| |]; try discriminate Hf. unfold votes_to in Hf.
  destruct (vote_event ev) as [[[[h' rd'] t'] y]|] eqn:Ev; [|discriminate Hf].
  apply andb_true_iff in Hf as [Hf H5]. apply andb_true_iff in Hf as [Hf H4]. apply andb_true_iff in Hf as [Hf H3].
  apply andb_true_iff in Hf as [H1 H2]. apply N.eqb_eq in H1, H2, H4. apply bool_decide_eq_true in H3. subst h' rd' t'.
  apply existsb_exists in H5 as (a & Ha & Hc). apply elem_of_list_In in Ha. destruct (cast_to (s_addr s) a) as [[d' v]|] eqn:Ec; [|discriminate Hc].
  apply bool_decide_eq_true in Hc. subst d'. by exists l1, e, ev, s, o, r, l2, y, a, v.
Qed.
Lemma flog_votes : existsb (votes_to 1 0 Prevote nB) flog && existsb (votes_to 1 0 Precommit nB) flog = true.
Proof. vm_compute. reflexivity. Qed.
(** A follower that prevotes and precommits meets the hypotheses: both votes go to B, the leader. *)
Example votes_to_leader_apply :
  (exists n, ndrun nA flog n) /\ boots ntdec true (nboot nA None) None /\ smr_in_range flog /\
  forall t, exists l1 e ev s o r l2 x a v, flog = l1 ++ NState e (IEvent ev) s o r :: l2 /\ vote_event ev = Some (1, 0, t, x) /\ 1 = s_height s /\
    a ∈ o /\ cast_to (s_addr s) a = Some (nB, v).
Proof.
  pose proof flog_range as H0. pose proof flog_votes as H1. pose proof flog_runs as Hr. generalize dependent flog. intros log H0 H1 Hr.
  apply andb_true_iff in H1 as [H1 H2].
  split; [exact Hr|]. split; [reflexivity|]. split; [by apply in_rangeb_ok|]. intros [|]; by apply votes_to_of.
Qed.
Lemma llog_votes : existsb (votes_to 1 0 Prevote []) llog = true.
Proof. vm_compute. reflexivity. Qed.
Lemma leader_1_0 : get_proposer nlc (auth_update nvals) 1 0 = Ok nB.
Proof. vm_compute. reflexivity. Qed.
(** An instance that starts at a height other than 0 without a record sends its votes of the first
    round to the empty address, although that round has a leader. *)
Theorem C58_lost_record_refuted :
  exists log n, noderun nlc ntenc ntdec true (ncr nA) lboot None log n /\ boots ntdec true lboot None /\ smr_in_range log /\
    get_proposer nlc (auth_update (b_vals lboot)) 1 0 = Ok nB /\
    exists l1 e ev s o r l2 x a v, log = l1 ++ NState e (IEvent ev) s o r :: l2 /\ vote_event ev = Some (1, 0, Prevote, x) /\ 1 = s_height s /\
      a ∈ o /\ cast_to (s_addr s) a = Some ([], v).
Proof.
  exists llog, lnode. pose proof llog_range as H0. pose proof llog_votes as H1. pose proof llog_runs as Hr.
  split; [exact Hr|]. clear Hr. generalize dependent llog. intros log H0 H1.
  split; [reflexivity|]. split; [by apply in_rangeb_ok|]. split; [exact leader_1_0|]. by apply votes_to_of.
Qed.
