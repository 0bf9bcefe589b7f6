(** * P_CauseEx: an instance that meets the hypotheses of P_Cause. *)
From Verif Require Export P_Cause P_Votes NodeEx.
Set Default Proof Using "Type".

Lemma entry_of {T} (f : action T -> bool) (log : list (nlog T)) :
  existsb (fun x => match x with NState _ _ _ o _ => existsb f o | _ => false end) log = true ->
  exists l1 e i s o r l2 a, log = l1 ++ NState e i s o r :: l2 /\ a ∈ o /\ f a = true.
Proof.
  intros (x & Hx & Hf)%existsb_exists. apply elem_of_list_In, elem_of_list_split in Hx as (l1 & l2 & ->).
  destruct x as [| |e i s o r| | | | | |]; try done. apply existsb_exists in Hf as (a & Ha & Hf). apply elem_of_list_In in Ha. by exists l1, e, i, s, o, r, l2, a.
Qed.
Lemma smr_entry_of {T} (f : smr -> bool) (log : list (nlog T)) :
  existsb (fun x => match x with NSmr _ m _ _ => f m | _ => false end) log = true ->
  exists l1 t m o r l2, log = l1 ++ NSmr t m o r :: l2 /\ f m = true.
Proof.
  intros (x & Hx & Hf)%existsb_exists. apply elem_of_list_In, elem_of_list_split in Hx as (l1 & l2 & ->).
  destruct x as [| | |t m o r| | | | |]; try done. by exists l1, t, m, o, r, l2.
Qed.
Definition is_vote {T} (t : vtype) (a : action T) : bool :=
  match vote_of a with Some v => bool_decide (v_type v = t) && negb (bool_decide (v_hash v = [])) | None => false end.
Definition is_commit {T} (a : action T) : bool := match a with ACommit _ _ => true | _ => false end.
Definition flog : list (nlog bytes) := ndlog nA follower_schedule.
Lemma flog_range : in_rangeb flog = true.
Proof. vm_compute. reflexivity. Qed.
Lemma flog_prevote : existsb (fun x => match x with NState _ _ _ o _ => existsb (is_vote Prevote) o | _ => false end) flog = true.
Proof. vm_compute. reflexivity. Qed.
Lemma flog_precommit : existsb (fun x => match x with NState _ _ _ o _ => existsb (is_vote Precommit) o | _ => false end) flog = true.
Proof. vm_compute. reflexivity. Qed.
Lemma flog_commit : existsb (fun x => match x with NState _ _ _ o _ => existsb is_commit o | _ => false end) flog = true.
Proof. vm_compute. reflexivity. Qed.
Lemma flog_lock : existsb (fun x => match x with NSmr _ m _ _ => match m_lock m with Some _ => true | None => false end | _ => false end) flog = true.
Proof. vm_compute. reflexivity. Qed.
Lemma flog_runs : exists n, ndrun nA flog n.
Proof. exists (ndnode nA follower_schedule). exact follower_schedule_runs. Qed.
(** A follower that prevotes, locks, precommits and commits meets the hypotheses of the theorems (C52). *)
Example causes_apply :
  let log := flog in
  (exists n, ndrun nA log n) /\ boots ntdec true (nboot nA None) None /\ smr_in_range log /\
  (exists l1 e i s o r l2 a v, log = l1 ++ NState e i s o r :: l2 /\ a ∈ o /\ vote_of a = Some v /\ v_type v = Prevote /\ v_hash v <> []) /\
  (exists l1 e i s o r l2 a v, log = l1 ++ NState e i s o r :: l2 /\ a ∈ o /\ vote_of a = Some v /\ v_type v = Precommit /\ v_hash v <> []) /\
  (exists l1 e i s o r l2 h c, log = l1 ++ NState e i s o r :: l2 /\ ACommit h c ∈ o) /\
  (exists l1 t m o r l2 l, log = l1 ++ NSmr t m o r :: l2 /\ m_lock m = Some l).
Proof.
  pose proof flog_range as H0. pose proof flog_prevote as H1. pose proof flog_precommit as H2. pose proof flog_commit as H3. pose proof flog_lock as H4.
  pose proof flog_runs as Hr. cbv zeta. generalize dependent flog. intros log H0 H1 H2 H3 H4 Hr.
  assert (forall t, existsb (fun x => match x with NState _ _ _ o _ => existsb (is_vote t) o | _ => false end) log = true ->
    exists l1 e i s o r l2 a v, log = l1 ++ NState e i s o r :: l2 /\ a ∈ o /\ vote_of a = Some v /\ v_type v = t /\ v_hash v <> []) as Hv.
  { intros t (l1 & e & i & s & o & r & l2 & a & E & Ha & Hf)%entry_of. unfold is_vote in Hf. destruct (vote_of a) as [v|] eqn:Ev; [|done].
    apply andb_true_iff in Hf as [Hf1 Hf2]. apply bool_decide_eq_true in Hf1. apply negb_true_iff, bool_decide_eq_false in Hf2.
    by exists l1, e, i, s, o, r, l2, a, v. }
  split; [exact Hr|]. split; [reflexivity|]. split; [by apply in_rangeb_ok|]. split; [by apply Hv|]. split; [by apply Hv|]. split.
  - apply entry_of in H3 as (l1 & e & i & s & o & r & l2 & a & E & Ha & Hf). destruct a; try discriminate Hf. eauto 12.
  - apply smr_entry_of in H4 as (l1 & t & m & o & r & l2 & E & Hf). destruct (m_lock m) as [l|] eqn:El; [|discriminate Hf]. eauto 12.
Qed.
