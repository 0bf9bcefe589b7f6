(** * P_Tight: statements for a whole instance that the state-module theorems leave open
    (C38, C40), added after mutation tests. *)
From Verif Require Export P_CauseEx P_Round.
Set Default Proof Using "Type".

(** ** The lock in the orders *)
Lemma events_carry_lock ch t m m' o r ev :
  smr_step ch t m = (m', o, r) -> ToState ev ∈ o ->
  match ev with
  | EvNewRound h rd lr lp _ _ _ => lr = l_round <$> m_lock m' /\ lp = l_hash <$> m_lock m' /\ h = m_height m'
  | EvPrevote h _ _ lr | EvPrecommit h _ _ lr | EvBrake h _ lr => lr = l_round <$> m_lock m' /\ h = m_height m'
  | _ => True
  end.
Proof.
  intros H Hin. smr_go H; out_in Hin; simpl in *; try congruence; try done.
  all: try (by destruct ml).
Qed.
(** C40: the state machine announces a round with the lock it has then, and no other; a vote or a choke is
    ordered with the round of the lock it has then. *)
Theorem C40_orders_carry_the_lock :
  forall ch t m m' o r, smr_step ch t m = (m', o, r) ->
    (forall h rd lr lp from iv cf, ToState (EvNewRound h rd lr lp from iv cf) ∈ o ->
       match m_lock m' with
       | None => lr = None /\ lp = None
       | Some l => lr = Some (l_round l) /\ lp = Some (l_hash l)
       end) /\
    (forall h rd x lr, (ToState (EvPrevote h rd x lr) ∈ o \/ ToState (EvPrecommit h rd x lr) ∈ o \/ ToState (EvBrake h rd lr) ∈ o) ->
       match m_lock m' with None => lr = None | Some l => lr = Some (l_round l) end).
Proof.
  intros ch t m m' o r H. split.
  - intros h rd lr lp from iv cf Hin. apply (events_carry_lock _ _ _ _ _ _ _ H) in Hin as (-> & -> & _). by destruct (m_lock m').
  - intros h rd x lr [Hin|[Hin|Hin]]; apply (events_carry_lock _ _ _ _ _ _ _ H) in Hin as (-> & _); by destruct (m_lock m').
Qed.

Section T.
Context {T : Type} `{EqDecision T}.
Context (lc : lcfg) (tenc : T -> bytes) (tdec : bytes -> option T) (spill : bool) (cr : crypto).
Local Notation noderun := (noderun lc tenc tdec spill cr).

(** C40 for a whole instance: a proposal is sent when the state machine has announced the round,
    and it is for the block the state machine was locked on when it did so, with the lock's round,
    or, if it was not locked, for the block of [get_block], without a lock. *)
Theorem C40_proposals_follow_the_lock :
  forall b cfg log n l1 e i s o r l2 sp,
    noderun b cfg log n -> log = l1 ++ NState e i s o r :: l2 -> ABroadcast (MProposal sp) ∈ o ->
    exists l3 t m o' r' l4 ch m', l1 = l3 ++ NSmr t m o' r' :: l4 /\ smr_step ch t m = (m', o', r') /\
      (exists rd lr lp from iv cf, ToState (EvNewRound (m_height m') rd lr lp from iv cf) ∈ o' /\ p_round (sp_prop sp) = rd) /\
      match m_lock m' with
      | None => p_lock (sp_prop sp) = None /\ e_get_block e (p_height (sp_prop sp)) = Some (p_content (sp_prop sp), p_hash (sp_prop sp))
      | Some l => p_hash (sp_prop sp) = l_hash l /\ exists q, p_lock (sp_prop sp) = Some (mkPoLC (l_round l) q) /\
          av_type q = Prevote /\ av_height q = p_height (sp_prop sp) /\ av_round q = l_round l
      end.
Proof.
  intros b cfg log n l1 e i s o r l2 sp Hr Hl Hsp.
  destruct (noderun_input _ _ _ _ _ _ _ _ _ _ _ _ _ _ _ _ Hr Hl) as (n1 & n0 & s' & Hr1 & <- & Hon & Hpop & Hre).
  pose proof (noderun_run _ _ _ _ _ _ _ _ _ Hr1) as Hrun. rewrite Hon in Hrun.
  assert (sp ∈ sent_props o) as Hin by (unfold sent_props; apply elem_of_list_omap; by exists (ABroadcast (MProposal sp))).
  destruct (C40_proposals_sent _ _ _ _ _ _ _ _ _ _ _ _ _ Hrun Hre) as [E|(h & nr & lr & lp & from & iv & cf & sp' & -> & E & E1 & E2 & _ & _ & _ & _ & Hlk)].
  { rewrite E in Hin. by apply elem_of_nil in Hin. }
  rewrite E in Hin. apply elem_of_list_singleton in Hin as <-.
  destruct (event_popped _ _ _ _ _ _ _ _ _ _ _ _ _ _ _ _ Hr Hl) as (l3 & t & m & o' & r' & l4 & El1 & Hev).
  assert (log = l3 ++ NSmr t m o' r' :: (l4 ++ NState e (IEvent (EvNewRound h nr lr lp from iv cf)) (nd_st n1) o r :: l2)) as El by (rewrite Hl, El1, <-app_assoc; done).
  destruct (noderun_smr _ _ _ _ _ _ _ _ _ _ _ _ _ _ _ Hr El) as (n3 & ch & m' & Hr3 & <- & _ & Hs).
  exists l3, t, (nd_smr n3), o', r', l4, ch, m'. split; [done|]. split; [done|].
  pose proof (events_carry_lock _ _ _ _ _ _ _ Hs Hev) as (-> & -> & ->). split; [by eauto 10|].
  destruct (m_lock m') as [l|]; simpl in Hlk.
  - destruct Hlk as (Hh & _ & q & ? & _ & ? & ? & ?). split; [by injection Hh|]. by exists q.
  - by destruct Hlk as (_ & ? & ?).
Qed.
(** C38 for a whole instance: before a certificate for a block is handed to the state machine, the
    application was asked to check the block and answered that it is good. *)
Theorem C38_checked_means_passed :
  forall b cfg log n l1 e i s o r l2 t,
    noderun b cfg log n -> log = l1 ++ NState e i s o r :: l2 -> ATrigger t ∈ o ->
    t_type t = TPrevoteQC \/ t_type t = TPrecommitQC -> t_hash t <> [] ->
    exists h rd c, NCheck h rd (t_hash t) c true ∈ l1.
Proof.
  intros b cfg log n l1 e i s o r l2 t Hr Hl Ht Hq Hne.
  assert (l1 <> []) as Hne1.
  { destruct (noderun_first _ _ _ _ _ _ _ _ _ Hr) as (o0 & r0 & tl & E). intros ->. by rewrite E in Hl. }
  destruct (noderun_split _ _ _ _ _ _ _ _ _ _ _ _ Hr Hl Hne1) as (n1 & lb & n2 & Hr1 & Hst).
  pose proof (noderun_step _ _ _ _ _ _ _ _ _ _ _ _ Hr1 Hst) as Hr2.
  destruct (trig_known _ _ _ _ _ _ _ _ _ t Hr2) as [Hp _]; [|done|].
  { rewrite actions_app. apply elem_of_app. right. unfold actions. simpl. by rewrite app_nil_r. }
  destruct (Hp Hne) as (h & rd & c & _ & Hin). exists h, rd, c. apply elem_of_app in Hin as [Hin|Hin]; [done|]. by apply elem_of_list_singleton in Hin.
Qed.
End T.
Print Assumptions C40_proposals_follow_the_lock.
Print Assumptions C38_checked_means_passed.

(** ** An instance that meets the hypotheses *)
(** C locks B's block in round 0, the others choke, and C leads round 1. *)
Definition locked_leader : list (label bytes) :=
  let e := nenv nC true in
  let ch a := through nC (MChoke (nchoke a 1 0 (UFPrecommit mock_init_qc))) in
  status_through nC (nstatus 1) ++ [LSmr; LEvent e; LArm] ++
  through nC (MProposal (nprop nB 1 0 blk None)) ++ [LSmr; LArm; LEvent e; LCheck 0 true; LResp e] ++
  through nC (MAgg pvqc) ++ [LSmr; LEvent e; LArm] ++ ch nA ++ ch nB ++ ch nD ++ [LSmr; LEvent e].
Lemma locked_leader_ok : ndok nC locked_leader = true. Proof. vm_compute. reflexivity. Qed.
Definition tlog : list (nlog bytes) := ndlog nC locked_leader.
Lemma tlog_runs : exists n, ndrun nC tlog n.
Proof. exists (ndnode nC locked_leader). exact (ndok_run _ _ locked_leader_ok). Qed.
Lemma tlog_proposal : existsb (fun x => match x with NState _ _ _ o _ => existsb (fun a => match a with ABroadcast (MProposal sp) => bool_decide (is_Some (p_lock (sp_prop sp))) | _ => false end) o | _ => false end) tlog = true.
Proof. vm_compute. reflexivity. Qed.
Lemma tlog_trigger : existsb (fun x => match x with NState _ _ _ o _ => existsb (fun a => match a with ATrigger t => bool_decide (t_type t = TPrevoteQC) && negb (bool_decide (t_hash t = [])) | _ => false end) o | _ => false end) tlog = true.
Proof. vm_compute. reflexivity. Qed.
Example tight_apply :
  (exists n, ndrun nC tlog n) /\
  (exists l1 e i s o r l2 sp, tlog = l1 ++ NState e i s o r :: l2 /\ ABroadcast (MProposal sp) ∈ o /\ is_Some (p_lock (sp_prop sp))) /\
  (exists l1 e i s o r l2 t, tlog = l1 ++ NState e i s o r :: l2 /\ ATrigger t ∈ o /\ t_type t = TPrevoteQC /\ t_hash t <> []).
Proof.
  pose proof tlog_runs as Hr. pose proof tlog_proposal as H1. pose proof tlog_trigger as H2. generalize dependent tlog. intros log Hr H1 H2.
  split; [exact Hr|]. split.
  - apply entry_of in H1 as (l1 & e & i & s & o & r & l2 & a & E & Ha & Hf). destruct a; try discriminate Hf. match goal with m : omsg bytes |- _ => destruct m end; try discriminate Hf.
    apply bool_decide_eq_true in Hf. eauto 12.
  - apply entry_of in H2 as (l1 & e & i & s & o & r & l2 & a & E & Ha & Hf). destruct a; try discriminate Hf.
    apply andb_true_iff in Hf as [Hf1 Hf2]. apply bool_decide_eq_true in Hf1. apply negb_true_iff, bool_decide_eq_false in Hf2. eauto 12.
Qed.
