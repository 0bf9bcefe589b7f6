(** * Agree: why nodes that follow the rules of LockRules agree (for C28). *)
From Verif Require Export NodeLock.
Set Default Proof Using "Type".

(** ** The argument *)
(** Validators [l]; those in [byz] may do anything; [cast a v]: the other validators' votes. *)
Section A.
Context (l : list vnode) (byz : bytes -> bool) (cast : bytes -> vote -> Prop).
(** Enough validators stand behind a vote. *)
Definition quorum_cast (v : vote) : Prop :=
  exists P : bytes -> bool, 2 * total_weight l < 3 * weight_where P l /\
    forall n, n ∈ l -> P (n_addr n) = true -> byz (n_addr n) = false -> cast (n_addr n) v.
Context (few : 3 * weight_where byz l < total_weight l).
Context (one : forall n v v', n ∈ l -> byz (n_addr n) = false -> cast (n_addr n) v -> cast (n_addr n) v' ->
  v_height v = v_height v' -> v_round v = v_round v' -> v_type v = v_type v' -> v = v').

Lemma meet v v' : quorum_cast v -> quorum_cast v' ->
  exists n, n ∈ l /\ byz (n_addr n) = false /\ cast (n_addr n) v /\ cast (n_addr n) v'.
Proof using few.
  intros (P & HP & CP) (P' & HP' & CP'). destruct (quorum_intersection l P P' byz HP HP' few) as (n & Hn & H1 & H2 & H3).
  exists n. split_and!; auto.
Qed.
Lemma same_cert v v' : quorum_cast v -> quorum_cast v' ->
  v_height v = v_height v' -> v_round v = v_round v' -> v_type v = v_type v' -> v = v'.
Proof using few one. intros H H' E1 E2 E3. destruct (meet _ _ H H') as (n & Hn & Hb & C1 & C2). by eapply one. Qed.

Definition prevotes (h r : N) (x : bytes) : Prop := quorum_cast (mkVote h r Prevote x).
Context (just : forall n v, n ∈ l -> byz (n_addr n) = false -> cast (n_addr n) v -> precommit_for v ->
  prevotes (v_height v) (v_round v) (v_hash v) \/
  exists q, v_round v = q + 1 /\ prevotes (v_height v) q (v_hash v) /\
    forall v', cast (n_addr n) v' -> v_type v' = Prevote -> v_height v' = v_height v -> v_round v' <> v_round v).
Context (kept : forall n v v', n ∈ l -> byz (n_addr n) = false -> cast (n_addr n) v -> cast (n_addr n) v' ->
  precommit_for v -> v_type v' = Prevote -> v_height v' = v_height v -> v_round v < v_round v' ->
  v_hash v' = v_hash v \/
  exists q x, prevotes (v_height v) q x /\ x <> v_hash v /\ v_round v <= q /\ q < v_round v').

(** After a block was precommitted by a quorum in a round, no other hash gets a quorum of
    prevotes in that round or a later one. *)
Lemma later_prevotes h r x : x <> [] -> quorum_cast (mkVote h r Precommit x) ->
  forall q y, r <= q -> prevotes h q y -> y = x.
Proof using few one just kept.
  intros Hx Hc q. induction (N.lt_wf_0 q) as [q _ IH]. intros y Hq Hy.
  destruct (meet _ _ Hc Hy) as (n & Hn & Hb & C1 & C2).
  assert (precommit_for (mkVote h r Precommit x)) as Hp by done.
  destruct (decide (q = r)) as [->|Hne].
  - destruct (just _ _ Hn Hb C1 Hp) as [Hg|(q & _ & _ & Hno)]; simpl in *.
    + pose proof (same_cert _ _ Hg Hy eq_refl eq_refl eq_refl) as E. by injection E.
    + by destruct (Hno _ C2).
  - destruct (kept _ _ _ Hn Hb C1 C2 Hp eq_refl eq_refl ltac:(simpl; lia)) as [E|(q' & z & Hz & Hzx & H1 & H2)]; [done|]. simpl in *.
    destruct Hzx. by apply (IH q').
Qed.
Lemma agree h r r' x y : x <> [] -> y <> [] ->
  quorum_cast (mkVote h r Precommit x) -> quorum_cast (mkVote h r' Precommit y) -> x = y.
Proof using few one just kept.
  assert (forall r r' x y, x <> [] -> y <> [] -> r < r' ->
    quorum_cast (mkVote h r Precommit x) -> quorum_cast (mkVote h r' Precommit y) -> x = y) as Hlt.
  { clear r r' x y. intros r r' x y Hx Hy Hr Hc Hc'. destruct (meet _ _ Hc' Hc') as (n & Hn & Hb & C1 & _).
    destruct (just _ _ Hn Hb C1) as [Hg|(q & E & Hg & _)]; [done| |]; simpl in *; symmetry.
    - exact (later_prevotes h r x Hx Hc r' y ltac:(lia) Hg).
    - exact (later_prevotes h r x Hx Hc q y ltac:(lia) Hg). }
  intros Hx Hy Hc Hc'. destruct (N.lt_trichotomy r r') as [H|[<-|H]]; [by eapply Hlt| |symmetry; by eapply Hlt].
  pose proof (same_cert _ _ Hc Hc' eq_refl eq_refl eq_refl) as E. by injection E.
Qed.
End A.

(** ** What an instance signs carries its name; what it builds is backed by votes *)
Section B.
Context {T : Type} `{EqDecision T}.
Context (lc : lcfg) (tenc : T -> bytes) (tdec : bytes -> option T) (spill : bool).
Local Notation run := (run lc tenc tdec spill).
Local Notation react := (react lc tenc).

Lemma own_react ops e i s s' o r v :
  s_votes s = vops ops -> react e i s = (s', o, r) -> AOwnVote v ∈ o -> sv_voter v = s_addr s.
Proof.
  clear tdec spill. intros Ev Hr Hin.
  assert (forall (o : list (action T)), Forall (fun a => vote_of a = None) o -> AOwnVote v ∉ o) as Hno.
  { intros o1 Hf Hx. rewrite Forall_forall in Hf. by apply Hf in Hx. }
  assert ((forall ev, i = IEvent ev -> vote_event ev = None) -> sv_voter v = s_addr s) as Hq.
  { intros Hi. apply (novote_react _ _ e i Hi) in Hr. by apply Hno in Hr. }
  destruct i as [m|ev|rs|m]; try (apply Hq; by intros).
  assert (forall t hash lr s' o r, handle_vote_event e hash t lr s = (s', o, r) -> AOwnVote v ∈ o -> sv_voter v = s_addr s) as Hv.
  { clear Hr Hin. intros t hash lr s1 o1 r1 Hx Hin.
    apply vote_event_inv in Hx as [(-> & -> & _)|(sig & lk & _ & _ & [(_ & -> & -> & _)|(_ & o2 & Hx)])].
    - by apply elem_of_nil in Hin.
    - by apply elem_of_list_singleton in Hin.
    - destruct (s_leader s); destruct Hx as [-> Hx]; apply novote_vp in Hx; apply elem_of_cons in Hin as [?|[Hin|Hin]%elem_of_cons]; try done.
      + by injection Hin as ->.
      + by apply Hno in Hx.
      + by apply Hno in Hx. }
  destruct ev as [h rd lr lp from iv cf|h rd hash lr|h rd hash lr|hash|h rd lr|]; try (apply Hq; by intros ? [= <-]).
  all: eapply react_core in Hr; [|reflexivity]; destruct Hr as [(_ & _ & -> & _)|(_ & r' & Hx & _)]; [by apply elem_of_nil in Hin|]; by eapply Hv.
Qed.
Lemma start_novote e w s s' o r : on_start lc tdec spill e w s = (s', o, r) -> Forall (fun a => vote_of (T:=T) a = None) o.
Proof.
  clear tenc. intros Hs. unfold on_start in Hs. apply logged_inv in Hs as (r' & Hs & _).
  apply start_inv in Hs as [(_ & [->|(t & -> & _)])|(w' & bs & _ & _ & _ & [[_ ->]|(p & _ & Ht)])]; try by repeat constructor.
  unfold start_tail in Ht. destruct (bool_decide _).
  - destruct (wi_lock w') as [l'|]; [by apply novote_commit in Ht|]. unfold fail in Ht. simplify_eq. constructor.
  - assert (keeps (novoteR (T:=T)) (bind (if bool_decide (wi_step w' = SBrake) then handle_brake e (wi_round w') (wl_round <$> wi_lock w') else ret tt)
      (fun _ => get (fun s => trigger_smr e (mkTrigger TWalInfo SrcState [] None (s_round s) (s_height s) (Some (into_smr_base w'))))))) as Hk.
    { destruct (bool_decide _); keeps_go (novote_comp (T:=T)); try (by repeat constructor). }
    by apply Hk in Ht.
Qed.
Lemma run_own b is o s al v : run b is o s al -> AOwnVote v ∈ o -> sv_voter v = b_addr b.
Proof.
  induction 1 as [s o r Hs|is o s e i s' o' r Hr IH Hs]; intros Hin.
  - apply start_novote in Hs. rewrite Forall_forall in Hs. by apply Hs in Hin.
  - apply elem_of_app in Hin as [Hin|Hin]; [auto|].
    apply run_run_inv in Hr as [(ops & Ev & _) _ _ _ _ Had]. rewrite (own_react _ _ _ _ _ _ _ _ Ev Hs Hin). done.
Qed.
Lemma supplied_app b is is' o o' l : supplied b is o l -> supplied (T:=T) b (is ++ is') (o ++ o') l.
Proof.
  intros [?|[(stt & Hr & ?)|(e & h & c & stt & He & Hc & ? & ?)]]; [by left|right; left|right; right].
  - exists stt. split; [by apply received_app|done].
  - exists e, h, c, stt. split_and!; try done; [|set_solver]. destruct He as [?|[i Hi]]; [by left|]. right. exists i. set_solver.
Qed.
(** A certificate an instance broadcasts is backed by votes it received or cast. *)
Lemma run_built b is o s al q :
  run b is o s al -> ABroadcast (MAgg q) ∈ o ->
  exists l vs, supplied b is o l /\
    (forall v, v ∈ vs -> vote_known is o v /\ sv_vote v = to_vote q /\ sv_voter v ∈ n_addr <$> l) /\
    (distinct l -> total_weight l < 2 ^ 32 -> 3 * weight_of (sv_voter <$> vs) l > 2 * total_weight l).
Proof.
  intros Hr Hin. induction Hr as [s o r Hs|is o s e i s' o' r Hr IH Hs].
  - exfalso. eapply (C39_none_at_start lc tenc tdec spill b); [|exact Hin]. econstructor. exact Hs.
  - apply elem_of_app in Hin as [Hin|Hin].
    + destruct (IH Hin) as (l & vs & H1 & H2 & H3). exists l, vs. split_and!; [by apply supplied_app| |done].
      intros v Hv. destruct (H2 v Hv) as (A & B & C). split_and!; try done. by apply (vsrc_run_app tdec spill b is [(e, i)] o o' (VVote v)).
    + destruct (C39_certificate_backed_by_votes lc tenc tdec spill b is o s e i s' o' r q Hr Hs Hin) as (_ & _ & _ & l & vs & _ & H1 & H2 & _ & _ & H3).
      exists l, vs. split_and!; [by apply supplied_app|done|]. intros Hd Ht. exact (proj1 (H3 Hd Ht)).
Qed.
End B.
