(** * SmrSteps: what a single trigger can do to votes, locks, commits and timeouts. *)
From Verif Require Export SmrProofs Timer.

(** *** Prevotes *)
Lemma step_prevote_locked ch m t m' o r h rd x lr l :
  smr_step ch t m = (m', o, r) -> lock_inv m -> m_lock m = Some l ->
  ToState (EvPrevote h rd x lr) ∈ o ->
  x = l_hash l \/
  (t_type t = TProposal /\ t_src t = SrcState /\ x = t_hash t /\
   exists lr', t_lock_round t = Some lr' /\ l_round l < lr').
Proof.
  intros H Hi Hl Ho. unfold lock_inv in Hi. rewrite Hl in Hi.
  smr_go H; out_in Ho; simpl in *; try (left; tauto); try congruence.
  all: right; repeat split; eexists; split; [reflexivity|done].
Qed.

Lemma step_prevote_unlocked ch m t m' o r h rd x lr :
  smr_step ch t m = (m', o, r) -> m_lock m = None ->
  ToState (EvPrevote h rd x lr) ∈ o ->
  t_type t = TProposal /\ t_height t = h /\ t_round t = rd /\
  ((t_src t = SrcState /\ x = t_hash t /\ x <> []) \/ (t_src t = SrcTimer /\ x = [])).
Proof.
  intros H Hl Ho.
  smr_go H; out_in Ho; simpl in *; try congruence;
  (split; [done|]); (split; [done|]); (split; [done|]); auto; try (left; done).
Qed.

(** Every prevote is for the current height and round and comes from the propose step. *)
Lemma step_prevote_current ch m t m' o r h rd x lr :
  smr_step ch t m = (m', o, r) -> ToState (EvPrevote h rd x lr) ∈ o ->
  h = m_height m /\ rd = m_round m /\ m_step m = SPropose /\ t_type t = TProposal /\
  t_height t = h /\ t_round t = rd.
Proof.
  intros H Ho. smr_go H; out_in Ho; simpl in *;
  repeat split; try congruence; destruct ms; simpl in *; try lia; done.
Qed.

Lemma step_fork_error ch m hash l h rd wal :
  lock_inv m -> m_step m = SPropose -> m_lock m = Some l -> hash <> [] -> hash <> l_hash l ->
  h = m_height m -> rd = m_round m ->
  smr_step ch (mkTrigger TProposal SrcState hash (Some (l_round l)) rd h wal) m =
    (m, [], Err ECorrectness).
Proof.
  intros Hi Hs Hl Hh Hf -> ->. unfold lock_inv in Hi. rewrite Hl in Hi. destruct Hi as [Hi _].
  destruct m as [mh mr ms mhash ml]; simpl in *; subst. destruct l as [lrd lh]; simpl in *.
  match goal with |- ?x = _ => destruct x as [[m' o] r] eqn:H end.
  destruct hash; [done|].
  smr_unfold; unfold remove_polc, set_m_lock, set_proposal, goto_step in *; simpl in *;
  smr_cases; simplify_eq; bsimp; simpl in *; destruct_or?; bsimp; try congruence; try lia.
Qed.

(** *** Locks *)
Lemma step_lock_set ch m t m' o r l :
  smr_step ch t m = (m', o, r) -> m_lock m' = Some l -> m_lock m <> Some l ->
  (t_type t = TPrevoteQC /\ t_src t = SrcState /\ t_height t = m_height m /\
   t_hash t = l_hash l /\ l_hash l <> [] /\ t_round t = l_round l /\ m_round m <= l_round l) \/
  (t_type t = TWalInfo /\ exists i, t_wal t = Some i /\ sb_polc i = Some l).
Proof.
  intros H H1 H2.
  smr_go H; try congruence; simplify_eq; simpl in *.
  all: try (left; repeat split; try done; first [lia|congruence]).
  all: right; split; [done|]; eexists; split; [reflexivity|]; congruence.
Qed.

Lemma step_lock_lost ch m t m' o r l :
  smr_step ch t m = (m', o, r) -> m_lock m = Some l -> m_lock m' = None ->
  (t_type t = TPrevoteQC /\ t_src t = SrcState /\ t_height t = m_height m /\
   t_hash t = [] /\ m_round m <= t_round t) \/
  (t_type t = TProposal /\ t_src t = SrcState /\ t_height t = m_height m /\
   t_round t = m_round m /\ t_hash t <> [] /\
   exists lr, t_lock_round t = Some lr /\ l_round l < lr) \/
  (exists s, t_type t = TNewHeight s /\ t_src t = SrcState /\ m_height m < ss_height s) \/
  t_type t = TWalInfo.
Proof.
  intros H H1 H2.
  smr_go H; try congruence; auto.
  all: try (left; repeat split; try done; lia).
  all: try (right; left; repeat split; try done; eexists; split; [reflexivity|done]).
  all: right; right; left; eexists; split; [reflexivity|]; done.
Qed.

Lemma step_lock_timer ch m t m' o r :
  smr_step ch t m = (m', o, r) -> not_wal t ->
  (t_src t = SrcTimer \/ t_type t = TContinueRound \/ t_type t = TBrakeTimeout \/
   t_type t = TPrecommitQC \/ t_type t = TStop) ->
  m_lock m' = m_lock m.
Proof.
  intros H Hw Ht. unfold not_wal in *.
  smr_go H; try congruence; destruct_or?; try done.
Qed.

(** *** Precommits *)
Lemma step_precommit_cert ch m t m' o r h rd x lr :
  smr_step ch t m = (m', o, r) -> trig_in_range t ->
  ToState (EvPrecommit h rd x lr) ∈ o -> x <> [] ->
  t_type t = TPrevoteQC /\ t_src t = SrcState /\ t_hash t = x /\
  t_height t = h /\ m_height m = h /\
  (t_round t = rd /\ m_round m = rd \/ t_round t + 1 = rd /\ m_round m < t_round t).
Proof.
  intros H Hr Ho Hx. unfold trig_in_range in *.
  smr_go H; out_in Ho; simpl in *; try congruence;
  repeat split; try congruence; rewrite ?w64_succ by lia; try (left; lia); try (right; lia).
Qed.

(** A precommit in general: from a prevote certificate of the machine's height (for its hash),
    or empty on the prevote timeout of the current round. *)
Lemma step_precommit_any ch m t m' o r h rd x lr :
  smr_step ch t m = (m', o, r) -> trig_in_range t ->
  ToState (EvPrecommit h rd x lr) ∈ o ->
  t_type t = TPrevoteQC /\ t_height t = h /\ m_height m = h /\
  ((t_src t = SrcState /\ x = t_hash t /\
    (t_round t = rd /\ m_round m = rd /\ step_u8 (m_step m) <= 1 \/
     t_round t + 1 = rd /\ m_round m < t_round t)) \/
   (t_src t = SrcTimer /\ x = [] /\ t_round t = rd /\ m_round m = rd /\
    step_u8 (m_step m) <= 1)).
Proof.
  intros H Hr Ho. unfold trig_in_range in *.
  smr_go H; out_in Ho; simpl in *; try congruence;
  (split; [done|]); (split; [congruence|]); (split; [congruence|]);
  rewrite ?w64_succ by lia;
  first [ left; split; [done|]; split; [done|]; lia | right; repeat split; lia ].
Qed.

(** *** Commit *)
Lemma step_commit ch m t m' o r x :
  smr_step ch t m = (m', o, r) -> ToState (EvCommit x) ∈ o ->
  t_type t = TPrecommitQC /\ t_src t = SrcState /\ t_hash t = x /\ x <> [] /\
  t_height t = m_height m /\ m_step m <> SCommit /\
  (chans_ok ch -> m_step m' = SCommit /\ m_height m' = m_height m).
Proof.
  intros H Ho. smr_go H; out_in Ho; simpl in *; repeat split; try congruence.
  all: specialize (H ltac:(done)); congruence.
Qed.

(** In the commit step only a new height, a prevote certificate of a later round, a round
    continuation to a later round, or a WAL reload have any effect other than re-sending the
    brake event of the current round. *)
Lemma step_commit_stays ch m t m' o r :
  smr_step ch t m = (m', o, r) -> m_step m = SCommit ->
  (exists s, t_type t = TNewHeight s) \/
  (t_type t = TPrevoteQC /\ t_src t = SrcState /\ m_round m < t_round t) \/
  (t_type t = TContinueRound /\ m_round m < t_round t) \/
  t_type t = TWalInfo \/
  (m' = m /\ forall e, ToState e ∈ o -> e = EvStop \/ exists lr, e = EvBrake (m_height m) (m_round m) lr).
Proof.
  intros H Hs.
  smr_go H; try congruence; try lia; eauto 10.
  all: try (right; right; right; right; split; [done|]; intros e He; out_in He; eauto; done).
  all: try (right; left; repeat split; lia).
Qed.

(** *** Timeouts *)
Definition is_timeout (t : trigger) : Prop :=
  t_src t = SrcTimer /\
  (t_type t = TProposal \/ t_type t = TPrevoteQC \/ t_type t = TPrecommitQC \/
   t_type t = TBrakeTimeout).

Lemma stale_timeout_noop ch m t :
  is_timeout t -> (t_height t <> m_height m \/ t_round t <> m_round m) ->
  smr_step ch t m = (m, [], Ok true).
Proof.
  intros [Hs Ht] Hne. destruct (smr_step ch t m) as [[m' o] r] eqn:H.
  smr_go H; destruct_or?; try congruence; try lia; try done.
Qed.

Lemma late_timeout_noop ch m t :
  is_timeout t ->
  (t_type t = TProposal /\ SPropose <> m_step m) \/
  (t_type t = TPrevoteQC /\ m_step m <> SPropose /\ m_step m <> SPrevote) \/
  (t_type t = TPrecommitQC /\ m_step m = SCommit) ->
  smr_step ch t m = (m, [], Ok true).
Proof.
  intros [Hs Ht] Hne. destruct (smr_step ch t m) as [[m' o] r] eqn:H.
  smr_go H; destruct_or?; destruct_and?; try congruence; try lia; try done.
  all: destruct ms; simpl in *; try congruence; try lia.
Qed.

(** *** Timers are armed *)
(** The event that stands for "waiting in step [s] of height [h], round [r]". *)
Definition waits_for (m : smr) (e : smr_event) : Prop :=
  match m_step m, e with
  | SPropose, EvNewRound h r _ _ _ _ _ | SPrevote, EvPrevote h r _ _
  | SPrecommit, EvPrecommit h r _ _ | SBrake, EvBrake h r _ => h = m_height m /\ r = m_round m
  | _, _ => False
  end.

Lemma step_arms m t m' o r :
  smr_step open_chans t m = (m', o, r) -> trig_in_range t -> m_step m' <> SCommit ->
  (mpos m' <> mpos m \/ t_type t = TWalInfo /\ t_wal t <> None) ->
  exists e, stdpp.list.last (to_timer o) = Some e /\ waits_for m' e.
Proof.
  intros H Hr Hs Hp. unfold trig_in_range, open_chans in *.
  smr_go H; try congruence; destruct_or?; destruct_and?; try congruence;
  unfold waits_for; simpl; try (eexists; split; [reflexivity|]; simpl; auto; done).
  all: try (destruct (sb_step s); simpl in *; eexists; split; [reflexivity|]; auto; done).
  all: exfalso; apply Hp; unfold mpos; simpl; repeat f_equal; lia.
Qed.
