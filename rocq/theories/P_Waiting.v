(** * P_Waiting: who waits for a proposal votes in the round, with or without one (C68). *)
From Verif Require Export P_Locked P_Stall NodeBrake.
Set Default Proof Using "Type".

(** ** Specification *)
(** The state machine is in the propose step of round [rd] of height [h]. *)
Definition proposing (h rd : N) (m : smr) : Prop := m_height m = h /\ m_round m = rd /\ m_step m = SPropose.
Global Instance proposing_dec h rd m : Decision (proposing h rd m).
Proof. unfold proposing. apply _. Defined.

(** ** The state machine *)
Lemma stays_quiet t m m' o r h rd :
  smr_step open_chans t m = (m', o, r) -> not_wal t -> trig_in_range t -> t_type t <> TStop ->
  (forall s, t_type t = TNewHeight s -> ss_height s <= m_height m) -> t_type t <> TBrakeTimeout ->
  proposing h rd m -> proposing h rd m' -> forall ev, ev ∉ to_state o.
Proof.
  intros H Hw Hr Hst Hn Hnb (H1 & H2 & H3) (G1 & G2 & G3). unfold not_wal, trig_in_range, open_chans in *.
  destruct m' as [mh' mr' ms' mhash' ml']; simpl in *.
  smr_go H; try congruence; try (exfalso; specialize (Hn _ eq_refl); lia).
  all: rewrite ?w64_succ, ?pred_succ in * by lia.
  all: try (exfalso; lia).
  all: unfold to_state; simpl.
  all: try (intros ev ?%elem_of_nil; done).
Qed.
Lemma leaves_voting t m m' o r h rd :
  smr_step open_chans t m = (m', o, r) -> proposing h rd m -> ~ proposing h rd m' -> t_type t = TProposal ->
  exists y l, EvPrevote h rd y l ∈ to_state o.
Proof.
  intros H (H1 & H2 & H3) Hn Ht. unfold proposing, open_chans in *. smr_go H; try congruence.
  all: try (exfalso; apply Hn; split_and!; congruence).
  all: simplify_eq; eexists _, _; unfold to_state; simpl; by left.
Qed.

Section X.
Context {T : Type} `{EqDecision T}.
Context (lc : lcfg) (tenc : T -> bytes) (tdec : bytes -> option T) (spill : bool) (cr : crypto).
Context (b : boot T) (cfg : option durcfg) (w : option (walinfo T)).
Context (x : nat -> node T) (lab : nat -> option (label T)) (lg : nat -> list (nlog T)).
Context (Hex : execution lc tenc tdec spill cr b cfg x lab lg) (Hfair : fair x lab lg) (Hboot : boots tdec spill b w).
Context (h rd : N) (Hh : 0 < h).
Set Default Proof Using "Type Hex Hfair Hboot Hh".

Lemma no_orders j : (forall t m o r, NSmr t m o r ∉ lg j) -> forall ev, ~ orders (lg j) ev.
Proof using Type. intros Hn ev (t & m & o & r & Hin & _). by apply Hn in Hin. Qed.
(** One move: the situation of the state machine changes by a trigger only, and inside the propose
    step nothing but a choke is ordered. *)
Lemma one_move j : proposing h rd (nd_smr (x j)) -> s_height (nd_st (x j)) = h ->
  nd_smr (x (S j)) = nd_smr (x j) /\ (forall ev, ~ orders (lg j) ev) \/
  exists t o r, lg j = [NSmr t (nd_smr (x j)) o r] /\ smr_step open_chans t (nd_smr (x j)) = (nd_smr (x (S j)), o, r) /\
    (proposing h rd (nd_smr (x (S j))) -> forall ev, ~ orders (lg j) ev).
Proof.
  intros Hi Ha. destruct (ex_state _ _ _ _ _ _ _ _ _ _ _ Hex Hfair Hboot j) as [(e & inp & o & r & n0 & Elg & _ & _ & E1 & _)|(_ & _ & [(t0 & o & r & El & Elg & Et & Hst)|(El & E2 & _)])].
  - left. split; [done|]. apply no_orders. intros t m o' r' Hin. rewrite Elg in Hin. by apply elem_of_list_singleton in Hin.
  - right. exists t0, o, r. split; [done|split; [done|]]. intros Hi' ev (t & m & o' & r' & Hin' & Hev).
    rewrite Elg in Hin'. apply elem_of_list_singleton in Hin'. injection Hin' as -> -> -> ->.
    assert (t0 ∈ nd_trig (x j)) as Hin by (rewrite Et; by left).
    destruct (ex_reach _ _ _ _ _ _ _ _ _ _ _ Hex Hfair Hboot j) as (log & Hrun & Hlr).
    destruct (decide (t_type t0 = TBrakeTimeout)) as [Hbt|Hnb].
    { pose proof (noderun_brk _ _ _ _ _ _ _ _ _ _ Hrun Hboot Hlr (ex_on _ _ _ _ _ _ _ _ _ _ Hex j)) as [Hbk _ _ _].
      apply noderun_ninv in Hrun as [Hni _]. rewrite Forall_forall in Hni. apply Hni in Hin as Hg. unfold good_trigger in Hg. rewrite Hbt in Hg.
      destruct Hi as (I1 & I2 & I3). destruct (brake_quiet _ _ _ _ _ _ Hst Hbt Hg (Hbk _ Hin)) as [_ ->]; [lia|by rewrite I3|]. by apply elem_of_nil in Hev. }
    apply noderun_nostop in Hrun as (_ & _ & _ & Hns & _).
    destruct (ex_trig _ _ _ _ _ _ _ _ _ _ _ Hex Hfair Hboot h Hh j t0) as [Hnw Hnh]; [by destruct Hi|done|done|].
    assert (trig_in_range t0) as Hrg by (eapply (ex_range _ _ _ _ _ _ _ _ _ _ Hex j); rewrite Elg; by left).
    by eapply (stays_quiet _ _ _ _ _ _ _ Hst Hnw Hrg (Hns _ Hin) Hnh Hnb Hi Hi').
  - left. split; [done|]. apply no_orders. intros t m o r Hin. apply El.
    pose proof (ex_step _ _ _ _ _ _ _ _ _ _ Hex j) as Hs. destruct (lab j) as [l|]; [|destruct Hs as [_ Hs]; rewrite Hs in Hin; by apply elem_of_nil in Hin].
    apply label_log in Hs. destruct l; try done; exfalso;
      first [destruct Hs as (? & ? & ? & ? & ? & Hs)|destruct Hs as (? & ? & ? & Hs)|destruct Hs as (? & Hs)|idtac];
      rewrite Hs in Hin; by apply elem_of_list_singleton in Hin.
Qed.
(** What holds in the propose step comes to an end. *)
Lemma comes_to_an_end (P : smr -> Prop) `{forall m, Decision (P m)} i : (forall m, P m -> proposing h rd m) -> P (nd_smr (x i)) ->
  exists j, (i <= j)%nat /\ (s_height (nd_st (x j)) <> h \/
    exists t o r, lg j = [NSmr t (nd_smr (x j)) o r] /\ smr_step open_chans t (nd_smr (x j)) = (nd_smr (x (S j)), o, r) /\ P (nd_smr (x j)) /\
      ~ P (nd_smr (x (S j)))).
Proof.
  intros HP Hi. pose proof (HP _ Hi) as (H1 & H2 & H3).
  destruct (never_waits _ _ _ _ _ _ _ _ _ _ _ Hex Hfair Hboot i) as (k & ev & Hik & Hev); [lia|by rewrite H3|].
  assert ((exists j, (i <= j)%nat /\ (s_height (nd_st (x j)) <> h \/
    exists t o r, lg j = [NSmr t (nd_smr (x j)) o r] /\ smr_step open_chans t (nd_smr (x j)) = (nd_smr (x (S j)), o, r) /\ P (nd_smr (x j)) /\
      ~ P (nd_smr (x (S j))))) \/ P (nd_smr (x k))) as [?|Hk]; [|done|].
  { clear ev Hev. induction Hik as [|k Hik IH]; [by right|]. destruct IH as [?|Hk]; [by left|].
    destruct (decide (s_height (nd_st (x k)) = h)) as [Ha|]; [|left; exists k; auto].
    destruct (one_move k (HP _ Hk) Ha) as [[E _]|(t & o & r & E1 & E2 & _)]; [right; by rewrite E|].
    destruct (decide (P (nd_smr (x (S k))))); [by right|]. left. exists k. split; [done|]. right. exists t, o, r. auto. }
  destruct (decide (s_height (nd_st (x k)) = h)) as [Ha|]; [|exists k; auto].
  destruct (one_move k (HP _ Hk) Ha) as [[_ E]|(t & o & r & E1 & E2 & Hor)]; [by apply E in Hev|].
  exists k. split; [done|]. right. exists t, o, r. split_and!; [done..|]. intros Hk'. by eapply Hor; [apply HP|].
Qed.
(** An order to prevote in the round is obeyed. *)
Lemma prevote_obeyed i y l : P_Answer.signs lg -> orders (lg i) (EvPrevote h rd y l) ->
  exists j, (i < j)%nat /\ (s_height (nd_st (x j)) <> h \/ s_power (nd_st (x j)) = false \/
    exists e s o r, lg j = [NState e (IEvent (EvPrevote h rd y l)) s o r] /\
      ((exists w, ASave w false ∈ o) \/ ~ recordable s l \/ exists a, a ∈ o /\ vote_of a = Some (mkVote h rd Prevote y))).
Proof.
  intros Hsg Ho.
  destruct (vote_treated _ _ _ _ _ _ _ _ _ _ _ Hex Hfair Hboot i _ h rd Prevote y Ho eq_refl) as (j & e & s & o & r & Hij & Elg & -> & Hr & Hrd).
  exists j. split; [done|]. destruct (s_power (nd_st (x j))) eqn:Hp; [|auto]. destruct (decide (s_height (nd_st (x j)) = h)) as [Ej|]; [|auto]. right. right.
  exists e, (nd_st (x j)), o, r. split; [done|]. destruct (decide (recordable (nd_st (x j)) l)) as [Hrc|]; [|auto].
  destruct (ex_reach _ _ _ _ _ _ _ _ _ _ _ Hex Hfair Hboot j) as (log & Hrun & _). pose proof (noderun_nostop _ _ _ _ _ _ _ _ _ Hrun) as (Hst & _).
  assert (forall z, is_Some (cr_sign (e_crypto e) z)) as Hsg' by (eapply (Hsg j); rewrite Elg; by left).
  destruct (obey_vote _ _ _ (EvPrevote h rd y l) _ _ _ _ h rd Prevote y eq_refl Hr Hp Hst (recordable_lock _ _ Hrc) Hsg') as [?|(a & Ha & Hv)]; [auto|].
  right. right. exists a. by rewrite Ej, (Hrd eq_refl Ej) in Hv.
Qed.
End X.
Set Default Proof Using "Type".

Section C68.
Context {T : Type} `{EqDecision T}.
Context (lc : lcfg) (tenc : T -> bytes) (tdec : bytes -> option T) (spill : bool) (cr : crypto).

(** [votes_at lg j h rd y l]: at its [j]-th step the instance treats the order to prevote [y] with the
    lock [l] in round [rd] of height [h], and casts this vote, unless the record of it cannot be made
    or written. *)
Definition votes_at (lg : nat -> list (nlog T)) (j : nat) (h rd : N) (y : bytes) (l : option N) : Prop :=
  exists e s o r, lg j = [NState e (IEvent (EvPrevote h rd y l)) s o r] /\
    ((exists w, ASave w false ∈ o) \/ ~ recordable s l \/ exists a, a ∈ o /\ vote_of a = Some (mkVote h rd Prevote y)).

(** C68. Whoever is in the propose step of a round is going to cast a prevote in the round, whether
    or not a proposal comes, unless: it is told of another height or is no validator any more, or
    something that is neither a proposal nor the timeout of the step (a certificate, a new height,
    enough chokes) takes it out of the step. *)
Theorem C68_waiting_validators_vote b cfg w x lab lg :
  execution lc tenc tdec spill cr b cfg x lab lg -> fair x lab lg -> boots tdec spill b w -> P_Answer.signs lg ->
  forall h rd i, 0 < h -> proposing h rd (nd_smr (x i)) ->
  exists j, (i <= j)%nat /\
    (s_height (nd_st (x j)) <> h \/ s_power (nd_st (x j)) = false \/
     (exists t m m' o r, lg j = [NSmr t m o r] /\ smr_step open_chans t m = (m', o, r) /\ proposing h rd m /\ t_type t <> TProposal /\
        ~ proposing h rd m') \/
     exists y l, votes_at lg j h rd y l).
Proof.
  intros Hex Hf Hb Hsg h rd i Hh Hi.
  destruct (comes_to_an_end _ _ _ _ _ _ _ _ _ _ _ Hex Hf Hb h rd Hh (proposing h rd) i (fun _ E => E) Hi) as (k & Hik & [?|(t & o & r & E1 & E2 & Hk & Hor)]); [exists k; auto|].
  destruct (decide (t_type t = TProposal)) as [Et|Hnt].
  2: { exists k. split; [done|]. right. right. left. exists t, (nd_smr (x k)), (nd_smr (x (S k))), o, r. auto. }
  destruct (leaves_voting _ _ _ _ _ _ _ E2 Hk Hor Et) as (y & l & Hev).
  destruct (prevote_obeyed _ _ _ _ _ _ _ _ _ _ _ Hex Hf Hb h rd Hh k y l Hsg) as (j & Hkj & [?|[?|Hv]]).
  { exists t, (nd_smr (x k)), o, r. split; [rewrite E1; by left|done]. }
  1-2: exists j; split; [lia|auto].
  exists j. split; [lia|]. right. right. right. by exists y, l.
Qed.
(** If it is locked on [y], it votes for [y], unless a proposal for another block unlocks it. *)
Theorem C68_locked_validators_vote_for_their_block b cfg w x lab lg :
  execution lc tenc tdec spill cr b cfg x lab lg -> fair x lab lg -> boots tdec spill b w -> P_Answer.signs lg ->
  forall h rd lr y i, 0 < h -> locked h rd lr y (nd_smr (x i)) ->
  exists j, (i <= j)%nat /\
    (s_height (nd_st (x j)) <> h \/ s_power (nd_st (x j)) = false \/
     (exists t m m' o r, lg j = [NSmr t m o r] /\ smr_step open_chans t m = (m', o, r) /\ locked h rd lr y m /\
        (unlocks t h rd lr y \/ t_type t <> TProposal /\ ~ locked h rd lr y m')) \/
     exists l, (l = None \/ l = Some lr) /\ votes_at lg j h rd y l).
Proof.
  intros Hex Hf Hb Hsg h rd lr y i Hh Hi.
  destruct (comes_to_an_end _ _ _ _ _ _ _ _ _ _ _ Hex Hf Hb h rd Hh (locked h rd lr y) i) as (k & Hik & [?|(t & o & r & E1 & E2 & Hk & Hor)]);
    [by intros m (? & ? & ? & _)|done|exists k; auto|].
  destruct (decide (t_type t = TProposal)) as [Et|Hnt].
  2: { exists k. split; [done|]. right. right. left. exists t, (nd_smr (x k)), (nd_smr (x (S k))), o, r. split_and!; [done..|]. right. tauto. }
  destruct (ex_reach _ _ _ _ _ _ _ _ _ _ _ Hex Hf Hb k) as (logk & Hrunk & _). pose proof (noderun_lock_ok _ _ _ _ _ _ _ _ _ Hrunk) as Hlk.
  destruct (smr_locked _ _ _ _ _ _ _ _ _ E2 Hk Hlk Et Hor) as [(l & Hl & Hev)|Hu].
  2: { exists k. split; [done|]. right. right. left. exists t, (nd_smr (x k)), (nd_smr (x (S k))), o, r. auto. }
  destruct (prevote_obeyed _ _ _ _ _ _ _ _ _ _ _ Hex Hf Hb h rd Hh k y l Hsg) as (j & Hkj & [?|[?|Hv]]).
  { exists t, (nd_smr (x k)), o, r. split; [rewrite E1; by left|done]. }
  1-2: exists j; split; [lia|auto].
  exists j. split; [lia|]. right. right. right. by exists l.
Qed.
End C68.
Print Assumptions C68_waiting_validators_vote.
Print Assumptions C68_locked_validators_vote_for_their_block.
