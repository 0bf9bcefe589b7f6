(** * P_Locked: locked validators prevote the block they are locked on (C67). *)
From Verif Require Export P_Answer.
From Verif Require Import LockEv.
Set Default Proof Using "Type".

(** ** Specification *)
(** The state machine waits in round [r] of height [h] for a proposal and is locked on the block [y]
    since round [lr]. *)
Definition locked (h r lr : N) (y : bytes) (m : smr) : Prop :=
  m_height m = h /\ m_round m = r /\ m_step m = SPropose /\ m_lock m = Some (mkLock lr y).
Global Instance locked_dec h r lr y m : Decision (locked h r lr y m).
Proof. unfold locked. apply _. Defined.
(** The trigger is a proposal for another block that claims a lock of a later round. *)
Definition unlocks (t : trigger) (h r lr : N) (y : bytes) : Prop :=
  t_type t = TProposal /\ t_src t = SrcState /\ t_height t = h /\ t_round t = r /\ t_hash t <> y /\
  exists lr', t_lock_round t = Some lr' /\ lr < lr'.

(** ** The state machine *)
Lemma smr_lock_ok ch t m m' o r : smr_step ch t m = (m', o, r) -> lock_ok m -> lock_ok m'.
Proof.
  intros H Hk. unfold lock_ok in *. smr_go H; try done; try congruence; try (by intros ? [= <-]).
  all: try (destruct (sb_polc _); simpl; try done; by intros ? [= <-]).
Qed.
(** However a locked state machine leaves the propose step by a proposal or by the timer that stands
    for one: it orders a prevote for its own block, unless it is unlocked for another. *)
Lemma smr_locked t m m' o r h rd lr y :
  smr_step open_chans t m = (m', o, r) -> locked h rd lr y m -> lock_ok m -> t_type t = TProposal -> ~ locked h rd lr y m' ->
  (exists l, (l = None \/ l = Some lr) /\ EvPrevote h rd y l ∈ to_state o) \/ unlocks t h rd lr y.
Proof.
  intros H (H1 & H2 & H3 & H4) Hk Ht Hn. unfold lock_ok, locked, unlocks, open_chans in *. smr_go H; try congruence.
  all: try (exfalso; apply Hn; split_and!; congruence).
  all: simplify_eq; try (specialize (Hk _ eq_refl); simpl in Hk; subst).
  all: try (left; eexists; split; [|unfold to_state; simpl; by left]; by auto).
  match goal with |- context [?u :: ?v] => destruct (decide (u :: v = y)) as [<-|] end.
  - left. exists None. split; [by left|]. unfold to_state; simpl; by left.
  - right. split_and!; try done. eexists. split; [done|]. lia.
Qed.
Lemma smr_locked_order t m m' o r h rd lr y :
  smr_step open_chans t m = (m', o, r) -> locked h rd lr y m -> lock_ok m -> y <> [] ->
  t_type t = TProposal -> t_height t = h -> t_round t = rd -> (t_src t = SrcState -> t_hash t = y) ->
  exists l, (l = None \/ l = Some lr) /\ EvPrevote h rd y l ∈ to_state o.
Proof.
  intros H (H1 & H2 & H3 & H4) Hk Hy Ht T1 T2 T3. unfold lock_ok, locked, unlocks, open_chans in *. smr_go H; try congruence; try lia.
  all: simplify_eq; try (specialize (Hk _ eq_refl); simpl in Hk; subst); try (specialize (T3 eq_refl); subst); try congruence.
  all: try (eexists; split; [|unfold to_state; simpl; by left]; by auto).
  all: bsimp; try congruence; try lia.
Qed.

Section X.
Context {T : Type} `{EqDecision T}.
Context (lc : lcfg) (tenc : T -> bytes) (tdec : bytes -> option T) (spill : bool) (cr : crypto).

Lemma noderun_lock_ok b cfg log n : noderun lc tenc tdec spill cr b cfg log n -> lock_ok (nd_smr n).
Proof.
  induction 1 as [n log H|log n l n' log' Hr IH H].
  - unfold nstart in H. destruct (on_start _ _ _ _ _ _) as [[s o] r] eqn:E. injection H as <- <-. intros l. simpl. done.
  - apply nstep_inv in H as [m -> ->|e i n0 s o r Ho Hp Hx -> ->|t q m o r ? ? ? -> ->|k a m ? -> ->|k h r x b0 ok ? -> ->|ev q ? ? -> ->|k ev ? -> ->|ev q ? ? -> ->]; try done.
    + simpl. apply popped_same in Hp as (_ & _ & E & _). by rewrite E.
    + by eapply smr_lock_ok.
    + by destruct (verify_msg tenc cr a m).
    + by destruct ok.
    + destruct (arm_same ev (set_tevs q n)) as (_ & _ & -> & _). done.
    + destruct (fire_same ev (set_fired q n)) as (_ & _ & -> & _). done.
Qed.
End X.

Section C67.
Context {T : Type} `{EqDecision T}.
Context (lc : lcfg) (tenc : T -> bytes) (tdec : bytes -> option T) (spill : bool) (cr : crypto).

(** C67. When the instance hands the block [y], proposed for round [rd] of height [h], to
    [check_block] while its state machine waits for the proposal of that round and is locked on [y]
    since round [lr], and the instance still has the block and a certificate of the prevotes of round
    [lr], then it is going to cast its prevote for [y] in this round, unless: it is told of a later
    height first; the state machine is taken out of the propose step first by something that is no
    proposal (nor the timer that stands for one), or by a proposal that unlocks it for another block;
    the record of the vote cannot be written; or the certificate it has of round [lr] is for another block.
    In particular neither the timeout of the propose step nor proposals for other blocks without
    a later lock keep it from voting for [y]. *)
Theorem C67_locked_validators_prevote_their_block b cfg w x lab lg :
  execution lc tenc tdec spill cr b cfg x lab lg -> fair x lab lg -> boots tdec spill b w -> signs lg ->
  forall i e inp s o r h rd lr y,
    lg i = [NState e inp s o r] -> checks o h rd y -> y <> [] -> s_height s = h -> s_power s = true ->
    is_Some (s_blocks s !! y) -> (exists q, vc_get_qc_by_id (s_votes s) h lr Prevote = Ok q) ->
    locked h rd lr y (nd_smr (x i)) ->
    exists j, (i < j)%nat /\
      (h < s_height (nd_st (x j)) \/
       (exists t m m' o' r', lg j = [NSmr t m o' r'] /\ smr_step open_chans t m = (m', o', r') /\ locked h rd lr y m /\ ~ locked h rd lr y m' /\
          (t_type t <> TProposal \/ unlocks t h rd lr y)) \/
       (exists e' l s' o' r', lg j = [NState e' (IEvent (EvPrevote h rd y l)) s' o' r'] /\
          ((exists w, ASave w false ∈ o') \/
           (exists q, vc_get_qc_by_id (s_votes s') h lr Prevote = Ok q /\ av_hash q <> y) \/
           (exists a, a ∈ o' /\ vote_of a = Some (mkVote h rd Prevote y))))).
Proof.
  intros Hex Hf Hb Hsg i e inp s o r h rd lr y Elg Hck Hy Hh Hp Hbl Hqc Hw.
  destruct (ex_state _ _ _ _ _ _ _ _ _ _ _ Hex Hf Hb i) as [(e0 & inp0 & o0 & r0 & n0 & E & Hpop & Hr & E1 & E2 & _)|(Hno & _)].
  2: { exfalso. eapply Hno. rewrite Elg. by left. }
  rewrite Elg in E. injection E as -> -> -> -> ->.
  destruct (ex_reach _ _ _ _ _ _ _ _ _ _ _ Hex Hf Hb i) as (log & Hrun & _).
  pose proof (noderun_nostop _ _ _ _ _ _ _ _ _ Hrun) as (Hst & _ & _ & _ & _ & _ & Hso & _).
  destruct (chk_react _ _ _ _ _ _ _ _ Hr (fun _ => Hso) _ _ _ Hck) as [lr0 Ht].
  destruct (reached _ _ _ _ _ _ _ _ _ _ _ Hex Hf Hb (locked h rd lr y) (S i) (mk_trigger TProposal y lr0 rd h)) as (k & t0 & o1 & r1 & Hik & Elk & Hstk & Hwk & Hor).
  { by rewrite E1. }
  { rewrite E2. apply elem_of_app. right. by apply trigs_of_in. }
  destruct (ex_reach _ _ _ _ _ _ _ _ _ _ _ Hex Hf Hb k) as (logk & Hrunk & _). pose proof (noderun_lock_ok _ _ _ _ _ _ _ _ _ Hrunk) as Hlk.
  assert ((exists l, (l = None \/ l = Some lr) /\ EvPrevote h rd y l ∈ to_state o1) \/
          (~ locked h rd lr y (nd_smr (x (S k))) /\ (t_type t0 <> TProposal \/ unlocks t0 h rd lr y))) as [(l & Hl & Hin)|[Hn Hdep]].
  { destruct Hor as [->|Hn]; [left; by eapply smr_locked_order|].
    destruct (decide (t_type t0 = TProposal)) as [Ety|Ety]; [|right; auto].
    destruct (smr_locked _ _ _ _ _ _ _ _ _ Hstk Hwk Hlk Ety Hn) as [?|?]; [by left|right; auto]. }
  2: { exists k. split; [lia|]. right. left. eexists _, _, _, _, _. split_and!; done. }
  assert (orders (lg k) (EvPrevote h rd y l)) as Ho.
  { eexists _, _, _, _. rewrite Elk. split; [by left|]. done. }
  destruct (vote_treated _ _ _ _ _ _ _ _ _ _ _ Hex Hf Hb k _ h rd Prevote y Ho eq_refl) as (j & e' & s' & o' & r' & Hkj & Elj & -> & Hrj & Hrd).
  exists j. split; [lia|]. pose proof (ex_height _ _ _ _ _ _ _ _ _ _ _ Hex Hf Hb i j ltac:(lia)) as Hge. rewrite Hh in Hge.
  destruct (decide (s_height (nd_st (x j)) = h)) as [Hej|Hnj]; [|left; lia]. right. right.
  assert (s_power (nd_st (x j)) = true) as Hpj by (eapply (ex_power _ _ _ _ _ _ _ _ _ _ _ Hex Hf Hb i j); [lia|congruence|done]).
  assert (is_Some (s_blocks (nd_st (x j)) !! y)) as [bl Hblj] by (eapply (ex_block _ _ _ _ _ _ _ _ _ _ _ Hex Hf Hb i j); [lia|congruence|done]).
  assert (has_qc (nd_st (x j)) h lr Prevote) as [q Hqj] by (eapply (ex_qc _ _ _ _ _ _ _ _ _ _ _ Hex Hf Hb i j); [lia|congruence|done]).
  exists e', l. eexists _, o', r'. split; [exact Elj|]. destruct (decide (av_hash q = y)) as [Eq|?]; [|right; left; by exists q].
  destruct (ex_reach _ _ _ _ _ _ _ _ _ _ _ Hex Hf Hb j) as (log' & Hrun' & _). apply noderun_nostop in Hrun' as (Hst' & _).
  assert (forall z, is_Some (cr_sign (e_crypto e') z)) as Hsg' by (eapply (Hsg j); rewrite Elj; by left).
  assert (is_Some (lock_to_save (nd_st (x j)) l)) as Hls.
  { unfold lock_to_save. destruct Hl as [->| ->]; [by eexists|]. rewrite Hej, Hqj, Eq, Hblj. by eexists. }
  destruct (obey_vote _ _ _ (EvPrevote h rd y l) _ _ _ _ h rd Prevote y eq_refl Hrj Hpj Hst' Hls Hsg') as [Hsv|(a & Ha & Hv)]; [by left|right; right].
  exists a. rewrite Hej, (Hrd Hpj Hej) in Hv. done.
Qed.
End C67.
Print Assumptions C67_locked_validators_prevote_their_block.
