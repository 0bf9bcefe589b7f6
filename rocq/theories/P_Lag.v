(** * P_Lag: a choke of a later round takes a lagging instance along (C64, partial). *)
From Verif Require Export P_Choke.
Set Default Proof Using "Type".

(** ** Separate specification *)
Section Spec.
Context {T : Type}.
(** What the reason given in a choke of a later round tells an instance in state [s]: that some round is over,
    so the instance belongs in round [k] or later.
    - more than two thirds choked round [k - 1];
    - there is a precommit certificate for no block in round [k - 1], which is not a round the instance has left;
    - there is a prevote certificate of round [k], a later round than the instance's, for no block or for a block
      whose content is known. (A prevote certificate of the instance's own round does not count: see
      [C64_round_changes_can_deadlock_refuted].) *)
Definition belongs (s : st T) (from : upfrom) (k : N) : Prop :=
  match from with
  | UFChoke qc => (3 * length (ac_voters qc) > 2 * auth_len (s_auth s))%nat /\ k = ac_round qc + 1
  | UFPrecommit qc => av_type qc = Precommit /\ av_height qc = s_height s /\ av_hash qc = [] /\ s_round s <= av_round qc /\ k = av_round qc + 1
  | UFPrevote qc => av_type qc = Prevote /\ av_height qc = s_height s /\ (av_hash qc = [] \/ s_full s !! av_hash qc = Some true) /\
                    s_round s < av_round qc /\ k = av_round qc
  end.
End Spec.

(** ** The state machine *)
(** Read in an earlier round of height [h] that is not decided, the trigger leads to round [k] or later. *)
Definition pushes (h : N) (t : trigger) (k : N) : Prop :=
  forall m m' o r, smr_step open_chans t m = (m', o, r) -> m_height m = h -> m_step m <> SCommit -> m_round m < k ->
    exists k' lr lp from iv cf, k <= k' /\ EvNewRound h k' lr lp from iv cf ∈ to_state o.
Lemma continue_pushes h k : k < 2 ^ 64 -> pushes h (mk_trigger TContinueRound [] None k h) k.
Proof.
  intros Hk m m' o r Hs Hm _ Hr. destruct (smr_continues _ _ _ _ _ _ _ eq_refl Hs Hm Hr Hk) as (? & ? & ? & ? & ? & ?). by do 6 eexists.
Qed.
Lemma precommit_pushes h k : k + 1 < 2 ^ 64 -> pushes h (mk_trigger TPrecommitQC [] None k h) (k + 1).
Proof.
  intros Hk m m' o r Hs Hm Hc Hr. unfold smr_step, mk_trigger in Hs. simpl in Hs. unfold sbind, handle_precommit, sget in Hs.
  rewrite <-Hm, N.eqb_refl, bool_decide_eq_false_2 in Hs by done. cbn [negb] in Hs. destruct (N.ltb_spec k (m_round m)); [lia|].
  unfold sbind, sget, smod, throw_event, sret, open_chans in Hs. simpl in Hs. injection Hs as _ <- _.
  exists (k + 1). do 5 eexists. split; [lia|]. unfold to_state. simpl. rewrite <-Hm, w64_small by (unfold U64; lia). by left.
Qed.
Lemma prevote_pushes h hash k : k + 1 < 2 ^ 64 -> pushes h (mk_trigger TPrevoteQC hash None k h) k.
Proof.
  intros Hk m m' o r Hs Hm Hc Hr. unfold smr_step, mk_trigger in Hs. simpl in Hs. unfold sbind, handle_prevote, sget in Hs.
  rewrite <-Hm, N.eqb_refl in Hs. cbn [negb] in Hs. destruct (N.eqb_spec k (m_round m)); [lia|]. cbn [andb] in Hs.
  destruct (N.ltb_spec k (m_round m)); [lia|].
  unfold sbind, sget, smod, throw_event, sret, open_chans in Hs.
  assert (m_height (update_polc hash k m) = m_height m /\ m_round (update_polc hash k m) = m_round m) as [Eh Er] by (unfold update_polc; destruct hash; done).
  replace (m_round (update_polc hash k m)) with (m_round m) in Hs by (symmetry; exact Er). replace (m_round m <? k) with true in Hs by (symmetry; by apply N.ltb_lt). simpl in Hs. injection Hs as _ <- _.
  exists (k + 1). do 5 eexists. split; [lia|]. unfold to_state. simpl. rewrite <-Hm, Eh, w64_small by (unfold U64; lia). by left.
Qed.

Section X.
Context {T : Type} `{EqDecision T}.
Context (lc : lcfg) (tenc : T -> bytes) (tdec : bytes -> option T) (spill : bool) (cr : crypto).
Context (b : boot T) (cfg : option durcfg) (w : option (walinfo T)).
Context (x : nat -> node T) (lab : nat -> option (label T)) (lg : nat -> list (nlog T)).
Context (Hex : execution lc tenc tdec spill cr b cfg x lab lg) (Hfair : fair x lab lg) (Hboot : boots tdec spill b w).
Context (h : N) (Hh : 0 < h).
Local Notation at_h i := (s_height (nd_st (x i)) = h).
Local Notation enters_from k j := (exists k' lr lp from iv cf, k <= k' /\ orders (lg j) (EvNewRound h k' lr lp from iv cf)).
Set Default Proof Using "Type Hex Hfair Hboot Hh".
Lemma push_ordered i t k : at_h i -> m_height (nd_smr (x i)) = h -> m_round (nd_smr (x i)) < k -> pushes h t k -> t ∈ nd_trig (x i) ->
  exists j, (i <= j)%nat /\ (h < s_height (nd_st (x (S j))) \/ m_height (nd_smr (x j)) = h /\ m_step (nd_smr (x j)) = SCommit \/ enters_from k j).
Proof.
  intros Ha Hm Hs Hk (l1 & l2 & Ht)%elem_of_list_split.
  apply (drain (fun p j => at_h j /\ m_height (nd_smr (x j)) = h /\ m_round (nd_smr (x j)) < k /\ exists l1 l2, nd_trig (x j) = l1 ++ t :: l2 /\ length l1 = p)
           (fun j => h < s_height (nd_st (x (S j))) \/ m_height (nd_smr (x j)) = h /\ m_step (nd_smr (x j)) = SCommit \/ enters_from k j) (fun j => lab j = Some LSmr)) with (p := length l1).
  - clear i Ha Hm Hs l1 l2 Ht. intros p j (Ha & Hm & Hs & l1 & l2 & Ht & Hp).
    destruct (decide (m_step (nd_smr (x j)) = SCommit)) as [Hc|Hc]; [left; right; by left|].
    destruct (ex_state _ _ _ _ _ _ _ _ _ _ _ Hex Hfair Hboot j) as [(e & inp & o & r & n0 & _ & _ & _ & E1 & E2 & El)|(_ & E1 & [(t0 & o & r & El & Elg & Et & Hst)|(El & E2 & more & E3)])].
    + destruct (ex_kept _ _ _ _ _ _ _ _ _ _ _ Hex Hfair Hboot j) as [Hkp _]. destruct (decide (at_h (S j))) as [Ha'|Hn]; [right|left; left; lia].
      exists p. split; [lia|split; [|done]]. rewrite E1. split_and!; try done. exists l1, (l2 ++ trigs_of o). by rewrite E2, Ht, <-app_assoc.
    + rewrite Ht in Et. destruct (ex_trig _ _ _ _ _ _ _ _ _ _ _ Hex Hfair Hboot h Hh j t0) as [Hnw Hnh]; [done|rewrite Ht; destruct l1; injection Et as -> _; by left|done|].
      destruct (smr_same_height _ _ _ _ _ Hst Hnw Hnh) as [Hh' _].
      assert (forall k', (exists lr lp from iv cf, k <= k' /\ EvNewRound h k' lr lp from iv cf ∈ to_state o) -> enters_from k j) as Hord.
      { intros k' (lr & lp & from & iv & cf & Hkk & Hz). exists k', lr, lp, from, iv, cf. split; [done|]. exists t0, (nd_smr (x j)), o, r. rewrite Elg. split; [by left|done]. }
      destruct l1 as [|t1 l1]; injection Et as -> Et.
      { left. right. right. destruct (Hk _ _ _ _ Hst Hm Hc Hs) as (k' & Hx). by apply (Hord k'). }
      destruct (smr_rounds _ _ _ _ _ Hst Hnw Hnh) as [Er|(lr & lp & from & iv & cf & Hev)].
      * right. exists (length l1). simpl in Hp. split; [lia|split; [|lia]]. rewrite E1, Hh', Er. split_and!; try done. by exists l1, l2.
      * rewrite Hm in Hev. destruct (decide (k <= m_round (nd_smr (x (S j))))) as [Hge|Hlt].
        -- left. right. right. apply (Hord (m_round (nd_smr (x (S j))))). by exists lr, lp, from, iv, cf.
        -- right. exists (length l1). simpl in Hp. split; [lia|split; [|lia]]. rewrite E1, Hh'. split_and!; try done; [lia|]. by exists l1, l2.
    + right. exists p. split; [lia|split; [|done]]. rewrite E1, E2. split_and!; try done. exists l1, (l2 ++ more). by rewrite E3, Ht, <-app_assoc.
  - intros p j (_ & _ & _ & l3 & l4 & E & _). apply (fr_smr _ _ _ Hfair). rewrite E. by destruct l3.
  - split_and!; try done. by exists l1, l2.
Qed.
End X.
Set Default Proof Using "Type".

Section C64.
Context {T : Type} `{EqDecision T}.
Context (lc : lcfg) (tenc : T -> bytes) (tdec : bytes -> option T) (spill : bool) (cr : crypto).

(** A choke of a later round of the height whose reason says that the instance belongs in round [k] or later, and which
    is treated while the state machine is at the height in a round before [k], leads the instance to round [k] or later,
    unless the height is decided or left first. *)
Lemma belongs_triggers e sc (s s' : st T) o r k :
  react lc tenc e (IMsg (MChoke sc)) s = (s', o, r) -> (forall t, e_trigger e t = true) ->
  s_power s = true -> ck_height (sc_choke sc) = s_height s -> s_round s < ck_round (sc_choke sc) ->
  belongs s (ck_from (sc_choke sc)) k -> k + 1 < 2 ^ 64 ->
  exists t, ATrigger t ∈ o /\ pushes (s_height s) t k.
Proof.
  clear tdec spill cr. intros Hre Htr Hp Hck Hrd Hb Hk. unfold react, on_msg, bind, handle_msg, get in Hre. rewrite Hp in Hre. cbn [negb andb] in Hre.
  unfold logged, handle_signed_choke, get in Hre. rewrite Hck, N.eqb_refl in Hre. cbn [negb] in Hre.
  destruct (N.ltb_spec (ck_round (sc_choke sc)) (s_round s)); [lia|]. destruct (N.ltb_spec (s_round s) (ck_round (sc_choke sc))); [|lia].
  destruct (ck_from (sc_choke sc)) as [q|q|q]; simpl in Hb.
  - destruct Hb as (Ht & Hh & Hf & Hr & ->). unfold handle_aggregated_vote, get in Hre. rewrite Hh, Ht, !N.ltb_irrefl in Hre.
    rewrite bool_decide_eq_true_2 in Hre by done. destruct (N.ltb_spec (av_round q) (s_round s)); [lia|]. cbn [andb] in Hre.
    rewrite (bool_decide_eq_false_2 (Prevote = Precommit)) in Hre by done. cbn [andb] in Hre.
    unfold bind, modify, get in Hre. unfold set_s_votes in Hre. cbn [s_height s_round] in Hre.
    assert (negb (bool_decide (av_hash q = [])) && negb (try_get_full_txs (set_s_votes (vc_set_qc (s_votes s) q) s) (av_hash q)) = false) as Ef.
    { destruct Hf as [->|Hf]; [done|]. unfold try_get_full_txs. simpl. destruct (av_hash q); [done|]. by rewrite Hf. }
    unfold set_s_votes in Ef. rewrite Ef in Hre. unfold trigger_smr in Hre. rewrite Htr in Hre. unfold emit, ret in Hre. injection Hre as _ <- _.
    eexists. split; [by left|]. by apply prevote_pushes.
  - destruct Hb as (Ht & Hh & Hf & Hr & ->). unfold handle_aggregated_vote, get in Hre. rewrite Hh, Ht, Hf, !N.ltb_irrefl in Hre.
    destruct (N.ltb_spec (av_round q) (s_round s)); [lia|]. rewrite !andb_false_r in Hre.
    unfold bind, modify, get in Hre. cbn [negb andb] in Hre. rewrite (bool_decide_eq_true_2 (@nil byte = [])) in Hre by done. cbn [negb andb] in Hre.
    unfold trigger_smr in Hre. rewrite Htr in Hre. unfold emit, ret in Hre. injection Hre as _ <- _.
    eexists. split; [by left|]. apply precommit_pushes. lia.
  - destruct Hb as (Hn & ->). unfold handle_aggregated_choke, get in Hre. destruct (Nat.leb_spec (length (ac_voters q) * 3) (auth_len (s_auth s) * 2)); [lia|].
    unfold bind, modify in Hre. unfold trigger_smr in Hre. rewrite Htr in Hre. unfold emit, ret in Hre. injection Hre as _ <- _.
    eexists. split; [by left|]. rewrite w64_small by (unfold U64; lia). apply continue_pushes. lia.
Qed.
Theorem C64_later_chokes_are_followed_partial b cfg w x lab lg :
  execution lc tenc tdec spill cr b cfg x lab lg -> fair x lab lg -> boots tdec spill b w ->
  forall i e sc s o r k,
    lg i = [NState e (IMsg (MChoke sc)) s o r] -> s_power s = true -> 0 < s_height s ->
    ck_height (sc_choke sc) = s_height s -> s_round s < ck_round (sc_choke sc) ->
    belongs s (ck_from (sc_choke sc)) k -> k + 1 < 2 ^ 64 ->
    m_height (nd_smr (x i)) = s_height s -> m_round (nd_smr (x i)) < k ->
    exists j, (i < j)%nat /\
      (s_height s < s_height (nd_st (x j)) \/
       m_height (nd_smr (x j)) = s_height s /\ m_step (nd_smr (x j)) = SCommit \/
       s_height (nd_st (x j)) = s_height s /\ k <= s_round (nd_st (x j))).
Proof.
  intros Hex Hf Hb i e sc s o r k Elg Hp Hh Hck Hcr Hbel Hk Hm Hr.
  destruct (ex_state _ _ _ _ _ _ _ _ _ _ _ Hex Hf Hb i) as [(e0 & inp0 & o0 & r0 & n0 & E & Hpop & Hre & E1 & E2 & _)|(Hno & _)].
  2: { exfalso. eapply Hno. rewrite Elg. by left. }
  rewrite Elg in E. injection E as -> <- -> -> ->. set (h := s_height (nd_st (x i))) in *.
  destruct (ex_reach _ _ _ _ _ _ _ _ _ _ _ Hex Hf Hb i) as (log0 & Hrun0 & _). apply noderun_nostop in Hrun0 as (_ & _ & _ & _ & _ & _ & Hso & _).
  destruct (belongs_triggers _ _ _ _ _ _ k Hre) as (t & Ht & Hpush); try done.
  destruct (decide (s_height (nd_st (x (S i))) = h)) as [Heq|Hne].
  2: { exists (S i). split; [lia|]. left. pose proof (kept_react _ _ _ _ _ _ _ _ Hre) as [Hkp _]. fold h in Hkp. lia. }
  destruct (push_ordered _ _ _ _ _ _ _ _ _ _ _ Hex Hf Hb h Hh (S i) t k) as (j & Hij & [Hgt|[Hc|(k' & lr & lp & from & iv & cf & Hkk & Ho)]]); try done; [by rewrite E1..| | | |].
  { rewrite E2. apply elem_of_app. right. by apply trigs_of_in. }
  { exists (S j). split; [lia|by left]. }
  { exists j. split; [lia|right; by left]. }
  destruct (order_treated _ _ _ _ _ _ _ _ _ _ Hex Hf j _ Ho) as (j' & Hjj & e' & s' & o' & r' & Hin).
  destruct (ex_state _ _ _ _ _ _ _ _ _ _ _ Hex Hf Hb j') as [(e1 & inp1 & o1 & r1 & n1 & E & _ & Hr1 & _)|(Hno & _)]; [|by apply Hno in Hin].
  rewrite E in Hin. apply elem_of_list_singleton in Hin. injection Hin as -> <- -> -> ->.
  pose proof (ex_height _ _ _ _ _ _ _ _ _ _ _ Hex Hf Hb (S i) j' ltac:(lia)) as Hge.
  destruct (decide (s_height (nd_st (x j')) = h)) as [Hej|Hnj]; [|exists j'; split; [lia|left; lia]].
  exists (S j'). split; [lia|]. right. right.
  assert (s_power (nd_st (x j')) = true) as Hpj.
  { assert (forall k, (i <= k)%nat -> (k <= j')%nat -> s_power (nd_st (x k)) = true) as Hpw; [|apply Hpw; lia].
    intros k0 H1. induction H1 as [|k0 H1 IH]; intros H2; [done|].
    pose proof (ex_height _ _ _ _ _ _ _ _ _ _ _ Hex Hf Hb i k0 H1) as G1. pose proof (ex_height _ _ _ _ _ _ _ _ _ _ _ Hex Hf Hb (S k0) j' H2) as G2. fold h in G1.
    destruct (ex_kept _ _ _ _ _ _ _ _ _ _ _ Hex Hf Hb k0) as [G3 G4]. destruct G4 as (G4 & _); [lia|]. rewrite G4. apply IH. lia. }
  destruct (ex_reach _ _ _ _ _ _ _ _ _ _ _ Hex Hf Hb j') as (log' & Hrun' & _). apply noderun_nostop in Hrun' as (Hst' & _).
  eapply react_core in Hr1; [|reflexivity]. destruct Hr1 as [(Hsk & _)|(_ & r2 & Hx & _)].
  { exfalso. destruct Hsk as [[Hsk _]|Hsk]; simpl in *; [congruence|]. destruct Hsk as [? _]. congruence. }
  apply new_round_keeps in Hx as [H1 H2]. rewrite H1, H2. done.
Qed.
End C64.
Print Assumptions C64_later_chokes_are_followed_partial.
