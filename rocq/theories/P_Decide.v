(** * P_Decide: a decided block is committed (C53). *)
From Verif Require Export P_Live.
Set Default Proof Using "Type".

Section D.
Context {T : Type} `{EqDecision T}.
Context (lc : lcfg) (tenc : T -> bytes) (tdec : bytes -> option T) (spill : bool) (cr : crypto).
Local Notation noderun := (noderun lc tenc tdec spill cr).

(** ** What a height keeps *)
Definition keptR (s : st T) (_ : list (action T)) (s' : st T) : Prop :=
  s_height s <= s_height s' /\
  (s_height s' = s_height s -> s_power s' = s_power s /\
     (forall x, is_Some (s_blocks s !! x) -> is_Some (s_blocks s' !! x)) /\
     (forall h x t, is_Some (vc_get_qc_by_hash (s_votes s) h x t) -> is_Some (vc_get_qc_by_hash (s_votes s') h x t))).
Lemma kept_comp : comp keptR.
Proof.
  clear lc tenc tdec spill cr. split; [intros s0; split; [lia|auto]|]. intros s1 s2 s3 o1 o2 [A1 A2] [B1 B2]. split; [lia|].
  intros E. destruct A2 as (A2 & A3 & A4); [lia|]. destruct B2 as (B2 & B3 & B4); [lia|]. split_and!; [congruence|auto..].
Qed.
Lemma kept_goto e stt : keeps keptR (goto_new_height (T:=T) e stt).
Proof.
  clear lc tenc tdec spill cr. intros s s' o r Hg.
  apply goto_inv in Hg as [(? & -> & -> & _)|[(? & _ & -> & -> & _)|[(? & _ & -> & _)|(? & _ & -> & _)]]].
  - apply kept_comp.
  - split; simpl; [lia|intros; lia].
  - split; simpl; [lia|intros; lia].
  - unfold moved_full. split; destruct (st_interval stt); simpl; try (intros; lia).
Qed.
Local Hint Resolve kept_goto : keepsdb.
Lemma kept_same (s : st T) o s' : s_height s' = s_height s -> s_power s' = s_power s -> s_blocks s' = s_blocks s -> s_votes s' = s_votes s -> keptR s o s'.
Proof. clear lc tenc tdec spill cr. intros E1 E2 E3 E4. split; [lia|]. intros _. rewrite E2, E3, E4. auto. Qed.
Lemma kept_block (s : st T) o x y : keptR s o (set_s_blocks (<[x := y]> (s_blocks s)) s).
Proof.
  clear lc tenc tdec spill cr. split; [simpl; lia|]. intros _. split_and!; [done| |done]. simpl. intros z Hz.
  destruct (decide (x = z)) as [->|Hn]; [rewrite lookup_insert; by eexists|by rewrite lookup_insert_ne].
Qed.
Lemma kept_vote (s : st T) o x v a : keptR s o (set_s_votes (vc_insert_vote (s_votes s) x v a) s).
Proof.
  clear lc tenc tdec spill cr. split; [simpl; lia|]. intros _. split_and!; [done..|]. simpl. intros h y t. by rewrite !get_qc_hash_qch, qch_vote.
Qed.
Lemma kept_qc (s : st T) o q : keptR s o (set_s_votes (vc_set_qc (s_votes s) q) s).
Proof.
  clear lc tenc tdec spill cr. split; [simpl; lia|]. intros _. split_and!; [done..|]. simpl. intros h y t. rewrite !get_qc_hash_qch, qch_qc.
  destruct (decide _); [|done]. unfold qcpair_set. destruct (av_type q), t; simpl; try done; intros _; by eexists.
Qed.
Local Hint Resolve kept_block kept_vote kept_qc : keepsdb.
Ltac kept_fin := first [by apply kept_same|apply kept_block|apply kept_vote|apply kept_qc|idtac].
Lemma kept_react e i : keeps keptR (react lc tenc e i).
Proof.
  clear tdec spill cr. apply (keeps_react _ _ _ kept_comp).
  - intros m ->. apply (keeps_on_msg _ _ kept_comp); [intros; by apply kept_same|]. keeps_go kept_comp; kept_fin.
  - intros m _. keeps_go kept_comp; kept_fin.
  - intros m _. keeps_go kept_comp; kept_fin.
  - intros ev ->. destruct ev; keeps_go kept_comp; kept_fin.
    case_match; [by apply kept_same|apply kept_block].
Qed.

(** What is made of a certificate. *)
Definition told (e : env T) (q : aggvote) (s : st T) (o : list (action T)) (s' : st T) : Prop :=
  (s_height s' = s_height s -> av_height q = s_height s /\ is_Some (vc_get_qc_by_hash (s_votes s') (av_height q) (av_hash q) (av_type q))) /\
  (s_full s !! av_hash q = Some true -> (forall t, e_trigger e t = true) -> ATrigger (qc_trigger q) ∈ o).
Definition pubR (e : env T) (s : st T) (o : list (action T)) (s' : st T) : Prop :=
  keptR s o s' /\ s_full s' = s_full s /\ forall q, ABroadcast (MAgg q) ∈ o -> told e q s o s'.
Lemma pub_comp e : comp (pubR e).
Proof.
  clear lc tenc tdec spill cr. split.
  - intros s0. split_and!; [apply kept_comp|done|]. by intros q ?%elem_of_nil.
  - intros s1 s2 s3 o1 o2 (A1 & A2 & A3) (B1 & B2 & B3). split_and!; [by eapply (comp_app _ kept_comp)|congruence|].
    intros q [Hq|Hq]%elem_of_app.
    + destruct (A3 _ Hq) as (C1 & C3). destruct A1 as [A1 _], B1 as [B1 B1']. split.
      * intros E. destruct C1 as [C1 C2]; [lia|]. destruct B1' as (_ & _ & B1'); [lia|]. auto.
      * intros H1 H2. apply elem_of_app. left. auto.
    + destruct (B3 _ Hq) as (C1 & C3). destruct A1 as [A1 _], B1 as [B1 _]. split.
      * intros E. destruct C1 as [C1 C2]; [lia|]. split; [lia|done].
      * intros H1 H2. apply elem_of_app. right. apply C3; [congruence|done].
Qed.
Lemma pub_quiet e s o (s' : st T) : keptR s o s' -> s_full s' = s_full s -> (forall q, ABroadcast (MAgg q) ∉ o) -> pubR e s o s'.
Proof. intros H1 H2 H3. split_and!; [done..|]. intros q Hq. by apply H3 in Hq. Qed.
Lemma pub_goto e stt : keeps (pubR e) (goto_new_height (T:=T) e stt).
Proof.
  clear lc tenc tdec spill cr. intros s s' o r Hg. pose proof (kept_goto _ _ _ _ _ _ Hg) as Hk. apply pub_quiet; [done|..];
  apply goto_inv in Hg as [(? & -> & -> & _)|[(? & _ & -> & -> & _)|[(? & _ & -> & -> & _)|(? & _ & -> & tr & -> & Htr)]]]; try done.
  - unfold moved_full. by destruct (st_interval stt).
  - by intros q ?%elem_of_nil.
  - by intros q ?%elem_of_nil.
  - by intros q ?%elem_of_list_singleton.
  - intros q [?|[(? & ? & ?)%elem_of_list_fmap|Hq]%elem_of_app]%elem_of_cons; try done.
    destruct Htr as [[-> _]|[-> _]]; [by apply elem_of_list_singleton in Hq|by apply elem_of_nil in Hq].
Qed.
Definition made_qc (s : st T) (x : bytes) (t : vtype) (l : list svote) (sig : bytes) : aggvote :=
  mkAggVote (mkAggSig sig (voters_bitmap (s_auth s) (sv_voter <$> ksort sv_voter l))) t (s_height s) (s_round s) x (s_addr s).
Lemma publish_fwd e x t (s : st T) l sig :
  vc_get_votes (s_votes s) (s_height s) (s_round s) t x = Ok l ->
  cr_aggregate (e_crypto e) (sv_sig <$> ksort sv_voter l) (sv_voter <$> ksort sv_voter l) = Some sig ->
  (forall t, e_trigger e t = true) ->
  publish_qc e x t s = (set_s_votes (vc_set_qc (s_votes s) (made_qc s x t l sig)) s,
    ABroadcast (MAgg (made_qc s x t l sig)) :: (if try_get_full_txs s x then [ATrigger (qc_trigger (made_qc s x t l sig))] else []), Ok tt).
Proof.
  clear lc tenc tdec spill cr. intros Hl Hs He. unfold publish_qc, generate_qc, aggregate_signatures, get, bind, lift, ret, modify, broadcast, emit.
  rewrite Hl. cbv zeta. rewrite Hs. simpl. unfold get.
  change (try_get_full_txs _ x) with (try_get_full_txs s x). unfold trigger_smr, emit. rewrite He. by destruct (try_get_full_txs s x).
Qed.
Lemma full_true (s : st T) x : s_full s !! x = Some true -> try_get_full_txs s x = true.
Proof. clear lc tenc tdec spill cr. intros H. unfold try_get_full_txs. destruct x; [done|]. by rewrite H. Qed.
Lemma pub_publish e x t : keeps (pubR e) (publish_qc (T:=T) e x t).
Proof.
  clear lc tenc tdec spill cr. intros s s' o r Hp. pose proof Hp as Hp0. apply publish_inv in Hp as [[-> ->]|(l & sig & Hl & Hs & Es & tr & Eo & Htr)]; [apply pub_comp|].
  cbv zeta in *. fold (made_qc s x t l sig) in *. set (q := made_qc s x t l sig) in *. split_and!; [rewrite Es; apply kept_qc|by rewrite Es|].
  intros q' Hq. rewrite Eo in Hq. apply elem_of_cons in Hq as [Hq|Hq]; [injection Hq as ->|destruct Htr as [->|[-> _]]; [by apply elem_of_nil in Hq|by apply elem_of_list_singleton in Hq]].
  split.
  - intros _. split; [done|]. rewrite Es. simpl. rewrite get_qc_hash_qch, qch_qc, decide_True by done. unfold qcpair_set. simpl. destruct t; by eexists.
  - intros Hf He. rewrite (publish_fwd _ _ _ _ _ _ Hl Hs He) in Hp0. simpl in Hf. rewrite (full_true _ _ Hf) in Hp0. injection Hp0 as _ <- _. fold q. set_solver.
Qed.
Local Hint Resolve pub_goto pub_publish : keepsdb.
Ltac pub_fin := intros; first [apply pub_quiet; [first [by apply kept_same|apply kept_block|apply kept_vote|apply kept_qc]|done|
    intros ?q ?Hq; repeat (apply elem_of_cons in Hq as [?|Hq]; [done|]); by apply elem_of_nil in Hq]|idtac].
Lemma pub_react e i : (forall rs, i <> IResp rs) -> keeps (pubR e) (react lc tenc e i).
Proof.
  clear tdec spill cr. intros Hi. apply (keeps_react _ _ _ (pub_comp e)).
  - intros m ->. apply (keeps_on_msg _ _ (pub_comp e)); [pub_fin|]. keeps_go (pub_comp e); pub_fin.
  - intros m _. keeps_go (pub_comp e); pub_fin.
  - intros m ->. by destruct (Hi m).
  - intros ev ->. destruct ev; keeps_go (pub_comp e); pub_fin.
    case_match; pub_fin.
Qed.
Lemma commit_holds e x s s' o r c q :
  react lc tenc e (IEvent (EvCommit x)) s = (s', o, r) -> s_stopped s = false -> s_power s = true ->
  s_blocks s !! x = Some c -> vc_get_qc_by_hash (s_votes s) (s_height s) x Precommit = Some q ->
  (exists w, o = [ASave w false] /\ wi_height w = s_height s /\ wi_step w = SCommit) \/
  (exists k, ACommit (s_height s) k ∈ o /\ c_content k = c /\ pf_hash (c_proof k) = x).
Proof.
  clear tdec spill cr. intros Hr Hst Hp Hb Hq.
  apply (react_core _ _ _ _ _ _ _ _ _ (eq_refl : core lc tenc e (IEvent (EvCommit x)) = Some _)) in Hr
    as [(Hsk & _)|(_ & r' & Hx & _)].
  { exfalso. destruct Hsk as [[Hsk _]|Hsk]; simpl in *; [congruence|]. destruct Hsk as [? _]. congruence. }
  apply commit_inv in Hx as [(_ & _ & _ & [?|?])|(c' & q' & Hb' & Hq' & Hx)]; [congruence|congruence|].
  rewrite Hb in Hb'. injection Hb' as <-. rewrite Hq in Hq'. injection Hq' as <-.
  destruct Hx as [(_ & _ & ->)|(_ & Hx)]; [left; by eexists|right].
  exists (commit_value s x q c). split; [|done].
  destruct (e_commit _ _ _); [destruct Hx as (o2 & -> & _)|destruct Hx as (_ & -> & _)]; set_solver.
Qed.

(** ** Specification *)
(** At height [h], a precommit certificate for the block [x] meets a finished check of the block:
    the certificate arrives, or is made from votes, when the check is done; or the check is done
    when the certificate is there. *)
Definition decisive (i : input T) (s : st T) (o : list (action T)) (x : bytes) : Prop :=
  (exists q, (i = IMsg (MAgg q) /\ av_height q = s_height s \/ (forall rs, i <> IResp rs) /\ ABroadcast (MAgg q) ∈ o) /\
     av_type q = Precommit /\ av_hash q = x /\ s_full s !! x = Some true) \/
  (exists rs q, i = IResp rs /\ vr_height rs = s_height s /\ vr_hash rs = x /\
     vc_get_qc_by_hash (s_votes s) (s_height s) x Precommit = Some q).
Definition held (x : bytes) (s : st T) : Prop :=
  s_power s = true /\ is_Some (s_blocks s !! x) /\ is_Some (vc_get_qc_by_hash (s_votes s) (s_height s) x Precommit).
Definition commit_trigger (h : N) (x : bytes) (t : trigger) : Prop :=
  t_type t = TPrecommitQC /\ t_src t = SrcState /\ t_hash t = x /\ t_height t = h.
Lemma decisive_trigger ops e i s s' o r x :
  s_votes s = vops ops -> react lc tenc e i s = (s', o, r) -> (forall t, e_trigger e t = true) ->
  s_power s = true -> s_stopped s = false -> decisive i s o x -> x <> [] -> is_Some (s_blocks s !! x) -> s_height s' = s_height s ->
  held x s' /\ exists t, ATrigger t ∈ o /\ commit_trigger (s_height s) x t.
Proof.
  clear tdec spill cr. intros Ev Hr He Hp Hst Hd Hne Hb Hh. pose proof (kept_react _ _ _ _ _ _ Hr) as [_ Hk]. destruct (Hk Hh) as (K1 & K2 & K3). unfold held.
  rewrite K1, Hh.
  assert (forall i0, i = i0 -> (forall ev, i0 <> IEvent ev) -> ~ skipped i0 s) as Hsk.
  { intros i0 -> Hn [[? _]|[_ (ev & ->)]]; [congruence|by apply (Hn ev)]. }
  destruct Hd as [(q & [[-> Eq]|[Hnr Hq]] & Et & Ex & Hf)|(rs & q & -> & Eh & Ex & Hq)].
  - eapply react_core in Hr; [|reflexivity]. destruct Hr as [[Hs _]|(_ & r' & Hx & _)]; [by eapply Hsk in Hs|].
    apply agg_inv in Hx as [(Hdr & _)|[(Hlt & _)|(_ & _ & -> & [[_ Ho]|(-> & _)])]].
    + exfalso. destruct Hdr as [?|[[? _]|(_ & _ & [?|?])]]; try lia; congruence.
    + lia.
    + exfalso. destruct Ho as [(_ & Ho & _)|[Ho _]]; [|by rewrite He in Ho]. rewrite Ex, (full_true _ _ Hf) in Ho. done.
    + split; [split_and!; [done|auto|]|].
      * unfold with_qc. simpl. rewrite get_qc_hash_qch, qch_qc, decide_True by done. unfold qcpair_set. rewrite Et. by eexists.
      * exists (qc_trigger q). split; [by left|]. unfold commit_trigger, qc_trigger. simpl. by rewrite Et, Ex, Eq.
  - pose proof (pub_react _ _ Hnr _ _ _ _ Hr) as (_ & _ & Hpub). destruct (Hpub _ Hq) as [H1 H2]. destruct (H1 Hh) as [Eh Hh2].
    rewrite Eh, Ex, Et in Hh2. split; [split_and!; auto|]. exists (qc_trigger q). split; [by apply H2; rewrite ?Ex|]. unfold commit_trigger, qc_trigger. simpl. by rewrite Et, Ex, Eh.
  - split; [split_and!; auto; apply K3; by eexists|]. pose proof Hq as Hq'. rewrite Ev in Hq'. apply lookup_hash in Hq' as (_ & E1 & E2 & E3).
    eapply react_core in Hr; [|reflexivity]. destruct Hr as [[Hs _]|(_ & r' & Hx & _)]; [by eapply Hsk in Hs|].
    unfold handle_resp, get in Hx. rewrite Eh, N.eqb_refl in Hx. cbn [negb] in Hx. unfold bind, modify in Hx. rewrite Ex, Hq in Hx.
    unfold trigger_smr in Hx. rewrite He in Hx. unfold emit in Hx. injection Hx as _ <- _.
    eexists. split; [by left|]. unfold commit_trigger, mk_trigger. simpl. by rewrite E1, E2.
Qed.
End D.

(** ** The state machine *)
Lemma smr_same_height t m m' o r :
  smr_step open_chans t m = (m', o, r) -> not_wal t -> (forall s, t_type t = TNewHeight s -> ss_height s <= m_height m) ->
  m_height m' = m_height m /\ (m_step m' = SCommit -> m_step m = SCommit \/ exists y, EvCommit y ∈ to_state o).
Proof.
  intros H Hw Hn. unfold not_wal, open_chans in *. smr_go H; try congruence; try (exfalso; specialize (Hn _ eq_refl); lia).
  all: split; [done|]; intros Hs; try (by left); try discriminate Hs.
  all: right; eexists; unfold to_state; simpl; by left.
Qed.
Lemma smr_commits t m m' o r :
  smr_step open_chans t m = (m', o, r) -> t_type t = TPrecommitQC -> t_src t = SrcState -> t_hash t <> [] -> t_height t = m_height m -> m_step m <> SCommit ->
  EvCommit (t_hash t) ∈ to_state o.
Proof.
  intros H Ht Hsrc Hne Hh Hs. unfold open_chans in *. smr_go H; try congruence; try lia. all: unfold to_state; simpl; by left.
Qed.

Section X.
Context {T : Type} `{EqDecision T}.
Context (lc : lcfg) (tenc : T -> bytes) (tdec : bytes -> option T) (spill : bool) (cr : crypto).
Context (b : boot T) (cfg : option durcfg) (w : option (walinfo T)).
Context (x : nat -> node T) (lab : nat -> option (label T)) (lg : nat -> list (nlog T)).
Context (Hex : execution lc tenc tdec spill cr b cfg x lab lg) (Hfair : fair x lab lg) (Hboot : boots tdec spill b w).
Set Default Proof Using "Type Hex Hfair Hboot".

Lemma ex_state i : (exists e inp o r n0, lg i = [NState (env_at (x i) e) inp (nd_st (x i)) o r] /\ popped inp (x i) n0 /\
      react lc tenc (env_at (x i) e) inp (nd_st (x i)) = (nd_st (x (S i)), o, r) /\
      nd_smr (x (S i)) = nd_smr (x i) /\ nd_trig (x (S i)) = nd_trig (x i) ++ trigs_of o /\ lab i <> Some LSmr) \/
  ((forall e inp s o r, NState e inp s o r ∉ lg i) /\ nd_st (x (S i)) = nd_st (x i) /\
    ((exists t o r, lab i = Some LSmr /\ lg i = [NSmr t (nd_smr (x i)) o r] /\ nd_trig (x i) = t :: nd_trig (x (S i)) /\ smr_step open_chans t (nd_smr (x i)) = (nd_smr (x (S i)), o, r)) \/
     (lab i <> Some LSmr /\ nd_smr (x (S i)) = nd_smr (x i) /\ exists more, nd_trig (x (S i)) = nd_trig (x i) ++ more))).
Proof.
  destruct (ex_reach _ _ _ _ _ _ _ _ _ _ _ Hex Hfair Hboot i) as (log & Hr & _). apply noderun_nostop in Hr as (_ & _ & _ & _ & _ & _ & Hso & Hto).
  destruct Hex as [_ Hstep _ Hon]. specialize (Hstep i). pose proof (Hon i) as Hon'. destruct (lab i) as [l|].
  2: { destruct Hstep as [E El]. right. split; [rewrite El; by intros ? ? ? ? ? ?%elem_of_nil|]. rewrite E. split; [done|]. right. split_and!; try done. exists []. by rewrite app_nil_r. }
  pose proof (label_log _ _ _ _ _ _ _ Hstep) as Hlab.
  assert (l = LSmr -> exists t o r, lg i = [NSmr t (nd_smr (x i)) o r]) as Hl by (by intros ->).
  assert ((exists t m o r, lg i = [NSmr t m o r]) -> Some l = Some LSmr) as Hl2.
  { intros (t & m & o & r & E). rewrite E in Hlab. by destruct l; try (destruct Hlab as (? & ? & ? & ? & ? & ?)||destruct Hlab as (? & ? & ? & ?)||destruct Hlab as (? & ?)||idtac). }
  clear Hlab.
  assert ((forall t o r, lg i <> [NSmr t (nd_smr (x i)) o r]) -> Some l <> Some LSmr) as Hl' by (intros Hn [= ->]; destruct (Hl eq_refl) as (t & o & r & E); by eapply Hn). clear Hl.
  apply nstep_inv in Hstep as [m -> E|e inp n0 s o r Ho Hp Hr' -> E|t q m o r ? Eq Hr' -> E|k a m Hk0 -> E|k h0 r x0 b0 ok ? -> E|ev q Htm Eq -> E|k ev Hk0 -> E|ev q Htm Eq -> E]; rewrite E in Hl', Hl2 |- *.
  1: right; split; [by intros ? ? ? ? ? ?%elem_of_list_singleton|]; split; [done|right; split_and!; [by apply Hl'|done|exists []; by rewrite app_nil_r]].
  - left. exists e, inp, o, r, n0. apply popped_same in Hp as Hp'. assert (nd_smr n0 = nd_smr (x i) /\ nd_trig n0 = nd_trig (x i)) as [E1 E2].
    { by apply popped_timeouts in Hp as (? & ? & _). }
    split_and!; try done; [by simpl; rewrite E2|by apply Hl'].
  - right. split; [by intros ? ? ? ? ? ?%elem_of_list_singleton|]. split; [done|left]. rewrite Hon', Hto in Hr'. exists t, o, r. split_and!; [apply Hl2; eauto 10|done|done|exact Hr'].
  - right. split; [by intros ? ? ? ? ? ?%elem_of_list_singleton|]. split; [by destruct (verify_msg tenc cr a m)|right]. split_and!; [by apply Hl'|by destruct (verify_msg tenc cr a m)|exists []; rewrite app_nil_r; by destruct (verify_msg tenc cr a m)].
  - right. split; [by intros ? ? ? ? ? ?%elem_of_list_singleton|]. split; [by destruct ok|right]. split_and!; [by apply Hl'|by destruct ok|exists []; rewrite app_nil_r; by destruct ok].
  - destruct (arm_same ev (set_tevs q (x i))) as (E1 & E2 & E3 & E4 & E5 & E6 & _). simpl in *. right. split; [by intros ? ? ? ? ? ?%elem_of_list_singleton|]. split; [done|right]. split_and!; [by apply Hl'|done|exists []; by rewrite app_nil_r].
  - right. split; [by intros ? ? ? ? ? ?%elem_of_list_singleton|]. split; [done|right]. split_and!; [by apply Hl'|done|exists []; by rewrite app_nil_r].
  - destruct (fire_same ev (set_fired q (x i))) as (E1 & E2 & E3 & E4 & E5 & E6 & E7 & E8 & E9 & E10 & E11 & E12 & E13 & E14 & E15 & Htr). simpl in *.
    right. split; [by intros ? ? ? ? ? ?%elem_of_list_singleton|]. split; [done|right]. split_and!; [by apply Hl'|done|]. destruct Htr as [->|(t & _ & ->)]; [exists []; by rewrite app_nil_r|by eexists].
Qed.

Lemma ex_kept i : keptR (nd_st (x i)) [] (nd_st (x (S i))).
Proof.
  destruct (ex_state i) as [(e & inp & o & r & n0 & _ & _ & Hr & _)|(_ & -> & _)]; [|apply kept_comp].
  apply kept_react in Hr. exact Hr.
Qed.
Lemma ex_height i j : (i <= j)%nat -> s_height (nd_st (x i)) <= s_height (nd_st (x j)).
Proof. induction 1 as [|j Hij IH]; [done|]. destruct (ex_kept j) as [? _]. lia. Qed.
Context (h : N) (Hh : 0 < h).
Local Notation at_h i := (s_height (nd_st (x i)) = h).
Set Default Proof Using "Type Hex Hfair Hboot Hh".
Lemma ex_held y i j : (i <= j)%nat -> at_h i -> at_h j -> held y (nd_st (x i)) -> held y (nd_st (x j)).
Proof.
  intros Hij Hi. induction Hij as [|j Hij IH]; [done|]. intros Hj Hd.
  pose proof (ex_height _ _ Hij) as H1. destruct (ex_kept j) as [H2 H3]. destruct (H3 ltac:(lia)) as (H4 & H5 & H6).
  destruct (IH ltac:(lia) Hd) as (D1 & D2 & D3). assert (s_height (nd_st (x (S j))) = s_height (nd_st (x j))) as E by lia.
  split_and!; [congruence|auto|]. rewrite E. auto.
Qed.
Lemma ex_trig i t : m_height (nd_smr (x i)) = h -> t ∈ nd_trig (x i) -> at_h i ->
  not_wal t /\ (forall s, t_type t = TNewHeight s -> ss_height s <= m_height (nd_smr (x i))).
Proof.
  intros Hm Ht Ha. destruct (ex_reach _ _ _ _ _ _ _ _ _ _ _ Hex Hfair Hboot i) as (log & Hr & Hl).
  destruct (noderun_flow _ _ _ _ _ _ _ _ _ w Hr Hboot Hl) as (F & _ & Hv). specialize (Hv (ex_on _ _ _ _ _ _ _ _ _ _ Hex i)).
  apply noderun_ninv in Hr as [Hni _]. rewrite Forall_forall in Hni. apply Hni in Ht as Hg. unfold good_trigger in Hg. split.
  - destruct Hv as [H0 A1 A2 A3 A4 A5 A6|j tw pre post A1 A2 A3 A4 A5 A6 A7 A8 A9 A10 A11 A12|c c' A1 A2 A3 A4 A5 A6].
    + rewrite A4 in Hm. unfold smr_init in Hm; cbn in Hm; unfold INIT_HEIGHT in Hm; exfalso; apply (N.lt_irrefl 0); by rewrite Hm at 2.
    + rewrite A6 in Hm. unfold smr_init in Hm; cbn in Hm; unfold INIT_HEIGHT in Hm; exfalso; apply (N.lt_irrefl 0); by rewrite Hm at 2.
    + rewrite Forall_forall in A4. by apply A4.
  - intros s E. rewrite E in Hg. destruct Hg as [_ Hg]. lia.
Qed.
Lemma cert_ordered i y t : at_h i -> m_height (nd_smr (x i)) = h -> m_step (nd_smr (x i)) <> SCommit -> y <> [] ->
  t ∈ nd_trig (x i) -> commit_trigger h y t ->
  exists j, (i <= j)%nat /\ (h < s_height (nd_st (x (S j))) \/ exists z, orders (lg j) (EvCommit z)).
Proof.
  intros Ha Hm Hs Hy (l1 & l2 & Ht)%elem_of_list_split (C1 & C2 & C3 & C4).
  apply (drain (fun p j => at_h j /\ m_height (nd_smr (x j)) = h /\ m_step (nd_smr (x j)) <> SCommit /\ exists l1 l2, nd_trig (x j) = l1 ++ t :: l2 /\ length l1 = p)
           (fun j => h < s_height (nd_st (x (S j))) \/ exists z, orders (lg j) (EvCommit z)) (fun j => lab j = Some LSmr)) with (p := length l1).
  - clear i Ha Hm Hs l1 l2 Ht. intros p j (Ha & Hm & Hs & l1 & l2 & Ht & Hp).
    destruct (ex_state j) as [(e & inp & o & r & n0 & _ & _ & _ & E1 & E2 & El)|(_ & E1 & [(t0 & o & r & El & Elg & Et & Hst)|(El & E2 & more & E3)])].
    + destruct (ex_kept j) as [Hk _]. destruct (decide (at_h (S j))) as [Ha'|Hn]; [right|left; left; lia].
      exists p. split; [lia|split; [|done]]. rewrite E1. split_and!; try done. exists l1, (l2 ++ trigs_of o). by rewrite E2, Ht, <-app_assoc.
    + rewrite Ht in Et. destruct (ex_trig j t0) as [Hnw Hnh]; [done|rewrite Ht; destruct l1; injection Et as -> _; by left|done|].
      destruct (smr_same_height _ _ _ _ _ Hst Hnw Hnh) as [Hh' Hs'].
      assert (forall z, EvCommit z ∈ to_state o -> exists z, orders (lg j) (EvCommit z)) as Hord.
      { intros z Hz. exists z, t0, (nd_smr (x j)), o, r. rewrite Elg. split; [by left|done]. }
      destruct (decide (m_step (nd_smr (x (S j))) = SCommit)) as [Hc|Hc].
      { left. right. destruct (Hs' Hc) as [?|[z Hz]]; [done|by eapply Hord]. }
      destruct l1 as [|t1 l1]; injection Et as -> Et.
      * left. right. apply (Hord (t_hash t0)). eapply smr_commits; [exact Hst|done|done|by rewrite C3|by rewrite C4|done].
      * right. exists (length l1). simpl in Hp. split; [lia|split; [|lia]]. rewrite E1, Hh'. split_and!; try done. by exists l1, l2.
    + right. exists p. split; [lia|split; [|done]]. rewrite E1, E2. split_and!; try done. exists l1, (l2 ++ more). by rewrite E3, Ht, <-app_assoc.
  - intros p j (_ & _ & _ & l3 & l4 & E & _). apply (fr_smr _ _ _ Hfair). rewrite E. by destruct l3.
  - split_and!; try done. by exists l1, l2.
Qed.
End X.

Set Default Proof Using "Type".
Section C53.
Context {T : Type} `{EqDecision T}.
Context (lc : lcfg) (tenc : T -> bytes) (tdec : bytes -> option T) (spill : bool) (cr : crypto).
Set Default Proof Using "Type".

(** C53. At height [h], when a precommit certificate for the block [y], whose proposal is at hand,
    meets a finished check of the block, then the instance is going to call [commit] with a proof
    for [y] at height [h], unless: it is told of a later height first, the record of the decision
    cannot be written, or it was ordered to commit another block in the meantime. *)
Theorem C53_decided_blocks_are_committed b cfg w x lab lg :
  execution lc tenc tdec spill cr b cfg x lab lg -> fair x lab lg -> boots tdec spill b w ->
  forall i e inp s o r y,
    lg i = [NState e inp s o r] -> s_power s = true -> y <> [] -> decisive inp s o y -> is_Some (s_blocks s !! y) ->
    0 < s_height s -> m_height (nd_smr (x i)) = s_height s -> m_step (nd_smr (x i)) <> SCommit ->
    exists j, (i < j)%nat /\
      (s_height s < s_height (nd_st (x j)) \/
       exists e' z s' o' r', lg j = [NState e' (IEvent (EvCommit z)) s' o' r'] /\ s_height s' = s_height s /\
         (z <> y \/
          (exists w, ASave w false ∈ o' /\ wi_height w = s_height s /\ wi_step w = SCommit) \/
          (exists c, ACommit (s_height s) c ∈ o' /\ pf_hash (c_proof c) = y))).
Proof.
  intros Hex Hf Hb i e inp s o r y Elg Hp Hy Hd Hbl Hh Hm Hs.
  destruct (ex_state _ _ _ _ _ _ _ _ _ _ _ Hex Hf Hb i) as [(e0 & inp0 & o0 & r0 & n0 & E & Hpop & Hr & E1 & E2 & _)|(Hno & _)].
  2: { exfalso. eapply Hno. rewrite Elg. by left. }
  rewrite Elg in E. injection E as -> -> -> -> ->. set (h := s_height (nd_st (x i))) in *.
  destruct (ex_reach _ _ _ _ _ _ _ _ _ _ _ Hex Hf Hb i) as (log & Hrun & _).
  pose proof (noderun_nostop _ _ _ _ _ _ _ _ _ Hrun) as (Hst & _ & _ & _ & _ & _ & Hso & _).
  pose proof (noderun_run _ _ _ _ _ _ _ _ _ Hrun) as Hrun'. apply run_run_inv in Hrun'. destruct Hrun' as [(ops & Ev & _) _ _ _ _ _].
  destruct (decide (s_height (nd_st (x (S i))) = h)) as [Heq|Hne].
  2: { exists (S i). split; [lia|]. left. pose proof (kept_react _ _ _ _ _ _ _ _ Hr) as [Hk _]. fold h in Hk. lia. }
  destruct (decisive_trigger _ _ _ _ _ _ _ _ _ _ Ev Hr (fun _ => Hso) Hp Hst Hd Hy Hbl Heq) as [Hheld (t & Ht & Hct)]. fold h in Hct.
  destruct (cert_ordered _ _ _ _ _ _ _ _ _ _ _ Hex Hf Hb h Hh (S i) y t) as (k & Hik & [Hgt|(z & Ho)]); try done; [by rewrite E1|by rewrite E1| | |].
  { rewrite E2. apply elem_of_app. right. by apply trigs_of_in. }
  { exists (S k). split; [lia|by left]. }
  destruct (order_treated _ _ _ _ _ _ _ _ _ _ Hex Hf k (EvCommit z) Ho) as (j & Hkj & e' & s' & o' & r' & Hin).
  assert (lg j = [NState e' (IEvent (EvCommit z)) s' o' r'] /\ s' = nd_st (x j) /\ react lc tenc e' (IEvent (EvCommit z)) s' = (nd_st (x (S j)), o', r')) as (Elj & -> & Hrj).
  { destruct (ex_state _ _ _ _ _ _ _ _ _ _ _ Hex Hf Hb j) as [(e1 & inp1 & o1 & r1 & n1 & E & _ & Hr1 & _)|(Hno & _)]; [|by apply Hno in Hin].
    rewrite E in Hin. apply elem_of_list_singleton in Hin. injection Hin as -> <- -> -> ->. done. }
  pose proof (ex_height _ _ _ _ _ _ _ _ _ _ _ Hex Hf Hb (S i) j ltac:(lia)) as Hge.
  exists j. split; [lia|]. destruct (decide (s_height (nd_st (x j)) = h)) as [Hej|Hnj]; [right|left; lia].
  exists e', z, (nd_st (x j)), o', r'. split_and!; try done. destruct (decide (z = y)) as [->|?]; [right|by left].
  destruct (ex_held _ _ _ _ _ _ _ _ _ _ _ Hex Hf Hb h Hh y (S i) j ltac:(lia) Heq Hej Hheld) as (D1 & [c D2] & [q D3]).
  destruct (ex_reach _ _ _ _ _ _ _ _ _ _ _ Hex Hf Hb j) as (log' & Hrun' & _). apply noderun_nostop in Hrun' as (Hst' & _).
  destruct (commit_holds _ _ _ _ _ _ _ _ _ _ Hrj Hst' D1 D2 D3) as [(w0 & -> & W1 & W2)|(c0 & G1 & _ & G3)]; rewrite Hej in *; [left|right].
  - exists w0. split; [by left|done].
  - by exists c0.
Qed.
End C53.
Print Assumptions C53_decided_blocks_are_committed.
