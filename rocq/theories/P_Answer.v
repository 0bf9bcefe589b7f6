(** * P_Answer: proposals are answered with prevotes (C56), prevote certificates with precommits (C57). *)
From Verif Require Export P_Quorum.
Set Default Proof Using "Type".

(** ** Specification *)
(** The state machine waits for the proposal of height [h], round [r], and has no lock. *)
Definition waiting (h r : N) (m : smr) : Prop := m_height m = h /\ m_round m = r /\ m_step m = SPropose /\ m_lock m = None.
(** The state machine is in round [r] of height [h] and has not precommitted in it. *)
Definition undecided (h r : N) (m : smr) : Prop := m_height m = h /\ m_round m = r /\ (m_step m = SPropose \/ m_step m = SPrevote).
Global Instance waiting_dec h r m : Decision (waiting h r m).
Proof. unfold waiting. apply _. Defined.
Global Instance undecided_dec h r m : Decision (undecided h r m).
Proof. unfold undecided. apply _. Defined.

(** ** The state machine *)
Lemma smr_prevotes t m m' o r h rd :
  smr_step open_chans t m = (m', o, r) -> waiting h rd m ->
  t_type t = TProposal -> t_src t = SrcState -> t_hash t <> [] -> t_height t = h -> t_round t = rd ->
  EvPrevote h rd (t_hash t) None ∈ to_state o.
Proof.
  intros H (H1 & H2 & H3 & H4) T1 T2 T3 T4 T5. unfold open_chans in *. smr_go H; try congruence; try lia.
  all: try (unfold to_state; simpl; by left).
  all: simplify_eq; try done.
Qed.
Lemma smr_precommits t m m' o r h rd :
  smr_step open_chans t m = (m', o, r) -> undecided h rd m ->
  t_type t = TPrevoteQC -> t_src t = SrcState -> t_hash t <> [] -> t_height t = h -> t_round t = rd ->
  EvPrecommit h rd (t_hash t) (Some rd) ∈ to_state o.
Proof.
  intros H (H1 & H2 & H3) T1 T2 T3 T4 T5. unfold open_chans in *. smr_go H; try congruence; try lia.
  all: try (unfold to_state; simpl; by left).
  all: simplify_eq; try done.
  all: destruct H3 as [-> | ->]; simpl in *; lia.
Qed.

Section A.
Context {T : Type} `{EqDecision T}.
Context (lc : lcfg) (tenc : T -> bytes) (tdec : bytes -> option T) (spill : bool) (cr : crypto).

(** ** A block to be checked is a proposal for the state machine *)
Definition checks (o : list (action T)) (h r : N) (x : bytes) : Prop := exists blk, ACheck h r x blk ∈ o.
Definition chkR (e : env T) (_ : st T) (o : list (action T)) (_ : st T) : Prop :=
  (forall t, e_trigger e t = true) -> forall h r x, checks o h r x -> exists lr, ATrigger (mk_trigger TProposal x lr r h) ∈ o.
Lemma chk_comp e : comp (chkR e).
Proof.
  clear. split; [intros s0 _ h r x [blk ?%elem_of_nil]; done|]. intros s1 s2 s3 o1 o2 H1 H2 He h r x (blk & [Hb|Hb]%elem_of_app).
  - destruct (H1 He h r x) as [lr Hlr]; [by exists blk|]. exists lr. set_solver.
  - destruct (H2 He h r x) as [lr Hlr]; [by exists blk|]. exists lr. set_solver.
Qed.
Lemma chk_none e s o s' : (forall h r x blk, ACheck h r x blk ∉ o) -> chkR e s o s'.
Proof. clear. intros Hn _ h r x (blk & Hb). by apply Hn in Hb. Qed.
Ltac cn := apply chk_none; intros ? ? ? ? ?Hin; repeat (apply elem_of_cons in Hin as [?|Hin]; [done|]); by apply elem_of_nil in Hin.
Lemma chk_goto e stt : keeps (chkR e) (goto_new_height (T:=T) e stt).
Proof.
  clear. intros s s' o r Hg.
  apply goto_inv in Hg as [(_ & _ & -> & _)|[(_ & _ & _ & -> & _)|[(_ & _ & _ & -> & _)|(_ & _ & _ & tr & -> & Ht)]]]; try cn.
  apply chk_none. intros h r' x blk [?|[(? & ? & ?)%elem_of_list_fmap|Hq]%elem_of_app]%elem_of_cons; try done.
  destruct Ht as [[-> _]|[-> _]]; [by apply elem_of_list_singleton in Hq|by apply elem_of_nil in Hq].
Qed.
Local Hint Resolve chk_goto : keepsdb.
Lemma chk_prop e sp : keeps (chkR e) (handle_signed_proposal (T:=T) lc e sp).
Proof.
  clear tdec spill cr. intros s s' o r Hn. apply hsp_inv in Hn. cbv zeta in Hn.
  destruct Hn as [(-> & -> & _)|[(_ & _ & _ & -> & -> & _)|(Hv & _ & Eh & Er & -> & Ho)]]; [cn..|].
  destruct ((pc_insert _ _ _ _).2); [destruct Ho as [[-> _]|[-> _]]|destruct Ho as [-> _]..]; try cn.
  intros _ h rd x (blk & [?|[[= -> -> -> ->]|?%elem_of_nil]%elem_of_cons]%elem_of_cons); try done. eexists. left.
Qed.
Lemma chk_new_round e nr lr lp from : keeps (chkR e) (handle_new_round (T:=T) lc tenc e nr lr lp from).
Proof.
  clear tdec spill cr. intros s s' o r Hn. apply new_round_inv in Hn as (o1 & -> & Hn).
  apply (comp_app _ (chk_comp e) s s s'). { unfold view_changes. destruct (_ =? _); cn. }
  destruct Hn as [(-> & _ & [[-> _]|(uf & -> & _)])|(uf & l & _ & _ & _ & [(_ & -> & -> & _)|(_ & o2 & -> & Hp)])]; [cn..|].
  apply (comp_app _ (chk_comp e) s s s' [_] o2); [cn|]. apply propose_inv in Hp.
  destruct (get_proposer _ _ _ _) as [p|x|]; [|by destruct Hp as [-> ->]; cn..].
  destruct (decide _) as [->|_].
  - destruct Hp as [(-> & [->| ->] & _)|(blk & h & pl & om & Hm & -> & Ho)]; [cn..|].
    assert (chkR e s om s) as Hom.
    { assert (keeps (chkR e) (make_proposal (T:=T) e lr lp)) as Hk by (keeps_go (chk_comp e); cn). by apply Hk in Hm. }
    destruct Ho as [[-> _]|(sig & tr & _ & -> & Ht)]; [exact Hom|]. apply (comp_app _ (chk_comp e) s s _); [exact Hom|].
    destruct Ht as [->| ->]; [cn|].
    intros _ h0 rd x (blk0 & [?|[?|[[= -> -> -> ->]|?%elem_of_nil]%elem_of_cons]%elem_of_cons]%elem_of_cons); try done. eexists. right. left.
  - destruct (pc_get _ _ _) as [sp| |]; [|by destruct Hp as (-> & -> & _); cn..]. by apply chk_prop in Hp.
Qed.
Local Hint Resolve chk_prop chk_new_round : keepsdb.
Lemma chk_react e i : keeps (chkR e) (react lc tenc e i).
Proof.
  clear tdec spill cr. apply (keeps_react _ _ _ (chk_comp e)).
  - intros m _. apply (keeps_on_msg _ _ (chk_comp e)); [intros; cn|]. keeps_go (chk_comp e); cn.
  - intros m _. keeps_go (chk_comp e); cn.
  - intros m _. keeps_go (chk_comp e); cn.
  - intros m _. keeps_go (chk_comp e); cn.
Qed.

(** ** An order to vote is obeyed *)
Definition vote_lock (ev : smr_event) : option N :=
  match ev with EvPrevote _ _ _ lr | EvPrecommit _ _ _ lr => lr | _ => None end.
Lemma obey_vote e ev s s' o r h rd t x :
  vote_event ev = Some (h, rd, t, x) -> react lc tenc e (IEvent ev) s = (s', o, r) -> s_power s = true -> s_stopped s = false ->
  is_Some (lock_to_save s (vote_lock ev)) -> (forall y, is_Some (cr_sign (e_crypto e) y)) ->
  (exists w, ASave w false ∈ o) \/ (exists a, a ∈ o /\ vote_of a = Some (mkVote (s_height s) (s_round s) t x)).
Proof.
  clear tdec spill cr. intros He Hr Hp Hst [lk Hl] Hsg.
  assert (exists lr, vote_lock ev = lr /\ core lc tenc e (IEvent ev) = Some (handle_vote_event e x t lr)) as (lr & El & Ec).
  { destruct ev; try discriminate He; injection He as -> -> <- ->; eexists; (split; [reflexivity|]); reflexivity. }
  pose proof (react_core _ _ _ _ _ _ _ _ _ Ec Hr) as [([[? _]|[? _]] & _)|(_ & r' & Hx & _)]; [congruence..|].
  rewrite El in Hl. unfold handle_vote_event, get in Hx.
  destruct (Hsg (cr_hash (e_crypto e) (enc (vote_rlp (mkVote (s_height s) (s_round s) t x))))) as [sig Hsig].
  apply bind_inv in Hx as [(sv & s1 & o1 & o2 & H1 & H2 & ->)|[(z & H1 & ->)|(H1 & ->)]];
    apply sign_vote_inv in H1 as (-> & -> & H1); rewrite Hsig in H1; try discriminate H1. injection H1 as ->. cbn [app].
  apply bind_inv in H2 as [(u & s1 & o1 & o3 & H1 & H2 & ->)|[(z & H1 & ->)|(H1 & ->)]];
    apply save_lr_inv in H1 as [-> H1]; rewrite Hl in H1; cbv zeta in H1; destruct H1 as [-> H1].
  2-3: destruct (e_save _ _); [discriminate H1|left; eexists; by left].
  right. cbn [app].
  apply bind_inv in H2 as [(u' & s2 & o4 & o5 & H3 & H2 & ->)|[(z & H3 & ->)|(H3 & ->)]].
  2-3: unfold bind, emit, modify, transmit, get in H3; destruct (s_leader s); simplify_eq.
  destruct (s_leader s).
  - unfold bind, emit, modify in H3. injection H3 as <- <-. eexists. split; [right; by left|done].
  - unfold transmit, get, emit in H3. injection H3 as <- <-. eexists. split; [right; by left|done].
Qed.

(** ** Certificates by round *)
Definition idR (s : st T) (o : list (action T)) (s' : st T) : Prop :=
  fwdR s o s' /\ forall q, ABroadcast (MAgg q) ∈ o -> s_height s' = s_height s -> has_qc s' (av_height q) (av_round q) (av_type q).
Lemma id_comp : comp idR.
Proof.
  clear. split; [intros s0; split; [apply fwd_comp|by intros q ?%elem_of_nil]|].
  intros s1 s2 s3 o1 o2 [A1 A2] [B1 B2]. split; [by eapply (comp_app _ fwd_comp)|]. pose proof A1 as [A1' _]. pose proof B1 as [B1' B3].
  intros q [Hq|Hq]%elem_of_app E.
  - destruct B3 as (_ & _ & B3); [lia|]. apply B3. apply A2; [done|lia].
  - apply B2; [done|lia].
Qed.
Lemma id_quiet s o (s' : st T) : fwdR s o s' -> (forall q, ABroadcast (MAgg q) ∉ o) -> idR s o s'.
Proof. intros H1 H3. split; [done|]. intros q Hq. by apply H3 in Hq. Qed.
Lemma id_goto e stt : keeps idR (goto_new_height (T:=T) e stt).
Proof.
  clear. intros s s' o r Hg. apply id_quiet; [by eapply fwd_goto|]. intros q Hq.
  apply goto_inv in Hg as [(? & -> & -> & _)|[(? & _ & -> & -> & _)|[(? & _ & -> & -> & _)|(? & _ & -> & tr & -> & Htr)]]].
  - by apply elem_of_nil in Hq.
  - by apply elem_of_nil in Hq.
  - by apply elem_of_list_singleton in Hq.
  - apply elem_of_cons in Hq as [?|[(? & ? & ?)%elem_of_list_fmap|Hq]%elem_of_app]; try done.
    destruct Htr as [[-> _]|[-> _]]; [by apply elem_of_list_singleton in Hq|by apply elem_of_nil in Hq].
Qed.
Lemma has_qc_set (s : st T) q : has_qc (set_s_votes (vc_set_qc (s_votes s) q) s) (av_height q) (av_round q) (av_type q).
Proof.
  clear. unfold has_qc. simpl. rewrite get_qc_rnd, rnd_qc, decide_True by done.
  unfold rc_set_qc, qcpair_set. simpl. destruct (av_type q); simpl; by eexists.
Qed.
Lemma id_publish e x t : keeps idR (publish_qc (T:=T) e x t).
Proof.
  clear. intros s s' o r Hp. apply publish_inv in Hp as [[-> ->]|(l & sig & Hl & Hs & -> & tr & -> & Htr)]; [apply id_comp|].
  cbv zeta. fold (made_qc s x t l sig). split; [by apply (fwd_op _ _ _ (VQC (made_qc s x t l sig)))|]. intros q [Hq|Hq]%elem_of_cons _.
  - injection Hq as ->. apply has_qc_set.
  - exfalso. destruct Htr as [->|[-> _]]; [by apply elem_of_nil in Hq|by apply elem_of_list_singleton in Hq].
Qed.
Local Hint Resolve id_goto id_publish : keepsdb.
Ltac id_fin := intros; first [apply id_quiet; [first [by apply fwd_same|
    match goal with
    | |- fwdR _ _ (set_s_votes (vc_insert_vote _ _ ?v _) _) => by apply (fwd_op _ _ _ (VVote v))
    | |- fwdR _ _ (set_s_votes (vc_set_qc _ ?q) _) => by apply (fwd_op _ _ _ (VQC q))
    end]|
    intros ?q ?Hq; repeat (apply elem_of_cons in Hq as [?|Hq]; [done|]); by apply elem_of_nil in Hq]|idtac].
Lemma id_own e hash t lr : keeps idR (handle_vote_event (T:=T) e hash t lr).
Proof.
  clear. assert (keeps idR (vote_process (T:=T) e t)) as Hvp by (keeps_go id_comp; id_fin).
  intros s s' o r Hv. apply vote_event_inv in Hv as [(-> & -> & _)|(sig & lk & _ & _ & [(_ & -> & -> & _)|(_ & o2 & Hv)])]; [apply id_comp|id_fin|].
  destruct (s_leader s); destruct Hv as [-> Hv]; apply Hvp in Hv.
  - apply (comp_app _ id_comp s (with_vote (own_vote sig t hash s) s) s' [_;_] o2); [|exact Hv]. apply id_quiet; [by apply (fwd_op _ _ _ (VVote (own_vote sig t hash s)))|].
    intros q Hq. repeat (apply elem_of_cons in Hq as [?|Hq]; [done|]). by apply elem_of_nil in Hq.
  - apply (comp_app _ id_comp s s s' [_;_] o2); [id_fin|exact Hv].
Qed.
Local Hint Resolve id_own : keepsdb.
Lemma id_react e i : keeps idR (react lc tenc e i).
Proof.
  clear tdec spill cr. apply (keeps_react _ _ _ id_comp).
  - intros m ->. apply (keeps_on_msg _ _ id_comp); [id_fin|]. keeps_go id_comp; id_fin.
  - intros m _. keeps_go id_comp; id_fin.
  - intros m ->. keeps_go id_comp; id_fin.
  - intros ev ->. destruct ev; keeps_go id_comp; id_fin.
    case_match; id_fin.
Qed.
Lemma last_qc_other ops h sel sel2 q : last_qc ops h sel = Some q -> sel2 q = true -> is_Some (last_qc ops h sel2).
Proof.
  clear. revert q. induction ops as [|op ops IH] using rev_ind; [done|]. intros q. rewrite !last_qc_snoc. destruct op as [v|q'|h'|till]; simpl.
  - eauto.
  - destruct (N.eqb_spec (av_height q') h); simpl; [|eauto]. destruct (sel q'); [intros [= ->] ->; by eexists|].
    intros Hq Hs. destruct (sel2 q'); [by eexists|eauto].
  - destruct (_ =? _); [done|eauto].
  - destruct (_ <? _); [done|eauto].
Qed.
Lemma hash_id (s : st T) ops h x t q : s_votes s = vops ops -> vc_get_qc_by_hash (s_votes s) h x t = Some q -> has_qc s h (av_round q) t.
Proof.
  clear. intros E Hq. unfold has_qc. rewrite E in *. pose proof (lookup_hash _ _ _ _ _ Hq) as (_ & H1 & H2 & H3).
  rewrite get_qc_hash_qch, vops_qc_hash in Hq. rewrite get_qc_rnd, vops_qc_id.
  destruct (last_qc_other _ _ _ (fun q0 => (av_round q0 =? av_round q) && bool_decide (av_type q0 = t)) _ Hq) as [q' ->]; [|by exists q'].
  rewrite N.eqb_refl. simpl. by rewrite bool_decide_eq_true_2.
Qed.

(** ** A prevote certificate and the checked block *)
(** At height [h], a prevote certificate of round [rd] for the block [x] meets a finished check of the block. *)
Definition polka (i : input T) (s : st T) (o : list (action T)) (rd : N) (x : bytes) : Prop :=
  (exists q, (i = IMsg (MAgg q) /\ av_height q = s_height s /\ s_round s <= rd \/ (forall rs, i <> IResp rs) /\ ABroadcast (MAgg q) ∈ o) /\
     av_type q = Prevote /\ av_hash q = x /\ av_round q = rd /\ s_full s !! x = Some true) \/
  (exists rs q, i = IResp rs /\ vr_height rs = s_height s /\ vr_hash rs = x /\ s_round s = rd /\ av_round q = rd /\
     vc_get_qc_by_hash (s_votes s) (s_height s) x Precommit = None /\
     vc_get_qc_by_hash (s_votes s) (s_height s) x Prevote = Some q).
Lemma polka_trigger ops e i s s' o r rd x :
  s_votes s = vops ops -> react lc tenc e i s = (s', o, r) -> (forall t, e_trigger e t = true) ->
  s_power s = true -> s_stopped s = false -> polka i s o rd x -> s_height s' = s_height s ->
  has_qc s' (s_height s) rd Prevote /\ ATrigger (mk_trigger TPrevoteQC x None rd (s_height s)) ∈ o.
Proof.
  clear tdec spill cr. intros Ev Hr He Hp Hst Hd Hh.
  assert (forall i0, i = i0 -> (forall ev, i0 <> IEvent ev) -> ~ skipped i0 s) as Hsk.
  { intros i0 -> Hn [[? _]|[_ (ev & ->)]]; [congruence|by apply (Hn ev)]. }
  destruct Hd as [(q & [(-> & Eq & Hge)|[Hnr Hq]] & Et & Ex & Er & Hf)|(rs & q & -> & Eh & Ex & Er & Erq & Hnc & Hq)].
  - eapply react_core in Hr; [|reflexivity]. destruct Hr as [[Hs _]|(_ & r' & Hx & _)]; [by eapply Hsk in Hs|].
    apply agg_inv in Hx as [(Hdr & _)|[(Hlt & _)|(_ & _ & -> & [[_ Ho]|(-> & _)])]].
    + exfalso. destruct Hdr as [?|[[? _]|(_ & ? & _)]]; lia.
    + lia.
    + exfalso. destruct Ho as [(_ & Ho & _)|[Ho _]]; [|by rewrite He in Ho]. rewrite Ex, (full_true _ _ Hf) in Ho. done.
    + split; [rewrite <-Eq, <-Er, <-Et; apply has_qc_set|]. apply elem_of_list_singleton. unfold qc_trigger. by rewrite Et, Ex, Er, Eq.
  - pose proof (pub_react _ _ _ _ Hnr _ _ _ _ Hr) as (_ & _ & Hpub). destruct (Hpub _ Hq) as [H1 H2]. destruct (H1 Hh) as [Eh _].
    pose proof (id_react _ _ _ _ _ _ Hr) as [_ Hid]. specialize (Hid _ Hq Hh). rewrite Eh, Er, Et in Hid. split; [done|].
    assert (ATrigger (qc_trigger q) ∈ o) as Ht by (apply H2; [by rewrite Ex|done]). unfold qc_trigger in Ht. by rewrite Et, Ex, Er, Eh in Ht.
  - pose proof (hash_id _ _ _ _ _ _ Ev Hq) as Hid. rewrite Erq in Hid. split.
    { apply (id_react _ _ _ _ _ _) in Hr as [[_ Hk] _]. destruct (Hk Hh) as (_ & _ & Hk'). auto. }
    pose proof Hq as Hq'. rewrite Ev in Hq'. apply lookup_hash in Hq' as (_ & E1 & E2 & E3).
    eapply react_core in Hr; [|reflexivity]. destruct Hr as [[Hs _]|(_ & r' & Hx & _)]; [by eapply Hsk in Hs|].
    unfold handle_resp, get in Hx. rewrite Eh, N.eqb_refl in Hx. cbn [negb] in Hx. unfold bind, modify in Hx. rewrite Ex, Hnc, Hq in Hx.
    rewrite Erq, Er, N.eqb_refl in Hx. unfold trigger_smr in Hx. rewrite He in Hx. unfold emit in Hx. injection Hx as _ <- _.
    apply elem_of_list_singleton. by rewrite E1, E2.
Qed.
End A.

Section X.
Context {T : Type} `{EqDecision T}.
Context (lc : lcfg) (tenc : T -> bytes) (tdec : bytes -> option T) (spill : bool) (cr : crypto).
Context (b : boot T) (cfg : option durcfg) (w : option (walinfo T)).
Context (x : nat -> node T) (lab : nat -> option (label T)) (lg : nat -> list (nlog T)).
Context (Hex : execution lc tenc tdec spill cr b cfg x lab lg) (Hfair : fair x lab lg) (Hboot : boots tdec spill b w).
Set Default Proof Using "Type Hex Hfair Hboot".

(** The state machine comes to what waits for it, unless something before changes its situation. *)
Lemma reached (P : smr -> Prop) `{forall m, Decision (P m)} i t : P (nd_smr (x i)) -> t ∈ nd_trig (x i) ->
  exists j t0 o r, (i <= j)%nat /\ lg j = [NSmr t0 (nd_smr (x j)) o r] /\ smr_step open_chans t0 (nd_smr (x j)) = (nd_smr (x (S j)), o, r) /\
    P (nd_smr (x j)) /\ (t0 = t \/ ~ P (nd_smr (x (S j)))).
Proof.
  intros Hp (l1 & l2 & Ht)%elem_of_list_split.
  destruct (drain (fun p j => P (nd_smr (x j)) /\ exists l1 l2, nd_trig (x j) = l1 ++ t :: l2 /\ length l1 = p)
           (fun j => exists t0 o r, lg j = [NSmr t0 (nd_smr (x j)) o r] /\ smr_step open_chans t0 (nd_smr (x j)) = (nd_smr (x (S j)), o, r) /\
              P (nd_smr (x j)) /\ (t0 = t \/ ~ P (nd_smr (x (S j))))) (fun j => lab j = Some LSmr)) with (p := length l1) (i := i) as (j & Hij & t0 & o & r & Hj).
  - clear i Hp l1 l2 Ht. intros p j (Hp & l1 & l2 & Ht & Hl).
    destruct (ex_state _ _ _ _ _ _ _ _ _ _ _ Hex Hfair Hboot j) as [(e & inp & o & r & n0 & _ & _ & _ & E1 & E2 & El)|(_ & E1 & [(t0 & o & r & El & Elg & Et & Hst)|(El & E2 & more & E3)])].
    + right. exists p. split; [lia|split; [|done]]. rewrite E1. split; [done|]. exists l1, (l2 ++ trigs_of o). by rewrite E2, Ht, <-app_assoc.
    + rewrite Ht in Et. destruct (decide (P (nd_smr (x (S j))))) as [Hp'|Hn]; [|left; exists t0, o, r; auto].
      destruct l1 as [|t1 l1]; injection Et as -> Et; [left; exists t0, o, r; auto|].
      right. exists (length l1). simpl in Hl. split; [lia|split; [|lia]]. split; [done|]. by exists l1, l2.
    + right. exists p. split; [lia|split; [|done]]. rewrite E2. split; [done|]. exists l1, (l2 ++ more). by rewrite E3, Ht, <-app_assoc.
  - intros p j (_ & l3 & l4 & E & _). apply (fr_smr _ _ _ Hfair). rewrite E. by destruct l3.
  - split; [done|]. by exists l1, l2.
  - by exists j, t0, o, r.
Qed.

(** An order to vote is treated in its round, unless the height is over. *)
Lemma vote_treated i ev h rd t y : orders (lg i) ev -> vote_event ev = Some (h, rd, t, y) ->
  exists j e s o r, (i < j)%nat /\ lg j = [NState e (IEvent ev) s o r] /\ s = nd_st (x j) /\
    react lc tenc e (IEvent ev) s = (nd_st (x (S j)), o, r) /\ (s_power s = true -> s_height s = h -> s_round s = rd).
Proof.
  intros Ho He. destruct (order_treated _ _ _ _ _ _ _ _ _ _ Hex Hfair i ev Ho) as (j & Hij & e' & s' & o' & r' & Hin).
  destruct (ex_state _ _ _ _ _ _ _ _ _ _ _ Hex Hfair Hboot j) as [(e1 & inp1 & o1 & r1 & n1 & E & Hpop & Hr1 & _)|(Hno & _)]; [|by apply Hno in Hin].
  rewrite E in Hin. apply elem_of_list_singleton in Hin. injection Hin as -> <- -> -> ->.
  eexists j, _, _, _, _. split_and!; try done.
  destruct (ex_reach _ _ _ _ _ _ _ _ _ _ _ Hex Hfair Hboot j) as (log & Hr & Hrg).
  destruct (noderun_flow _ _ _ _ _ _ _ _ _ _ Hr Hboot Hrg) as (F & _ & Hvm). specialize (Hvm (ex_on _ _ _ _ _ _ _ _ _ _ Hex j)).
  destruct Hpop as (q & Eq & _).
  destruct Hvm as [H0 ? ? ? ? (B2 & _) ?|k tt pre post ? ? ? ? ? ? (B2 & _) ? ? ? ? ?|c c' Hple Hrun Hat Hnw Hsr Hst].
  1,2: by rewrite B2 in Eq.
  rewrite Eq in Hrun. destruct Hrun as (c1 & Hs1 & Hrun).
  destruct c as [[h0 r0] k0]. unfold ph, pr in *. simpl in *.
  assert (h = h0 /\ rd = r0) as (-> & ->).
  { destruct ev; try discriminate He; simpl in He, Hs1; injection He as -> -> _ _; destruct Hs1 as (-> & -> & _); done. }
  auto.
Qed.
Lemma ex_power i j : (i <= j)%nat -> s_height (nd_st (x j)) = s_height (nd_st (x i)) -> s_power (nd_st (x i)) = true -> s_power (nd_st (x j)) = true.
Proof.
  induction 1 as [|j Hij IH]; [done|]. intros Hj Hp. destruct (ex_kept _ _ _ _ _ _ _ _ _ _ _ Hex Hfair Hboot j) as [K1 K2].
  pose proof (ex_height _ _ _ _ _ _ _ _ _ _ _ Hex Hfair Hboot i j Hij). destruct K2 as (-> & _); [lia|]. apply IH; [lia|done].
Qed.
Lemma ex_block i j y : (i <= j)%nat -> s_height (nd_st (x j)) = s_height (nd_st (x i)) -> is_Some (s_blocks (nd_st (x i)) !! y) -> is_Some (s_blocks (nd_st (x j)) !! y).
Proof.
  induction 1 as [|j Hij IH]; [done|]. intros Hj Hp. destruct (ex_kept _ _ _ _ _ _ _ _ _ _ _ Hex Hfair Hboot j) as [K1 K2].
  pose proof (ex_height _ _ _ _ _ _ _ _ _ _ _ Hex Hfair Hboot i j Hij). destruct K2 as (_ & K2 & _); [lia|]. apply K2, IH; [lia|done].
Qed.
Lemma ex_qc i j h r t : (i <= j)%nat -> s_height (nd_st (x j)) = s_height (nd_st (x i)) -> has_qc (nd_st (x i)) h r t -> has_qc (nd_st (x j)) h r t.
Proof.
  induction 1 as [|j Hij IH]; [done|]. intros Hj Hp.
  pose proof (ex_height _ _ _ _ _ _ _ _ _ _ _ Hex Hfair Hboot i j Hij) as H1. destruct (ex_kept _ _ _ _ _ _ _ _ _ _ _ Hex Hfair Hboot j) as [K1 _].
  destruct (ex_state _ _ _ _ _ _ _ _ _ _ _ Hex Hfair Hboot j) as [(e & inp & o & r' & n0 & _ & _ & Hr & _)|(_ & -> & _)]; [|apply IH; [lia|done]].
  apply fwd_react in Hr as [_ Hr]. destruct Hr as (_ & _ & Hr); [lia|]. apply Hr, IH; [lia|done].
Qed.
End X.
Set Default Proof Using "Type".


Section C56.
Context {T : Type} `{EqDecision T}.
Context (lc : lcfg) (tenc : T -> bytes) (tdec : bytes -> option T) (spill : bool) (cr : crypto).

(** [Crypto::sign] never fails. *)
Definition signs (lg : nat -> list (nlog T)) : Prop :=
  forall j e inp s o r, NState e inp s o r ∈ lg j -> forall z, is_Some (cr_sign (e_crypto e) z).

(** C56. When the instance hands the block [y], proposed for round [rd] of height [h], to
    [check_block] while its state machine waits for the proposal of that round without a lock,
    then the instance is going to cast its prevote for [y] in this round, unless: it is told of a
    later height first, another trigger takes the state machine out of the waiting step first, or the
    record of the vote cannot be written. *)
Theorem C56_proposals_are_answered b cfg w x lab lg :
  execution lc tenc tdec spill cr b cfg x lab lg -> fair x lab lg -> boots tdec spill b w -> signs lg ->
  forall i e inp s o r h rd y,
    lg i = [NState e inp s o r] -> checks o h rd y -> y <> [] -> s_height s = h -> s_power s = true ->
    waiting h rd (nd_smr (x i)) ->
    exists j, (i < j)%nat /\
      (h < s_height (nd_st (x j)) \/
       (exists t m m' o' r', lg j = [NSmr t m o' r'] /\ smr_step open_chans t m = (m', o', r') /\ waiting h rd m /\ ~ waiting h rd m' /\
          ~ (t_type t = TProposal /\ t_src t = SrcState /\ t_height t = h /\ t_round t = rd /\ t_hash t = y)) \/
       (exists e' s' o' r', lg j = [NState e' (IEvent (EvPrevote h rd y None)) s' o' r'] /\
          ((exists w, ASave w false ∈ o') \/
           (exists a, a ∈ o' /\ vote_of a = Some (mkVote h rd Prevote y))))).
Proof.
  intros Hex Hf Hb Hsg i e inp s o r h rd y Elg Hck Hy Hh Hp Hw.
  destruct (ex_state _ _ _ _ _ _ _ _ _ _ _ Hex Hf Hb i) as [(e0 & inp0 & o0 & r0 & n0 & E & Hpop & Hr & E1 & E2 & _)|(Hno & _)].
  2: { exfalso. eapply Hno. rewrite Elg. by left. }
  rewrite Elg in E. injection E as -> -> -> -> ->.
  destruct (ex_reach _ _ _ _ _ _ _ _ _ _ _ Hex Hf Hb i) as (log & Hrun & _).
  pose proof (noderun_nostop _ _ _ _ _ _ _ _ _ Hrun) as (Hst & _ & _ & _ & _ & _ & Hso & _).
  destruct (chk_react _ _ _ _ _ _ _ _ Hr (fun _ => Hso) _ _ _ Hck) as [lr Ht].
  destruct (reached _ _ _ _ _ _ _ _ _ _ _ Hex Hf Hb (waiting h rd) (S i) (mk_trigger TProposal y lr rd h)) as (k & t0 & o1 & r1 & Hik & Elk & Hstk & Hwk & Hor).
  { by rewrite E1. }
  { rewrite E2. apply elem_of_app. right. by apply trigs_of_in. }
  destruct (decide (t_type t0 = TProposal /\ t_src t0 = SrcState /\ t_height t0 = h /\ t_round t0 = rd /\ t_hash t0 = y)) as [(T1 & T2 & T3 & T4 & T5)|Hnt].
  2: { destruct Hor as [->|Hnw]; [by destruct Hnt|]. exists k. split; [lia|]. right. left. eexists _, _, _, _, _. split_and!; done. }
  assert (orders (lg k) (EvPrevote h rd y None)) as Ho.
  { eexists _, _, _, _. rewrite Elk. split; [by left|]. rewrite <-T5. apply (smr_prevotes _ _ _ _ _ _ _ Hstk Hwk); try done. by rewrite T5. }
  destruct (vote_treated _ _ _ _ _ _ _ _ _ _ _ Hex Hf Hb k _ h rd Prevote y Ho eq_refl) as (j & e' & s' & o' & r' & Hkj & Elj & -> & Hrj & Hrd).
  exists j. split; [lia|]. pose proof (ex_height _ _ _ _ _ _ _ _ _ _ _ Hex Hf Hb i j ltac:(lia)) as Hge. rewrite Hh in Hge.
  destruct (decide (s_height (nd_st (x j)) = h)) as [Hej|Hnj]; [|left; lia]. right. right.
  assert (s_power (nd_st (x j)) = true) as Hpj by (eapply (ex_power _ _ _ _ _ _ _ _ _ _ _ Hex Hf Hb i j); [lia|congruence|done]).
  destruct (ex_reach _ _ _ _ _ _ _ _ _ _ _ Hex Hf Hb j) as (log' & Hrun' & _). apply noderun_nostop in Hrun' as (Hst' & _).
  assert (forall z, is_Some (cr_sign (e_crypto e') z)) as Hsg' by (eapply (Hsg j); rewrite Elj; by left).
  destruct (obey_vote _ _ _ (EvPrevote h rd y None) _ _ _ _ h rd Prevote y eq_refl Hrj Hpj Hst' ltac:(by eexists) Hsg') as [Hsv|(a & Ha & Hv)];
    eexists e', _, o', r'; (split; [exact Elj|]); [by left|right].
  exists a. rewrite Hej, (Hrd Hpj Hej) in Hv. done.
Qed.

(** C57. When a prevote certificate of round [rd] for the block [y] meets the finished check of the
    block while the state machine is in this round and has not precommitted, then the instance is
    going to cast its precommit for [y] in this round, unless: it is told of a later height first,
    another trigger moves the state machine first, the record of the vote cannot be written, or the
    instance holds a prevote certificate of the same round for another block. *)
Theorem C57_prevote_certificates_are_answered b cfg w x lab lg :
  execution lc tenc tdec spill cr b cfg x lab lg -> fair x lab lg -> boots tdec spill b w -> signs lg ->
  forall i e inp s o r h rd y,
    lg i = [NState e inp s o r] -> polka inp s o rd y -> y <> [] -> is_Some (s_blocks s !! y) -> s_height s = h -> s_power s = true ->
    undecided h rd (nd_smr (x i)) ->
    exists j, (i < j)%nat /\
      (h < s_height (nd_st (x j)) \/
       (exists t m m' o' r', lg j = [NSmr t m o' r'] /\ smr_step open_chans t m = (m', o', r') /\ undecided h rd m /\ ~ undecided h rd m' /\
          ~ (t_type t = TPrevoteQC /\ t_src t = SrcState /\ t_height t = h /\ t_round t = rd /\ t_hash t = y)) \/
       (exists e' s' o' r', lg j = [NState e' (IEvent (EvPrecommit h rd y (Some rd))) s' o' r'] /\
          ((exists w, ASave w false ∈ o') \/
           (exists q, vc_get_qc_by_id (s_votes s') h rd Prevote = Ok q /\ av_hash q <> y) \/
           (exists a, a ∈ o' /\ vote_of a = Some (mkVote h rd Precommit y))))).
Proof.
  intros Hex Hf Hb Hsg i e inp s o r h rd y Elg Hck Hy Hbl Hh Hp Hw.
  destruct (ex_state _ _ _ _ _ _ _ _ _ _ _ Hex Hf Hb i) as [(e0 & inp0 & o0 & r0 & n0 & E & Hpop & Hr & E1 & E2 & _)|(Hno & _)].
  2: { exfalso. eapply Hno. rewrite Elg. by left. }
  rewrite Elg in E. injection E as -> -> -> -> ->.
  destruct (ex_reach _ _ _ _ _ _ _ _ _ _ _ Hex Hf Hb i) as (log & Hrun & _).
  pose proof (noderun_nostop _ _ _ _ _ _ _ _ _ Hrun) as (Hst & _ & _ & _ & _ & _ & Hso & _).
  pose proof (noderun_run _ _ _ _ _ _ _ _ _ Hrun) as Hrun'. apply run_run_inv in Hrun'. destruct Hrun' as [(ops & Ev & _) _ _ _ _ _].
  destruct (decide (s_height (nd_st (x (S i))) = s_height (nd_st (x i)))) as [Heq|Hne].
  2: { exists (S i). split; [lia|]. left. pose proof (kept_react _ _ _ _ _ _ _ _ Hr) as [Hk _]. lia. }
  destruct (polka_trigger _ _ _ _ _ _ _ _ _ _ _ Ev Hr (fun _ => Hso) Hp Hst Hck Heq) as [Hq Ht]. rewrite Hh in Hq, Ht.
  destruct (reached _ _ _ _ _ _ _ _ _ _ _ Hex Hf Hb (undecided h rd) (S i) (mk_trigger TPrevoteQC y None rd h)) as (k & t0 & o1 & r1 & Hik & Elk & Hstk & Hwk & Hor).
  { by rewrite E1. }
  { rewrite E2. apply elem_of_app. right. by apply trigs_of_in. }
  destruct (decide (t_type t0 = TPrevoteQC /\ t_src t0 = SrcState /\ t_height t0 = h /\ t_round t0 = rd /\ t_hash t0 = y)) as [(T1 & T2 & T3 & T4 & T5)|Hnt].
  2: { destruct Hor as [->|Hnw]; [by destruct Hnt|]. exists k. split; [lia|]. right. left. eexists _, _, _, _, _. split_and!; done. }
  assert (orders (lg k) (EvPrecommit h rd y (Some rd))) as Ho.
  { eexists _, _, _, _. rewrite Elk. split; [by left|]. rewrite <-T5. apply (smr_precommits _ _ _ _ _ _ _ Hstk Hwk); try done. by rewrite T5. }
  destruct (vote_treated _ _ _ _ _ _ _ _ _ _ _ Hex Hf Hb k _ h rd Precommit y Ho eq_refl) as (j & e' & s' & o' & r' & Hkj & Elj & -> & Hrj & Hrd).
  exists j. split; [lia|]. pose proof (ex_height _ _ _ _ _ _ _ _ _ _ _ Hex Hf Hb i j ltac:(lia)) as Hge. rewrite Hh in Hge.
  destruct (decide (s_height (nd_st (x j)) = h)) as [Hej|Hnj]; [|left; lia]. right. right.
  assert (s_power (nd_st (x j)) = true) as Hpj by (eapply (ex_power _ _ _ _ _ _ _ _ _ _ _ Hex Hf Hb i j); [lia|congruence|done]).
  assert (is_Some (s_blocks (nd_st (x j)) !! y)) as [bl Hblj] by (eapply (ex_block _ _ _ _ _ _ _ _ _ _ _ Hex Hf Hb i j); [lia|congruence|done]).
  assert (has_qc (nd_st (x j)) h rd Prevote) as [q Hqj] by (eapply (ex_qc _ _ _ _ _ _ _ _ _ _ _ Hex Hf Hb (S i) j); [lia|congruence|done]).
  eexists e', _, o', r'. split; [exact Elj|]. destruct (decide (av_hash q = y)) as [Eq|?]; [|right; left; by exists q].
  destruct (ex_reach _ _ _ _ _ _ _ _ _ _ _ Hex Hf Hb j) as (log' & Hrun' & _). apply noderun_nostop in Hrun' as (Hst' & _).
  assert (forall z, is_Some (cr_sign (e_crypto e') z)) as Hsg' by (eapply (Hsg j); rewrite Elj; by left).
  assert (is_Some (lock_to_save (nd_st (x j)) (Some rd))) as Hlk.
  { unfold lock_to_save. rewrite Hej, Hqj, Eq, Hblj. by eexists. }
  destruct (obey_vote _ _ _ (EvPrecommit h rd y (Some rd)) _ _ _ _ h rd Precommit y eq_refl Hrj Hpj Hst' Hlk Hsg') as [Hsv|(a & Ha & Hv)]; [by left|right; right].
  exists a. rewrite Hej, (Hrd Hpj Hej) in Hv. done.
Qed.
End C56.
Print Assumptions C56_proposals_are_answered.
Print Assumptions C57_prevote_certificates_are_answered.
