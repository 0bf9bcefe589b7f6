(** * P_Round: what happens when a round is entered (C40, C41, C48). *)
From Verif Require Export StateQc StateEx.
Set Default Proof Using "Type".

(** ** Vocabulary *)
(** The proposals a node sends. *)
Definition sent_props {T} (o : list (action T)) : list (sproposal T) :=
  omap (fun a => match a with
                 | ABroadcast (MProposal sp) | ATransmit _ (MProposal sp) => Some sp
                 | _ => None end) o.
(** The proposals handed to the state machine: height, round, hash, round of the proof of lock. *)
Definition prop_triggers {T} (o : list (action T)) : list trigger :=
  omap (fun a => match a with
                 | ATrigger t => if bool_decide (t_type t = TProposal) then Some t else None
                 | _ => None end) o.
Definition view_reports {T} (o : list (action T)) : list (N * N * vreason) :=
  omap (fun a => match a with AViewChange h r w => Some (h, r, w) | _ => None end) o.

Section R.
Context {T : Type} `{EqDecision T}.
Context (lc : lcfg) (tenc : T -> bytes) (tdec : bytes -> option T) (spill : bool).
Local Notation run := (run lc tenc tdec spill).
Local Notation react := (react lc tenc).

Definition plain (a : action T) : bool :=
  match a with
  | ABroadcast (MProposal _) | ATransmit _ (MProposal _) | AViewChange _ _ _ => false
  | ATrigger t => negb (bool_decide (t_type t = TProposal))
  | _ => true
  end.
Definition plainR (_ : st T) (o : list (action T)) (_ : st T) : Prop := Forall (fun a => plain a = true) o.
Lemma plain_comp : comp plainR.
Proof. split; [intros s0; by apply Forall_nil|intros s1 s2 s3 o1 o2 H1 H2; by apply Forall_app]. Qed.
Lemma plain_goto e stt : keeps plainR (goto_new_height (T:=T) e stt).
Proof.
  intros s s' o r Hg.
  apply goto_inv in Hg as [(_ & _ & -> & _)|[(_ & _ & _ & -> & _)|[(_ & _ & _ & -> & _)|(_ & _ & _ & tr & -> & Ht)]]];
    try by repeat constructor.
  constructor; [done|]. apply Forall_app. split.
  - apply Forall_fmap, Forall_true. done.
  - destruct Ht as [[-> _]|[-> _]]; by repeat constructor.
Qed.
Local Hint Resolve plain_goto : keepsdb.
Ltac pl := (repeat constructor); (try done); repeat case_match; done.
Lemma plain_tail e w : keeps plainR (start_tail (T:=T) lc e w).
Proof.
  unfold start_tail. destruct (bool_decide _); [|destruct (bool_decide _)]; try destruct (wi_lock w); keeps_go plain_comp; pl.
Qed.
Definition enters (i : input T) : bool :=
  match i with IEvent (EvNewRound _ _ _ _ _ _ _) | IMsg (MProposal _) => true | _ => false end.
Lemma vt_not_prop t : bool_decide (vtype_trigger t = TProposal) = false.
Proof. by destruct t. Qed.
Lemma plain_react e i : enters i = false -> keeps plainR (react e i).
Proof.
  intros Hi. apply (keeps_react _ _ _ plain_comp).
  - intros m ->. destruct m; try done.
    all: apply (keeps_on_msg _ _ plain_comp); [intros; pl|]; unfold handle_msg; keeps_go plain_comp; try pl.
    all: intros; constructor; [|done]; simpl; by rewrite vt_not_prop.
  - intros m _. keeps_go plain_comp; pl.
  - intros m ->. keeps_go plain_comp; pl.
  - intros m ->. destruct m; try done. all: keeps_go plain_comp; try pl.
    all: intros; constructor; [|done]; simpl; by rewrite vt_not_prop.
Qed.
Lemma plain_outs (o : list (action T)) :
  Forall (fun a => plain a = true) o -> sent_props o = [] /\ prop_triggers o = [] /\ view_reports o = [].
Proof.
  induction 1 as [|a o Ha Ho IH]; [done|]. destruct IH as (I1 & I2 & I3).
  destruct a as [| [] | ? [] | | | | | | | | | |]; simpl in *; try done.
  destruct (bool_decide _); done.
Qed.

Lemma get_proposer_in l h r x : get_proposer lc (auth_update l) h r = Ok x -> x ∈ n_addr <$> l.
Proof.
  unfold get_proposer. destruct (if lc_random lc then _ else _) as [k| |]; simpl; [|done..].
  destruct (a_addr (auth_update l) !! k) eqn:E; [|done]. intros [= ->].
  apply elem_of_list_lookup_2 in E. by rewrite auth_update_addr, (ksort_perm n_addr l) in E.
Qed.
Lemma sent_app (o1 o2 : list (action T)) : sent_props (o1 ++ o2) = sent_props o1 ++ sent_props o2.
Proof. apply omap_app. Qed.
Lemma trig_app (o1 o2 : list (action T)) : prop_triggers (o1 ++ o2) = prop_triggers o1 ++ prop_triggers o2.
Proof. apply omap_app. Qed.
Lemma view_app (o1 o2 : list (action T)) : view_reports (o1 ++ o2) = view_reports o1 ++ view_reports o2.
Proof. apply omap_app. Qed.

(** What a leader proposes: a fresh block, or what it is locked on. *)
Definition leader_block (e : env T) (s : st T) (lr : option N) (lp : option bytes) (p : proposal T) : Prop :=
  match lr with
  | None => p_lock p = None /\ e_get_block e (s_height s) = Some (p_content p, p_hash p)
  | Some k => lp = Some (p_hash p) /\ s_blocks s !! p_hash p = Some (p_content p) /\
      exists q, p_lock p = Some (mkPoLC k q) /\ vc_get_qc_by_id (s_votes s) (s_height s) k Prevote = Ok q
  end.
Local Arguments enc : simpl never.
Ltac outs := simpl; rewrite ?app_nil_r; split_and!; try done; try (left; done).
Lemma new_round_facts e nr lr lp from s s' o r :
  handle_new_round lc tenc e nr lr lp from s = (s', o, r) ->
  view_reports o = (if nr =? 0 then [] else [(s_height s, s_round s, view_change_reason s (s_round s) from)]) /\
  s_height s' = s_height s /\ s_round s' = nr /\
  ((sent_props o = [] /\ prop_triggers o = []) \/
   (exists sp, sent_props o = [] /\ pc_get (s_props s) (s_height s) nr = Ok sp /\ verified lc s (sp_prop sp) /\
      p_height (sp_prop sp) = s_height s /\ p_round (sp_prop sp) = nr /\
      prop_triggers o = [mk_trigger TProposal (p_hash (sp_prop sp)) (pl_round <$> p_lock (sp_prop sp)) nr (s_height s)]) \/
   (exists sp, let p := sp_prop sp in
      sent_props o = [sp] /\ get_proposer lc (s_auth s) (s_height s) nr = Ok (s_addr s) /\
      p_height p = s_height s /\ p_round p = nr /\ p_proposer p = s_addr s /\ leader_block e s lr lp p /\
      cr_sign (e_crypto e) (cr_hash (e_crypto e) (enc (proposal_rlp tenc p))) = Some (sp_sig sp) /\
      (prop_triggers o = [] \/ prop_triggers o = [mk_trigger TProposal (p_hash p) lr nr (s_height s)]))).
Proof.
  intros Hn. apply new_round_inv in Hn as (o1 & -> & Hn).
  assert (view_reports (view_changes nr from s) =
    (if nr =? 0 then [] else [(s_height s, s_round s, view_change_reason s (s_round s) from)]) /\
    sent_props (view_changes nr from s) = [] /\ prop_triggers (view_changes nr from s) = []) as (V1 & V2 & V3).
  { unfold view_changes, INIT_ROUND. by destruct (nr =? 0). }
  rewrite view_app, sent_app, trig_app, V1, V2, V3. simpl. clear V1 V2 V3.
  destruct Hn as [(-> & _ & Hs)|(uf & l & Hll & _ & _ & Hn)].
  { simpl. rewrite ?app_nil_r. destruct Hs as [[-> _]|(uf & -> & _)]; simpl. all: outs. }
  cbv zeta in Hn. destruct Hn as [(_ & -> & -> & _)|(_ & o2 & -> & Hn)].
  { outs. }
  simpl. apply propose_inv in Hn. change (s_auth (entered nr uf s)) with (s_auth s) in Hn.
  change (s_height (entered nr uf s)) with (s_height s) in Hn. change (s_round (entered nr uf s)) with nr in Hn.
  change (s_addr (entered nr uf s)) with (s_addr s) in Hn. change (s_props (entered nr uf s)) with (s_props s) in Hn.
  destruct (get_proposer lc (s_auth s) (s_height s) nr) as [p|x|] eqn:Eg.
  2-3: destruct Hn as [-> ->]; outs.
  destruct (decide (p = s_addr s)) as [->|Hp].
  - destruct Hn as [(-> & [->| ->] & _)|(b & h & pl & om & Hm & -> & Hn)].
    1-2: outs.
    assert (forall x : st T, s_height (with_block h b x) = s_height x /\ s_round (with_block h b x) = s_round x) as Hw.
    { intros x. unfold with_block. by destruct (_ !! _). }
    destruct (Hw (led (s_addr s) (entered nr uf s))) as [-> ->].
    change (s_height (led _ _)) with (s_height s). change (s_round (led _ _)) with nr. clear Hw.
    apply make_inv in Hm as [_ Hm].
    assert (plainR s om s /\ leader_block e s lr lp (mkProposal (s_height s) nr b h pl (s_addr s))) as [Hom Hlb].
    { destruct lr as [k|]; destruct Hm as [-> Hm].
      - split; [constructor|]. destruct (Hm _ eq_refl) as (h' & b' & q & -> & [= <- <- ->] & Hb & Hq). simpl.
        split_and!; eauto.
      - split; [by repeat constructor|]. change (s_height (led _ _)) with (s_height s) in Hm.
        destruct (e_get_block _ _) as [[b' h']|] eqn:Eb; [|done]. injection Hm as -> -> ->. done. }
    destruct (plain_outs _ Hom) as (O1 & O2 & O3).
    destruct Hn as [[-> _]|(sig & tr & Hsig & -> & Htr)].
    + rewrite O1, O2, O3. outs.
    + rewrite view_app, sent_app, trig_app, O1, O2, O3. simpl.
      split_and!; [|done|done|].
      * destruct Htr as [->| ->]; simpl; by rewrite app_nil_r.
      * right. right. cbv zeta in Hsig.
        exists (mkSProposal sig (mkProposal (s_height s) nr b h pl (s_addr s))). cbn [sp_prop sp_sig p_height p_round p_proposer p_hash].
        split_and!; try done; destruct Htr as [->| ->]; simpl; auto.
  - destruct (pc_get (s_props s) (s_height s) nr) as [sp| |] eqn:Ep.
    2-3: destruct Hn as (-> & -> & _); outs.
    apply hsp_inv in Hn. cbv zeta in Hn.
    destruct Hn as [(-> & -> & _)|[(_ & _ & _ & -> & -> & _)|(Hv & _ & Eh & Er & -> & Ho)]].
    1-2: outs.
    change (s_height (led p (entered nr uf s))) with (s_height s) in Eh.
    change (s_round (led p (entered nr uf s))) with nr in Er.
    change (verified lc (led p (entered nr uf s)) (sp_prop sp)) with (verified lc s (sp_prop sp)) in Hv.
    destruct ((pc_insert _ _ _ _).2); [destruct Ho as [[-> _]|[-> _]]|destruct Ho as [-> _]..].
    2-4: outs.
    simpl. rewrite app_nil_r. split_and!; try done. right. left. exists sp. split_and!; try done. by rewrite Eh, Er.
Qed.

Lemma new_round_core e h nr lr lp from iv cfg s s' o r :
  react e (IEvent (EvNewRound h nr lr lp from iv cfg)) s = (s', o, r) ->
  (skipped (T:=T) (IEvent (EvNewRound h nr lr lp from iv cfg)) s /\ s' = s /\ o = []) \/
  (~ skipped (T:=T) (IEvent (EvNewRound h nr lr lp from iv cfg)) s /\
   exists r', handle_new_round lc tenc e nr lr lp from s = (s', o, r')).
Proof.
  intros Hr. eapply react_core in Hr; [|reflexivity].
  destruct Hr as [(? & ? & ? & _)|(? & r' & ? & _)]; [left|right]; eauto.
Qed.
Lemma prop_core e sp s s' o r :
  react e (IMsg (MProposal sp)) s = (s', o, r) ->
  (s' = s /\ o = []) \/ exists r', handle_signed_proposal lc e sp s = (s', o, r').
Proof.
  intros Hr. eapply react_core in Hr; [|reflexivity].
  destruct Hr as [(? & ? & ? & _)|(? & r' & ? & _)]; [left|right]; eauto.
Qed.
Lemma hsp_outs (e : env T) sp s s' o r :
  handle_signed_proposal lc e sp s = (s', o, r) ->
  s_height s' = s_height s /\ s_round s' = s_round s /\ sent_props o = [] /\ view_reports o = [] /\
  (prop_triggers o = [] \/
   verified lc s (sp_prop sp) /\ p_height (sp_prop sp) = s_height s /\ p_round (sp_prop sp) = s_round s /\
   prop_triggers o = [mk_trigger TProposal (p_hash (sp_prop sp)) (pl_round <$> p_lock (sp_prop sp)) (s_round s) (s_height s)]).
Proof.
  intros Hn. apply hsp_inv in Hn. cbv zeta in Hn.
  destruct Hn as [(-> & -> & _)|[(_ & _ & _ & -> & -> & _)|(Hv & _ & Eh & Er & -> & Ho)]].
  1-2: by outs.
  destruct ((pc_insert _ _ _ _).2); [destruct Ho as [[-> _]|[-> _]]|destruct Ho as [-> _]..].
  2-4: by outs.
  outs. right. split_and!; try done. by rewrite Eh, Er.
Qed.

(** ** C40 *)
(** Only the event of a new round makes the node send a proposal, and then at most one: for its
    height and the round entered, as leader of that round, signed by it. An unlocked node
    proposes what get_block returned, without a proof of lock; a locked one the block it holds
    under the locked hash, with the locked round and a prevote certificate of that round it holds. *)
Theorem C40_proposals_sent :
  forall b is o s e i s' o' r,
    run b is o s true -> react e i s = (s', o', r) ->
    sent_props o' = [] \/
    exists h nr lr lp from iv cfg sp, let p := sp_prop sp in
      i = IEvent (EvNewRound h nr lr lp from iv cfg) /\ sent_props o' = [sp] /\
      p_height p = s_height s /\ p_round p = nr /\ s_round s' = nr /\ p_proposer p = b_addr b /\
      get_proposer lc (s_auth s) (p_height p) (p_round p) = Ok (b_addr b) /\
      cr_sign (e_crypto e) (cr_hash (e_crypto e) (enc (proposal_rlp tenc p))) = Some (sp_sig sp) /\
      match lr with
      | None => lp = None /\ p_lock p = None /\ e_get_block e (p_height p) = Some (p_content p, p_hash p)
      | Some k =>
          lp = Some (p_hash p) /\ block_known tdec spill b is (p_hash p) (p_content p) /\
          exists q, p_lock p = Some (mkPoLC k q) /\ qc_known tdec spill b is o q /\
            av_type q = Prevote /\ av_height q = p_height p /\ av_round q = k
      end.
Proof.
  intros b is o s e i s' o' r Hrun Hr.
  pose proof (run_run_inv _ _ _ _ _ _ _ _ _ Hrun) as [(ops & Ev & Fv) _ _ Hb _ Had].
  destruct (enters i) eqn:Ei.
  2: { left. apply (plain_react e i Ei) in Hr. by apply plain_outs in Hr as (? & _ & _). }
  destruct i as [m|ev|rs|m]; try done.
  2: { left. destruct m as [sp| | | | |]; try done. apply prop_core in Hr as [[_ ->]|(r' & Hr)]; [done|].
       by apply hsp_outs in Hr as (_ & _ & ? & _). }
  destruct ev as [h nr lr lp from iv cfg| | | | |]; try done.
  apply new_round_core in Hr as [(_ & _ & ->)|(_ & r' & Hr)]; [by left|].
  pose proof (new_round_inv _ _ _ _ _ _ _ _ _ _ _ Hr) as (o1 & Eo & Hn).
  apply new_round_facts in Hr as (_ & _ & Er & [(-> & _)|[(sp & -> & _)|(sp & F1 & F2 & F3 & F4 & F5 & F6 & F7 & _)]]);
    [by left|by left|].
  right. exists h, nr, lr, lp, from, iv, cfg, sp. cbv zeta in *. split_and!; try done; try congruence.
  assert (is_Some lr <-> is_Some lp) as Hll.
  { destruct Hn as [(-> & _)|(uf & l & Hll & _)]; [|done]. exfalso. rewrite app_nil_r in Eo. subst o'.
    unfold view_changes in F1. by destruct (_ =? _). }
  unfold leader_block in F6. destruct lr as [k|].
  - destruct F6 as (-> & Hblk & q & Hq1 & Hq2). split_and!; [done|by apply Hb|]. exists q.
    rewrite Ev in Hq2. apply lookup_id in Hq2 as (Hin & ? & ? & ?).
    apply (proj1 (Forall_forall _ _) Fv) in Hin. simpl in Hin. split_and!; try done. congruence.
  - destruct F6 as [? ?]. split_and!; [|done|congruence]. destruct lp; [|done]. by destruct (proj2 Hll).
Qed.
Theorem C40_none_at_start :
  forall b o s al, run b [] o s al -> sent_props o = [].
Proof.
  intros b o s al Hr. inversion Hr as [s0 o0 r0 Hs|? ? ? ? ? ? ? ? ? ? E]; [|by destruct is]. subst.
  unfold on_start in Hs. apply logged_inv in Hs as (r' & Hs & _).
  apply start_inv in Hs as [(_ & [->|(t & -> & _)])|(w & bs & Hw & Hd & _ & [[_ ->]|(p & Hg & Ht)])]; try done.
  apply plain_tail in Ht. by apply plain_outs in Ht as (? & _).
Qed.
(** The certificate that started the round is at hand. *)
Definition cause_held (s : st T) (from : fromwhere) : Prop :=
  match from with
  | FWPrevote k => exists q, vc_get_qc_by_id (s_votes s) (s_height s) k Prevote = Ok q
  | FWPrecommit k => k = u64_max \/ exists q, vc_get_qc_by_id (s_votes s) (s_height s) k Precommit = Ok q
  | FWChoke k => exists q, cc_get_qc (s_chokes s) k = Some q
  end.
(** What the leader needs in order to propose. *)
Definition can_propose (e : env T) (s : st T) (lr : option N) (lp : option bytes) : Prop :=
  match lr, lp with
  | None, None => is_Some (e_get_block e (s_height s))
  | Some k, Some x => is_Some (s_blocks s !! x) /\
      exists q, vc_get_qc_by_id (s_votes s) (s_height s) k Prevote = Ok q /\ av_hash q = x
  | _, _ => False
  end.
(** The leader of the round it enters does send its proposal, if nothing fails. *)
Theorem C40_leader_proposes :
  forall e h nr lr lp from iv cfg s s' o r,
    react e (IEvent (EvNewRound h nr lr lp from iv cfg)) s = (s', o, r) ->
    s_power s = true -> s_stopped s = false ->
    get_proposer lc (s_auth s) (s_height s) nr = Ok (s_addr s) ->
    cause_held s from -> can_propose e s lr lp ->
    (forall w, e_save e w = true) -> (forall x, is_Some (cr_sign (e_crypto e) x)) ->
    exists sp, sent_props o = [sp].
Proof.
  intros e h nr lr lp from iv cfg s s' o r Hr Hp Hst Hg Hc Hcp Hsave Hsign.
  apply new_round_core in Hr as [([[? _]|[? _]] & _)|(_ & r' & Hr)]; [congruence..|].
  apply new_round_inv in Hr as (o1 & -> & Hn). rewrite sent_app.
  assert (sent_props (view_changes nr from s) = []) as ->.
  { unfold view_changes. by destruct (_ =? _). }
  simpl.
  set (s0 := set_s_leader false (set_s_round nr s)) in *.
  assert (exists uf, set_update_from from s0 = (set_s_from uf s0, [], Ok tt)) as (uf0 & Huf).
  { unfold set_update_from, get. destruct from as [k|k|k]; simpl in Hc.
    - destruct Hc as [q Hq]. change (s_votes s0) with (s_votes s). change (s_height s0) with (s_height s).
      rewrite Hq. by eexists.
    - change (s_votes s0) with (s_votes s). change (s_height s0) with (s_height s).
      destruct Hc as [->|[q Hq]]; [rewrite N.eqb_refl; by eexists|].
      destruct (k =? u64_max); [by eexists|]. rewrite Hq. by eexists.
    - destruct Hc as [q Hq]. change (s_chokes s0) with (s_chokes s). rewrite Hq. by eexists. }
  assert (is_Some lr <-> is_Some lp) as Hll.
  { unfold can_propose in Hcp. destruct lr, lp; try done; split; intros [? ?]; done || by eexists. }
  assert (forall uf, is_Some (lock_to_save (entered nr uf s) lr)) as Hlk.
  { intros uf. unfold lock_to_save. unfold can_propose in Hcp. destruct lr as [k|]; [|by eexists].
    destruct lp as [x|]; [|done]. destruct Hcp as ([y Hy] & q & Hq & <-).
    change (s_votes (entered nr uf s)) with (s_votes s). change (s_height (entered nr uf s)) with (s_height s).
    rewrite Hq. change (s_blocks (entered nr uf s)) with (s_blocks s). rewrite Hy. by eexists. }
  destruct Hn as [(_ & _ & [(_ & [Hx|Hx])|(uf & _ & Hx)])|(uf & l & _ & _ & _ & Hn)].
  { done. }
  { by destruct (Hx uf0). }
  { destruct (Hlk uf) as [? Hy]. by rewrite Hx in Hy. }
  cbv zeta in Hn. rewrite Hsave in Hn. destruct Hn as [(? & _)|(_ & o2 & -> & Hn)]; [done|].
  simpl. apply propose_inv in Hn. change (s_auth (entered nr uf s)) with (s_auth s) in Hn.
  change (s_height (entered nr uf s)) with (s_height s) in Hn. change (s_round (entered nr uf s)) with nr in Hn.
  change (s_addr (entered nr uf s)) with (s_addr s) in Hn. rewrite Hg in Hn. rewrite decide_True in Hn by done.
  destruct Hn as [(_ & _ & Hx)|(b & h' & pl & om & Hm & _ & Hn)].
  { exfalso. unfold can_propose in Hcp. unfold make_proposal, get in Hx. destruct lr as [k|], lp as [x|]; try done.
    - destruct Hcp as ([y Hy] & q & Hq & Hqx).
      change (s_blocks (led (s_addr s) (entered nr uf s))) with (s_blocks s) in Hx.
      change (s_votes (led (s_addr s) (entered nr uf s))) with (s_votes s) in Hx.
      change (s_height (led (s_addr s) (entered nr uf s))) with (s_height s) in Hx.
      rewrite Hy, Hq in Hx. by eapply Hx.
    - destruct Hcp as [[y z] Hy]. change (s_height (led (s_addr s) (entered nr uf s))) with (s_height s) in Hx.
      unfold bind, emit in Hx. rewrite Hy in Hx. by eapply Hx. }
  assert (sent_props om = []) as Hom.
  { apply make_inv in Hm as [_ Hm]. destruct lr; by destruct Hm as [-> _]. }
  destruct Hn as [[_ Hx]|(sig & tr & _ & -> & Htr)].
  { destruct (Hsign (cr_hash (e_crypto e) (enc (proposal_rlp tenc (mkProposal (s_height s) nr b h' pl (s_addr s)))))) as [? Hy].
    congruence. }
  rewrite sent_app, Hom. simpl. eexists. destruct Htr as [->| ->]; reflexivity.
Qed.

(** ** C41 *)
(** A received proposal has an effect only if its proposer is a validator and the leader of the
    proposal's height and round. *)
Theorem C41_only_the_leader_is_heard :
  forall b is o s e sp s' o' r,
    run b is o s true -> react e (IMsg (MProposal sp)) s = (s', o', r) ->
    s' <> s \/ o' <> [] ->
    exists l, s_auth s = auth_update l /\ supplied b is o l /\
      p_proposer (sp_prop sp) ∈ n_addr <$> l /\
      get_proposer lc (auth_update l) (p_height (sp_prop sp)) (p_round (sp_prop sp)) = Ok (p_proposer (sp_prop sp)).
Proof.
  intros b is o s e sp s' o' r Hrun Hr Hne.
  destruct (run_auth _ _ _ _ _ _ _ _ _ Hrun) as (l & Ea & Hl). exists l. split; [done|]. split; [done|].
  apply prop_core in Hr as [[-> ->]|(r' & Hr)]; [by destruct Hne|].
  apply hsp_inv in Hr. cbv zeta in Hr. rewrite <-Ea.
  destruct Hr as [(-> & -> & _)|[([H1 H2] & _)|([H1 H2] & _)]]; [by destruct Hne|..].
  all: rewrite Ea in H1; apply auth_contains_spec in H1; done.
Qed.
(** Every proposal handed to the state machine is for the node's current height and round and
    comes from that round's leader under the validators in force at that moment, even if it was
    cached before: it was received, or it is the one the node itself has just sent. *)
Theorem C41_acted_on_proposals :
  forall b is o s e i s' o' r t,
    run b is o s true -> react e i s = (s', o', r) -> t ∈ prop_triggers o' ->
    t_height t = s_height s /\ s_height s' = s_height s /\ t_round t = s_round s' /\
    exists l sp, let p := sp_prop sp in
      s_auth s = auth_update l /\ supplied b is o l /\
      p_height p = t_height t /\ p_round p = t_round t /\ p_hash p = t_hash t /\
      pl_round <$> p_lock p = t_lock_round t /\
      p_proposer p ∈ n_addr <$> l /\
      get_proposer lc (auth_update l) (t_height t) (t_round t) = Ok (p_proposer p) /\
      (received (is ++ [(e, i)]) (IMsg (MProposal sp)) \/ (p_proposer p = b_addr b /\ sent_props o' = [sp])).
Proof.
  intros b is o s e i s' o' r t Hrun Hr Hin.
  destruct (run_auth _ _ _ _ _ _ _ _ _ Hrun) as (l & Ea & Hl).
  pose proof (run_run_inv _ _ _ _ _ _ _ _ _ Hrun) as [_ (pps & Ep & Fp) _ _ _ Had].
  destruct (enters i) eqn:Ei.
  2: { apply (plain_react e i Ei) in Hr. apply plain_outs in Hr as (_ & E & _). rewrite E in Hin. by apply elem_of_nil in Hin. }
  destruct i as [m|ev|rs|m]; try done.
  - destruct ev as [h nr lr lp from iv cfg| | | | |]; try done.
    apply new_round_core in Hr as [(_ & _ & ->)|(_ & r' & Hr)]; [by apply elem_of_nil in Hin|].
    apply new_round_facts in Hr as (_ & Eh & Er & [(_ & E)|[(sp & _ & Hpc & [V1 V2] & P1 & P2 & E)|(sp & F1 & F2 & F3 & F4 & F5 & F6 & F7 & [E|E])]]);
      rewrite E in Hin; try (by apply elem_of_nil in Hin); apply elem_of_list_singleton in Hin as ->; simpl; split_and!; try done;
      exists l, sp; split_and!; try done.
    + rewrite Ea in V1. by apply auth_contains_spec in V1.
    + rewrite <-Ea, <-P1, <-P2. done.
    + left. rewrite pc_get_pget in Hpc. destruct (pget _ _ _) as [sp'|] eqn:Epg; [|done]. injection Hpc as ->.
      apply received_app. rewrite Ep in Epg. unfold pops in Epg.
      apply pget_foldl in Epg as [Hp|Hp]; [unfold pget in Hp; by rewrite lookup_empty in Hp|].
      by apply (proj1 (Forall_forall _ _) Fp) in Hp as (_ & _ & Hp).
    + cbv zeta in F6. unfold leader_block in F6. destruct lr as [k|]; [|by destruct F6 as [-> _]].
      destruct F6 as (_ & _ & q & -> & _). done.
    + rewrite F5. apply get_proposer_in with (h := s_height s) (r := nr). by rewrite <-Ea.
    + rewrite F5, <-Ea. done.
    + right. split; [congruence|done].
  - destruct m as [sp| | | | |]; try done. apply prop_core in Hr as [[_ ->]|(r' & Hr)]; [by apply elem_of_nil in Hin|].
    apply hsp_outs in Hr as (Eh & Er & _ & _ & [E|([V1 V2] & P1 & P2 & E)]); rewrite E in Hin; [by apply elem_of_nil in Hin|].
    apply elem_of_list_singleton in Hin as ->. simpl. split_and!; try done. exists l, sp. split_and!; try done.
    + rewrite Ea in V1. by apply auth_contains_spec in V1.
    + rewrite <-Ea, <-P1, <-P2. done.
    + left. apply received_last.
Qed.

(** ** C48 *)
(** The reason for leaving round [s_round s], said in words: what the node held at that moment. *)
Definition holds_qc (s : st T) (t : vtype) : Prop :=
  exists q, vc_get_qc_by_id (s_votes s) (s_height s) (s_round s) t = Ok q.
Definition holds_block_qc (s : st T) : Prop :=
  exists q, vc_get_qc_by_id (s_votes s) (s_height s) (s_round s) Prevote = Ok q /\ av_hash q <> [].
Definition holds_prop (s : st T) (sp : sproposal T) : Prop :=
  pc_get (s_props s) (s_height s) (s_round s) = Ok sp.
Definition answered (s : st T) (sp : sproposal T) : Prop := is_Some (s_full s !! p_hash (sp_prop sp)).
Inductive cause (s : st T) : fromwhere -> vreason -> Prop :=
| by_prevote k : k <> s_round s -> cause s (FWPrevote k) (RHigherPrevoteQC (s_round s) k)
| by_precommit k : k <> s_round s -> cause s (FWPrecommit k) (RHigherPrecommitQC (s_round s) k)
| by_choke k : k <> s_round s -> cause s (FWChoke k) (RHigherChokeQC (s_round s) k)
| leader_prevotes from : fw_round from = s_round s -> s_leader s = true ->
    ~ holds_block_qc s -> cause s from (RLeaderBelow Prevote)
| leader_precommits from : fw_round from = s_round s -> s_leader s = true ->
    holds_block_qc s -> cause s from (RLeaderBelow Precommit)
| no_proposal from : fw_round from = s_round s -> s_leader s = false ->
    (forall sp, ~ holds_prop s sp) -> cause s from RNoProposal
| no_check from sp : fw_round from = s_round s -> s_leader s = false ->
    holds_prop s sp -> ~ answered s sp -> cause s from RCheckBlock
| no_prevote_qc from sp : fw_round from = s_round s -> s_leader s = false ->
    holds_prop s sp -> answered s sp -> ~ holds_qc s Prevote -> cause s from RNoPrevoteQC
| no_precommit_qc from sp : fw_round from = s_round s -> s_leader s = false ->
    holds_prop s sp -> answered s sp -> holds_qc s Prevote -> ~ holds_qc s Precommit -> cause s from RNoPrecommitQC
| others from sp : fw_round from = s_round s -> s_leader s = false ->
    holds_prop s sp -> answered s sp -> holds_qc s Prevote -> holds_qc s Precommit -> cause s from ROthers.
Lemma reason_cause s from : cause s from (view_change_reason s (s_round s) from).
Proof.
  unfold view_change_reason. destruct (N.eqb_spec (s_round s) (fw_round from)) as [E|E]; simpl.
  2: { destruct from; simpl in *; constructor; congruence. }
  destruct (s_leader s) eqn:El.
  - destruct (vc_get_qc_by_id _ _ _ _) as [q| |] eqn:Eq.
    + destruct (av_hash q) eqn:Ex.
      * apply leader_prevotes; try done. intros (q' & Hq & Hn). rewrite Eq in Hq. by simplify_eq.
      * apply leader_precommits; try done. exists q. split; [done|]. by rewrite Ex.
    + apply leader_prevotes; try done. intros (q' & Hq & _). by rewrite Eq in Hq.
    + apply leader_prevotes; try done. intros (q' & Hq & _). by rewrite Eq in Hq.
  - destruct (pc_get _ _ _) as [sp| |] eqn:Ep.
    2-3: apply no_proposal; try done; intros sp Hp; unfold holds_prop in Hp; by rewrite Ep in Hp.
    destruct (s_full s !! _) as [x|] eqn:Ef.
    2: { apply (no_check _ _ sp); try done. unfold answered. rewrite Ef. by intros [? ?]. }
    assert (answered s sp) as Ha by (unfold answered; rewrite Ef; eauto).
    destruct (vc_get_qc_by_id _ _ _ Prevote) as [q| |] eqn:Eq; simpl.
    2-3: apply (no_prevote_qc _ _ sp); try done; intros [q' Hq]; by rewrite Eq in Hq.
    assert (holds_qc s Prevote) as Hq by (by exists q).
    destruct (vc_get_qc_by_id _ _ _ Precommit) as [q2| |] eqn:Eq2; simpl.
    2-3: apply (no_precommit_qc _ _ sp); try done; intros [q' Hq']; by rewrite Eq2 in Hq'.
    apply (others _ _ sp); try done. by exists q2.
Qed.
(** Exactly one cause applies. *)
Theorem C48_causes_exclude_each_other :
  forall s from w1 w2, cause s from w1 -> cause s from w2 -> w1 = w2.
Proof.
  intros s from w1 w2 H1 H2. unfold holds_prop in *.
  inversion H1; subst; inversion H2; subst; simpl in *; try done; try congruence; exfalso; unfold holds_prop in *;
    try (match goal with
         | A : forall sp, ~ _, B : pc_get _ _ _ = Ok _ |- _ => exact (A _ B)
         | A : pc_get _ _ _ = Ok ?x, B : pc_get _ _ _ = Ok ?y |- _ =>
             assert (x = y) by congruence; subst; tauto
         end).
Qed.
(** A view change is reported exactly when a round other than 0 is entered: once, for the height
    and the round being left, with the cause that applies. *)
Theorem C48_view_change_reports :
  forall e i s s' o r, react e i s = (s', o, r) ->
    view_reports o = [] \/
    exists h nr lr lp from iv cfg why,
      i = IEvent (EvNewRound h nr lr lp from iv cfg) /\ nr <> 0 /\ s_round s' = nr /\
      view_reports o = [(s_height s, s_round s, why)] /\ cause s from why.
Proof.
  intros e i s s' o r Hr. destruct (enters i) eqn:Ei.
  2: { left. apply (plain_react e i Ei) in Hr. by apply plain_outs in Hr as (_ & _ & ?). }
  destruct i as [m|ev|rs|m]; try done.
  2: { left. destruct m as [sp| | | | |]; try done. apply prop_core in Hr as [[_ ->]|(r' & Hr)]; [done|].
       by apply hsp_outs in Hr as (_ & _ & _ & ? & _). }
  destruct ev as [h nr lr lp from iv cfg| | | | |]; try done.
  apply new_round_core in Hr as [(_ & _ & ->)|(_ & r' & Hr)]; [by left|].
  apply new_round_facts in Hr as (Hv & _ & Er & _). rewrite Hv. destruct (N.eqb_spec nr 0); [by left|]. right.
  eexists h, nr, lr, lp, from, iv, cfg, _. split_and!; try done. apply reason_cause.
Qed.
Theorem C48_every_entered_round_is_reported :
  forall e h nr lr lp from iv cfg s s' o r,
    react e (IEvent (EvNewRound h nr lr lp from iv cfg)) s = (s', o, r) ->
    s_power s = true -> s_stopped s = false -> nr <> 0 ->
    exists why, view_reports o = [(s_height s, s_round s, why)] /\ cause s from why.
Proof.
  intros e h nr lr lp from iv cfg s s' o r Hr Hp Hs Hn.
  apply new_round_core in Hr as [([[? _]|[? _]] & _)|(_ & r' & Hr)]; [congruence..|].
  apply new_round_facts in Hr as (Hv & _). rewrite Hv. destruct (N.eqb_spec nr 0); [done|].
  eexists. split; [done|]. apply reason_cause.
Qed.
End R.

(** ** Examples *)
(** B, leader of height 1, round 0, enters it: it proposes the block get_block gives. *)
Example C40_example :
  let s := nstate nB None (take 1 leader_history) in
  let x := react nlc ntenc (nenv nB true) (IEvent (ev_new 1 0)) s in
  nrun nB None (take 1 leader_history) (nouts nB None (take 1 leader_history)) s true /\
  s_power s = true /\ s_stopped s = false /\
  get_proposer nlc (s_auth s) (s_height s) 0 = Ok (s_addr s) /\
  cause_held s (FWPrecommit u64_max) /\ can_propose (nenv nB true) s None None /\
  sent_props x.1.2 = [nprop nB 1 0 blk None].
Proof.
  cbv zeta. split_and!; [apply nstate_run; by vm_compute|by vm_compute..|by left|by eexists|by vm_compute].
Qed.
(** A locked leader: C leads round 1; it has seen the prevote certificate of round 0 and enters
    round 1 locked, with the choke certificate that moved it there. *)
Definition locked_history : list (env bytes * input bytes) :=
  ok_env nC <$> [
    IMsg (MStatus (nstatus 1)); IEvent (ev_new 1 0); IMsg (MProposal (nprop nB 1 0 blk None));
    IEvent (EvPrevote 1 0 hsh None); IResp (mkVResp 1 0 hsh true); IMsg (MAgg pvqc);
    IEvent (EvPrecommit 1 0 hsh (Some 0)); IEvent (EvBrake 1 0 (Some 0));
    IMsg (MChoke (nchoke nA 1 0 (UFPrevote pvqc))); IMsg (MChoke (nchoke nB 1 0 (UFPrevote pvqc)));
    IMsg (MChoke (nchoke nD 1 0 (UFPrevote pvqc)))].
Definition enter_locked : input bytes := IEvent (EvNewRound 1 1 (Some 0) (Some hsh) (FWChoke 0) None None).
Example C40_locked_example :
  let s := nstate nC None locked_history in
  let x := react nlc ntenc (nenv nC true) enter_locked s in
  nrun nC None locked_history (nouts nC None locked_history) s true /\
  get_proposer nlc (s_auth s) (s_height s) 1 = Ok (s_addr s) /\
  sent_props x.1.2 = [nprop nC 1 1 blk (Some (mkPoLC 0 pvqc))].
Proof.
  cbv zeta. split_and!; [apply nstate_run; by vm_compute|by vm_compute..].
Qed.
(** A receives the leader's proposal in its round and hands it to the state machine; the same
    proposal signed by another validator has no effect. *)
Example C41_example :
  let s := nstate nA None (take 2 follower_history) in
  let x := react nlc ntenc (nenv nA true) (IMsg (MProposal (nprop nB 1 0 blk None))) s in
  let y := react nlc ntenc (nenv nA true) (IMsg (MProposal (nprop nD 1 0 blk None))) s in
  nrun nA None (take 2 follower_history) (nouts nA None (take 2 follower_history)) s true /\
  prop_triggers x.1.2 = [mk_trigger TProposal hsh None 0 1] /\
  y.1.2 = [].
Proof. cbv zeta. split_and!; [apply nstate_run; by vm_compute|by vm_compute..]. Qed.
(** C leaves round 0 without having seen a precommit certificate. *)
Example C48_example :
  let s := nstate nC None locked_history in
  let x := react nlc ntenc (nenv nC true) enter_locked s in
  s_power s = true /\ s_stopped s = false /\ view_reports x.1.2 = [(1, 0, RNoPrecommitQC)].
Proof. cbv zeta. split_and!; by vm_compute. Qed.
Print Assumptions C40_proposals_sent.
Print Assumptions C40_none_at_start.
Print Assumptions C40_leader_proposes.
Print Assumptions C41_only_the_leader_is_heard.
Print Assumptions C41_acted_on_proposals.
Print Assumptions C48_causes_exclude_each_other.
Print Assumptions C48_view_change_reports.
Print Assumptions C48_every_entered_round_is_reported.
