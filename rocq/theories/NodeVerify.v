(** * NodeVerify: which messages an instance treats were verified, and what it holds. *)
From Verif Require Export P_Safe P_Msg.
Set Default Proof Using "Type".

(** ** Lookups after more operations *)
Lemma first_vote_app ops ops' h r t a v :
  first_vote (ops ++ ops') h r t a = Some v -> first_vote ops h r t a = Some v \/ VVote v ∈ ops'.
Proof.
  revert v. induction ops' as [|op ops' IH] using rev_ind; intros v; [rewrite app_nil_r; by left|].
  rewrite app_assoc, first_vote_snoc, elem_of_app, elem_of_list_singleton.
  destruct op as [w|q|h'|till]; simpl.
  - destruct (first_vote (ops ++ ops') h r t a) as [u|] eqn:E.
    + intros; simplify_eq. destruct (IH v eq_refl); auto.
    + destruct (vote_at _ _ _ _ _); [|done]. intros; simplify_eq. auto.
  - intros Hv. destruct (IH _ Hv); auto.
  - destruct (_ =? _); [done|]. intros Hv. destruct (IH _ Hv); auto.
  - destruct (_ <? _); [done|]. intros Hv. destruct (IH _ Hv); auto.
Qed.
Lemma last_qc_app ops ops' h sel q :
  last_qc (ops ++ ops') h sel = Some q -> last_qc ops h sel = Some q \/ VQC q ∈ ops'.
Proof.
  revert q. induction ops' as [|op ops' IH] using rev_ind; intros q; [rewrite app_nil_r; by left|].
  rewrite app_assoc, last_qc_snoc, elem_of_app, elem_of_list_singleton.
  destruct op as [w|q'|h'|till]; simpl.
  - intros Hv. destruct (IH _ Hv); auto.
  - destruct (_ && _); [intros; simplify_eq; auto|]. intros Hv. destruct (IH _ Hv); auto.
  - destruct (_ =? _); [done|]. intros Hv. destruct (IH _ Hv); auto.
  - destruct (_ <? _); [done|]. intros Hv. destruct (IH _ Hv); auto.
Qed.
Lemma values_elem {K V} `{Countable K} (m : gmap K V) x : x ∈ values m <-> exists k, m !! k = Some x.
Proof.
  unfold values. rewrite elem_of_list_fmap. split.
  - intros ([k y] & -> & Hk). exists k. by apply elem_of_map_to_list.
  - intros (k & Hk). exists (k, x). split; [done|]. by apply elem_of_map_to_list.
Qed.

(** Held by the node for height [h]: what its caches answer. *)
Section Held.
Context {T : Type} `{EqDecision T}.
Definition held_vote (s : st T) (h : N) (v : svote) : Prop :=
  exists r t x l, vc_get_votes (s_votes s) h r t x = Ok l /\ v ∈ l.
Definition held_qc (s : st T) (h : N) (q : aggvote) : Prop :=
  (exists r t, vc_get_qc_by_id (s_votes s) h r t = Ok q) \/
  (exists x t, vc_get_qc_by_hash (s_votes s) h x t = Some q).
Definition held_prop (s : st T) (h : N) (sp : sproposal T) : Prop :=
  exists r, pc_get (s_props s) h r = Ok sp.

Lemma held_vote_first (s : st T) ops h v :
  s_votes s = vops ops -> held_vote s h v <-> exists r t a, first_vote ops h r t a = Some v.
Proof.
  intros Es. unfold held_vote. rewrite Es. split.
  - intros (r & t & x & l & Hg & Hv). rewrite get_votes_rnd in Hg.
    pose proof (votes_get_spec (vs_of (vops ops) h r t) x (vops_votes_ok ops h r t)) as Hs.
    unfold vs_of in Hs. destruct (votes_get _ x) as [l'|]; [|done]. injection Hg as ->.
    apply Hs in Hv as [Hv _]. change (vs_by_addr (vs_of (vops ops) h r t) !! sv_voter v = Some v) in Hv.
    rewrite vops_first_vote in Hv. eauto.
  - intros (r & t & a & Hf). pose proof (first_vote_at _ _ _ _ _ _ Hf) as (_ & _ & _ & <-).
    pose proof (votes_get_spec (vs_of (vops ops) h r t) (v_hash (sv_vote v)) (vops_votes_ok ops h r t)) as Hs.
    rewrite <-vops_first_vote in Hf. exists r, t, (v_hash (sv_vote v)). rewrite get_votes_rnd.
    unfold vs_of in Hs, Hf. destruct (votes_get _ _) as [l|].
    + exists l. split; [done|]. apply Hs. done.
    + by eapply Hs in Hf.
Qed.
Lemma held_qc_last (s : st T) ops h q :
  s_votes s = vops ops ->
  held_qc s h q ->
  exists sel, last_qc ops h sel = Some q /\
    forall s' ops', s_votes s' = vops ops' -> last_qc ops' h sel = Some q -> held_qc s' h q.
Proof.
  intros Es [(r & t & Hq)|(x & t & Hq)]; rewrite Es in Hq.
  - rewrite get_qc_rnd, vops_qc_id in Hq. eexists. split; [by case_match; simplify_eq|].
    intros s' ops' Es' Hl. left. exists r, t. rewrite Es', get_qc_rnd, vops_qc_id. by rewrite Hl.
  - rewrite get_qc_hash_qch, vops_qc_hash in Hq. eexists. split; [done|].
    intros s' ops' Es' Hl. right. exists x, t. by rewrite Es', get_qc_hash_qch, vops_qc_hash.
Qed.
Lemma held_prop_get (s : st T) h sp : held_prop s h sp <-> exists r, pget (s_props s) h r = Some sp.
Proof.
  unfold held_prop. split; intros (r & Hr); exists r.
  - rewrite pc_get_pget in Hr. by case_match; simplify_eq.
  - rewrite pc_get_pget. by rewrite Hr.
Qed.
(** Nothing is held for a height taken out. *)
Lemma held_nothing (s : st T) h :
  s_votes s !! h = None -> s_props s !! h = None ->
  (forall v, ~ held_vote s h v) /\ (forall q, ~ held_qc s h q) /\ (forall sp, ~ held_prop s h sp).
Proof.
  intros Hv Hp. split_and!.
  - intros v (r & t & x & l & Hg & _). unfold vc_get_votes, vc_round in Hg. by rewrite Hv in Hg.
  - intros q [(r & t & Hg)|(x & t & Hg)].
    + unfold vc_get_qc_by_id, vc_round in Hg. by rewrite Hv in Hg.
    + unfold vc_get_qc_by_hash in Hg. by rewrite Hv in Hg.
  - intros sp (r & Hg). unfold pc_get in Hg. by rewrite Hp in Hg.
Qed.
(** What is re-verified on moving to a height has that height. *)
Lemma reverify_height (s : st T) stt vo po m :
  s_votes s = vops vo -> s_props s = pops po ->
  (forall h r sp, PInsert h r sp ∈ po -> h = p_height (sp_prop sp)) ->
  m ∈ goto_reverify stt s -> msg_height m = Ok (st_height stt).
Proof.
  intros Ev Ep Hpo Hm. unfold goto_reverify, kept_props, kept_votes in Hm. rewrite Ev, Ep in Hm.
  apply elem_of_app in Hm as [Hm|Hm].
  - apply elem_of_list_fmap in Hm as (sp & -> & Hm). unfold pc_take_height in Hm. cbn [snd] in Hm.
    destruct (pc_flush (pops po) (st_height stt - 1) !! st_height stt) as [rc|] eqn:Erc; [|by apply elem_of_nil in Hm].
    simpl in Hm. apply values_elem in Hm as (r & Hr).
    assert (pget (pops (po ++ [PFlush (st_height stt - 1)])) (st_height stt) r = Some sp) as Hg.
    { unfold pops. rewrite foldl_snoc. unfold pget. cbn [pop_run]. fold (pops po). rewrite Erc. done. }
    unfold pops in Hg. apply pget_foldl in Hg as [Hg|Hg]; [unfold pget in Hg; by rewrite lookup_empty in Hg|].
    apply elem_of_app in Hg as [Hg|Hg]; [|by apply elem_of_list_singleton in Hg].
    apply Hpo in Hg. simpl. by rewrite Hg.
  - destruct (vc_flush (vops vo) (st_height stt - 1) !! st_height stt) as [vrc|] eqn:Erc;
      unfold vc_take_height in Hm; cbn [snd] in Hm; rewrite Erc in Hm; simpl in Hm; [|by apply elem_of_nil in Hm].
    set (vo' := vo ++ [VFlush (st_height stt - 1)]).
    assert (vops vo' !! st_height stt = Some vrc) as Erc' by (unfold vo'; rewrite vops_snoc; exact Erc).
    apply elem_of_app in Hm as [Hm|Hm]; apply elem_of_list_fmap in Hm as (y & -> & Hm);
      apply elem_of_list_bind in Hm as (rc & Hm & (r & Hr)%values_elem);
      assert (rnd (vops vo') (st_height stt) r = rc) as Ernd
        by (unfold rnd, vc_round; rewrite Erc'; simpl; by rewrite Hr).
    + assert (exists t a, vs_by_addr (rc_votes rc t) !! a = Some y) as (t & a & Ha).
      { apply elem_of_app in Hm as [Hm|Hm]; apply values_elem in Hm as (a & Ha); [exists Prevote|exists Precommit]; by exists a. }
      rewrite <-Ernd in Ha. change (vs_by_addr (vs_of (vops vo') (st_height stt) r t) !! a = Some y) in Ha.
      rewrite vops_first_vote in Ha. apply first_vote_at in Ha as (Ha & _). simpl. by rewrite Ha.
    + assert (exists t, qcpair_get (rc_qc rc) t = Some y) as (t & Ht).
      { apply elem_of_app in Hm as [Hm|Hm]; [exists Prevote|exists Precommit]; simpl;
          [destruct (qp_prevote (rc_qc rc))|destruct (qp_precommit (rc_qc rc))]; simpl in Hm;
          try (by apply elem_of_nil in Hm); by apply elem_of_list_singleton in Hm as ->. }
      rewrite <-Ernd, vops_qc_id in Ht. apply last_qc_sel in Ht as (Ht & _). simpl. by rewrite Ht.
Qed.
End Held.

(** ** Chokes held *)
Section Chokes.
Context {T : Type} `{EqDecision T}.
Context (lc : lcfg) (tenc : T -> bytes) (tdec : bytes -> option T) (spill : bool) (cr : crypto).
Local Notation noderun := (noderun lc tenc tdec spill cr).
(** The choke held of address [a] for round [k]. *)
Definition held_choke (s : st T) (k : N) (a : bytes) (sc : schoke) : Prop :=
  exists m, cc_chokes (s_chokes s) !! k = Some m /\ m !! a = Some sc.
Definition hcR (i : input T) (s : st T) (o : list (action T)) (s' : st T) : Prop :=
  s_height s' = s_height s /\ s_power s' = s_power s /\
  forall k a sc, held_choke s' k a sc -> held_choke s k a sc \/
    (sc_addr sc = a /\ ck_round (sc_choke sc) = k /\ ck_height (sc_choke sc) = s_height s /\
     (i = IMsg (MChoke sc) \/ AOwnChoke sc ∈ o)).
Lemma hcR_comp i : comp (hcR i).
Proof.
  clear lc tenc tdec spill cr. split; [split; [done|]; split; [done|auto]|].
  intros s1 s2 s3 o1 o2 (A0 & A1 & A2) (B0 & B1 & B2). split; [congruence|]. split; [congruence|]. intros k a sc Hk.
  apply B2 in Hk as [Hk|(? & ? & ? & Hk)].
  - apply A2 in Hk as [Hk|(? & ? & ? & Hk)]; [by left|right]. split_and!; try done. rewrite elem_of_app. tauto.
  - right. split_and!; try done; [congruence|]. rewrite elem_of_app. tauto.
Qed.
Lemma hcR_same i s o s' : s_chokes s' = s_chokes s -> s_height s' = s_height s -> s_power s' = s_power s -> hcR i s o s'.
Proof. clear lc tenc tdec spill cr. intros E1 E2 E3. split; [done|]. split; [done|]. intros k a sc. unfold held_choke. rewrite E1. by left. Qed.
Lemma held_insert s k a sc sc' r :
  held_choke (set_s_chokes (cc_insert (s_chokes s) r sc') s) k a sc ->
  held_choke s k a sc \/ (k = r /\ a = sc_addr sc' /\ sc = sc').
Proof.
  clear lc tenc tdec spill cr. intros (m & Hm & Ha). simpl in Hm. apply lookup_insert_Some in Hm as [[<- <-]|[Hn Hm]].
  - apply lookup_insert_Some in Ha as [[<- <-]|[Hn Ha]]; [by right|]. left.
    destruct (cc_chokes (s_chokes s) !! r) as [m'|] eqn:E; simpl in Ha; [|by rewrite lookup_empty in Ha]. by exists m'.
  - left. by exists m.
Qed.
Lemma hcR_check i e : keeps (hcR i) (check_choke_above_threshold (T:=T) e).
Proof.
  clear lc tenc tdec spill cr. intros s s' o r Hc.
  apply check_choke_inv in Hc as [(-> & -> & _)|(k & l & sig & _ & _ & _ & _ & -> & _)]; [apply hcR_comp|].
  split; [done|]. split; [done|]. intros k' a sc Hk. by left.
Qed.
Local Hint Resolve hcR_check : keepsdb.
Lemma hcR_choke e sc : keeps (hcR (IMsg (MChoke sc))) (handle_signed_choke (T:=T) e sc).
Proof.
  clear lc tenc tdec spill cr. intros s s' o r Hc. apply choke_inv in Hc as [(_ & -> & -> & _)|[(_ & _ & Hc)|(Eh & Er & Hc)]].
  - apply hcR_comp.
  - destruct (ck_from (sc_choke sc)) as [q|q|q].
    1,2: apply agg_inv in Hc as [(_ & -> & _)|[(_ & _ & -> & _)|(_ & _ & -> & _)]]; by apply hcR_same.
    apply aggchoke_inv in Hc as [(_ & -> & _)|(_ & -> & _)]; split_and!; try done; by left.
  - apply (hcR_check (IMsg (MChoke sc))) in Hc as (H1 & H2 & H3). split; [done|]. split; [done|].
    intros k a sc' Hk. apply H3 in Hk as [Hk|Hk]; [|by right].
    apply held_insert in Hk as [?|(-> & -> & ->)]; [by left|right]. split_and!; try done. by left.
Qed.
Lemma hcR_brake i e rd lr : keeps (hcR i) (handle_brake (T:=T) e rd lr).
Proof.
  clear lc tenc tdec spill cr. intros s s' o r Hb. unfold handle_brake in Hb.
  assert (hcR i s [] s) as Hs by by apply hcR_same.
  minv; ro_subst; try by apply hcR_same.
  all: try match goal with Hc : check_choke_above_threshold _ _ = _ |- _ =>
    apply (hcR_check i) in Hc as (X1 & X2 & X3) end.
  all: split; [try exact X1; done|]; split; [try exact X2; done|].
  all: intros k a sc Hk; try (apply X3 in Hk as [Hk|(? & ? & ? & [?|Hk])];
         [|right; split_and!; try done; by left|right; split_and!; try done; right; set_solver]).
  all: apply held_insert in Hk as [?|(-> & -> & ->)]; [by left|right]; split_and!; try done; right; set_solver.
Qed.
Local Hint Resolve hcR_brake : keepsdb.
Ltac hc_fin := intros; apply hcR_same; simpl; repeat case_match; done.
Lemma hcR_react e i :
  (forall stt, i <> IMsg (MStatus stt)) -> (forall x, i <> IEvent (EvCommit x)) ->
  keeps (hcR i) (react lc tenc e i).
Proof.
  clear tdec spill cr. intros H1 H2. apply (keeps_react _ _ _ (hcR_comp i)).
  - intros m ->. apply (keeps_msg _ _ (hcR_comp _)); intros; subst.
    all: try (by destruct (H1 stt)); try apply hcR_choke.
    all: lazymatch goal with |- keeps (hcR ?i) _ => generalize i; let j := fresh in intros j; keeps_go (hcR_comp j); hc_fin | _ => hc_fin end.
  - intros m ->. unfold on_raw. keeps_go (hcR_comp (IRaw m)); hc_fin.
  - intros m ->. keeps_go (hcR_comp (IResp (T:=T) m)); hc_fin.
  - intros m ->. destruct m; try (by destruct (H2 hash)).
    all: unfold handle_event; lazymatch goal with |- keeps (hcR ?i) _ => generalize i; let j := fresh in intros j; keeps_go (hcR_comp j); hc_fin | _ => hc_fin end.
Qed.
End Chokes.

Section Shape.
Context {T : Type} `{EqDecision T}.
Context (lc : lcfg) (tenc : T -> bytes) (tdec : bytes -> option T) (spill : bool) (cr : crypto).
Local Notation noderun := (noderun lc tenc tdec spill cr).

(** ** One iteration of the loop: taking a message, moving to a new height, or neither *)
Definition stayR (s : st T) (o : list (action T)) (s' : st T) : Prop :=
  (forall a m, AVerify a m ∉ o) /\ (forall m, AQueue m ∉ o) /\
  s_height s' = s_height s /\ s_power s' = s_power s.
Lemma stayR_comp : comp stayR.
Proof.
  clear lc tenc tdec spill cr. split; [intros s; unfold stayR; split_and!; intros; try apply not_elem_of_nil; done|].
  intros s1 s2 s3 o1 o2 (A1 & A2 & A3 & A4) (B1 & B2 & B3 & B4). unfold stayR; split_and!; try congruence.
  - intros a m [?|?]%elem_of_app; [by eapply A1|by eapply B1].
  - intros m [?|?]%elem_of_app; [by eapply A2|by eapply B2].
Qed.
Ltac stay_fin := intros; unfold stayR; split_and!; intros; try apply not_elem_of_nil;
  try (let Hx := fresh in intros Hx; apply elem_of_list_singleton in Hx; discriminate Hx);
  simpl; repeat case_match; done.
Definition adopts (e : env T) (i : input T) (o : list (action T)) (stt : status) : Prop :=
  i = IMsg (MStatus stt) \/
  exists hash h c, i = IEvent (EvCommit hash) /\ ACommit h c ∈ o /\ e_commit e h c = Some stt.
Inductive shape (e : env T) (i : input T) (s s' : st T) (o : list (action T)) : Prop :=
| shape_raw m : i = IRaw m -> s' = s ->
    (o = [] \/
     (o = [AQueue m] /\ (is_rich_status m = true \/ exists h, msg_height m = Ok h /\ s_height s < h)) \/
     (o = [AVerify (s_auth s) m] /\ is_rich_status m = false /\ msg_height m = Ok (s_height s))) ->
    shape e i s s' o
| shape_stay : (forall m, i <> IRaw m) -> stayR s o s' -> hcR i s o s' -> shape e i s s' o
| shape_move stt s1 o1 o2 r :
    goto_new_height e stt s1 = (s', o2, r) -> o = o1 ++ o2 -> stayR s o1 s1 ->
    s_votes s1 = s_votes s -> s_props s1 = s_props s -> s_chokes s1 = s_chokes s -> adopts e i o stt -> shape e i s s' o.
Lemma react_shape e i s s' o r : react lc tenc e i s = (s', o, r) -> shape e i s s' o.
Proof.
  clear tdec spill cr. intros Hr. destruct (core lc tenc e i) as [x|] eqn:Ec.
  - pose proof (react_core _ _ _ _ _ _ _ _ _ Ec Hr) as [(_ & Es & Eo & _)|(_ & r' & Hx & _)].
    { subst s' o. apply shape_stay; [intros m ->; done|apply stayR_comp|apply hcR_comp]. }
    assert ((forall stt, i <> IMsg (MStatus stt)) -> (forall x, i <> IEvent (EvCommit x)) ->
            keeps stayR x -> shape e i s s' o) as Hstay.
    { intros N1 N2 Hk. apply shape_stay; [intros m ->; done| |]; [by eapply Hk|by eapply hcR_react in Hr]. }
    destruct i as [m|ev|rs|m]; simpl in Ec; [done|..].
    + destruct ev; try discriminate Ec; injection Ec as <-.
      1-3: apply Hstay; [done..|]; keeps_go stayR_comp; stay_fin.
      * apply commit_inv in Hx as [(-> & -> & _)|(content & qc & _ & _ & [(_ & -> & ->)|(_ & Hx)])].
        -- apply shape_stay; [done|apply stayR_comp|apply hcR_comp].
        -- apply shape_stay; [done|stay_fin|by apply hcR_same].
        -- destruct (e_commit e _ _) as [stt|] eqn:Ecm.
           2: { destruct Hx as (-> & -> & _). apply shape_stay; [done| |by apply hcR_same].
                unfold stayR; split_and!; try done; intros; rewrite !elem_of_cons, elem_of_nil; intuition discriminate. }
           destruct Hx as (o2 & -> & Hx).
           assert (stayR s [ASave (commit_record s qc content) true; ACommit (s_height s) (commit_value s hash qc content)]
                     (set_s_auth (auth_update (st_auth stt)) s)) as Hst.
           { unfold stayR; split_and!; try done; intros; rewrite !elem_of_cons, elem_of_nil; intuition discriminate. }
           destruct (get_proposer _ _ _ _).
           ++ eapply (shape_move _ _ _ _ _ stt _ [_; _] o2); [exact Hx|done|exact Hst|done|done|done|].
              right. exists hash. do 2 eexists. split; [done|]. split; [|exact Ecm]. right. left.
           ++ destruct Hx as (-> & -> & _). apply shape_stay; [done|done|by apply hcR_same].
           ++ destruct Hx as (-> & -> & _). apply shape_stay; [done|done|by apply hcR_same].
      * apply Hstay; [done..|]. keeps_go stayR_comp; stay_fin.
    + injection Ec as <-. apply Hstay; [done..|]. keeps_go stayR_comp; stay_fin.
    + destruct m; try discriminate Ec; injection Ec as <-.
      1-3: apply Hstay; [done..|]; keeps_go stayR_comp; stay_fin.
      * eapply (shape_move _ _ _ _ _ s0 s [] o); [exact Hx|done|apply stayR_comp|done|done|done|by left].
      * apply Hstay; [done..|]; keeps_go stayR_comp; stay_fin.
  - destruct i as [m|ev|rs|m]; simpl in Ec; try done.
    + assert (exists r0, on_raw m s = (s', o, r0)) as [r0 Hm].
      { unfold react in Hr. apply bind_inv in Hr as [(u & s1 & o1 & o2 & H1 & H2 & ->)|[(x & H1 & ->)|(H1 & ->)]]; eauto.
        unfold ret in H2. simplify_eq. rewrite app_nil_r. eauto. }
      clear Hr. unfold on_raw in Hm. destruct (is_rich_status m) eqn:Er.
      { unfold emit in Hm. simplify_eq. eapply shape_raw; [done|done|]. right. left. split; [done|by left]. }
      unfold bind, lift, get in Hm. destruct (msg_height m) as [h| |] eqn:Eh.
      2-3: simplify_eq; eapply shape_raw; [done|done|by left].
      unfold emit, ret in Hm. destruct (N.ltb_spec (s_height s) h).
      { simplify_eq. eapply shape_raw; [done|done|]. right. left. split; [done|]. right. eauto. }
      destruct (N.eqb_spec (s_height s) h).
      * simplify_eq. eapply shape_raw; [done|done|]. right. right. done.
      * simplify_eq. eapply shape_raw; [done|done|by left].
    + destruct ev; try done. apply shape_stay; [done| |by eapply hcR_react in Hr]. revert Hr. unfold react, on_event.
      assert (keeps stayR (on_event lc tenc e EvStop)) as Hk by (keeps_go stayR_comp; stay_fin).
      apply Hk.
    + destruct m; try done. apply shape_stay; [done| |by eapply hcR_react in Hr].
      assert (keeps stayR (react lc tenc e (IMsg MStop))) as Hk; [|by eapply Hk].
      unfold react. apply (keeps_bind _ stayR_comp); [|intros; apply (keeps_ret _ stayR_comp)].
      apply (keeps_on_msg _ _ stayR_comp); [stay_fin|]. keeps_go stayR_comp; stay_fin.
Qed.

(** ** What the validators in force were, at every moment of a history *)
Lemma logged_auth b cfg log n :
  noderun b cfg log n ->
  forall e i s o r, NState e i s o r ∈ log ->
  exists l, s_auth s = auth_update l /\ supplied (boot_at b) (inputs log) (actions log) l.
Proof.
  assert (forall is is' o o' l, supplied (boot_at b) is o l -> supplied (boot_at b) (is ++ is') (o ++ o') l) as Hw.
  { intros is is' o o' l [?|[(stt & ? & ?)|(e' & h & c & stt & He & ? & ? & ?)]]; [by left|right; left|right; right].
    - exists stt. split; [by apply received_app|done].
    - exists e', h, c, stt. split_and!; try done; [|set_solver].
      destruct He as [->|[i' ?]]; [by left|right; exists i'; set_solver]. }
  induction 1 as [n log Hs|log n l n' log' Hr IH Hs]; intros e i s o r Hin.
  - unfold nstart in Hs. destruct (on_start _ _ _ _ _ _) as [[s1 o1] r1]. injection Hs as <- <-.
    by apply elem_of_list_singleton in Hin.
  - rewrite inputs_app, actions_app. apply elem_of_app in Hin as [Hin|Hin].
    + destruct (IH _ _ _ _ _ Hin) as (vals & ? & ?). exists vals. auto.
    + pose proof Hr as Hr0. apply noderun_run, run_auth in Hr as (vals & E & Hv).
      apply nstep_cases in Hs as [(e0 & i0 & s0 & o0 & r0 & _ & _ & _ & _ & ->)|(_ & _ & Hi & _)].
      * apply elem_of_list_singleton in Hin. injection Hin as -> -> -> -> ->. exists vals. auto.
      * assert ((e, i) ∈ inputs log') as Hx by (apply elem_of_list_omap; by exists (NState e i s o r)).
        rewrite Hi in Hx. by apply elem_of_nil in Hx.
Qed.

(** ** Messages on their way *)
(** A verification of [m] under [a] was asked for: when the message was taken at its height,
    with the validators in force; or when the node moved to its height, with that height's. *)
Definition asked (log : list (nlog T)) (a : auth) (m : omsg T) : Prop :=
  exists e i s o r, NState e i s o r ∈ log /\ AVerify a m ∈ o /\
    ((i = IRaw m /\ msg_height m = Ok (s_height s) /\ a = s_auth s) \/
     exists stt, adopts e i o stt /\ s_height s < st_height stt /\
       msg_height m = Ok (st_height stt) /\ a = auth_update (st_auth stt)).
Definition checked (log : list (nlog T)) (m : omsg T) : Prop :=
  exists a, NVerify a m true ∈ log /\ verify_msg tenc cr a m = true /\ asked log a m.
(** It was taken while the node was at a lower height, and so queued as it is. *)
Definition early (log : list (nlog T)) (m : omsg T) : Prop :=
  exists e s o r h, NState e (IRaw m) s o r ∈ log /\ msg_height m = Ok h /\ s_height s < h.
Lemma asked_app log log' a m : asked log a m -> asked (log ++ log') a m.
Proof. intros (e & i & s & o & r & Hin & Hx). exists e, i, s, o, r. split; [|done]. apply elem_of_app; by left. Qed.
Lemma checked_app log log' m : checked log m -> checked (log ++ log') m.
Proof.
  intros (a & Hin & Hv & Hx). exists a. split; [apply elem_of_app; by left|]. split; [done|]. by apply asked_app.
Qed.
Lemma early_app log log' m : early log m -> early (log ++ log') m.
Proof. intros (e & s & o & r & h & Hin & Hx). exists e, s, o, r, h. split; [|done]. apply elem_of_app; by left. Qed.
Definition pinv (log : list (nlog T)) (n : node T) : Prop :=
  (forall a m, (a, m) ∈ nd_verifs n -> asked log a m) /\
  (forall m, m ∈ nd_queue n -> is_rich_status m = true \/ checked log m \/ early log m).
(** At the start nothing is asked for: the caches are empty apart from the lock of the record. *)
Lemma start_asks e l s s' o r :
  s_votes s = ∅ -> s_props s = ∅ -> on_start lc tdec spill e l s = (s', o, r) ->
  (forall a m, AVerify a m ∉ o) /\ (forall m, AQueue m ∉ o).
Proof.
  clear tenc cr. intros Ev Epp Hs. unfold on_start in Hs. apply logged_inv in Hs as (r' & Hs & _).
  assert (forall o : list (action T), stayR s o s -> (forall a m, AVerify a m ∉ o) /\ (forall m, AQueue m ∉ o)) as Hst
    by (by intros ? (? & ? & _)).
  apply start_inv in Hs as [(-> & [->|(t & -> & _)])|(w & bs & _ & _ & _ & [[-> ->]|(p & _ & Ht)])].
  1,3: apply Hst, stayR_comp. { apply Hst. stay_fin. }
  set (s1 := loaded_state w _ p s) in Ht.
  assert (s_props s1 = ∅) as Ep1 by (unfold s1, loaded_state; by destruct (wi_lock w)).
  assert (s_votes s1 = match wi_lock w with Some l => vc_set_qc ∅ (wl_votes l) | None => ∅ end) as Ev1.
  { unfold s1, loaded_state. destruct (wi_lock w); simpl; [|done]. by rewrite Ev. }
  clearbody s1. unfold start_tail in Ht. destruct (bool_decide (wi_step w = SCommit)).
  2: { assert (stayR s1 o s') as (? & ? & _); [|done].
       revert Ht. match goal with |- ?x s1 = _ -> _ => assert (keeps stayR x) as Hk end; [|apply Hk].
       apply (keeps_bind _ stayR_comp).
       - destruct (bool_decide _); keeps_go stayR_comp; stay_fin.
       - intros _. keeps_go stayR_comp; stay_fin. }
  destruct (wi_lock w) as [lk|].
  2: { unfold fail in Ht. simplify_eq. apply Hst, stayR_comp. }
  apply commit_inv in Ht as [(_ & -> & _)|(content & qc & _ & Hq & [(_ & _ & ->)|(_ & Hx)])].
  { apply Hst, stayR_comp. } { apply Hst. stay_fin. }
  destruct (e_commit e _ _) as [stt|].
  2: { destruct Hx as (_ & -> & _). split; intros; rewrite !elem_of_cons, elem_of_nil; intuition discriminate. }
  destruct Hx as (o2 & -> & Hx).
  assert ((forall a m, AVerify a m ∉ o2) /\ (forall m, AQueue m ∉ o2)) as [H1 H2].
  2: { split; intros; rewrite !elem_of_cons; intros Hc; destruct_or!; try done; [by eapply H1|by eapply H2]. }
  destruct (get_proposer _ _ _ _); [|destruct Hx as (_ & -> & _); split; intros; apply not_elem_of_nil..].
  apply goto_inv in Hx as [(_ & _ & -> & _)|[(_ & _ & _ & -> & _)|[(_ & _ & _ & -> & _)|(Hlt & _ & _ & tr & -> & Htr)]]].
  1,2: split; intros; apply not_elem_of_nil.
  { split; intros; rewrite elem_of_list_singleton; done. }
  assert (goto_reverify stt (set_s_auth (auth_update (st_auth stt)) s1) = []) as ->.
  { unfold goto_reverify, kept_props, kept_votes. cbn [s_props s_votes set_s_auth]. rewrite Ep1, Ev1.
    unfold pc_take_height, vc_take_height, pc_flush, vc_flush. cbn [snd].
    assert (split_off (st_height stt - 1) (∅ : propcol T) !! st_height stt = None) as ->.
    { rewrite split_off_lookup, lookup_empty. by destruct (decide _). }
    assert (av_height (wl_votes lk) = s_height s1) as Eh.
    { rewrite Ev1 in Hq. change (vc_set_qc ∅ (wl_votes lk)) with (vops [VQC (wl_votes lk)]) in Hq.
      apply lookup_hash in Hq as (Hin & <- & _). apply elem_of_list_singleton in Hin. by injection Hin as ->. }
    rewrite split_off_lookup. unfold vc_set_qc. rewrite lookup_insert_ne by (simpl in Hlt; lia).
    rewrite lookup_empty. by destruct (decide _). }
  simpl. split; intros; rewrite elem_of_cons; intros [?|Hin]; try done;
    destruct Htr as [[-> _]|[-> _]]; [apply elem_of_list_singleton in Hin| apply elem_of_nil in Hin|apply elem_of_list_singleton in Hin| apply elem_of_nil in Hin]; done.
Qed.
Lemma noderun_pinv b cfg log n : noderun b cfg log n -> pinv log n.
Proof.
  induction 1 as [n log Hs|log n l n' log' Hr [IH1 IH2] Hs].
  - unfold nstart in Hs. destruct (on_start _ _ _ _ _ _) as [[s o] r] eqn:E. injection Hs as <- <-.
    apply start_asks in E as [H1 H2]; [|done..]. split; simpl.
    + intros a m Hm%verifs_of_in. by apply H1 in Hm.
    + intros m Hm%queued_of_in. by apply H2 in Hm.
  - assert (forall a m, (a, m) ∈ nd_verifs n -> asked (log ++ log') a m) as I1 by (intros; apply asked_app; auto).
    assert (forall m, m ∈ nd_queue n -> is_rich_status m = true \/ checked (log ++ log') m \/ early (log ++ log') m) as I2.
    { intros m Hm. destruct (IH2 m Hm) as [?|[?|?]]; auto using checked_app, early_app. }
    apply nstep_inv in Hs
      as [m -> ->|e i n0 s o r Ho Hp Hr0 -> ->|t q m o r ? Eq Hr0 -> ->|k a m Hk -> ->|k h r x b0 ok ? -> ->|ev q ? Eq -> ->|k ev ? -> ->|ev q ? ? -> ->].
    + done.
    + pose proof (popped_queues _ _ _ Hp) as (Q1 & _ & _ & _).
      apply popped_same in Hp as (_ & _ & _ & _ & _ & _ & _ & _ & _ & Ep10 & _).
      set (x := NState _ _ _ _ _) in *. set (e0 := env_at n e) in *.
      assert (forall a m, AVerify a m ∈ o -> asked (log ++ [x]) a m) as Hask.
      { intros a m Hin. exists e0, i, (nd_st n), o, r. split; [apply elem_of_app; right; by apply elem_of_list_singleton|].
        split; [done|]. apply react_shape in Hr0 as [m0 -> _ [->|[[-> _]|[-> [_ Hh]]]]|_ (Hn & _) _|stt s1 o1 o2 r1 Hg -> (Hn & _ & Eh & _) Ev Epp _ Had].
        - by apply elem_of_nil in Hin.
        - by apply elem_of_list_singleton in Hin.
        - apply elem_of_list_singleton in Hin. injection Hin as -> ->. by left.
        - by apply Hn in Hin.
        - right. exists stt. split; [done|]. apply elem_of_app in Hin as [Hin|Hin]; [by apply Hn in Hin|].
          apply goto_inv in Hg as [(_ & _ & -> & _)|[(_ & _ & _ & -> & _)|[(_ & _ & _ & -> & _)|(Hlt & _ & _ & tr & -> & Htr)]]].
          1,2: by apply elem_of_nil in Hin. { by apply elem_of_list_singleton in Hin. }
          apply elem_of_cons in Hin as [?|[Hin|Hin]%elem_of_app]; [done| |].
          2: { destruct Htr as [[-> _]|[-> _]]; [by apply elem_of_list_singleton in Hin|by apply elem_of_nil in Hin]. }
          apply elem_of_list_fmap in Hin as (m' & Hm & Hin). injection Hm as -> ->. split; [congruence|].
          split; [|done]. pose proof Hr as Hri. apply noderun_run, run_run_inv in Hri as [(vo & Evo & _) (po & Epo & Hpo) _ _ _ _].
          eapply (reverify_height s1 stt vo po); [congruence|congruence| |done].
          intros hh rr sp Hsp. by apply (proj1 (Forall_forall _ _) Hpo) in Hsp as (? & _). }
      split; simpl.
      * rewrite Ep10. intros a m [?|?%verifs_of_in]%elem_of_app; auto.
      * intros m [?|Hin%queued_of_in]%elem_of_app; [auto|].
        apply react_shape in Hr0 as [m0 Ei -> [->|[[-> Hm]|[-> _]]]|_ (_ & Hn & _) _|stt s1 o1 o2 r1 Hg -> (_ & Hn & _) _ _ _ _].
        -- by apply elem_of_nil in Hin.
        -- apply elem_of_list_singleton in Hin. injection Hin as ->. destruct Hm as [?|(h & ? & ?)]; [by left|].
           right. right. exists e0, (nd_st n), [AQueue m0], r, h. split; [|done]. apply elem_of_app. right.
           apply elem_of_list_singleton. unfold x. by rewrite Ei.
        -- by apply elem_of_list_singleton in Hin.
        -- by apply Hn in Hin.
        -- apply elem_of_app in Hin as [Hin|Hin]; [by apply Hn in Hin|].
           apply goto_inv in Hg as [(_ & _ & -> & _)|[(_ & _ & _ & -> & _)|[(_ & _ & _ & -> & _)|(Hlt & _ & _ & tr & -> & Htr)]]].
           1,2: by apply elem_of_nil in Hin. { by apply elem_of_list_singleton in Hin. }
           apply elem_of_cons in Hin as [?|[Hin|Hin]%elem_of_app]; [done| |].
           { by apply elem_of_list_fmap in Hin as (? & ? & _). }
           destruct Htr as [[-> _]|[-> _]]; [by apply elem_of_list_singleton in Hin|by apply elem_of_nil in Hin].
    + done.
    + set (ok := verify_msg tenc cr a m) in *.
      assert (forall a' m', (a', m') ∈ delete k (nd_verifs n) -> asked (log ++ [NVerify a m ok]) a' m') as Hd
        by (intros ? ? ?%delete_sub; auto).
      apply elem_of_list_lookup_2 in Hk. destruct ok eqn:Eok; split; simpl; try done.
      intros m' [?| ->%elem_of_list_singleton]%elem_of_app; [auto|]. right. left. exists a.
      split; [apply elem_of_app; right; by apply elem_of_list_singleton|]. split; [exact Eok|auto].
    + by destruct ok.
    + unfold pinv. destruct (arm_same ev (set_tevs q n)) as (_ & _ & _ & _ & _ & _ & _ & _ & _ & -> & _ & -> & _). done.
    + done.
    + unfold pinv. destruct (fire_same ev (set_fired q n)) as (_ & _ & _ & _ & _ & _ & _ & _ & _ & _ & -> & _ & -> & _). done.
Qed.
Lemma snoc_split {A} (l l1 l2 : list A) x y :
  l ++ [y] = l1 ++ x :: l2 -> (l2 = [] /\ y = x /\ l1 = l) \/ exists l2', l2 = l2' ++ [y] /\ l = l1 ++ x :: l2'.
Proof.
  intros Hl. destruct l2 as [|z l2 _] using rev_ind.
  - left. apply app_inj_tail in Hl as [-> ->]. done.
  - right. exists l2. rewrite app_comm_cons, app_assoc in Hl. apply app_inj_tail in Hl as [-> ->]. done.
Qed.
(** Every message treated was checked or taken early. *)
Lemma treated_checked b cfg log n :
  noderun b cfg log n ->
  forall l1 l2 e m s o r, log = l1 ++ NState e (IMsg m) s o r :: l2 ->
    is_rich_status m = true \/ checked l1 m \/ early l1 m.
Proof.
  induction 1 as [n log Hs|log n l n' log' Hr IH Hs]; intros l1 l2 e m s o r Hl.
  - unfold nstart in Hs. destruct (on_start _ _ _ _ _ _) as [[s1 o1] r1]. injection Hs as <- <-.
    by destruct l1 as [|? [|]].
  - assert (exists y, log' = [y]) as [y ->].
    { clear -Hs. by apply nstep_inv in Hs as [? ? ->|? ? ? ? ? ? ? ? ? ? ->|? ? ? ? ? ? ? ? ? ->|? ? ? ? ? ->|? ? ? ? ? ? ? ? ->|? ? ? ? ? ->|? ? ? ? ->|? ? ? ? ? ->]; eexists. }
    apply snoc_split in Hl as [(-> & -> & ->)|(l2' & -> & Hl)]; [|by eapply IH].
    apply noderun_pinv in Hr as [_ Hq].
    apply nstep_inv in Hs
      as [m0 ? E|e0 i n0 s0 o0 r0 Ho Hp Hr0 ? E|t q m0 o0 r0 ? Eq Hr0 ? E|k a m0 Hk ? E|k h r0 x b0 ok ? ? E|ev q ? Eq ? E|k ev ? ? E|ev q ? ? ? E];
      try done.
    injection E as _ Ei _ _ _. rewrite <-Ei in Hp. apply popped_queues in Hp as (_ & _ & _ & Hin). auto.
Qed.
End Shape.

