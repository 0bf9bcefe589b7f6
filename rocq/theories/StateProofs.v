(** * StateProofs: invariants of histories of the state module. *)
From Verif Require Export StateHist.
Set Default Proof Using "Type".

Section SP.
Context {T : Type} `{EqDecision T}.
Context (lc : lcfg) (tenc : T -> bytes).
Local Notation react := (react lc tenc).

Lemma keeps_on_msg (P : st T -> list (action T) -> st T -> Prop) (HP : comp P) e m :
  (forall s x, P s [AReportErr x] s) -> keeps P (handle_msg lc e m) -> keeps P (on_msg lc e m).
Proof.
  intros Hr Hk s s' o r. unfold on_msg. destruct (handle_msg lc e m s) as [[s1 o1] r1] eqn:E.
  specialize (Hk _ _ _ _ E).
  destruct r1; intros; simplify_eq; [done| |done].
  eapply comp_app; [done|done|apply Hr].
Qed.

(** ** Address, height, checked blocks *)
Definition mono (s : st T) (o : list (action T)) (s' : st T) : Prop :=
  s_addr s' = s_addr s /\ s_height s <= s_height s' /\
  forall h b, s_full s !! h = Some b -> is_Some (s_full s' !! h).
Lemma mono_comp : comp mono.
Proof.
  split; [intros s; unfold mono; split_and!; eauto; lia|]. intros s1 s2 s3 o1 o2 (A1 & A2 & A3) (B1 & B2 & B3).
  unfold mono; split_and!; [congruence|lia|]. intros h b Hb. destruct (A3 _ _ Hb) as [b' Hb']. eauto.
Qed.
Lemma mono_goto e stt : keeps mono (goto_new_height e stt).
Proof.
  intros s s' o r Hg. apply goto_inv in Hg as [(? & -> & -> & _)|[(? & _ & -> & -> & _)|[(? & _ & -> & _)|(? & _ & -> & _)]]].
  - apply mono_comp.
  - unfold mono; split_and!; simpl; eauto; lia.
  - unfold mono; split_and!; simpl; eauto; lia.
  - unfold mono, moved_full. destruct (st_interval stt); split_and!; simpl; eauto; lia.
Qed.
Local Hint Resolve mono_goto : keepsdb.
Ltac mono_fin := intros; unfold mono; split_and!; simpl; eauto; try lia; intros;
  repeat (case_match; simpl; eauto); rewrite ?lookup_insert_is_Some; eauto.
Lemma mono_react e i : keeps mono (react e i).
Proof.
  destruct i as [m|ev|rs|m]; unfold StateHist.react.
  4: apply (keeps_bind _ mono_comp); [|intro; apply (keeps_ret _ mono_comp)];
     apply (keeps_on_msg _ mono_comp); [mono_fin|].
  all: keeps_go mono_comp.
  all: try solve [mono_fin].
  unfold mono; split_and!; simpl; [done|lia|]. intros h b Hb.
  destruct (decide (vr_hash rs = h)) as [<-|Hn]; [rewrite lookup_insert|rewrite lookup_insert_ne by done]; eauto.
Qed.

(** ** Where the contents of the caches come from *)
Definition vote_in (i : input T) (v : svote) : Prop := i = IMsg (MVote v).
Definition qc_in (i : input T) (q : aggvote) : Prop :=
  i = IMsg (MAgg q) \/
  exists sc, i = IMsg (MChoke sc) /\
    (ck_from (sc_choke sc) = UFPrevote q \/ ck_from (sc_choke sc) = UFPrecommit q).
Definition cqc_in (i : input T) (q : aggchoke) : Prop :=
  exists sc, i = IMsg (MChoke sc) /\ ck_from (sc_choke sc) = UFChoke q.

(** *** Votes and certificates *)
Definition vsrc (i : input T) (o : list (action T)) (op : vop) : Prop :=
  match op with
  | VVote v => vote_in i v \/ AOwnVote v ∈ o
  | VQC q => qc_in i q \/ ABroadcast (MAgg q) ∈ o
  | VTake _ | VFlush _ => True
  end.
Definition votesR (i : input T) (s : st T) (o : list (action T)) (s' : st T) : Prop :=
  exists ops, s_votes s' = foldl vop_run (s_votes s) ops /\ Forall (vsrc i o) ops.
Lemma vsrc_mono i o o' op : o ⊆ o' -> vsrc i o op -> vsrc i o' op.
Proof. intros Ho. destruct op; simpl; try done; intros [?|?]; eauto. Qed.
Lemma votesR_comp i : comp (votesR i).
Proof.
  split; [by exists []|]. intros s1 s2 s3 o1 o2 (op1 & E1 & F1) (op2 & E2 & F2).
  exists (op1 ++ op2). rewrite foldl_app, <-E1, <-E2. split; [done|]. apply Forall_app. split.
  - eapply Forall_impl; [exact F1|]. intros op. apply vsrc_mono. set_solver.
  - eapply Forall_impl; [exact F2|]. intros op. apply vsrc_mono. set_solver.
Qed.
Lemma votesR_same i s o s' : s_votes s' = s_votes s -> votesR i s o s'.
Proof. intros E. by exists []. Qed.
Lemma votesR_goto i e stt : keeps (votesR i) (goto_new_height e stt).
Proof.
  intros s s' o r Hg. apply goto_inv in Hg as [(? & -> & -> & _)|[(? & _ & -> & -> & _)|[(? & _ & -> & _)|(? & _ & -> & _)]]].
  - by apply votesR_same.
  - by apply votesR_same.
  - by apply votesR_same.
  - exists [VFlush (st_height stt - 1); VTake (st_height stt)]. split; [|by repeat constructor].
    unfold moved_full. destruct (st_interval stt); done.
Qed.
Local Hint Resolve votesR_goto : keepsdb.
Lemma votesR_publish i e hash t : keeps (votesR i) (publish_qc e hash t).
Proof.
  intros s s' o r Hp. unfold publish_qc in Hp. minv; ro_subst; try by apply votesR_same.
  all: exists [VQC a]; split; [done|]; apply Forall_singleton; right; set_solver.
Qed.
Local Hint Resolve votesR_publish : keepsdb.
Lemma votesR_own i e hash t lr : keeps (votesR i) (handle_vote_event e hash t lr).
Proof.
  assert (keeps (votesR i) (vote_process e t)) as Hvp.
  { keeps_go (votesR_comp i). all: try by apply votesR_same. }
  intros s s' o r Hp. unfold handle_vote_event in Hp. minv; ro_subst; try by apply votesR_same.
  all: lazymatch goal with Hv : vote_process _ _ _ = _ |- _ => rename Hv into Hv0 end.
  - lazymatch goal with Hs : sign_vote _ _ _ = _ |- _ => apply sign_vote_inv in Hs as (_ & -> & Hs) end.
    case_match; simplify_eq. simpl in Hv0.
    apply Hvp in Hv0 as (ops & E1 & F1). match goal with |- votesR _ _ (_ ++ _ ++ ([AOwnVote ?a] ++ _) ++ _) _ =>
      exists (VVote a :: ops) end. split; [done|].
    constructor; [right; set_solver|]. eapply Forall_impl; [exact F1|]. intros op. apply vsrc_mono. set_solver.
  - apply Hvp in Hv0 as (ops & E1 & F1). exists ops. split; [done|].
    eapply Forall_impl; [exact F1|]. intros op. apply vsrc_mono. set_solver.
Qed.
Local Hint Resolve votesR_own : keepsdb.
Lemma votesR_agg i e q : qc_in i q -> keeps (votesR i) (handle_aggregated_vote e q).
Proof.
  intros Hq. keeps_go (votesR_comp i). all: try by apply votesR_same.
  all: exists [VQC q]; split; [done|]; apply Forall_singleton; by left.
Qed.
Lemma votesR_vote i e v : vote_in i v -> keeps (votesR i) (handle_signed_vote e v).
Proof.
  intros Hq. keeps_go (votesR_comp i). all: try by apply votesR_same.
  all: exists [VVote v]; split; [done|]; apply Forall_singleton; by left.
Qed.
Lemma votesR_choke i e sc : i = IMsg (MChoke sc) -> keeps (votesR i) (handle_signed_choke e sc).
Proof.
  intros Hi. unfold handle_signed_choke. keeps_step (votesR_comp i). destruct (ck_from (sc_choke sc)) eqn:Ec.
  1-2: assert (qc_in i q) as Hq by (right; eauto); pose proof (votesR_agg i e q Hq) as Ha.
  all: keeps_go (votesR_comp i); try done; by apply votesR_same.
Qed.
Lemma keeps_msg (P : st T -> list (action T) -> st T -> Prop) (HP : comp P) e m :
  (forall sp, m = MProposal sp -> keeps P (handle_signed_proposal lc e sp)) ->
  (forall sv, m = MVote sv -> keeps P (handle_signed_vote e sv)) ->
  (forall q, m = MAgg q -> keeps P (handle_aggregated_vote e q)) ->
  (forall stt, m = MStatus stt -> keeps P (goto_new_height e stt)) ->
  (forall sc, m = MChoke sc -> keeps P (handle_signed_choke e sc)) ->
  (forall s t, P s [ATrigger t] s) -> (forall s b, P s [] (set_s_stopped b s)) ->
  (forall s x, P s [AReportErr x] s) -> keeps P (on_msg lc e m).
Proof.
  intros H1 H2 H3 H4 H5 Ht Hs He. apply (keeps_on_msg _ HP); [done|]. unfold handle_msg.
  keeps_step HP. destruct (_ && _); [keeps_go HP|]. destruct m; try (apply keeps_logged; auto).
  keeps_go HP. all: auto.
Qed.
Lemma keeps_react (P : st T -> list (action T) -> st T -> Prop) (HP : comp P) e i :
  (forall m, i = IMsg m -> keeps P (on_msg lc e m)) ->
  (forall m, i = IRaw m -> keeps P (on_raw m)) ->
  (forall r, i = IResp r -> keeps P (handle_resp e r)) ->
  (forall ev, i = IEvent ev -> keeps P (handle_event lc tenc e ev)) -> keeps P (react e i).
Proof.
  intros H1 H2 H3 H4. destruct i as [m|ev|rs|m]; unfold StateHist.react.
  - apply (keeps_bind _ HP); [auto|intro; apply (keeps_ret _ HP)].
  - specialize (H4 _ eq_refl). unfold on_event.
    keeps_step HP. destruct (s_stopped _); [keeps_go HP|]. destruct (negb _); [keeps_go HP|].
    apply (keeps_bind _ HP); [by apply keeps_logged|intro; apply (keeps_ret _ HP)].
  - specialize (H3 _ eq_refl). apply (keeps_bind _ HP); [|intro; apply (keeps_ret _ HP)]. unfold on_resp.
    keeps_step HP. destruct (negb _); [keeps_go HP|by apply keeps_logged].
  - apply (keeps_bind _ HP); [auto|intro; apply (keeps_ret _ HP)].
Qed.
Lemma votesR_react e i : keeps (votesR i) (react e i).
Proof.
  apply (keeps_react _ (votesR_comp i)).
  - intros m ->. apply (keeps_msg _ (votesR_comp _)); intros; subst; try by apply votesR_same.
    + keeps_go (votesR_comp (IMsg (MProposal sp))); by apply votesR_same.
    + by apply votesR_vote.
    + apply votesR_agg. by left.
    + apply votesR_goto.
    + by apply votesR_choke.
  - intros m _. keeps_go (votesR_comp i); by apply votesR_same.
  - intros m _. keeps_go (votesR_comp i); by apply votesR_same.
  - intros m _. keeps_go (votesR_comp i); apply votesR_same; repeat case_match; done.
Qed.

(** *** Proposals *)
Definition verified (s : st T) (p : proposal T) : Prop :=
  auth_contains (s_auth s) (p_proposer p) = true /\
  get_proposer lc (s_auth s) (p_height p) (p_round p) = Ok (p_proposer p).
Lemma verify_proposer_inv (s s' : st T) h rd a o r :
  verify_proposer lc h rd a s = (s', o, r) ->
  s' = s /\ o = [] /\ (r = Ok tt -> auth_contains (s_auth s) a = true /\ get_proposer lc (s_auth s) h rd = Ok a).
Proof.
  intros Hv. pose proof (ro_verify_proposer _ _ _ _ _ _ _ _ Hv) as Hs. unfold same in Hs. split; [done|].
  unfold verify_proposer, verify_address, bind, get, ret, fail, lift in Hv.
  repeat (case_match; simplify_eq; try done).
Qed.
Lemma hsp_inv e sp s s' o r :
  handle_signed_proposal lc e sp s = (s', o, r) ->
  let p := sp_prop sp in
  let h := p_height p in let rd := p_round p in
  (s' = s /\ o = [] /\ (verified s p -> filter_message s h rd = true /\ r = Ok tt)) \/
  (verified s p /\ filter_message s h rd = false /\
   ((h = s_height s /\ rd <> s_round s) \/ s_height s < h) /\
   s' = set_s_props (pc_insert (s_props s) h rd sp).1 s /\ o = [] /\
   r = (pc_insert (s_props s) h rd sp).2) \/
  (verified s p /\ filter_message s h rd = false /\ h = s_height s /\ rd = s_round s /\
   s' = set_s_props (pc_insert (s_props s) h rd sp).1
          (set_s_blocks (<[p_hash p := p_content p]> (s_blocks s)) s) /\
   match (pc_insert (s_props s) h rd sp).2 with
   | Ok _ => (o = [ATrigger (mk_trigger TProposal (p_hash p) (pl_round <$> p_lock p) rd h);
                   ACheck h rd (p_hash p) (p_content p)] /\ r = Ok tt) \/
             (o = [] /\ r = Err ETriggerSMR)
   | x => o = [] /\ r = x
   end).
Proof.
  intros Hp. cbv zeta. unfold handle_signed_proposal in Hp.
  apply bind_inv in Hp as [(u & s1 & o1 & o2 & H1 & H2 & ->)|[(x & H1 & ->)|(H1 & ->)]].
  2-3: left; pose proof (verify_proposer_inv _ _ _ _ _ _ _ H1) as (-> & -> & _); split_and!; try done; intros Hv;
       exfalso.
  - apply verify_proposer_inv in H1 as (-> & -> & H1). destruct u. specialize (H1 eq_refl).
    rewrite app_nil_l. unfold filter_signed_proposal in H2.
    destruct (filter_message s _ _) eqn:Ef.
    + left. unfold bind, get, ret in H2. rewrite Ef in H2. simplify_eq. done.
    + right. destruct ((p_height (sp_prop sp) =? s_height s) && negb (p_round (sp_prop sp) =? s_round s)
              || (s_height s <? p_height (sp_prop sp))) eqn:Eg.
      * left. unfold bind at 1, get in H2. rewrite Ef, Eg in H2.
        unfold props_insert, get, bind, modify, lift in H2.
        assert ((p_height (sp_prop sp) = s_height s /\ p_round (sp_prop sp) <> s_round s) \/
                s_height s < p_height (sp_prop sp)) as Hc.
        { apply orb_true_iff in Eg as [Eg|Eg]; [left|right; by apply N.ltb_lt].
          apply andb_true_iff in Eg as [E1 E2]. apply N.eqb_eq in E1. apply negb_true_iff, N.eqb_neq in E2. done. }
        destruct (pc_insert _ _ _ _) as [pc rr]. destruct rr as [[]|y|]; unfold ret in H2; simpl in H2; simplify_eq; done.
      * right. unfold bind at 1, get in H2. rewrite Ef, Eg in H2.
        assert (p_height (sp_prop sp) = s_height s /\ p_round (sp_prop sp) = s_round s) as [Eh Er].
        { apply orb_false_iff in Eg as [E1 E2]. apply N.ltb_ge in E2.
          unfold filter_message in Ef. destruct (N.ltb_spec (p_height (sp_prop sp)) (s_height s)); [done|].
          assert (p_height (sp_prop sp) = s_height s) as Eh by lia. split; [done|].
          rewrite Eh, N.eqb_refl in E1. simpl in E1. by apply negb_false_iff, N.eqb_eq in E1. }
        rewrite Eh, Er. unfold ret, bind, modify, get, props_insert, lift, modify, trigger_smr, check_block, get, emit, fail in H2.
        simpl in H2.
        destruct (pc_insert (s_props s) (s_height s) (s_round s) sp) as [pc rr] eqn:Ei.
        destruct rr as [[]|y|]; simpl in H2; simplify_eq; try (split_and!; done).
        rewrite Eh, Er in H2. destruct (e_trigger _ _); simplify_eq; split_and!; try done; simpl; auto.
  - unfold verify_proposer, verify_address, bind, get, ret, fail, lift in H1. destruct Hv as [Hv1 Hv2].
    rewrite Hv1, Hv2 in H1. by rewrite decide_True in H1 by done.
  - unfold verify_proposer, verify_address, bind, get, ret, fail, lift in H1. destruct Hv as [Hv1 Hv2].
    rewrite Hv1, Hv2 in H1. by rewrite decide_True in H1 by done.
Qed.

Definition psrc (i : input T) (s : st T) (op : pop T) : Prop :=
  match op with
  | PInsert h r sp =>
      h = p_height (sp_prop sp) /\ r = p_round (sp_prop sp) /\
      (i = IMsg (MProposal sp) \/ exists h' r', pget (s_props s) h' r' = Some sp)
  | _ => True
  end.
Definition propsR (i : input T) (s : st T) (o : list (action T)) (s' : st T) : Prop :=
  exists ops, s_props s' = foldl pop_run (s_props s) ops /\ Forall (psrc i s) ops.
Lemma pget_foldl (c : propcol T) ops h r sp :
  pget (foldl pop_run c ops) h r = Some sp -> pget c h r = Some sp \/ PInsert h r sp ∈ ops.
Proof.
  revert c. induction ops as [|op ops IH]; intros c; simpl; [by left|].
  intros H. apply IH in H as [H|H]; [|right; by right].
  rewrite pget_step in H. destruct op as [h' r' p|h'|till]; simpl in H.
  - destruct (pget c h r); [by left|]. destruct (N.eqb_spec h h'), (N.eqb_spec r r'); simpl in H; simplify_eq.
    right. left.
  - destruct (h =? h'); [done|by left].
  - destruct (h <? till); [done|by left].
Qed.
Lemma propsR_comp i : comp (propsR i).
Proof.
  split; [by exists []|]. intros s1 s2 s3 o1 o2 (op1 & E1 & F1) (op2 & E2 & F2).
  exists (op1 ++ op2). rewrite foldl_app, <-E1, <-E2. split; [done|]. apply Forall_app. split; [done|].
  eapply Forall_impl; [exact F2|]. intros [h r p|h|t]; simpl; try done.
  intros (? & ? & Hp). split_and!; [done..|]. destruct Hp as [Hp|(h' & r' & Hp)]; [by left|].
  rewrite E1 in Hp. apply pget_foldl in Hp as [Hp|Hp]; [right; eauto|].
  by apply (proj1 (Forall_forall _ _) F1) in Hp as (_ & _ & Hp).
Qed.
Lemma propsR_same i s o s' : s_props s' = s_props s -> propsR i s o s'.
Proof. intros E. by exists []. Qed.
Lemma propsR_goto i e stt : keeps (propsR i) (goto_new_height e stt).
Proof.
  intros s s' o r Hg. apply goto_inv in Hg as [(? & -> & -> & _)|[(? & _ & -> & -> & _)|[(? & _ & -> & _)|(? & _ & -> & _)]]].
  1-3: by apply propsR_same.
  exists [PFlush (st_height stt - 1); PTake (st_height stt)]. split; [|by repeat constructor].
  unfold moved_full. destruct (st_interval stt); done.
Qed.
Local Hint Resolve propsR_goto : keepsdb.
Lemma propsR_hsp i e sp s s' o r :
  (i = IMsg (MProposal sp) \/ exists h' r', pget (s_props s) h' r' = Some sp) ->
  handle_signed_proposal lc e sp s = (s', o, r) -> propsR i s o s'.
Proof.
  intros Hi Hp. apply hsp_inv in Hp as [(-> & -> & _)|[(_ & _ & _ & -> & -> & _)|(_ & _ & _ & _ & -> & _)]].
  - by apply propsR_same.
  - exists [PInsert (p_height (sp_prop sp)) (p_round (sp_prop sp)) sp]. split; [done|].
    apply Forall_singleton. done.
  - exists [PInsert (p_height (sp_prop sp)) (p_round (sp_prop sp)) sp]. split; [done|].
    apply Forall_singleton. done.
Qed.
Lemma propsR_cached i e : keeps (propsR i) (get (fun s =>
        match pc_get (s_props s) (s_height s) (s_round s) with
        | Ok sp => handle_signed_proposal lc e sp
        | _ => ret tt
        end)).
Proof.
  intros s s' o r. unfold get. rewrite pc_get_pget. destruct (pget _ _ _) as [sp|] eqn:Ep.
  - apply propsR_hsp. right. eauto.
  - unfold ret. intros. simplify_eq. by apply propsR_same.
Qed.
Local Hint Resolve propsR_cached : keepsdb.
Lemma propsR_react e i : keeps (propsR i) (react e i).
Proof.
  apply (keeps_react _ (propsR_comp i)).
  - intros m ->. apply (keeps_msg _ (propsR_comp _)); intros; subst; try by apply propsR_same.
    + intros s s' o r. apply propsR_hsp. by left.
    + keeps_go (propsR_comp (IMsg (MVote sv))); by apply propsR_same.
    + keeps_go (propsR_comp (IMsg (T:=T) (MAgg q))); by apply propsR_same.
    + apply propsR_goto.
    + keeps_go (propsR_comp (IMsg (T:=T) (MChoke sc))); by apply propsR_same.
  - intros m _. keeps_go (propsR_comp i); by apply propsR_same.
  - intros m _. keeps_go (propsR_comp i); by apply propsR_same.
  - intros m _. keeps_go (propsR_comp i); apply propsR_same; repeat case_match; done.
Qed.

(** *** Chokes *)
Definition csrc (i : input T) (o : list (action T)) (op : cop) : Prop :=
  match op with
  | CChoke r sc => r = ck_round (sc_choke sc) /\ (i = IMsg (MChoke sc) \/ AOwnChoke sc ∈ o)
  | CQc r q => r = ac_round q
  | CClear => True
  end.
Definition chokesR (i : input T) (s : st T) (o : list (action T)) (s' : st T) : Prop :=
  exists ops, s_chokes s' = foldl cop_run (s_chokes s) ops /\ Forall (csrc i o) ops.
Lemma csrc_mono i o o' op : o ⊆ o' -> csrc i o op -> csrc i o' op.
Proof. intros Ho. destruct op; simpl; try done. intros [? [?|?]]; eauto. Qed.
Lemma chokesR_comp i : comp (chokesR i).
Proof.
  split; [by exists []|]. intros s1 s2 s3 o1 o2 (op1 & E1 & F1) (op2 & E2 & F2).
  exists (op1 ++ op2). rewrite foldl_app, <-E1, <-E2. split; [done|]. apply Forall_app. split.
  - eapply Forall_impl; [exact F1|]. intros op. apply csrc_mono. set_solver.
  - eapply Forall_impl; [exact F2|]. intros op. apply csrc_mono. set_solver.
Qed.
Lemma chokesR_same i s o s' : s_chokes s' = s_chokes s -> chokesR i s o s'.
Proof. intros E. by exists []. Qed.
Lemma chokesR_goto i e stt : keeps (chokesR i) (goto_new_height e stt).
Proof.
  intros s s' o r Hg. apply goto_inv in Hg as [(? & -> & -> & _)|[(? & _ & -> & -> & _)|[(? & _ & -> & _)|(? & _ & -> & _)]]].
  1-3: by apply chokesR_same.
  exists [CClear]. split; [|by repeat constructor].
  unfold moved_full. destruct (st_interval stt); done.
Qed.
Local Hint Resolve chokesR_goto : keepsdb.
Lemma chokesR_check i e : keeps (chokesR i) (check_choke_above_threshold e).
Proof.
  unfold check_choke_above_threshold. keeps_step (chokesR_comp i).
  destruct (cc_max_round _ _) as [round|]; keeps_go (chokesR_comp i); try by apply chokesR_same.
  eexists [CQc _ _]. split; [reflexivity|]. by apply Forall_singleton.
Qed.
Local Hint Resolve chokesR_check : keepsdb.
Lemma chokesR_brake i e rd lr : keeps (chokesR i) (handle_brake e rd lr).
Proof.
  intros s s' o r Hb. unfold handle_brake in Hb.
  assert (chokesR i s [] s) as Hs by by apply chokesR_same.
  minv; ro_subst; try by apply chokesR_same.
  all: try match goal with Hc : check_choke_above_threshold _ _ = _ |- _ =>
    apply (chokesR_check i) in Hc as (ops & E1 & F1) end.
  all: match goal with |- chokesR _ ?s ([AOwnChoke ?sc] ++ _) _ =>
    first [exists (CChoke (s_round s) sc :: ops); split; [done|];
           constructor; [split; [done|right; set_solver]|];
           eapply Forall_impl; [exact F1|]; intros op; apply csrc_mono; set_solver
          |exists [CChoke (s_round s) sc]; split; [done|]; apply Forall_singleton; split; [done|right; set_solver]] end.
Qed.
Local Hint Resolve chokesR_brake : keepsdb.
Lemma chokesR_react e i : keeps (chokesR i) (react e i).
Proof.
  apply (keeps_react _ (chokesR_comp i)).
  - intros m ->. apply (keeps_msg _ (chokesR_comp _)); intros; subst; try by apply chokesR_same.
    + keeps_go (chokesR_comp (IMsg (MProposal sp))); by apply chokesR_same.
    + keeps_go (chokesR_comp (IMsg (T:=T) (MVote sv))); by apply chokesR_same.
    + keeps_go (chokesR_comp (IMsg (T:=T) (MAgg q))); by apply chokesR_same.
    + apply chokesR_goto.
    + keeps_go (chokesR_comp (IMsg (T:=T) (MChoke sc))); try by apply chokesR_same.
      * eexists [CQc _ _]. split; [done|]. by apply Forall_singleton.
      * eexists [CChoke _ sc]. split; [done|]. apply Forall_singleton. split; [done|by left].
  - intros m _. keeps_go (chokesR_comp i); by apply chokesR_same.
  - intros m _. keeps_go (chokesR_comp i); by apply chokesR_same.
  - intros m _. keeps_go (chokesR_comp i); apply chokesR_same; repeat case_match; done.
Qed.

(** *** Blocks *)
Definition bsrc (e : env T) (i : input T) (s : st T) (o : list (action T)) (h : bytes) (b : T) : Prop :=
  s_blocks s !! h = Some b \/
  (exists sp, (i = IMsg (MProposal sp) \/ exists h' r', pget (s_props s) h' r' = Some sp) /\
     p_hash (sp_prop sp) = h /\ p_content (sp_prop sp) = b) \/
  (exists hh, AGetBlock hh ∈ o /\ e_get_block e hh = Some (b, h)).
Definition blocksR (e : env T) (i : input T) (s : st T) (o : list (action T)) (s' : st T) : Prop :=
  propsR i s o s' /\ forall h b, s_blocks s' !! h = Some b -> bsrc e i s o h b.
Lemma blocksR_comp e i : comp (blocksR e i).
Proof. clear tenc lc.
  split; [intros s; split; [by apply propsR_comp|by left]|].
  intros s1 s2 s3 o1 o2 [P1 B1] [P2 B2]. split; [eapply comp_app; eauto; apply propsR_comp|].
  intros h b Hb. apply B2 in Hb as [Hb|[(sp & Hs & <- & <-)|(hh & Hh & Hb)]].
  - apply B1 in Hb as [Hb|[Hb|(hh & Hh & Hb)]]; [by left|by right; left|].
    right. right. exists hh. split; [set_solver|done].
  - right. left. exists sp. split_and!; try done. destruct Hs as [Hs|(h' & r' & Hs)]; [by left|].
    destruct P1 as (ops & E1 & F1). rewrite E1 in Hs.
    apply pget_foldl in Hs as [Hs|Hs]; [right; eauto|].
    by apply (proj1 (Forall_forall _ _) F1) in Hs as (_ & _ & Hs).
  - right. right. exists hh. split; [set_solver|done].
Qed.
Lemma blocksR_same e i s o s' : s_props s' = s_props s -> s_blocks s' = s_blocks s -> blocksR e i s o s'.
Proof. intros E1 E2. split; [by apply propsR_same|]. rewrite E2. by left. Qed.
Lemma blocksR_goto e i e' stt : keeps (blocksR e i) (goto_new_height e' stt).
Proof.
  intros s s' o r Hg. split; [by eapply propsR_goto|].
  apply goto_inv in Hg as [(? & -> & -> & _)|[(? & _ & -> & -> & _)|[(? & _ & -> & _)|(? & _ & -> & _)]]].
  1-3: by left.
  intros h b. unfold moved_full. destruct (st_interval stt); cbn; by rewrite lookup_empty.
Qed.
Local Hint Resolve blocksR_goto : keepsdb.
Lemma blocksR_hsp e i e' sp s s' o r :
  (i = IMsg (MProposal sp) \/ exists h' r', pget (s_props s) h' r' = Some sp) ->
  handle_signed_proposal lc e' sp s = (s', o, r) -> blocksR e i s o s'.
Proof.
  intros Hi Hp. split; [by eapply propsR_hsp|].
  apply hsp_inv in Hp as [(-> & -> & _)|[(_ & _ & _ & -> & -> & _)|(_ & _ & _ & _ & -> & _)]].
  1-2: by left.
  intros h b. cbn. intros Hb. apply lookup_insert_Some in Hb as [[<- <-]|[_ Hb]]; [|by left].
  right. left. eauto.
Qed.
Lemma blocksR_cached e i e' : keeps (blocksR e i) (get (fun s =>
        match pc_get (s_props s) (s_height s) (s_round s) with
        | Ok sp => handle_signed_proposal lc e' sp
        | _ => ret tt
        end)).
Proof.
  intros s s' o r. unfold get. rewrite pc_get_pget. destruct (pget _ _ _) as [sp|] eqn:Ep.
  - apply blocksR_hsp. right. eauto.
  - unfold ret. intros. simplify_eq. by apply blocksR_same.
Qed.
Local Hint Resolve blocksR_cached : keepsdb.
Lemma make_inv (e : env T) lr lp s s' o r :
  make_proposal e lr lp s = (s', o, r) ->
  s' = s /\
  match lr with
  | None => o = [AGetBlock (s_height s)] /\
      match e_get_block e (s_height s) with
      | Some (b, h) => r = Ok (b, h, None)
      | None => r = Err EOther
      end
  | Some k => o = [] /\
      forall x, r = Ok x -> exists h b q, lp = Some h /\ x = (b, h, Some (mkPoLC k q)) /\
        s_blocks s !! h = Some b /\ vc_get_qc_by_id (s_votes s) (s_height s) k Prevote = Ok q
  end.
Proof.
  intros Hm. pose proof (ro_make _ _ _ _ _ _ _ Hm) as Hs. unfold same in Hs. split; [done|].
  unfold make_proposal, get, lift, bind, emit, ret, fail in Hm.
  destruct lr as [k|].
  - destruct lp as [h|]; simplify_eq; [|done].
    destruct (s_blocks s !! h) as [b|] eqn:Eb; simplify_eq; [|done].
    destruct (vc_get_qc_by_id _ _ _ _) as [q| |] eqn:Eq; simplify_eq; (split; [done|]); intros; simplify_eq.
    eauto 10.
  - destruct (e_get_block e (s_height s)) as [[b h]|]; simplify_eq; done.
Qed.
Lemma blocksR_new_round e i rd lr lp from :
  keeps (blocksR e i) (handle_new_round lc tenc e rd lr lp from).
Proof.
  unfold handle_new_round.
  assert (forall k : T * bytes * option polc -> M T unit,
    (forall b h pl, keeps (blocksR e i) (k (b, h, pl))) ->
    keeps (blocksR e i) (bind (make_proposal e lr lp) (fun bhp => let '(block, hash, polc) := bhp in
      bind (modify (fun s => match s_blocks s !! hash with
                       | Some _ => s
                       | None => set_s_blocks (<[hash := block]> (s_blocks s)) s end))
       (fun _ => k (block, hash, polc))))) as Hmk.
  { intros k Hk s s' o r Hb.
    apply bind_inv in Hb as [([[b h] pl] & s1 & o1 & o2 & H1 & H2 & ->)|[(x & H1 & ->)|(H1 & ->)]].
    2-3: apply make_inv in H1 as [-> _]; by apply blocksR_same.
    apply make_inv in H1 as [-> H1].
    apply bind_inv in H2 as [(u & s2 & o3 & o4 & H2 & H3 & ->)|[(x & H2 & ->)|(H2 & ->)]];
      unfold modify in H2; simplify_eq.
    apply Hk in H3. simpl. eapply comp_app; [apply blocksR_comp| |exact H3].
    destruct (s_blocks s !! h) as [b'|] eqn:Eb; [by apply blocksR_same|].
    split; [by apply propsR_same|]. intros x y. cbn. intros Hy.
    apply lookup_insert_Some in Hy as [[<- <-]|[_ Hy]]; [|by left]. right.
    destruct lr as [kk|].
    - destruct H1 as [_ H1]. destruct (H1 _ eq_refl) as (? & ? & ? & -> & ? & ? & _). simplify_eq.
    - destruct H1 as [-> H1]. right. exists (s_height s). split; [by left|].
      destruct (e_get_block e (s_height s)) as [[? ?]|]; by simplify_eq. }
  apply (keeps_bind _ (blocksR_comp e i)); [|intro].
  { keeps_go (blocksR_comp e i); by apply blocksR_same. }
  apply (keeps_bind _ (blocksR_comp e i)); [|intro].
  { keeps_go (blocksR_comp e i); by apply blocksR_same. }
  destruct (negb _); [apply (keeps_fail _ (blocksR_comp e i))|].
  apply (keeps_bind _ (blocksR_comp e i)); [|intro].
  { keeps_go (blocksR_comp e i); by apply blocksR_same. }
  apply (keeps_bind _ (blocksR_comp e i)); [|intro].
  { keeps_go (blocksR_comp e i); by apply blocksR_same. }
  apply (keeps_bind _ (blocksR_comp e i)); [|intro].
  { keeps_go (blocksR_comp e i); by apply blocksR_same. }
  destruct (negb _); [apply blocksR_cached|].
  apply (keeps_bind _ (blocksR_comp e i)); [|intro].
  { keeps_go (blocksR_comp e i); by apply blocksR_same. }
  apply (Hmk (fun '(block, hash, polc) => get (fun s =>
        bind (sign_proposal tenc e (mkProposal (s_height s) (s_round s) block hash polc (s_addr s)))
        (fun sp => bind (broadcast (MProposal sp)) (fun _ =>
        bind (trigger_smr e (mk_trigger TProposal hash lr (s_round s) (s_height s)))
        (fun _ => check_block hash block)))))).
  intros b h pl. keeps_go (blocksR_comp e i); by apply blocksR_same.
Qed.
Local Hint Resolve blocksR_new_round : keepsdb.
Lemma blocksR_react e i : keeps (blocksR e i) (react e i).
Proof.
  apply (keeps_react _ (blocksR_comp e i)).
  - intros m ->. apply (keeps_msg _ (blocksR_comp _ _)); intros; subst; try by apply blocksR_same.
    + intros s s' o r. apply blocksR_hsp. by left.
    + keeps_go (blocksR_comp e (IMsg (MVote sv))); by apply blocksR_same.
    + keeps_go (blocksR_comp e (IMsg (T:=T) (MAgg q))); by apply blocksR_same.
    + apply blocksR_goto.
    + keeps_go (blocksR_comp e (IMsg (T:=T) (MChoke sc))); by apply blocksR_same.
  - intros m _. keeps_go (blocksR_comp e i); by apply blocksR_same.
  - intros m _. keeps_go (blocksR_comp e i); by apply blocksR_same.
  - intros m _. keeps_go (blocksR_comp e i); apply blocksR_same; repeat case_match; done.
Qed.

(** *** Checked blocks *)
Definition fullR (i : input T) (s : st T) (o : list (action T)) (s' : st T) : Prop :=
  forall h b, s_full s' !! h = Some b ->
    s_full s !! h = Some b \/ exists r, i = IResp r /\ vr_hash r = h /\ vr_pass r = b.
Lemma fullR_comp i : comp (fullR i).
Proof.
  split; [by left|]. intros s1 s2 s3 o1 o2 A B h b Hb. apply B in Hb as [Hb|Hb]; [by apply A|by right].
Qed.
Lemma fullR_same i s o s' : s_full s' = s_full s -> fullR i s o s'.
Proof. intros E h b. rewrite E. by left. Qed.
Lemma fullR_goto i e stt : keeps (fullR i) (goto_new_height e stt).
Proof.
  intros s s' o r Hg. apply goto_inv in Hg as [(? & -> & -> & _)|[(? & _ & -> & -> & _)|[(? & _ & -> & _)|(? & _ & -> & _)]]];
    apply fullR_same; try done. unfold moved_full. destruct (st_interval stt); done.
Qed.
Local Hint Resolve fullR_goto : keepsdb.
Lemma fullR_react e i : keeps (fullR i) (react e i).
Proof.
  apply (keeps_react _ (fullR_comp i)).
  - intros m ->. apply (keeps_msg _ (fullR_comp _)); intros; subst; try by apply fullR_same.
    + keeps_go (fullR_comp (IMsg (MProposal sp))); by apply fullR_same.
    + keeps_go (fullR_comp (IMsg (T:=T) (MVote sv))); by apply fullR_same.
    + keeps_go (fullR_comp (IMsg (T:=T) (MAgg q))); by apply fullR_same.
    + apply fullR_goto.
    + keeps_go (fullR_comp (IMsg (T:=T) (MChoke sc))); by apply fullR_same.
  - intros m _. keeps_go (fullR_comp i); by apply fullR_same.
  - intros m ->. keeps_go (fullR_comp (IResp (T:=T) m)); try by apply fullR_same.
    intros h b. cbn. intros Hb. apply lookup_insert_Some in Hb as [[<- <-]|[_ Hb]]; [|by left]. right. eauto.
  - intros m _. keeps_go (fullR_comp i); apply fullR_same; repeat case_match; done.
Qed.
End SP.
#[export] Hint Resolve mono_goto votesR_goto votesR_publish votesR_own propsR_goto propsR_cached
  chokesR_goto chokesR_check chokesR_brake blocksR_goto blocksR_cached blocksR_new_round fullR_goto : keepsdb.
