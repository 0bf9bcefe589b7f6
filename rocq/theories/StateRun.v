(** * StateRun: what holds in every run of the state module. *)
From Verif Require Export StateProofs.
Set Default Proof Using "Type".

Section SR.
Context {T : Type} `{EqDecision T}.
Context (lc : lcfg) (tenc : T -> bytes) (tdec : bytes -> option T) (spill : bool).
Local Notation react := (react lc tenc).
Local Notation run := (run lc tenc tdec spill).

(** ** Sources over a whole run *)
(** The record the instance started from. *)
Definition boot_wal (b : boot T) (w : walinfo T) : Prop :=
  exists bs, b_wal b = Some (Some bs) /\ dec_walinfo tdec spill bs = Ok w.
Definition received (is : list (env T * input T)) (i : input T) : Prop := exists e, (e, i) ∈ is.
(** A vote the node may hold: received, or its own. *)
Definition vote_known (is : list (env T * input T)) (o : list (action T)) (v : svote) : Prop :=
  received is (IMsg (MVote v)) \/ AOwnVote v ∈ o.
(** A certificate the node may hold: received (as such or inside a choke), built and broadcast
    by itself, or loaded from its log. *)
Definition qc_known (b : boot T) (is : list (env T * input T)) (o : list (action T)) (q : aggvote) : Prop :=
  (exists i, received is i /\ qc_in i q) \/ ABroadcast (MAgg q) ∈ o \/
  (exists w l, boot_wal b w /\ wi_lock w = Some l /\ wl_votes l = q).
(** A block the node may hold under a hash: content and hash of one received proposal, an
    answer of get_block, or loaded from its log. *)
Definition block_known (b : boot T) (is : list (env T * input T)) (h : bytes) (x : T) : Prop :=
  (exists sp, received is (IMsg (MProposal sp)) /\ p_hash (sp_prop sp) = h /\ p_content (sp_prop sp) = x) \/
  (exists e i hh, (e, i) ∈ is /\ e_get_block e hh = Some (x, h)) \/
  (exists w l, boot_wal b w /\ wi_lock w = Some l /\ av_hash (wl_votes l) = h /\ wl_content l = x).

Definition vsrc_run b is o (op : vop) : Prop :=
  match op with
  | VVote v => vote_known is o v
  | VQC q => qc_known b is o q
  | VTake _ | VFlush _ => True
  end.
Definition psrc_run (is : list (env T * input T)) (op : pop T) : Prop :=
  match op with
  | PInsert h r sp => h = p_height (sp_prop sp) /\ r = p_round (sp_prop sp) /\
      received is (IMsg (MProposal sp))
  | _ => True
  end.
Definition csrc_run (is : list (env T * input T)) (o : list (action T)) (op : cop) : Prop :=
  match op with
  | CChoke r sc => r = ck_round (sc_choke sc) /\ (received is (IMsg (MChoke sc)) \/ AOwnChoke sc ∈ o)
  | CQc r q => r = ac_round q
  | CClear => True
  end.
Lemma received_app is is' i : received is i -> received (is ++ is') i.
Proof. intros [e He]. exists e. set_solver. Qed.
Lemma received_last is e i : received (is ++ [(e, i)]) i.
Proof. exists e. set_solver. Qed.
Lemma vsrc_run_app b is is' o o' op : vsrc_run b is o op -> vsrc_run b (is ++ is') (o ++ o') op.
Proof.
  destruct op; simpl; try done.
  - intros [?|?]; [left; by apply received_app|right; set_solver].
  - intros [(i & Hi & Hq)|[?|?]]; [left; exists i; split; [by apply received_app|done]|right; left; set_solver|by right; right].
Qed.
Lemma block_known_app b is is' h x : block_known b is h x -> block_known b (is ++ is') h x.
Proof.
  intros [(sp & Hs & ? & ?)|[(e & i & hh & Hi & ?)|?]]; [left|right; left|by right; right].
  - exists sp. split_and!; try done. by apply received_app.
  - exists e, i, hh. split; [apply elem_of_app; by left|done].
Qed.
Lemma csrc_run_app is is' o o' op : csrc_run is o op -> csrc_run (is ++ is') (o ++ o') op.
Proof.
  destruct op; simpl; try done. intros [? [?|?]]; split; try done; [left; by apply received_app|right; set_solver].
Qed.

(** ** The start *)
(** The state after loading the record, before acting on it (process.rs:1699-1716). *)
Definition loaded_state (w : walinfo T) (leader : bool) (laddr : bytes) (s : st T) : st T :=
  let s := set_s_round (wi_round w) (set_s_height (wi_height w) s) in
  let s := set_s_from (wi_from w) (set_s_leader leader (set_s_laddr laddr s)) in
  match wi_lock w with
  | Some l => set_s_blocks (<[av_hash (wl_votes l) := wl_content l]> (s_blocks s))
                (set_s_votes (vc_set_qc (s_votes s) (wl_votes l)) s)
  | None => s
  end.
(** process.rs:1717-1738 *)
Definition start_tail (e : env T) (w : walinfo T) : M T unit :=
  if bool_decide (wi_step w = SCommit) then
    match wi_lock w with
    | None => fail ELoadWal
    | Some l => handle_commit lc e (av_hash (wl_votes l))
    end
  else
    bind (if bool_decide (wi_step w = SBrake) then handle_brake e (wi_round w) (wl_round <$> wi_lock w)
          else ret tt) (fun _ =>
    get (fun s => trigger_smr e (mkTrigger TWalInfo SrcState [] None (s_round s) (s_height s)
            (Some (into_smr_base w))))).
Lemma eta3 {A B C} (y : A * B * C) : (let '(a, b, c) := y in (a, b, c)) = y.
Proof. by destruct y as [[? ?] ?]. Qed.
Lemma start_loaded e bs w p s :
  s_power s = true -> dec_walinfo tdec spill bs = Ok w ->
  get_proposer lc (s_auth s) (wi_height w) (wi_round w) = Ok p ->
  start_with_wal lc tdec spill e (Some (Some bs)) s =
  start_tail e w (loaded_state w (bool_decide (p = s_addr s)) p s).
Proof.
  intros Hp Hd Hg. unfold start_with_wal, get at 1. rewrite Hp. cbn [negb].
  unfold load_wal. rewrite Hd. unfold bind at 1, lift at 1.
  unfold bind at 1, modify at 1. unfold bind at 1, is_proposer, get at 1.
  cbn [s_auth s_height s_round set_s_round set_s_height s_addr]. unfold bind at 1, lift at 1. rewrite Hg.
  unfold loaded_state. 
  destruct (decide (p = s_addr s)) as [Hn|Hn];
    [rewrite (bool_decide_eq_true_2 (p = s_addr s)) by done; subst p
    |rewrite (bool_decide_eq_false_2 (p = s_addr s)) by done];
    unfold bind at 1, modify at 1, ret at 1; unfold bind at 1, modify at 1;
    unfold bind at 1, modify at 1, ret at 1.
  all: destruct (wi_lock w) as [l|] eqn:El; fold (start_tail e w); unfold start_tail; rewrite El; simpl.
  all: destruct (bool_decide (wi_step w = SCommit)).
  all: unfold fail; rewrite ?eta3; try reflexivity.
Qed.
Lemma start_inv e loaded s s' o r :
  start_with_wal lc tdec spill e loaded s = (s', o, r) ->
  (s' = s /\ (o = [] \/ exists t, o = [ATrigger t] /\ t_type t = TWalInfo /\
     t_wal t = Some (mkSmrBase (s_height s) (s_round s) SPropose None) /\ t_round t = s_round s)) \/
  (exists w bs, loaded = Some (Some bs) /\ dec_walinfo tdec spill bs = Ok w /\ s_power s = true /\
     ((s' = set_s_round (wi_round w) (set_s_height (wi_height w) s) /\ o = []) \/
      exists p, get_proposer lc (s_auth s) (wi_height w) (wi_round w) = Ok p /\
        start_tail e w (loaded_state w (bool_decide (p = s_addr s)) p s) = (s', o, r))).
Proof.
  intros Hs. destruct (s_power s) eqn:Hp.
  2: { left. unfold start_with_wal, get, ret in Hs. rewrite Hp in Hs. simpl in Hs. simplify_eq. auto. }
  destruct loaded as [[bs|]|].
  - destruct (dec_walinfo tdec spill bs) as [w|x|] eqn:Hd.
    + right. exists w, bs. split_and!; try done.
      destruct (get_proposer lc (s_auth s) (wi_height w) (wi_round w)) as [p|x|] eqn:Hg.
      * right. exists p. split; [done|]. by erewrite <-start_loaded.
      * left. unfold start_with_wal, get at 1 in Hs. rewrite Hp in Hs. cbn [negb] in Hs.
        unfold load_wal in Hs. rewrite Hd in Hs. unfold bind at 1, lift at 1 in Hs.
        unfold bind at 1, modify at 1 in Hs. unfold bind at 1, is_proposer, get at 1 in Hs.
        cbn [s_auth s_height s_round set_s_round set_s_height s_addr] in Hs.
        unfold bind at 1, lift at 1 in Hs. rewrite Hg in Hs. simplify_eq. done.
      * left. unfold start_with_wal, get at 1 in Hs. rewrite Hp in Hs. cbn [negb] in Hs.
        unfold load_wal in Hs. rewrite Hd in Hs. unfold bind at 1, lift at 1 in Hs.
        unfold bind at 1, modify at 1 in Hs. unfold bind at 1, is_proposer, get at 1 in Hs.
        cbn [s_auth s_height s_round set_s_round set_s_height s_addr] in Hs.
        unfold bind at 1, lift at 1 in Hs. rewrite Hg in Hs. simplify_eq. done.
    + left. unfold start_with_wal, get at 1 in Hs. rewrite Hp in Hs. cbn [negb] in Hs.
      unfold load_wal in Hs. rewrite Hd in Hs. unfold bind at 1, lift at 1 in Hs. simplify_eq. auto.
    + left. unfold start_with_wal, get at 1 in Hs. rewrite Hp in Hs. cbn [negb] in Hs.
      unfold load_wal in Hs. rewrite Hd in Hs. unfold bind at 1, lift at 1 in Hs. simplify_eq. auto.
  - left. unfold start_with_wal, get at 1 in Hs. rewrite Hp in Hs. cbn [negb] in Hs.
    unfold load_wal in Hs. unfold bind at 1, lift at 1 in Hs.
    destruct (negb _); [|unfold ret in Hs; simplify_eq; auto].
    unfold wal_lost, get in Hs. destruct (trigger_smr e _ s) as [[s1 o1] r1] eqn:Et.
    apply trigger_inv in Et as [-> [[-> ->]|[-> ->]]]; simplify_eq; (split; [done|]); [right; eexists; split; [done|]; done|by left].
  - left. unfold start_with_wal, get at 1 in Hs. rewrite Hp in Hs. cbn [negb] in Hs.
    unfold load_wal, bind at 1, lift at 1 in Hs. simplify_eq. auto.
Qed.

(** A relation that survives the start apart from loading. *)
Lemma keeps_start_tail (P : st T -> list (action T) -> st T -> Prop) (HP : comp P) e w :
  (forall h, keeps P (handle_commit lc e h)) -> (forall r lr, keeps P (handle_brake e r lr)) ->
  (forall s t, P s [ATrigger t] s) -> keeps P (start_tail e w).
Proof.
  intros H1 H2 H3. unfold start_tail. destruct (bool_decide _).
  - destruct (wi_lock w); [done|apply (keeps_fail _ HP)].
  - apply (keeps_bind _ HP); [destruct (bool_decide _); [done|apply (keeps_ret _ HP)]|intro].
    keeps_go HP.
Qed.

(** ** Invariants of runs *)
Lemma start_src b s o r :
  on_start lc tdec spill (b_env b) (b_wal b) (st_new (b_addr b) (b_height b) (b_interval b) (b_vals b)) = (s, o, r) ->
  (exists ops, s_votes s = vops ops /\ Forall (vsrc_run b [] o) ops) /\
  (exists ops, s_props s = pops ops /\ Forall (psrc_run []) ops) /\
  (exists ops, s_chokes s = cops ops /\ Forall (csrc_run [] o) ops) /\
  (forall h x, s_blocks s !! h = Some x -> block_known b [] h x) /\
  s_full s = ∅ /\ s_addr s = b_addr b.
Proof.
  intros Hs. unfold on_start in Hs. apply logged_inv in Hs as (r' & Hs & _).
  set (s0 := st_new _ _ _ _) in *.
  assert (forall s1, s_votes s1 = ∅ -> s_props s1 = ∅ -> s_chokes s1 = chokecol_new -> s_blocks s1 = ∅ ->
    s_full s1 = ∅ -> s_addr s1 = b_addr b ->
    (exists ops, s_votes s1 = vops ops /\ Forall (vsrc_run b [] o) ops) /\
    (exists ops, s_props s1 = pops ops /\ Forall (psrc_run []) ops) /\
    (exists ops, s_chokes s1 = cops ops /\ Forall (csrc_run [] o) ops) /\
    (forall h x, s_blocks s1 !! h = Some x -> block_known b [] h x) /\
    s_full s1 = ∅ /\ s_addr s1 = b_addr b) as Hempty.
  { intros s1 -> -> -> -> -> ->. split_and!; try done; try by exists []. }
  apply start_inv in Hs as [(-> & _)|(w & bs & Hw & Hd & _ & [[-> ->]|(p & Hg & Ht)])].
  1-2: by apply Hempty.
  assert (boot_wal b w) as Hb by (by exists bs).
  set (s1 := loaded_state _ _ _ _) in *.
  set (i := IRaw (T:=T) MStop).
  assert (votesR i s1 o s) as (ops1 & E1 & F1).
  { eapply (keeps_start_tail (votesR i) (votesR_comp i)); [..|exact Ht].
    - intros h. keeps_go (votesR_comp i); try by apply votesR_same. all: try apply votesR_goto.
    - intros rr lr. keeps_go (votesR_comp i); by apply votesR_same.
    - intros; by apply votesR_same. }
  assert (blocksR (b_env b) i s1 o s) as [(ops2 & E2 & F2) B2].
  { eapply (keeps_start_tail _ (blocksR_comp _ i)); [..|exact Ht].
    - intros h. keeps_go (blocksR_comp (b_env b) i); try by apply blocksR_same. all: try apply blocksR_goto.
    - intros rr lr. keeps_go (blocksR_comp (b_env b) i); by apply blocksR_same.
    - intros; by apply blocksR_same. }
  assert (chokesR i s1 o s) as (ops3 & E3 & F3).
  { eapply (keeps_start_tail (chokesR i) (chokesR_comp i)); [..|exact Ht].
    - intros h. keeps_go (chokesR_comp i); try by apply chokesR_same. all: try apply chokesR_goto.
    - intros rr lr. apply chokesR_brake.
    - intros; by apply chokesR_same. }
  assert (fullR i s1 o s /\ mono s1 o s) as [F4 (A1 & _)].
  { split.
    - eapply (keeps_start_tail (fullR i) (fullR_comp i)); [..|exact Ht].
      + intros h. keeps_go (fullR_comp i); try by apply fullR_same. all: try apply fullR_goto.
      + intros rr lr. keeps_go (fullR_comp i); by apply fullR_same.
      + intros; by apply fullR_same.
    - eapply (keeps_start_tail mono mono_comp); [..|exact Ht].
      + intros h. keeps_go (mono_comp (T:=T)). all: try apply mono_goto. all: intros; unfold mono; split_and!; simpl; eauto; lia.
      + intros rr lr. keeps_go (mono_comp (T:=T)). all: intros; unfold mono; split_and!; simpl; eauto; lia.
      + intros; unfold mono; split_and!; simpl; eauto; lia. }
  assert (s_props s1 = ∅ /\ s_chokes s1 = chokecol_new /\ s_full s1 = ∅ /\ s_addr s1 = b_addr b) as (G1 & G2 & G3 & G4).
  { unfold s1, loaded_state. destruct (wi_lock w); done. }
  split_and!.
  - destruct (wi_lock w) as [l|] eqn:El.
    + exists (VQC (wl_votes l) :: ops1). split.
      { rewrite E1. unfold s1, loaded_state. rewrite El. done. }
      constructor; [right; right; eauto|]. eapply Forall_impl; [exact F1|].
      intros [v|q|h|t]; simpl; try done.
      * intros [?|?]; [done|by right].
      * intros [[?|(? & ? & _)]|?]; [done|done|by right; left].
    + exists ops1. split.
      { rewrite E1. unfold s1, loaded_state. rewrite El. done. }
      eapply Forall_impl; [exact F1|]. intros [v|q|h|t]; simpl; try done.
      * intros [?|?]; [done|by right].
      * intros [[?|(? & ? & _)]|?]; [done|done|by right; left].
  - exists ops2. rewrite E2, G1. split; [done|]. eapply Forall_impl; [exact F2|].
    intros [h rd sp|h|t]; simpl; try done. intros (? & ? & [?|(? & ? & Hp)]); [done|].
    rewrite G1 in Hp. unfold pget in Hp. by rewrite lookup_empty in Hp.
  - exists ops3. rewrite E3, G2. split; [done|]. eapply Forall_impl; [exact F3|].
    intros [rd sc|rd q|]; simpl; try done. intros (? & [?|?]); [done|]. auto.
  - intros h x Hx. apply B2 in Hx as [Hx|[(sp & [?|(? & ? & Hp)] & _)|(hh & Hh & He)]]; [|done| |].
    + unfold s1, loaded_state in Hx. destruct (wi_lock w) as [l|] eqn:El; simpl in Hx.
      * apply lookup_insert_Some in Hx as [[<- <-]|[_ Hx]]; [|by rewrite lookup_empty in Hx].
        right. right. eauto 10.
      * by rewrite lookup_empty in Hx.
    + rewrite G1 in Hp. unfold pget in Hp. by rewrite lookup_empty in Hp.
    + exfalso. clear -Ht Hh. revert Hh.
      assert (keeps (fun _ (o : list (action T)) _ => AGetBlock hh ∉ o) (start_tail (b_env b) w)) as Hk; [|by eapply Hk].
      assert (comp (fun (_ : st T) (o : list (action T)) (_ : st T) => AGetBlock hh ∉ o)) as HC by (split; set_solver).
      eapply (keeps_start_tail _ HC).
      * intros h. assert (forall stt, keeps (fun _ (o : list (action T)) _ => AGetBlock hh ∉ o) (goto_new_height (b_env b) stt)) as Hgo.
        { intros stt s2 s' o' r2 Hg.
          apply goto_inv in Hg as [(_ & _ & -> & _)|[(_ & _ & _ & -> & _)|[(_ & _ & _ & -> & _)|(_ & _ & _ & tr & -> & [[-> _]|[-> _]])]]]; try set_solver.
          all: rewrite elem_of_cons, elem_of_app, elem_of_list_fmap; set_solver. }
        unfold handle_commit. repeat first [apply Hgo | keeps_step HC | unfold_handler]; set_solver.
      * intros rr lr. keeps_go HC; set_solver.
      * set_solver.
  - apply map_empty. intros h. destruct (s_full s !! h) eqn:Ef; [|done].
    apply F4 in Ef as [Ef|(? & ? & _)]; [|done]. rewrite G3 in Ef. by rewrite lookup_empty in Ef.
  - congruence.
Qed.

Record run_inv (b : boot T) (is : list (env T * input T)) (o : list (action T)) (s : st T) : Prop := {
  ri_votes : exists ops, s_votes s = vops ops /\ Forall (vsrc_run b is o) ops;
  ri_props : exists ops, s_props s = pops ops /\ Forall (psrc_run is) ops;
  ri_chokes : exists ops, s_chokes s = cops ops /\ Forall (csrc_run is o) ops;
  ri_blocks : forall h x, s_blocks s !! h = Some x -> block_known b is h x;
  ri_full : forall h x, s_full s !! h = Some x -> exists r, received is (IResp r) /\ vr_hash r = h /\ vr_pass r = x;
  ri_addr : s_addr s = b_addr b }.

Theorem run_run_inv b is o s al : run b is o s al -> run_inv b is o s.
Proof.
  induction 1 as [s o r Hs|is o s e i s' o' r Hr IH Hs].
  - apply start_src in Hs as (A1 & A2 & A3 & A4 & A5 & A6). split; try done.
    intros h x Hx. rewrite A5 in Hx. by rewrite lookup_empty in Hx.
  - destruct IH as [(op1 & E1 & F1) (op2 & E2 & F2) (op3 & E3 & F3) F4 F5 F6].
    pose proof (votesR_react lc tenc e i _ _ _ _ Hs) as (vo & V1 & V2).
    pose proof (blocksR_react lc tenc e i _ _ _ _ Hs) as [(po & P1 & P2) B].
    pose proof (chokesR_react lc tenc e i _ _ _ _ Hs) as (co & C1 & C2).
    pose proof (fullR_react lc tenc e i _ _ _ _ Hs) as Fu.
    pose proof (mono_react lc tenc e i _ _ _ _ Hs) as (Ha & _).
    assert (forall h r sp, pget (s_props s) h r = Some sp -> received is (IMsg (MProposal sp))) as Hcached.
    { intros h rd sp Hp. rewrite E2 in Hp. unfold pops in Hp.
      apply pget_foldl in Hp as [Hp|Hp]; [unfold pget in Hp; by rewrite lookup_empty in Hp|].
      by apply (proj1 (Forall_forall _ _) F2) in Hp as (_ & _ & Hp). }
    split.
    + exists (op1 ++ vo). rewrite V1, E1. unfold vops. rewrite foldl_app. split; [done|]. apply Forall_app. split.
      * eapply Forall_impl; [exact F1|]. intros op. apply vsrc_run_app.
      * eapply Forall_impl; [exact V2|]. intros [v|q|h|t]; simpl; try done.
        -- intros [->|?]; [left; apply received_last|right; set_solver].
        -- intros [?|?]; [left; exists i; split; [apply received_last|done]|right; left; set_solver].
    + exists (op2 ++ po). rewrite P1, E2. unfold pops. rewrite foldl_app. split; [done|]. apply Forall_app. split.
      * eapply Forall_impl; [exact F2|]. intros [h rd sp|h|t]; simpl; try done.
        intros (? & ? & ?). split_and!; try done. by apply received_app.
      * eapply Forall_impl; [exact P2|]. intros [h rd sp|h|t]; simpl; try done.
        intros (? & ? & [->|(? & ? & Hp)]); split_and!; try done; [apply received_last|].
        apply received_app. by eapply Hcached.
    + exists (op3 ++ co). rewrite C1, E3. unfold cops. rewrite foldl_app. split; [done|]. apply Forall_app. split.
      * eapply Forall_impl; [exact F3|]. intros op. apply csrc_run_app.
      * eapply Forall_impl; [exact C2|]. intros [rd sc|rd q|]; simpl; try done.
        intros (? & [->|?]); split; try done; [left; apply received_last|right; set_solver].
    + intros h x Hx. apply B in Hx as [Hx|[(sp & Hp & <- & <-)|(hh & Hh & He)]].
      * apply F4 in Hx as [(sp & ? & ? & ?)|[(e' & i' & hh & ? & ?)|?]].
        -- left. exists sp. split_and!; try done. by apply received_app.
        -- right. left. exists e', i', hh. split; [set_solver|done].
        -- by right; right.
      * left. exists sp. split_and!; try done.
        destruct Hp as [->|(? & ? & Hp)]; [apply received_last|apply received_app; by eapply Hcached].
      * right. left. exists e, i, hh. split; [set_solver|done].
    + intros h x Hx. apply Fu in Hx as [Hx|(rr & -> & ? & ?)].
      * apply F5 in Hx as (rr & ? & ?). exists rr. split; [by apply received_app|done].
      * exists rr. split; [apply received_last|done].
    + congruence.
Qed.
End SR.
