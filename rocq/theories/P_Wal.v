(** * P_Wal: what is on disk when something leaves the node (C32, C34, C36). *)
From Verif Require Export StateSteps StateEx CodecRound.
Set Default Proof Using "Type".

(** ** Vocabulary of the statements *)
(** Something of the node's own that leaves it, or is counted by the node itself: a vote, choke
    or proposal, with its height, round and the step whose record must exist. *)
Definition leaves {T} (a : action T) : option (N * N * step) :=
  match a with
  | ABroadcast (MVote v) | ATransmit _ (MVote v) | AOwnVote v =>
      Some (v_height (sv_vote v), v_round (sv_vote v),
            match v_type (sv_vote v) with Prevote => SPrevote | Precommit => SPrecommit end)
  | ABroadcast (MChoke sc) | ATransmit _ (MChoke sc) =>
      Some (ck_height (sc_choke sc), ck_round (sc_choke sc), SBrake)
  | ABroadcast (MProposal sp) | ATransmit _ (MProposal sp) =>
      Some (p_height (sp_prop sp), p_round (sp_prop sp), SPropose)
  | _ => None
  end.
Definition is_save {T} (a : action T) : bool := match a with ASave _ _ => true | _ => false end.
(** The last attempt to write the log in [o] succeeded and wrote [w]. *)
Definition last_saved {T} (o : list (action T)) (w : walinfo T) : Prop :=
  exists p q, o = p ++ ASave w true :: q /\ Forall (fun a => is_save a = false) q.

Section W.
Context {T : Type} `{EqDecision T}.
Context (lc : lcfg) (tenc : T -> bytes) (tdec : bytes -> option T) (spill : bool).
Local Notation run := (run lc tenc tdec spill).

Definition covered (o : list (action T)) : Prop :=
  forall o1 a o2 x, o = o1 ++ a :: o2 -> leaves a = Some x ->
    exists w, last_saved o1 w /\ x = (wi_height w, wi_round w, wi_step w).
Lemma last_saved_app (o o' : list (action T)) w : last_saved o' w -> last_saved (o ++ o') w.
Proof. intros (p & q & -> & Hq). exists (o ++ p), q. by rewrite <-app_assoc. Qed.
Definition coveredR (_ : st T) (o : list (action T)) (_ : st T) : Prop := covered o.
Lemma covered_comp : comp coveredR.
Proof.
  clear lc tenc tdec spill.
  split; [intros s0 o1 a o2 x E; by destruct o1|].
  intros s1 s2 s3 o1 o2 C1 C2 p a q x E Hl.
  apply app_eq_inv in E as [(k & -> & Hk)|(k & -> & Hk)].
  - destruct k as [|y k]; simpl in Hk; [subst o2|injection Hk as <- ->].
    + destruct (C2 [] a q x) as (w & (p' & q' & E & _) & _); [done|done|by destruct p'].
    + destruct (C1 p a k x) as (w & Hw & ->); [done|done|]. eauto.
  - destruct (C2 k a q x) as (w & Hw & ->); [done|done|]. exists w. split; [by apply last_saved_app|done].
Qed.
(** Actions that neither write nor leave. *)
Definition quiet (a : action T) : Prop := is_save a = false /\ leaves a = None.
Definition quietR (_ : st T) (o : list (action T)) (_ : st T) : Prop := Forall quiet o.
Lemma quiet_comp : comp quietR.
Proof. split; [intros s0; apply Forall_nil; done|intros s1 s2 s3 o1 o2 H1 H2; by apply Forall_app]. Qed.
Lemma quiet_covered o : Forall (fun a => leaves a = None) o -> covered o.
Proof.
  intros F p a q x -> Hl. rewrite Forall_app, Forall_cons in F. destruct F as (_ & F & _). congruence.
Qed.
Lemma covered_save w o :
  Forall (fun a => is_save a = false /\
    (leaves a = None \/ leaves a = Some (wi_height w, wi_round w, wi_step w))) o ->
  covered (ASave w true :: o).
Proof.
  intros F p a q x E Hl. destruct p as [|y p]; simpl in E; [by simplify_eq|]. injection E as <- ->.
  rewrite Forall_app, Forall_cons in F. destruct F as (F1 & F2 & _).
  exists w. split.
  - exists [], p. split; [done|]. eapply Forall_impl; [exact F1|]. by intros b [Hb _].
  - destruct F2 as [_ [F2|F2]]; congruence.
Qed.
Lemma covered_app o1 o2 : covered o1 -> covered o2 -> covered (o1 ++ o2).
Proof. intros. eapply (comp_app _ covered_comp (st_new [] 0 0 []) (st_new [] 0 0 []) (st_new [] 0 0 [])); eauto. Qed.
Lemma quiet_vp e t : keeps quietR (vote_process (T:=T) e t).
Proof. keeps_go quiet_comp; repeat constructor; done. Qed.
Lemma quiet_check e : keeps quietR (check_choke_above_threshold (T:=T) e).
Proof. keeps_go quiet_comp; repeat constructor; done. Qed.
Lemma quiet_hsp e sp : keeps quietR (handle_signed_proposal lc e sp).
Proof. keeps_go quiet_comp; repeat constructor; done. Qed.

Lemma covered_vote e hash t lr : keeps coveredR (handle_vote_event (T:=T) e hash t lr).
Proof.
  intros s s' o r Hv. unfold handle_vote_event, get in Hv.
  apply bind_inv in Hv as [(sv & s1 & o1 & o2 & H1 & H2 & ->)|[(? & H1 & ->)|(H1 & ->)]];
    apply sign_vote_inv in H1 as (-> & -> & H1); try (by apply covered_comp).
  case_match; simplify_eq.
  apply bind_inv in H2 as [(? & ? & ? & o3 & H2 & H3 & ->)|[(? & H2 & ->)|(H2 & ->)]];
    apply save_lr_inv in H2 as [-> H2]; destruct (lock_to_save _ _) as [l|]; cbv zeta in H2;
    destruct H2 as [-> H2]; try done; try by apply covered_comp.
  2-3: apply quiet_covered; by repeat constructor.
  destruct (e_save e _); [|done]. clear H2.
  apply bind_inv in H3 as [(? & ? & ? & o4 & H2 & H3 & ->)|[(? & H2 & ->)|(H2 & ->)]].
  2-3: destruct (s_leader s); [|unfold transmit, get, emit in H2; by simplify_eq];
    unfold bind, emit, modify in H2; by simplify_eq.
  apply quiet_vp in H3.
  apply covered_save. apply Forall_app. split.
  - destruct (s_leader s).
    + unfold bind, emit, modify in H2. simplify_eq. apply Forall_singleton. split; [done|]. right. simpl. by destruct t.
    + unfold transmit, get, emit in H2. simplify_eq. apply Forall_singleton. split; [done|]. right. simpl. by destruct t.
  - eapply Forall_impl; [exact H3|]. intros a [Ha1 Ha2]. auto.
Qed.
Lemma covered_brake e rd lr : keeps coveredR (handle_brake (T:=T) e rd lr).
Proof.
  intros s s' o r Hv. unfold handle_brake, get in Hv.
  destruct (negb _) eqn:Er; [unfold fail in Hv; simplify_eq; by apply covered_comp|].
  destruct (cr_sign _ _) as [sig|]; [|unfold fail in Hv; simplify_eq; by apply covered_comp].
  apply bind_inv in Hv as [(? & ? & ? & o2 & H1 & H2 & ->)|[(? & H1 & ->)|(H1 & ->)]];
    unfold emit in H1; simplify_eq.
  apply covered_app; [apply quiet_covered; by repeat constructor|].
  apply bind_inv in H2 as [(? & ? & ? & o3 & H1 & H2 & ->)|[(? & H1 & ->)|(H1 & ->)]];
    unfold modify in H1; simplify_eq. rewrite app_nil_l.
  apply bind_inv in H2 as [(? & ? & ? & o4 & H2 & H3 & ->)|[(? & H2 & ->)|(H2 & ->)]];
    apply save_lr_inv in H2 as [-> H2]; destruct (lock_to_save _ _) as [l|]; cbv zeta in H2;
    destruct H2 as [-> H2]; try done; try by apply covered_comp.
  2-3: apply quiet_covered; by repeat constructor.
  destruct (e_save e _); [|done]. clear H2.
  apply bind_inv in H3 as [(? & ? & ? & o5 & H2 & H3 & ->)|[(? & H2 & ->)|(H2 & ->)]];
    unfold broadcast, emit in H2; simplify_eq.
  apply quiet_check in H3. apply covered_save. apply Forall_app. split.
  - apply Forall_singleton. split; [done|]. by right.
  - eapply Forall_impl; [exact H3|]. intros a [Ha1 Ha2]. auto.
Qed.
Lemma covered_new_round e nr lr lp from : keeps coveredR (handle_new_round lc tenc e nr lr lp from).
Proof.
  intros s s' o r Hv. apply new_round_inv in Hv as (o1 & -> & Hv).
  apply covered_app.
  { apply quiet_covered. unfold view_changes. destruct (_ =? _); by repeat constructor. }
  destruct Hv as [(-> & _)|(uf & l & _ & _ & _ & Hv)]; [by apply covered_comp|]. cbv zeta in Hv.
  destruct Hv as [(_ & -> & _)|(_ & o2 & -> & Hp)]; [apply quiet_covered; by repeat constructor|].
  apply covered_save. apply propose_inv in Hp.
  change (s_height (entered nr uf s)) with (s_height s) in Hp. change (s_round (entered nr uf s)) with nr in Hp.
  destruct (get_proposer _ _ _ _) as [p|x|]; [|destruct Hp as [_ ->]; done..].
  destruct (decide _).
  - destruct Hp as [(_ & [->| ->] & _)|(b & h & pl & om & Hm & _ & Hp)]; [by repeat constructor|by repeat constructor; left|].
    apply make_inv in Hm as [_ Hm].
    assert (om = [] \/ om = [AGetBlock (s_height s)]) as Hom.
    { destruct lr; destruct Hm as [-> _]; [by left|by right]. }
    assert (Forall (fun a : action T => is_save a = false /\ (leaves a = None \/ leaves a = Some (s_height s, nr, SPropose))) om) as Fm.
    { destruct Hom as [->| ->]; repeat constructor; by left. }
    destruct Hp as [[-> _]|(sig & tr & Hp)]; [done|]. cbv zeta in Hp. destruct Hp as (_ & -> & Ht).
    apply Forall_app. split; [done|]. constructor; [split; [done|by right]|].
    destruct Ht as [->| ->]; repeat constructor; by left.
  - destruct (pc_get _ _ _) as [sp|x|]; [|destruct Hp as (_ & -> & _); done..].
    apply quiet_hsp in Hp. eapply Forall_impl; [exact Hp|]. intros a [Ha1 Ha2]. auto.
Qed.
Lemma covered_goto e stt : keeps coveredR (goto_new_height (T:=T) e stt).
Proof.
  clear lc tenc tdec spill. intros s s' o r Hg. apply quiet_covered.
  apply goto_inv in Hg as [(_ & _ & -> & _)|[(_ & _ & _ & -> & _)|[(_ & _ & _ & -> & _)|(_ & _ & _ & tr & -> & Ht)]]];
    try by repeat constructor.
  constructor; [done|]. apply Forall_app. split.
  - apply Forall_fmap, Forall_true. done.
  - destruct Ht as [[-> _]|[-> _]]; by repeat constructor.
Qed.
Local Hint Resolve covered_vote covered_brake covered_new_round covered_goto : keepsdb.
Ltac cov := apply quiet_covered; by repeat constructor.
Lemma covered_commit e h : keeps coveredR (handle_commit lc e h).
Proof. keeps_go covered_comp; cov. Qed.
Lemma covered_react e i : keeps coveredR (react lc tenc e i).
Proof.
  apply (keeps_react _ _ _ covered_comp).
  - intros m ->. apply (keeps_msg _ _ covered_comp); intros; subst; try cov.
    all: keeps_go covered_comp; cov.
  - intros m _. keeps_go covered_comp; cov.
  - intros m _. keeps_go covered_comp; cov.
  - intros m _. keeps_go covered_comp; cov.
Qed.
End W.

(** ** C32: vote only after the log is written *)
Theorem C32_nothing_leaves_unrecorded :
  forall (T : Type) (D : EqDecision T) lc tenc tdec spill (b : boot T) is o s alive,
    run lc tenc tdec spill b is o s alive ->
    forall o1 a o2 h r st, o = o1 ++ a :: o2 -> leaves a = Some (h, r, st) ->
      exists w, last_saved o1 w /\ wi_height w = h /\ wi_round w = r /\ wi_step w = st.
Proof.
  intros T D lc tenc tdec spill b is o s alive Hr.
  assert (covered o) as Hc.
  { induction Hr as [s o r Hs|is o s e i s' o' r Hr IH Hs].
    - apply logged_inv in Hs as (r' & Hs & _). apply start_inv in Hs as [(_ & [->|(t & -> & _)])|(w & bs & _ & _ & _ & [[_ ->]|(p & _ & Ht)])].
      + by apply quiet_covered.
      + apply quiet_covered; by repeat constructor.
      + by apply quiet_covered.
      + eapply (keeps_start_tail lc _ covered_comp) in Ht; [done|..].
        * intros h. apply covered_commit.
        * intros rr lr. apply covered_brake.
        * intros s1 t. apply quiet_covered; by repeat constructor.
    - apply covered_app; [done|]. eapply covered_react; eauto. }
  intros o1 a o2 h r st -> Hl. destruct (Hc _ _ _ _ eq_refl Hl) as (w & Hw & E). simplify_eq. eauto.
Qed.

(** The last record before a vote carries the lock the state machine reported with the vote:
    for lock round [k] the prevote certificate stored for [k] and the block stored for its hash,
    and no lock if the state machine has none. The vote that leaves is the node's own, signed by
    its key. *)
Theorem C32_vote_record_has_the_lock :
  forall (T : Type) (D : EqDecision T) lc tenc (e : env T) s ev s' o' r hash t lr,
    react lc tenc e (IEvent ev) s = (s', o', r) ->
    (exists h rd, ev = EvPrevote h rd hash lr /\ t = Prevote \/ ev = EvPrecommit h rd hash lr /\ t = Precommit) ->
    forall a x, a ∈ o' -> leaves a = Some x ->
      x = (s_height s, s_round s, match t with Prevote => SPrevote | Precommit => SPrecommit end) /\
      (exists sig, let v := mkVote (s_height s) (s_round s) t hash in
         cr_sign (e_crypto e) (cr_hash (e_crypto e) (enc (vote_rlp v))) = Some sig /\
         (a = ATransmit (s_laddr s) (MVote (mkSVote sig v (s_addr s))) \/ a = AOwnVote (mkSVote sig v (s_addr s)))) /\
      exists w o2, o' = ASave w true :: o2 /\ wi_step w = x.2 /\
        match lr with
        | None => wi_lock w = None
        | Some k => exists q blk, wi_lock w = Some (mkWalLock k q blk) /\
            vc_get_qc_by_id (s_votes s) (s_height s) k Prevote = Ok q /\ s_blocks s !! av_hash q = Some blk
        end.
Proof.
  intros T D lc tenc e s ev s' o' r hash t lr Hr Hev a x Ha Hl.
  assert (handle_vote_event e hash t lr s = (s', o', match r with Panic => Panic | _ => (handle_vote_event e hash t lr s).2 end) \/ o' = []) as Hv.
  { unfold react, on_event, get in Hr.
    destruct (s_stopped s); [unfold ret in Hr; simplify_eq; by right|].
    destruct (negb (s_power s)); [unfold ret in Hr; simplify_eq; by right|]. left.
    assert (handle_event lc tenc e ev = logged (handle_vote_event e hash t lr)) as Eh.
    { by destruct Hev as (h & rd & [[-> ->]|[-> ->]]). }
    rewrite Eh in Hr. unfold bind, logged, ret in Hr.
    destruct (handle_vote_event e hash t lr s) as [[s1 o1] [u|y|]]; simplify_eq; rewrite ?app_nil_r; done. }
  destruct Hv as [Hv| ->]; [|by apply elem_of_nil in Ha].
  generalize dependent (match r with Panic => Panic | _ => (handle_vote_event e hash t lr s).2 end). intros r' Hv. clear Hr Hev.
  unfold handle_vote_event, get in Hv.
  apply bind_inv in Hv as [(sv & ? & ? & o2 & H1 & H2 & ->)|[(? & H1 & ->)|(H1 & ->)]];
    apply sign_vote_inv in H1 as (Es & -> & H1); (match type of Es with ?x = s => subst x end);
    try (by apply elem_of_nil in Ha).
  destruct (cr_sign _ _) as [sig|] eqn:Esig; [|done]. injection H1 as ->.
  apply bind_inv in H2 as [(? & ? & ? & o3 & H2 & H3 & ->)|[(? & H2 & ->)|(H2 & ->)]];
    apply save_lr_inv in H2 as [Es H2]; (match type of Es with ?x = s => subst x end);
    destruct (lock_to_save s lr) as [l|] eqn:El; cbv zeta in H2; destruct H2 as [-> H2]; try done;
    try (by apply elem_of_nil in Ha); try (simpl in Ha; apply elem_of_list_singleton in Ha as ->; done).
  destruct (e_save e _) eqn:Esv; [|done]. simpl in Ha. apply elem_of_cons in Ha as [->|Ha]; [done|].
  apply bind_inv in H3 as [(? & s1 & o4 & o5 & H3 & H4 & ->)|[(? & H3 & ->)|(H3 & ->)]].
  2-3: destruct (s_leader s); [unfold bind, emit, modify in H3|unfold transmit, get, emit in H3]; done.
  apply quiet_vp in H4. apply elem_of_app in Ha as [Ha|Ha].
  2: { apply (proj1 (Forall_forall _ _) H4) in Ha as [_ Ha]. congruence. }
  assert (a = AOwnVote (mkSVote sig (mkVote (s_height s) (s_round s) t hash) (s_addr s)) \/
          a = ATransmit (s_laddr s) (MVote (mkSVote sig (mkVote (s_height s) (s_round s) t hash) (s_addr s)))) as Hav.
  { destruct (s_leader s).
    - unfold bind, emit, modify in H3. injection H3 as _ <-. simpl in Ha. apply elem_of_list_singleton in Ha. by left.
    - unfold transmit, get, emit in H3. injection H3 as _ <-. apply elem_of_list_singleton in Ha. by right. }
  assert (x = (s_height s, s_round s, match t with Prevote => SPrevote | Precommit => SPrecommit end)) as ->.
  { destruct Hav as [->| ->]; simpl in Hl; by simplify_eq. }
  split; [done|]. split.
  { exists sig. split; [done|]. destruct Hav; auto. }
  eexists _, (o4 ++ o5). split; [done|]. split; [by destruct t|]. simpl.
  unfold lock_to_save in El. destruct lr as [k|]; [|by simplify_eq].
  destruct (vc_get_qc_by_id _ _ _ _) as [q| |] eqn:Eq; [|done..].
  destruct (s_blocks s !! av_hash q) as [blk|] eqn:Eb; simpl in El; [|done]. simplify_eq. eauto.
Qed.

(** ** C36, C34: the commit callback *)
Section C.
Context {T : Type} `{EqDecision T}.
Context (lc : lcfg) (tenc : T -> bytes) (tdec : bytes -> option T) (spill : bool).
Local Notation run := (run lc tenc tdec spill).
Definition is_commit (a : action T) : bool := match a with ACommit _ _ => true | _ => false end.
Definition no_commit (_ : st T) (o : list (action T)) (_ : st T) : Prop := Forall (fun a => is_commit a = false) o.
Lemma nc_comp : comp no_commit.
Proof. split; [intros s0; by apply Forall_nil|intros s1 s2 s3 o1 o2 H1 H2; by apply Forall_app]. Qed.
Lemma nc_goto e stt : keeps no_commit (goto_new_height (T:=T) e stt).
Proof.
  intros s s' o r Hg. 
  apply goto_inv in Hg as [(_ & _ & -> & _)|[(_ & _ & _ & -> & _)|[(_ & _ & _ & -> & _)|(_ & _ & _ & tr & -> & Ht)]]];
    try by repeat constructor.
  constructor; [done|]. apply Forall_app. split.
  - apply Forall_fmap, Forall_true. done.
  - destruct Ht as [[-> _]|[-> _]]; by repeat constructor.
Qed.
Local Hint Resolve nc_goto : keepsdb.
Ltac nc := by repeat constructor.
Lemma nc_react e i : (forall h, i <> IEvent (EvCommit h)) -> keeps no_commit (react lc tenc e i).
Proof.
  intros Hi. apply (keeps_react _ _ _ nc_comp).
  - intros m ->. apply (keeps_msg _ _ nc_comp); intros; subst; try nc.
    all: keeps_go nc_comp; nc.
  - intros m _. keeps_go nc_comp; nc.
  - intros m _. keeps_go nc_comp; nc.
  - intros m ->. destruct m; try (by destruct (Hi hash)); keeps_go nc_comp; nc.
Qed.
Lemma nc_brake e rd lr : keeps no_commit (handle_brake (T:=T) e rd lr).
Proof. keeps_go nc_comp; nc. Qed.
Lemma nc_tail e w : wi_step w <> SCommit -> keeps no_commit (start_tail lc e w).
Proof.
  intros Hw. unfold start_tail. rewrite bool_decide_eq_false_2 by done.
  apply (keeps_bind _ nc_comp); [destruct (bool_decide _); [apply nc_brake|apply (keeps_ret _ nc_comp)]|intro].
  keeps_go nc_comp. nc.
Qed.
(** A commit in the output of a step. *)
Lemma commit_split (e : env T) hash s s' o r o1 h c o2 :
  handle_commit lc e hash s = (s', o, r) -> o = o1 ++ ACommit h c :: o2 ->
  exists content qc, s_blocks s !! hash = Some content /\
    vc_get_qc_by_hash (s_votes s) (s_height s) hash Precommit = Some qc /\
    h = s_height s /\ c = commit_value s hash qc content /\
    e_save e (commit_record s qc content) = true /\
    o1 = [ASave (commit_record s qc content) true].
Proof.
  intros Hc E. assert (forall p, Forall (fun a : action T => is_commit a = false) p -> p <> o1 ++ ACommit h c :: o2) as Hno.
  { intros p Hp ->. rewrite Forall_app, Forall_cons in Hp. by destruct Hp as (_ & ? & _). }
  apply commit_inv in Hc as [(_ & -> & _)|(content & qc & Hb & Hq & Hc)]; [by destruct o1|]. cbv zeta in Hc.
  destruct Hc as [(_ & _ & ->)|(Hs & Hc)]; [exfalso; by eapply Hno; [|exact E]; repeat constructor|].
  exists content, qc. split_and!; try done.
  all: assert (exists o3, o = ASave (commit_record s qc content) true :: ACommit (s_height s) (commit_value s hash qc content) :: o3
         /\ Forall (fun a : action T => is_commit a = false) o3) as (o3 & E3 & F3).
  1,3,5: destruct (e_commit e _ _) as [stt|]; [|destruct Hc as (_ & -> & _); by exists []];
    destruct Hc as (o3 & -> & Hc); exists o3; split; [done|];
    destruct (get_proposer _ _ _ _); [|by destruct Hc as (_ & -> & _)..]; eapply nc_goto; exact Hc.
  all: rewrite E in E3; destruct o1 as [|y [|z o1]]; simpl in E3; simplify_eq; try done.
  all: exfalso; rewrite Forall_app, Forall_cons in F3; by destruct F3 as (_ & ? & _).
Qed.
Lemma commit_step (e : env T) i s s' o r o1 h c o2 :
  react lc tenc e i s = (s', o, r) -> o = o1 ++ ACommit h c :: o2 ->
  exists hash content qc, i = IEvent (EvCommit hash) /\ s_blocks s !! hash = Some content /\
    vc_get_qc_by_hash (s_votes s) (s_height s) hash Precommit = Some qc /\
    h = s_height s /\ c = commit_value s hash qc content /\
    e_save e (commit_record s qc content) = true /\
    o1 = [ASave (commit_record s qc content) true].
Proof.
  intros Hr E.
  assert ((exists hash, i = IEvent (EvCommit hash)) \/ forall h, i <> IEvent (EvCommit h)) as [[hash ->]|Hi].
  { destruct i as [m|[]|rs|m]; try (by right); left; eauto. }
  - exists hash. unfold react, on_event, get in Hr.
    destruct (s_stopped s); [unfold ret in Hr; simplify_eq; by destruct o1|].
    destruct (negb _); [unfold ret in Hr; simplify_eq; by destruct o1|].
    unfold handle_event in Hr. minv.
    all: lazymatch goal with Hc : handle_commit _ _ _ _ = (_, ?oo, _) |- _ =>
      destruct (commit_split _ _ _ _ oo _ o1 h c o2 Hc) as (content & qc & Hx);
      [first [by rewrite app_nil_r in E|reflexivity]|exists content, qc; split; [done|exact Hx]] end.
  - exfalso. apply nc_react in Hr; [|done]. unfold no_commit in Hr.
    rewrite E, Forall_app, Forall_cons in Hr. by destruct Hr as (_ & ? & _).
Qed.
End C.

(** Every call of commit is made at the moment the log holds the matching commit record (written
    immediately before), for a precommit certificate of this height the node got hold of, and
    with a block the node got hold of under exactly the certified hash. *)
Theorem C36_commit_has_matching_proof :
  forall (T : Type) (D : EqDecision T) lc tenc tdec spill (b : boot T) is o s alive,
    run lc tenc tdec spill b is o s alive ->
    forall o1 h c o2, o = o1 ++ ACommit h c :: o2 ->
      exists p w l q, o1 = p ++ [ASave w true] /\
        wi_step w = SCommit /\ wi_height w = h /\ wi_lock w = Some l /\ wl_votes l = q /\
        av_type q = Precommit /\ av_height q = h /\
        c = mkCommit h (wl_content l) (mkProof h (av_round q) (av_hash q) (av_sig q)) /\
        qc_known tdec spill b is o q /\ block_known tdec spill b is (av_hash q) (wl_content l).
Proof.
  intros T D lc tenc tdec spill b is o s alive Hr.
  induction Hr as [s o r Hs|is o s e i s' o' r Hr IH Hs]; intros o1 h c o2 E.
  - apply logged_inv in Hs as (r' & Hs & _).
    apply start_inv in Hs as [(_ & [->|(t & -> & _)])|(w & bs & Hw & Hd & _ & [[_ ->]|(p & _ & Ht)])].
    + by destruct o1.
    + by destruct o1 as [|? [|? ?]].
    + by destruct o1.
    + destruct (bool_decide (wi_step w = SCommit)) eqn:Es.
      * unfold start_tail in Ht. rewrite Es in Ht. destruct (wi_lock w) as [l|] eqn:El; [|unfold fail in Ht; simplify_eq; by destruct o1].
        destruct (commit_split _ _ _ _ _ _ _ _ _ _ _ Ht E) as (content & qc & Hb & Hq & -> & -> & Hsv & ->).
        assert (qc = wl_votes l /\ av_height (wl_votes l) = wi_height w /\ av_type qc = Precommit /\ content = wl_content l) as (-> & Hh & Ht2 & ->).
        { unfold loaded_state in Hb, Hq. rewrite El in Hb, Hq. simpl in Hb, Hq.
          rewrite lookup_insert in Hb. change (vc_set_qc ∅ (wl_votes l)) with (vops [VQC (wl_votes l)]) in Hq.
          apply lookup_hash in Hq as (Hin & ? & ? & ?). apply elem_of_list_singleton in Hin. by simplify_eq. }
        set (s0 := st_new (b_addr b) (b_height b) (b_interval b) (b_vals b)) in *.
        assert (s_height (loaded_state w (bool_decide (p = s_addr s0)) p s0) = wi_height w) as Eh.
        { unfold loaded_state. by rewrite El. }
        eexists [], _, _, _. split; [done|]. split_and!; try done.
        -- by rewrite Eh.
        -- right; right. exists w, l. split_and!; try done. by exists bs.
        -- right; right. exists w, l. split_and!; try done. by exists bs.
      * exfalso. apply nc_tail in Ht; [|by apply bool_decide_eq_false in Es].
        unfold no_commit in Ht. rewrite E, Forall_app, Forall_cons in Ht. by destruct Ht as (_ & ? & _).
  - pose proof (run_run_inv _ _ _ _ _ _ _ _ _ Hr) as Hinv.
    apply app_eq_inv in E as [(k & -> & Hk)|(k & -> & Hk)].
    + destruct k as [|y k]; simpl in Hk; [subst o'|injection Hk as <- ->].
      * exfalso. destruct (commit_step _ _ _ _ _ _ _ _ [] h c o2 Hs eq_refl) as (? & ? & ? & _ & _ & _ & _ & _ & _ & ?). done.
      * destruct (IH o1 h c k eq_refl) as (p & w & l & q & ? & ? & ? & ? & ? & ? & ? & ? & Hq & Hb).
        exists p, w, l, q. split_and!; try done.
        -- by apply (vsrc_run_app tdec spill b is [(e, i)] _ o' (VQC q)).
        -- by apply block_known_app.
    + destruct (commit_step _ _ _ _ _ _ _ _ k h c o2 Hs Hk) as (hash & content & qc & Hi & Hb & Hq & -> & -> & Hsv & ->).
      destruct Hinv as [(ops & Ev & Fv) _ _ Hbl _ _]. rewrite Ev in Hq.
      apply lookup_hash in Hq as (Hin & Hqh & Hqx & Hqt).
      exists o, (commit_record s qc content), (mkWalLock (s_round s) qc content), qc. split_and!; try done.
      * unfold commit_value. simpl. by rewrite Hqx.
      * apply (vsrc_run_app tdec spill b is [(e, i)] o _ (VQC qc)).
        by apply (proj1 (Forall_forall _ _) Fv (VQC qc)).
      * apply block_known_app. rewrite Hqx. by apply Hbl.
Qed.


(** ** C34: commit is redone after a crash *)
Section R.
Context {T : Type} `{EqDecision T}.
Context (lc : lcfg) (tenc : T -> bytes) (tdec : bytes -> option T) (spill : bool).
Local Notation run := (run lc tenc tdec spill).
(** No commit record is written other than by [handle_commit]. *)
Definition commit_save (a : action T) : bool :=
  match a with ASave w true => bool_decide (wi_step w = SCommit) | _ => false end.
Definition no_csave (_ : st T) (o : list (action T)) (_ : st T) : Prop := Forall (fun a => commit_save a = false) o.
Lemma ns_comp : comp no_csave.
Proof. split; [intros s0; by apply Forall_nil|intros s1 s2 s3 o1 o2 H1 H2; by apply Forall_app]. Qed.
Lemma ns_goto e stt : keeps no_csave (goto_new_height (T:=T) e stt).
Proof.
  intros s s' o r Hg.
  apply goto_inv in Hg as [(_ & _ & -> & _)|[(_ & _ & _ & -> & _)|[(_ & _ & _ & -> & _)|(_ & _ & _ & tr & -> & Ht)]]];
    try by repeat constructor.
  constructor; [done|]. apply Forall_app. split.
  - apply Forall_fmap, Forall_true. done.
  - destruct Ht as [[-> _]|[-> _]]; by repeat constructor.
Qed.
Local Hint Resolve ns_goto : keepsdb.
Lemma ns_save e step l : step <> SCommit -> keeps no_csave (save_wal (T:=T) e step l).
Proof.
  intros Hs s s' o r Hw. apply save_wal_inv in Hw as (_ & -> & _). apply Forall_singleton. simpl.
  destruct (e_save _ _); [|done]. by apply bool_decide_eq_false.
Qed.
Local Hint Extern 1 (keeps no_csave (save_wal _ _ _)) => (apply ns_save; done) : keepsdb.
Ltac ns := by repeat constructor.
Lemma ns_brake e rd lr : keeps no_csave (handle_brake (T:=T) e rd lr).
Proof. keeps_go ns_comp; ns. Qed.
Lemma ns_vote e x t lr : keeps no_csave (handle_vote_event (T:=T) e x t lr).
Proof. destruct t; keeps_go ns_comp; ns. Qed.
Local Hint Resolve ns_vote : keepsdb.
Lemma ns_react e i : (forall h, i <> IEvent (EvCommit h)) -> keeps no_csave (react lc tenc e i).
Proof.
  intros Hi. apply (keeps_react _ _ _ ns_comp).
  - intros m ->. apply (keeps_msg _ _ ns_comp); intros; subst; try ns.
    all: keeps_go ns_comp; ns.
  - intros m _. keeps_go ns_comp; ns.
  - intros m _. keeps_go ns_comp; ns.
  - intros m ->. destruct m; try (by destruct (Hi hash)); keeps_go ns_comp; ns.
Qed.
Lemma csave_split (e : env T) hash s s' o r o1 w o2 :
  handle_commit lc e hash s = (s', o, r) -> o = o1 ++ ASave w true :: o2 -> wi_step w = SCommit ->
  exists content qc o3, vc_get_qc_by_hash (s_votes s) (s_height s) hash Precommit = Some qc /\
    w = commit_record s qc content /\ o2 = ACommit (s_height s) (commit_value s hash qc content) :: o3.
Proof.
  intros Hc E Hw. assert (forall p, Forall (fun a : action T => commit_save a = false) p -> p <> o1 ++ ASave w true :: o2) as Hno.
  { intros p Hp ->. rewrite Forall_app, Forall_cons in Hp. destruct Hp as (_ & Hp & _). simpl in Hp.
    by rewrite bool_decide_eq_true_2 in Hp. }
  apply commit_inv in Hc as [(_ & -> & _)|(content & qc & Hb & Hq & Hc)]; [by destruct o1|]. cbv zeta in Hc.
  destruct Hc as [(_ & _ & ->)|(Hs & Hc)]; [exfalso; by eapply Hno; [|exact E]; repeat constructor|].
  assert (exists o3, o = ASave (commit_record s qc content) true :: ACommit (s_height s) (commit_value s hash qc content) :: o3
         /\ Forall (fun a : action T => commit_save a = false) o3) as (o3 & E3 & F3).
  { destruct (e_commit e _ _) as [stt|]; [|destruct Hc as (_ & -> & _); by exists []].
    destruct Hc as (o3 & -> & Hc); exists o3; split; [done|].
    destruct (get_proposer _ _ _ _); [|by destruct Hc as (_ & -> & _)..]; eapply ns_goto; exact Hc. }
  exists content, qc, o3. split; [done|]. rewrite E in E3.
  destruct o1 as [|y [|z o1]]; simpl in E3; simplify_eq; try done.
  exfalso; rewrite Forall_app, Forall_cons in F3. destruct F3 as (_ & F3 & _). simpl in F3.
  by rewrite bool_decide_eq_true_2 in F3.
Qed.
Lemma ns_tail e w : wi_step w <> SCommit -> keeps no_csave (start_tail lc e w).
Proof.
  intros Hw. unfold start_tail. rewrite bool_decide_eq_false_2 by done.
  apply (keeps_bind _ ns_comp); [destruct (bool_decide _); [apply ns_brake|apply (keeps_ret _ ns_comp)]|intro].
  keeps_go ns_comp. ns.
Qed.
Lemma react_commit (e : env T) hash s s' o r :
  react lc tenc e (IEvent (EvCommit hash)) s = (s', o, r) ->
  (o = [] /\ s' = s) \/ exists r', handle_commit lc e hash s = (s', o, r') /\ (r' = Panic \/ r = Ok true) /\ (r' = Panic -> r = Panic).
Proof.
  intros Hr. unfold react, on_event, get in Hr.
  destruct (s_stopped s); [unfold ret in Hr; simplify_eq; by left|].
  destruct (negb _); [unfold ret in Hr; simplify_eq; by left|]. right.
  unfold handle_event, logged, bind, ret in Hr.
  destruct (handle_commit lc e hash s) as [[s1 o1] [u|x|]]; simplify_eq; rewrite ?app_nil_r;
    eexists; (split; [done|]); split; auto; done.
Qed.
(** Restarting from a commit record whose certificate is a precommit certificate of its height
    and whose lock round is its round. *)
Lemma restart_commits (b : boot T) w bs l p :
  b_wal b = Some (Some bs) -> dec_walinfo tdec spill bs = Ok w ->
  auth_contains (auth_update (b_vals b)) (b_addr b) = true ->
  get_proposer lc (auth_update (b_vals b)) (wi_height w) (wi_round w) = Ok p ->
  wi_step w = SCommit -> wi_lock w = Some l -> wl_round l = wi_round w ->
  av_height (wl_votes l) = wi_height w -> av_type (wl_votes l) = Precommit ->
  e_save (b_env b) w = true ->
  forall s o r, on_start lc tdec spill (b_env b) (b_wal b)
      (st_new (b_addr b) (b_height b) (b_interval b) (b_vals b)) = (s, o, r) ->
    exists o3, o = ASave w true :: ACommit (wi_height w)
      (mkCommit (wi_height w) (wl_content l)
         (mkProof (wi_height w) (av_round (wl_votes l)) (av_hash (wl_votes l)) (av_sig (wl_votes l)))) :: o3.
Proof.
  intros Hb Hd Ha Hp Hw Hl Hlr Hh Ht Hs s o r Ho.
  apply logged_inv in Ho as (r' & Ho & _). rewrite Hb in Ho.
  erewrite start_loaded in Ho; [|done|done|done].
  set (s0 := st_new _ _ _ _) in Ho. unfold start_tail in Ho.
  rewrite (bool_decide_eq_true_2 _ Hw), Hl in Ho.
  set (s1 := loaded_state _ _ _ _) in Ho.
  assert (s_blocks s1 !! av_hash (wl_votes l) = Some (wl_content l)) as G1.
  { unfold s1, loaded_state. rewrite Hl. simpl. by rewrite lookup_insert. }
  assert (vc_get_qc_by_hash (s_votes s1) (s_height s1) (av_hash (wl_votes l)) Precommit = Some (wl_votes l)) as G2.
  { unfold s1, loaded_state. rewrite Hl. simpl.
    change (vc_set_qc ∅ (wl_votes l)) with (vops [VQC (wl_votes l)]).
    rewrite get_qc_hash_qch, vops_qc_hash. unfold last_qc. cbn [foldl last_qc_step].
    rewrite Hh, N.eqb_refl. rewrite (bool_decide_eq_true_2 (av_hash _ = _)) by done. by rewrite (bool_decide_eq_true_2 _ Ht). }
  assert (s_height s1 = wi_height w /\ s_round s1 = wi_round w /\ s_from s1 = wi_from w) as (G3 & G4 & G5).
  { unfold s1, loaded_state. by rewrite Hl. }
  assert (commit_record s1 (wl_votes l) (wl_content l) = w) as G6.
  { unfold commit_record. rewrite G3, G4, G5. destruct w, l; simpl in *. congruence. }
  apply commit_inv in Ho as [(_ & _ & _ & [?|?])|(content & qc & Hc1 & Hc2 & Hc)]; [congruence..|].
  assert (content = wl_content l) as -> by congruence. assert (qc = wl_votes l) as -> by congruence.
  cbv zeta in Hc. rewrite G6 in Hc. unfold commit_value in Hc. rewrite G3 in Hc.
  destruct Hc as [(? & _)|(_ & Hc)]; [congruence|].
  destruct (e_commit _ _ _) as [stt|].
  - destruct Hc as (o2 & -> & _). by exists o2.
  - destruct Hc as (_ & -> & _). by exists [].
Qed.
End R.

(** Once a commit record was written (at any later crash point with that record still the last
    one), commit is called next; and every restart from that record with a validator set that
    contains the node writes the same record again and calls commit with the same height, block
    and proof, first thing. The four conditions on the restart: the set has a leader for that
    height and round, the record can be written again, it is well-formed (the u64 fields fit) and
    its encoding is below 2^64 bytes; and the block's own codec is faithful. *)
Theorem C34_commit_is_redone_after_crash :
  forall (T : Type) (D : EqDecision T) lc tenc tdec spill (b : boot T) is o s alive,
    run lc tenc tdec spill b is o s alive ->
    forall o1 w o2, o = o1 ++ ASave w true :: o2 -> wi_step w = SCommit ->
      exists c o3, o2 = ACommit (wi_height w) c :: o3 /\
        forall (b' : boot T) p,
          codec_ok tenc tdec -> wf_walinfo w -> encodable (walinfo_rlp tenc w) ->
          b_wal b' = Some (Some (enc (walinfo_rlp tenc w))) ->
          auth_contains (auth_update (b_vals b')) (b_addr b') = true ->
          get_proposer lc (auth_update (b_vals b')) (wi_height w) (wi_round w) = Ok p ->
          e_save (b_env b') w = true ->
          forall is' out s' alive', run lc tenc tdec spill b' is' out s' alive' ->
            exists o4, out = ASave w true :: ACommit (wi_height w) c :: o4.
Proof.
  intros T D lc tenc tdec spill b is o s alive Hr o1 w o2 E Hw.
  assert (exists l o3, wi_lock w = Some l /\ wl_round l = wi_round w /\
    av_height (wl_votes l) = wi_height w /\ av_type (wl_votes l) = Precommit /\
    o2 = ACommit (wi_height w)
      (mkCommit (wi_height w) (wl_content l)
         (mkProof (wi_height w) (av_round (wl_votes l)) (av_hash (wl_votes l)) (av_sig (wl_votes l)))) :: o3)
    as (l & o3 & Hl & Hlr & Hh & Ht & ->).
  { assert (forall e hash s s' o r o1 w o2 ops,
      handle_commit (T:=T) lc e hash s = (s', o, r) -> s_votes s = vops ops -> o = o1 ++ ASave w true :: o2 -> wi_step w = SCommit ->
      exists l o3, wi_lock w = Some l /\ wl_round l = wi_round w /\
      av_height (wl_votes l) = wi_height w /\ av_type (wl_votes l) = Precommit /\
      o2 = ACommit (wi_height w)
        (mkCommit (wi_height w) (wl_content l)
           (mkProof (wi_height w) (av_round (wl_votes l)) (av_hash (wl_votes l)) (av_sig (wl_votes l)))) :: o3) as Hstep.
    { intros e hash s1 s2 oo r p w1 q ops Hc Hv Eo Hw1.
      destruct (csave_split _ _ _ _ _ _ _ _ _ _ Hc Eo Hw1) as (content & qc & o3 & Hq & -> & ->).
      rewrite Hv in Hq. apply lookup_hash in Hq as (_ & Hq1 & <- & Hq3).
      eexists _, o3. split; [reflexivity|]. split_and!; done. }
    assert (forall is o s e i s' o' r o1 o2, run lc tenc tdec spill b is o s true ->
      react lc tenc e i s = (s', o', r) -> o' = o1 ++ ASave w true :: o2 ->
      exists l o3, wi_lock w = Some l /\ wl_round l = wi_round w /\
      av_height (wl_votes l) = wi_height w /\ av_type (wl_votes l) = Precommit /\
      o2 = ACommit (wi_height w)
        (mkCommit (wi_height w) (wl_content l)
           (mkProof (wi_height w) (av_round (wl_votes l)) (av_hash (wl_votes l)) (av_sig (wl_votes l)))) :: o3) as Hreact.
    { clear -Hstep Hw. intros is o s e i s' o' r o1 o2 Hr Hs E.
      destruct (run_run_inv _ _ _ _ _ _ _ _ _ Hr) as [(ops & Ev & _) _ _ _ _ _].
      assert ((exists hash, i = IEvent (EvCommit hash)) \/ forall h, i <> IEvent (EvCommit h)) as [[hash ->]|Hi].
      { destruct i as [m|[]|rs|m]; try (by right); left; eauto. }
      - apply react_commit in Hs as [[-> _]|(r' & Hs & _)]; [by destruct o1|]. eapply Hstep; eauto.
      - exfalso. apply ns_react in Hs; [|done]. unfold no_csave in Hs. rewrite E, Forall_app, Forall_cons in Hs.
        destruct Hs as (_ & Hs & _). simpl in Hs. by rewrite bool_decide_eq_true_2 in Hs. }
    revert o1 o2 E. induction Hr as [s o r Hs|is o s e i s' o' r Hr IH Hs]; intros o1 o2 E.
    - apply logged_inv in Hs as (r' & Hs & _).
      apply start_inv in Hs as [(_ & [->|(t & -> & _)])|(w0 & bs & Hb & Hd & _ & [[_ ->]|(p & _ & Ht)])].
      + by destruct o1.
      + by destruct o1 as [|? [|? ?]].
      + by destruct o1.
      + destruct (bool_decide (wi_step w0 = SCommit)) eqn:Es.
        * unfold start_tail in Ht. rewrite Es in Ht.
          destruct (wi_lock w0) as [l|] eqn:El; [|unfold fail in Ht; simplify_eq; by destruct o1].
          eapply (Hstep _ _ _ _ _ _ _ _ _ [VQC (wl_votes l)] Ht); [|exact E|done].
          unfold loaded_state. by rewrite El.
        * exfalso. apply ns_tail in Ht; [|by apply bool_decide_eq_false in Es].
          unfold no_csave in Ht. rewrite E, Forall_app, Forall_cons in Ht. destruct Ht as (_ & Ht & _). simpl in Ht.
          by rewrite bool_decide_eq_true_2 in Ht.
    - pose proof (run_run_inv _ _ _ _ _ _ _ _ _ Hr) as Hinv.
      apply app_eq_inv in E as [(k & -> & Hk)|(k & -> & Hk)].
      + destruct k as [|y k]; simpl in Hk; [subst o'|injection Hk as <- ->].
        * by eapply (Hreact _ _ _ _ _ _ _ _ [] _ Hr Hs eq_refl).
        * destruct (IH o1 k eq_refl) as (l & o3 & ? & ? & ? & ? & ->). eauto 10.
      + by eapply (Hreact _ _ _ _ _ _ _ _ k _ Hr Hs Hk). }
  eexists _, o3. split; [done|]. intros b' p Hc Hwf Hen Hb' Ha Hp Hsv is' out s' alive' Hr'.
  assert (forall s0 o0 r0, on_start lc tdec spill (b_env b') (b_wal b')
      (st_new (b_addr b') (b_height b') (b_interval b') (b_vals b')) = (s0, o0, r0) ->
      exists o4, o0 = ASave w true :: ACommit (wi_height w)
      (mkCommit (wi_height w) (wl_content l)
         (mkProof (wi_height w) (av_round (wl_votes l)) (av_hash (wl_votes l)) (av_sig (wl_votes l)))) :: o4) as Hst.
  { intros s0 o0 r0 H0. eapply restart_commits; try done. by apply walinfo_rt. }
  clear -Hr' Hst. induction Hr' as [? ? ? Hs|? ? ? ? ? ? ? ? ? IH]; [by eapply Hst|].
  destruct IH as [o4 ->]. simpl. eauto.
Qed.

(** ** C37: commit is called at most once per height per run *)
Definition commit_heights {T} (o : list (action T)) : list N :=
  omap (fun a => match a with ACommit h _ => Some h | _ => None end) o.
(** Every answer of commit is a status of a higher height (with which a leader can be computed). *)
Definition moves_on {T} (lc : lcfg) (e : env T) : Prop :=
  forall h c, exists stt, e_commit e h c = Some stt /\ h < st_height stt /\
    forall x, get_proposer lc (auth_update (st_auth stt)) (st_height stt) 0 <> Err x.
Lemma round_robin_leader lc a h r x : lc_random lc = false -> get_proposer lc a h r <> Err x.
Proof.
  intros Hl. unfold get_proposer. rewrite Hl. unfold rotation_leader_index. cbv zeta.
  destruct (N.eqb_spec (w32 (N.of_nat (length (a_addr a)))) 0) as [|Hn]; simpl; [done|].
  destruct (a_addr a !! _) eqn:E; [done|]. exfalso. apply lookup_ge_None in E.
  assert (w32 (N.of_nat (length (a_addr a))) <= N.of_nat (length (a_addr a))) as Hle by (apply N.mod_le; done).
  set (k := w32 _) in *. pose proof (N.mod_lt (w64 (h * lc_prime lc k + r)) k Hn). lia.
Qed.
Lemma heights_app {T} (o1 o2 : list (action T)) : commit_heights (o1 ++ o2) = commit_heights o1 ++ commit_heights o2.
Proof. apply omap_app. Qed.
Lemma no_heights {T} (o : list (action T)) : Forall (fun a => is_commit a = false) o -> commit_heights o = [].
Proof. induction 1 as [|a l Ha _ IH]; [done|]. destruct a; try done. Qed.
Lemma commit_moves (T : Type) (D : EqDecision T) lc (e : env T) hash s s' o r :
  moves_on lc e -> handle_commit lc e hash s = (s', o, r) ->
  commit_heights o = [] \/ (commit_heights o = [s_height s] /\ (r = Panic \/ s_height s < s_height s')).
Proof.
  intros Hm Hc. apply commit_inv in Hc as [(_ & -> & _)|(content & qc & Hb & Hq & Hc)]; [by left|]. cbv zeta in Hc.
  destruct Hc as [(_ & _ & ->)|(Hs & Hc)]; [by left|]. right.
  destruct (Hm (s_height s) (commit_value s hash qc content)) as (stt & E & Hlt & Hp). rewrite E in Hc.
  destruct Hc as (o2 & -> & Hc). simpl.
  destruct (get_proposer _ _ _ _) as [p|x|] eqn:Eg; [|by destruct (Hp x)|].
  - split; [f_equal; apply no_heights; eapply nc_goto; exact Hc|]. right.
    apply goto_inv in Hc as [(? & -> & _)|[(_ & _ & -> & _)|[(_ & _ & -> & _)|(_ & _ & -> & _)]]].
    + simpl in *. lia.
    + done.
    + done.
    + unfold moved_full. by destruct (st_interval stt).
  - destruct Hc as (-> & -> & ->). split; [done|by left].
Qed.
Theorem C37_commit_heights_increase :
  forall (T : Type) (D : EqDecision T) lc tenc tdec spill (b : boot T) is o s alive,
    run lc tenc tdec spill b is o s alive ->
    moves_on lc (b_env b) -> Forall (fun x => moves_on lc x.1) is ->
    StronglySorted N.lt (commit_heights o).
Proof.
  intros T D lc tenc tdec spill b is o s alive Hr Hb Hi.
  assert (StronglySorted N.lt (commit_heights o) /\
    (alive = true -> Forall (fun h => h < s_height s) (commit_heights o))) as [? _]; [|done].
  induction Hr as [s o r Hs|is o s e i s' o' r Hr IH Hs].
  - unfold on_start in Hs. apply logged_inv in Hs as (r' & Hs & Hrr).
    apply start_inv in Hs as [(_ & [->|(t & -> & _)])|(w0 & bs & Hbw & Hd & _ & [[_ ->]|(p & _ & Ht)])].
    1-3: simpl; split; [constructor|intros; constructor].
    destruct (bool_decide (wi_step w0 = SCommit)) eqn:Es.
    + unfold start_tail in Ht. rewrite Es in Ht.
      destruct (wi_lock w0) as [l|] eqn:El; [|unfold fail in Ht; simplify_eq; simpl; split; [constructor|intros; constructor]].
      destruct (commit_moves _ _ _ _ _ _ _ _ _ Hb Ht) as [E0|[E0 Hlt]]; rewrite E0; [split; [apply SSorted_nil|intros; apply Forall_nil; done]|].
      split; [by repeat constructor|]. intros Ha. apply Forall_singleton.
      destruct Hlt as [->|?]; [|done]. destruct Hrr as [[_ ->]|[? _]]; done.
    + apply nc_tail in Ht; [|by apply bool_decide_eq_false in Es].
      rewrite (no_heights _ Ht). split; [constructor|intros; constructor].
  - apply Forall_app in Hi as [Hi Hi2]. apply Forall_cons in Hi2 as [Hi2 _]. simpl in Hi2.
    destruct (IH Hi) as [IH1 IH2]. specialize (IH2 eq_refl). rewrite heights_app.
    assert ((exists hash, i = IEvent (EvCommit hash)) \/ forall h, i <> IEvent (EvCommit h)) as [[hash ->]|Hn].
    { destruct i as [m|[]|rs|m]; try (by right); left; eauto. }
    + pose proof Hs as Hs0. apply react_commit in Hs as [[-> ->]|(r' & Hs & Hrr & Hrp)]; [rewrite app_nil_r; by split|].
      assert (s_height s <= s_height s') as Hle.
      { eapply (mono_react lc tenc e (IEvent (EvCommit hash))). exact Hs0. }
      destruct (commit_moves _ _ _ _ _ _ _ _ _ Hi2 Hs) as [E0|[E0 Hlt]]; rewrite E0.
      { rewrite app_nil_r. split; [done|]. intros _. eapply Forall_impl; [exact IH2|]. simpl. intros. lia. }
      split.
      * clear -IH1 IH2. induction IH1 as [|h l IH1 IH H3]; simpl; [by repeat constructor|].
        apply Forall_cons in IH2 as [? ?]. constructor; [by apply IH|]. apply Forall_app. split; [done|]. by constructor.
      * intros Ha. assert (s_height s < s_height s') by (destruct Hlt as [->|?]; [rewrite Hrp in Ha by done; done|done]).
        apply Forall_app. split; [eapply Forall_impl; [exact IH2|]; simpl; intros; lia|]. by constructor.
    + pose proof (nc_react _ _ _ _ Hn _ _ _ _ Hs) as Hnc. rewrite (no_heights _ Hnc), app_nil_r. split; [done|].
      intros _. apply mono_react in Hs as (_ & Hle & _). eapply Forall_impl; [exact IH2|]. simpl. intros. lia.
Qed.

(** ** Concrete cases *)
(** C32: the toy follower sends a prevote and a precommit, the leader counts its own and sends a
    proposal; a validator whose propose, prevote and precommit steps timed out sends a choke. *)
Definition sent (o : list (action bytes)) : list (N * N * step) := omap leaves o.
Definition brake_history : list (env bytes * input bytes) :=
  ok_env nA <$> [IMsg (MStatus (nstatus 1)); IEvent (ev_new 1 0); IEvent (EvBrake 1 0 None)].
Example C32_example :
  sent (nouts nA None follower_history) = [(1, 0, SPrevote); (1, 0, SPrecommit)] /\
  sent (nouts nB None leader_history) = [(1, 0, SPropose); (1, 0, SPrevote); (1, 0, SPrecommit)] /\
  sent (nouts nA None brake_history) = [(1, 0, SBrake)] /\ nalive nA None brake_history = true.
Proof. by vm_compute. Qed.
(** The second theorem: in the follower's run the precommit's record carries the lock. *)
Example C32_lock_example :
  exists w, ASave w true ∈ nouts nA None follower_history /\ wi_step w = SPrecommit /\
    wi_lock w = Some (mkWalLock 0 pvqc blk).
Proof.
  exists (mkWalInfo 1 0 SPrecommit (Some (mkWalLock 0 pvqc blk)) (UFPrecommit mock_init_qc)).
  split; [|done]. apply elem_of_list_In. vm_compute. tauto.
Qed.

(** The node's own choke is counted before it is recorded: if writing the record fails, nothing
    is sent, yet with the chokes of two others the node makes the round change certificate of
    three out of four, its own unrecorded choke included. *)
Definition unrecorded_choke : list (env bytes * input bytes) :=
  (ok_env nA <$> [IMsg (MStatus (nstatus 1)); IEvent (ev_new 1 0)]) ++
  [(nenv nA false, IEvent (EvBrake 1 0 None))] ++
  (ok_env nA <$> [IMsg (MChoke (nchoke nB 1 0 (UFPrecommit mock_init_qc)));
                  IMsg (MChoke (nchoke nC 1 0 (UFPrecommit mock_init_qc)))]).
Theorem C32_own_choke_counted_unrecorded_refuted :
  exists is s o, nrun nA None is o s true /\
    (exists sc, AOwnChoke sc ∈ o /\ ck_height (sc_choke sc) = 1 /\ ck_round (sc_choke sc) = 0) /\
    (forall w, ASave w true ∈ o -> wi_step w <> SBrake) /\
    (exists t, ATrigger t ∈ o /\ t_type t = TContinueRound /\ t_height t = 1 /\ t_round t = 1) /\
    (forall sc, received is (IMsg (MChoke sc)) -> sc_addr sc = nB \/ sc_addr sc = nC) /\
    (exists q, cc_get_qc (s_chokes s) 0 = Some q /\ nA ∈ ac_voters q).
Proof.
  exists unrecorded_choke, (nstate nA None unrecorded_choke), (nouts nA None unrecorded_choke). split_and!.
  - apply nstate_run. by vm_compute.
  - exists (nchoke nA 1 0 (UFPrecommit mock_init_qc)). split; [|done]. apply elem_of_list_In. vm_compute. tauto.
  - assert (Forall (fun a => match a with ASave w true => wi_step w <> SBrake | _ => True end) (nouts nA None unrecorded_choke)) as F.
    { vm_compute. by repeat constructor. }
    intros w Hw. by apply (proj1 (Forall_forall _ _) F) in Hw.
  - exists (mk_trigger TContinueRound [] None 1 1). split; [|done]. apply elem_of_list_In. vm_compute. tauto.
  - assert (Forall (fun x : env bytes * input bytes => match x.2 with IMsg (MChoke sc) => sc_addr sc = nB \/ sc_addr sc = nC | _ => True end) unrecorded_choke) as F.
    { repeat (apply Forall_cons; split; [simpl; auto|]). by apply Forall_nil. }
    intros sc [e He]. by apply (proj1 (Forall_forall _ _) F) in He.
  - eexists. split; [vm_compute; reflexivity|]. apply elem_of_list_In. vm_compute. tauto.
Qed.

(** C34, C36, C37: two heights are committed in one run, with the matching certificates; a crash
    after either commit record leads to the same commit call. *)
Definition blk2 : bytes := nblock 2.
Definition pcqc2 := nqc x70 [nB; nC; nD] nC 2 0 Precommit (nhash blk2).
Definition two_heights : list (env bytes * input bytes) :=
  follower_history ++ (ok_env nA <$> [
    IEvent (ev_new 2 0); IMsg (MProposal (nprop nC 2 0 blk2 None)); IResp (mkVResp 2 0 (nhash blk2) true);
    IMsg (MAgg pcqc2); IEvent (EvCommit (nhash blk2))]).
Definition commits (o : list (action bytes)) : list (commit bytes) :=
  omap (fun a => match a with ACommit _ c => Some c | _ => None end) o.
Example C36_example :
  nalive nA None two_heights = true /\
  commits (nouts nA None two_heights) =
    [mkCommit 1 blk (mkProof 1 0 hsh (av_sig pcqc)); mkCommit 2 blk2 (mkProof 2 0 (nhash blk2) (av_sig pcqc2))].
Proof. by vm_compute. Qed.
Definition crec : walinfo bytes :=
  mkWalInfo 1 0 SCommit (Some (mkWalLock 0 pcqc blk)) (UFPrecommit mock_init_qc).
Example C34_example :
  ASave crec true ∈ nouts nA None follower_history /\
  wf_walinfo crec /\ encodable (walinfo_rlp ntenc crec) /\
  auth_contains (auth_update nvals) nA = true /\
  get_proposer nlc (auth_update nvals) 1 0 = Ok nB /\
  commits (nouts nA (Some (enc (walinfo_rlp ntenc crec))) []) = [mkCommit 1 blk (mkProof 1 0 hsh (av_sig pcqc))].
Proof.
  split; [apply elem_of_list_In; vm_compute; tauto|].
  split; [|by vm_compute]. split; [done|]. split; [done|].
  split; [intros a [= <-]; by repeat split|by repeat split].
Qed.
Example C37_example :
  moves_on nlc (nenv nA true) /\ Forall (fun x => moves_on nlc x.1) two_heights /\
  commit_heights (nouts nA None two_heights) = [1; 2].
Proof.
  assert (moves_on nlc (nenv nA true)) as Hm.
  { intros h c. eexists. split; [reflexivity|]. split; [simpl; lia|]. intros x. by apply round_robin_leader. }
  split; [done|]. split; [|by vm_compute].
  unfold two_heights. repeat (apply Forall_cons; split; [exact Hm|]). by apply Forall_nil.
Qed.

Print Assumptions C32_nothing_leaves_unrecorded.
Print Assumptions C32_vote_record_has_the_lock.
Print Assumptions C32_own_choke_counted_unrecorded_refuted.
Print Assumptions C34_commit_is_redone_after_crash.
Print Assumptions C36_commit_has_matching_proof.
Print Assumptions C37_commit_heights_increase.
