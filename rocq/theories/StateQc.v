(** * StateQc: validators in force, certificates built, certificates passed on. *)
From Verif Require Export StateSteps P_Coll P_Auth.
Set Default Proof Using "Type".

Lemma first_vote_in ops h r t a v : first_vote ops h r t a = Some v -> VVote v ∈ ops.
Proof.
  induction ops as [|op ops IH] using rev_ind; [done|].
  rewrite first_vote_snoc, elem_of_app, elem_of_list_singleton. destruct op as [w|q|h'|till]; simpl.
  - destruct (first_vote ops h r t a) as [u|] eqn:E; [intros; simplify_eq; auto|].
    unfold vote_at. destruct (_ && _); [|done]. intros; simplify_eq. by right.
  - auto.
  - destruct (_ =? _); [done|auto].
  - destruct (_ <? _); [done|auto].
Qed.
Lemma count_addrs_in vals l acc n :
  count_addrs (auth_update vals) l acc = Ok n -> forall a, a ∈ l -> a ∈ n_addr <$> vals.
Proof.
  revert acc. induction l as [|x l IH]; intros acc Hc a Ha; [by apply elem_of_nil in Ha|].
  simpl in Hc. destruct (get_vote_weight (auth_update vals) x) as [w| |] eqn:Ew; simpl in Hc; [|done..].
  apply elem_of_cons in Ha as [->|Ha]; [|by eapply IH].
  unfold get_vote_weight in Ew. destruct (a_vmap (auth_update vals) !! x) eqn:El; [|done].
  apply auth_update_vmap_dom. by rewrite El.
Qed.
Lemma count_hashes_hit a thr l x :
  count_hashes a thr l = Ok (Some x) ->
  exists as_ n, (x, as_) ∈ l /\ count_addrs a as_ 0 = Ok n /\ thr < n * 3.
Proof.
  induction l as [|[y as_] l IH]; simpl; [done|].
  destruct (count_addrs a as_ 0) as [n| |] eqn:Ec; simpl; [|done..].
  destruct (N.ltb_spec thr (n * 3)).
  - intros; simplify_eq. exists as_, n. split; [left|done].
  - intros Hc. destruct (IH Hc) as (b & m & Hb & ?). exists b, m. split; [by right|done].
Qed.
(** What a successful count means. *)
Lemma counted vals ops h r t x :
  counting_vote (auth_update vals) (vops ops) h r t = Ok (Some x) ->
  exists as_, NoDup as_ /\
    (forall a, a ∈ as_ <-> exists v, first_vote ops h r t a = Some v /\ v_hash (sv_vote v) = x) /\
    (forall a, a ∈ as_ -> a ∈ n_addr <$> vals) /\
    (distinct vals -> total_weight vals < 2 ^ 32 -> 2 * total_weight vals < 3 * weight_of as_ vals).
Proof.
  intros Hc. unfold counting_vote in Hc.
  destruct (vc_get_vote_map (vops ops) h r t) as [m| |] eqn:Em; simpl in Hc; [|done..].
  apply count_hashes_hit in Hc as (as_ & n & Hin & Hca & Hn).
  apply elem_of_list_fmap in Hin as ([y s] & E & Hy). unfold prod_map in E. simpl in E. injection E as -> ->.
  apply elem_of_map_to_list in Hy.
  destruct (C10_first_vote_per_validator ops h r t) as [_ Hmap].
  exists (elements s). split_and!.
  - apply NoDup_elements.
  - intros a. rewrite <-(Hmap m y a Em), elem_of_elements. split; [eauto|]. intros (s' & Hs & ?). by simplify_eq/=.
  - by eapply count_addrs_in.
  - intros Hd Ht. rewrite count_addrs_ok in Hca.
    + injection Hca as <-. unfold get_vote_weight_sum in Hn. rewrite auth_update_vsum in Hn.
      rewrite (w64_small (total_weight vals)), w64_small in Hn by (unfold U64; lia). lia.
    + done.
    + apply NoDup_elements.
    + by eapply count_addrs_in.
    + pose proof (weight_of_le (elements s) vals). lia.
Qed.

Section Q.
Context {T : Type} `{EqDecision T}.
Context (lc : lcfg) (tenc : T -> bytes) (tdec : bytes -> option T) (spill : bool).
Local Notation run := (run lc tenc tdec spill).

(** ** One iteration of the loop is one handler, or nothing *)
Definition core (e : env T) (i : input T) : option (M T unit) :=
  match i with
  | IMsg (MProposal sp) => Some (handle_signed_proposal lc e sp)
  | IMsg (MVote v) => Some (handle_signed_vote e v)
  | IMsg (MAgg q) => Some (handle_aggregated_vote e q)
  | IMsg (MChoke sc) => Some (handle_signed_choke e sc)
  | IMsg (MStatus stt) => Some (goto_new_height e stt)
  | IEvent (EvNewRound _ round lr lp from _ _) => Some (handle_new_round lc tenc e round lr lp from)
  | IEvent (EvPrevote _ _ hash lr) => Some (handle_vote_event e hash Prevote lr)
  | IEvent (EvPrecommit _ _ hash lr) => Some (handle_vote_event e hash Precommit lr)
  | IEvent (EvCommit hash) => Some (handle_commit lc e hash)
  | IEvent (EvBrake height round lr) =>
      Some (get (fun s => if negb (height =? s_height s) then ret tt else handle_brake e round lr))
  | IResp r => Some (handle_resp e r)
  | _ => None
  end.
(** The handler is skipped. *)
Definition skipped (i : input T) (s : st T) : Prop :=
  (s_power s = false /\ (forall stt, i <> IMsg (MStatus stt))) \/
  (s_stopped s = true /\ exists ev, i = IEvent ev).
Lemma react_core e i x s s' o r :
  core e i = Some x -> react lc tenc e i s = (s', o, r) ->
  (skipped i s /\ s' = s /\ o = [] /\ r = Ok (negb (s_stopped s && match i with IEvent _ => true | _ => false end))) \/
  (~ skipped i s /\ exists r', x s = (s', o, r') /\ ((r' = Panic /\ r = Panic) \/ (r' <> Panic /\ r = Ok true))).
Proof.
  clear tdec spill. intros Hc Hr.
  assert (forall y : M T unit, bind (logged y) (fun _ => ret true) s = (s', o, r) ->
            exists r', y s = (s', o, r') /\ ((r' = Panic /\ r = Panic) \/ (r' <> Panic /\ r = Ok true))) as Hl.
  { intros y Hy. unfold bind, logged, ret in Hy. destruct (y s) as [[s1 o1] [a|z|]]; simplify_eq; rewrite ?app_nil_r;
      eexists; (split; [done|]); auto. }
  destruct i as [m|ev|rs|m]; [done|..].
  - unfold react, on_event, get in Hr. destruct (s_stopped s) eqn:Es.
    { left. unfold ret in Hr. simplify_eq. split_and!; try done. right; eauto. }
    destruct (s_power s) eqn:Ep; simpl in Hr.
    2: { left. unfold ret in Hr. simplify_eq. split_and!; try done. left; split; [done|by intros]. }
    right. split; [intros [[? _]|[? _]]; congruence|]. apply Hl in Hr as (r0 & Hr & Hr0).
    destruct ev; simpl in Hc, Hr; simplify_eq.
    5: { unfold get in Hr |- *. destruct (negb _).
         - unfold ret in *. simplify_eq. eauto.
         - apply logged_inv in Hr as (r1 & Hr & Hr1). exists r1. split; [done|]. naive_solver. }
    all: apply logged_inv in Hr as (r1 & Hr & Hr1); exists r1; (split; [done|]); naive_solver.
  - simpl in Hc. simplify_eq. unfold react, on_resp in Hr. unfold bind, get in Hr. destruct (s_power s) eqn:Ep; simpl in Hr.
    + right. split; [by intros [[E _]|[_ [? E]]]; [rewrite Ep in E|]|]. by apply (Hl (handle_resp e rs)) in Hr.
    + left. unfold ret in Hr. simplify_eq. split_and!; try done; [left; split; [done|by intros]|]. by rewrite andb_false_r.
  - assert (handle_msg lc e m s = if negb (s_power s) && negb (is_rich_status m) then ret tt s else logged x s) as Em.
    { unfold handle_msg, get. destruct (_ && _); [done|]. destruct m; simpl in Hc; simplify_eq; done. }
    unfold react, bind, on_msg in Hr. rewrite Em in Hr. clear Em.
    destruct (negb (s_power s) && negb (is_rich_status m)) eqn:Eb.
    + unfold ret in Hr. simplify_eq. left. split_and!; try done; [|by rewrite andb_false_r].
      apply andb_true_iff in Eb as [E1 E2]. left. split; [by destruct (s_power _)|]. intros stt [= ->]. done.
    + right. split.
      { intros [[E1 E2]|[_ [? ?]]]; [|done]. rewrite E1 in Eb. destruct m; try done. by destruct (E2 s0). }
      apply Hl. unfold bind. destruct (logged x s) as [[s1 o1] [a|z|]] eqn:El; simpl in *; try done.
      apply logged_inv in El as (? & _ & [[_ ?]|[_ ?]]); done.
Qed.

(** ** The validators in force *)
Definition authR (e : env T) (i : option status) (s : st T) (o : list (action T)) (s' : st T) : Prop :=
  s_auth s' = s_auth s \/
  (exists stt, i = Some stt /\ s_auth s' = auth_update (st_auth stt)) \/
  (exists h c stt, ACommit h c ∈ o /\ e_commit e h c = Some stt /\ s_auth s' = auth_update (st_auth stt)).
Lemma authR_comp e i : comp (authR e i).
Proof.
  clear lc tenc tdec spill. split; [by left|]. intros s1 s2 s3 o1 o2 H1 [E|[H2|(h & c & stt & Hin & H2)]].
  - destruct H1 as [H1|[(stt & ? & ?)|(h & c & stt & ? & ? & ?)]].
    + left. congruence.
    + right. left. exists stt. split; [done|congruence].
    + right. right. exists h, c, stt. split_and!; [set_solver|done|congruence].
  - by right; left.
  - right. right. exists h, c, stt. split; [set_solver|done].
Qed.
Lemma authR_same e i s o s' : s_auth s' = s_auth s -> authR e i s o s'.
Proof. by left. Qed.
Lemma authR_goto e e' stt : keeps (authR e (Some stt)) (goto_new_height e' stt).
Proof.
  intros s s' o r Hg.
  apply goto_inv in Hg as [(_ & -> & _)|[(_ & _ & -> & _)|[(_ & _ & -> & _)|(_ & _ & -> & _)]]]; try by left.
  right. left. exists stt. split; [done|]. unfold moved_full. destruct (st_interval stt); done.
Qed.
Lemma authR_commit e hash : keeps (authR e None) (handle_commit lc e hash).
Proof.
  intros s s' o r Hc. apply commit_inv in Hc as [(-> & _)|(content & qc & _ & _ & Hc)]; [by left|].
  cbv zeta in Hc. destruct Hc as [(_ & -> & _)|(_ & Hc)]; [by left|].
  destruct (e_commit e _ _) as [stt|] eqn:Ec; [|destruct Hc as (-> & _); by left].
  destruct Hc as (o2 & -> & Hc). right. right.
  exists (s_height s), (commit_value s hash qc content), stt. split; [right; left|]. split; [done|].
  destruct (get_proposer _ _ _ _); [|destruct Hc as (-> & _); done..].
  apply goto_inv in Hc as [(_ & -> & _)|[(_ & _ & -> & _)|[(_ & _ & -> & _)|(_ & _ & -> & _)]]]; try done.
  unfold moved_full. destruct (st_interval stt); done.
Qed.
Definition status_in (i : input T) : option status :=
  match i with IMsg (MStatus stt) => Some stt | _ => None end.
Lemma authR_react e i : keeps (authR e (status_in i)) (react lc tenc e i).
Proof.
  apply (keeps_react _ _ _ (authR_comp _ _)).
  - intros m ->. apply (keeps_msg _ _ (authR_comp _ _)); intros; subst; try by left.
    4: apply authR_goto.
    all: simpl; keeps_go (authR_comp e None); by left.
  - intros m _. keeps_go (authR_comp e (status_in i)); by left.
  - intros m _. keeps_go (authR_comp e (status_in i)); by left.
  - intros m ->. simpl. destruct m; simpl.
    4: apply keeps_logged, authR_commit.
    all: keeps_go (authR_comp e None); left; repeat case_match; done.
Qed.
(** A validator list supplied to the node: at start, by a rich status, or by a commit's answer. *)
Definition supplied (b : boot T) (is : list (env T * input T)) (o : list (action T)) (l : list vnode) : Prop :=
  l = b_vals b \/
  (exists stt, received is (IMsg (MStatus stt)) /\ st_auth stt = l) \/
  (exists e h c stt, (e = b_env b \/ exists i, (e, i) ∈ is) /\ ACommit h c ∈ o /\
     e_commit e h c = Some stt /\ st_auth stt = l).
Lemma run_auth b is o s al : run b is o s al -> exists l, s_auth s = auth_update l /\ supplied b is o l.
Proof.
  induction 1 as [s o r Hs|is o s e i s' o' r Hr IH Hs].
  - unfold on_start in Hs. apply logged_inv in Hs as (r' & Hs & _).
    set (s0 := st_new _ _ _ _) in *.
    apply start_inv in Hs as [(-> & _)|(w & bs & Hw & Hd & _ & [[-> ->]|(p & Hg & Ht)])].
    1-2: exists (b_vals b); split; [done|by left].
    assert (authR (b_env b) None (loaded_state w (bool_decide (p = s_addr s0)) p s0) o s) as Ha.
    { eapply (keeps_start_tail lc _ (authR_comp _ _)); [..|exact Ht].
      - apply authR_commit.
      - intros rr lr. keeps_go (authR_comp (b_env b) None); by left.
      - by left. }
    assert (s_auth (loaded_state w (bool_decide (p = s_addr s0)) p s0) = auth_update (b_vals b)) as E0.
    { unfold loaded_state. destruct (wi_lock w); done. }
    destruct Ha as [E|[(stt & ? & _)|(h & c & stt & Hin & Hc & E)]]; [|done|].
    + exists (b_vals b). split; [congruence|by left].
    + exists (st_auth stt). split; [done|]. right. right. exists (b_env b), h, c, stt. auto.
  - destruct IH as (l & El & Hl). apply authR_react in Hs as [E|[(stt & E1 & E)|(h & c & stt & Hin & Hc & E)]].
    + exists l. split; [congruence|]. destruct Hl as [?|[(stt & ? & ?)|(e' & h & c & stt & He & ? & ? & ?)]]; [by left|right; left|right; right].
      * exists stt. split; [by apply received_app|done].
      * exists e', h, c, stt. split_and!; try done; [|set_solver].
        destruct He as [->|[i' ?]]; [by left|right; exists i'; set_solver].
    + exists (st_auth stt). split; [done|]. right. left. exists stt. split; [|done].
      destruct i as [m|ev|rs|m]; try done. destruct m; try done. simpl in E1. simplify_eq. apply received_last.
    + exists (st_auth stt). split; [done|]. right. right. exists e, h, c, stt. split_and!; try done; [|set_solver].
      right. exists i. set_solver.
Qed.

(** ** Voting *)
Definition own_vote (sig : bytes) (t : vtype) (hash : bytes) (s : st T) : svote :=
  mkSVote sig (mkVote (s_height s) (s_round s) t hash) (s_addr s).
Definition with_vote (v : svote) (s : st T) : st T :=
  set_s_votes (vc_insert_vote (s_votes s) (v_hash (sv_vote v)) v (sv_voter v)) s.
Lemma vote_event_inv e hash t lr s s' o r :
  handle_vote_event (T:=T) e hash t lr s = (s', o, r) ->
  (s' = s /\ o = [] /\ r <> Panic) \/
  exists sig l,
    cr_sign (e_crypto e) (cr_hash (e_crypto e) (enc (vote_rlp (mkVote (s_height s) (s_round s) t hash)))) = Some sig /\
    lock_to_save s lr = Some l /\
    let w := mkWalInfo (s_height s) (s_round s) (vtype_step t) l (s_from s) in
    let v := own_vote sig t hash s in
    (e_save e w = false /\ s' = s /\ o = [ASave w false] /\ r <> Panic) \/
    (e_save e w = true /\ exists o2,
       if s_leader s then
         o = ASave w true :: AOwnVote v :: o2 /\ vote_process e t (with_vote v s) = (s', o2, r)
       else
         o = ASave w true :: ATransmit (s_laddr s) (MVote v) :: o2 /\ vote_process e t s = (s', o2, r)).
Proof.
  intros Hv. unfold handle_vote_event, get in Hv.
  apply bind_inv in Hv as [(sv & s1 & o1 & o2 & H1 & H2 & ->)|[(y & H1 & ->)|(H1 & ->)]];
    apply sign_vote_inv in H1 as (-> & -> & H1); try by left.
  2: by case_match.
  case_match eqn:Esig; [|done]. injection H1 as ->. cbn [app].
  apply bind_inv in H2 as [(u & s1 & o1 & o3 & H1 & H2 & ->)|[(y & H1 & ->)|(H1 & ->)]];
    apply save_lr_inv in H1 as [-> H1]; (destruct (lock_to_save s lr) as [l|] eqn:El; [|destruct H1 as [-> ?]; by left]);
    right; eexists _, l; (split; [done|]); (split; [done|]); cbv zeta in H1 |- *; destruct H1 as [-> H1];
    (destruct (e_save _ _) eqn:Es; [|try done; left; split_and!; try done; congruence]); try done.
  right. split; [done|].
  apply bind_inv in H2 as [(u' & s2 & o4 & o5 & H3 & H2 & ->)|[(y & H3 & ->)|(H3 & ->)]].
  2-3: unfold bind, emit, modify, transmit, get in H3; destruct (s_leader s); simplify_eq.
  exists o5. destruct (s_leader s).
  - unfold bind, emit, modify in H3. injection H3 as <- <-. split; [done|]. exact H2.
  - unfold transmit, get, emit in H3. injection H3 as <- <-. split; [done|]. exact H2.
Qed.

(** ** Receiving certificates, chokes and answers of check_block *)
Definition with_qc (q : aggvote) (s : st T) : st T := set_s_votes (vc_set_qc (s_votes s) q) s.
Definition qc_trigger (q : aggvote) : trigger :=
  mk_trigger (vtype_trigger (av_type q)) (av_hash q) None (av_round q) (av_height q).
(** A certificate that is too old or too far ahead to be kept. *)
Definition qc_dropped (s : st T) (q : aggvote) : Prop :=
  av_height q < s_height s \/
  (s_height s < av_height q /\
     ~ (av_height q < w64 (s_height s + FUTURE_HEIGHT_GAP) /\ av_round q < FUTURE_ROUND_GAP)) \/
  (av_height q = s_height s /\ av_round q < s_round s /\ (av_type q = Prevote \/ av_hash q = [])).
Lemma agg_inv e q s s' o r :
  handle_aggregated_vote (T:=T) e q s = (s', o, r) ->
  (qc_dropped s q /\ s' = s /\ o = [] /\ r = Ok tt) \/
  (s_height s < av_height q /\ ~ qc_dropped s q /\ s' = with_qc q s /\ o = [] /\ r = Ok tt) \/
  (av_height q = s_height s /\ ~ qc_dropped s q /\ s' = with_qc q s /\
   ((o = [] /\ (av_hash q <> [] /\ try_get_full_txs s (av_hash q) = false /\ r = Ok tt \/
                e_trigger e (qc_trigger q) = false /\ r = Err ETriggerSMR)) \/
    (o = [ATrigger (qc_trigger q)] /\ try_get_full_txs s (av_hash q) = true /\ r = Ok tt))).
Proof.
  clear lc tenc tdec spill.
  intros Ha. unfold handle_aggregated_vote, get in Ha.
  destruct (N.ltb_spec (av_height q) (s_height s)).
  { left. unfold ret in Ha. simplify_eq. split_and!; try done. by left. }
  destruct (N.ltb_spec (s_height s) (av_height q)).
  { destruct (N.ltb_spec (av_height q) (w64 (s_height s + FUTURE_HEIGHT_GAP)));
    destruct (N.ltb_spec (av_round q) FUTURE_ROUND_GAP); simpl in Ha.
    1: right; left; unfold modify in Ha; injection Ha as <- <- <-; split_and!; try done;
       intros [?|[[_ Hn]|[? _]]]; [lia|by apply Hn|lia].
    all: left; unfold ret in Ha; simplify_eq; split_and!; try done; right; left; split; [done|lia]. }
  assert (av_height q = s_height s) as Eh by lia.
  destruct (bool_decide (av_type q = Prevote) && (av_round q <? s_round s)) eqn:E1.
  { apply andb_true_iff in E1 as [E1 E2]. apply bool_decide_eq_true in E1. apply N.ltb_lt in E2.
    left. unfold ret in Ha. simplify_eq. split_and!; try done. right. right. auto. }
  destruct (bool_decide (av_type q = Precommit) && bool_decide (av_hash q = []) && (av_round q <? s_round s)) eqn:E2.
  { apply andb_true_iff in E2 as [E2 E4]. apply andb_true_iff in E2 as [E2 E3].
    apply bool_decide_eq_true in E2, E3. apply N.ltb_lt in E4.
    left. unfold ret in Ha. simplify_eq. split_and!; try done. right. right. auto. }
  right. right. split; [done|]. split.
  { intros [?|[[? _]|(_ & Hr & Ht)]]; [lia|lia|]. apply N.ltb_lt in Hr. rewrite Hr in E1, E2.
    rewrite andb_true_r in E1, E2. apply bool_decide_eq_false in E1.
    destruct Ht as [?|Ht]; [done|]. rewrite (bool_decide_eq_true_2 (av_hash q = []) Ht), andb_true_r in E2.
    apply bool_decide_eq_false in E2. by destruct (av_type q). }
  clear E1 E2. unfold bind at 1, modify in Ha.
  fold (with_qc q s) in Ha. change (try_get_full_txs (with_qc q s) (av_hash q)) with (try_get_full_txs s (av_hash q)) in Ha.
  fold (qc_trigger q) in Ha.
  destruct (negb (bool_decide (av_hash q = [])) && negb (try_get_full_txs s (av_hash q))) eqn:Eb.
  - unfold ret in Ha. injection Ha as <- <- <-. split; [done|]. left. split; [done|]. left.
    apply andb_true_iff in Eb as [E1 E2]. apply negb_true_iff in E1, E2. apply bool_decide_eq_false in E1. done.
  - rewrite eta3 in Ha. change ((trigger_smr e (qc_trigger q) (with_qc q s)) = (s', o, r)) in Ha.
    unfold trigger_smr, emit, fail in Ha. destruct (e_trigger e (qc_trigger q)).
    + injection Ha as <- <- <-. split; [done|]. right. split_and!; try done.
      destruct (av_hash q) eqn:Ehq; [done|]. rewrite bool_decide_eq_false_2 in Eb by done.
      simpl in Eb. by apply negb_false_iff in Eb.
    + injection Ha as <- <- <-. split; [done|]. left. split; [done|]. by right.
Qed.
Definition with_cqc (r : N) (q : aggchoke) (s : st T) : st T := set_s_chokes (cc_set_qc (s_chokes s) r q) s.
Definition round_trigger (round height : N) : trigger :=
  mk_trigger TContinueRound [] None (w64 (round + 1)) height.
Lemma aggchoke_inv e q s s' o r :
  handle_aggregated_choke (T:=T) e q s = (s', o, r) ->
  ((length (ac_voters q) * 3 <= auth_len (s_auth s) * 2)%nat /\ s' = s /\ o = [] /\ r = Err EBrake) \/
  ((auth_len (s_auth s) * 2 < length (ac_voters q) * 3)%nat /\ s' = with_cqc (ac_round q) q s /\
   ((o = [] /\ r = Err ETriggerSMR) \/ (o = [ATrigger (round_trigger (ac_round q) (s_height s))] /\ r = Ok tt))).
Proof.
  unfold handle_aggregated_choke, get. intros Ha.
  destruct (Nat.leb_spec (length (ac_voters q) * 3) (auth_len (s_auth s) * 2)).
  - left. unfold fail in Ha. by simplify_eq.
  - right. split; [done|]. unfold bind, modify, trigger_smr, emit, fail in Ha.
    fold (round_trigger (ac_round q) (s_height s)) in Ha. destruct (e_trigger e _); simpl in Ha; injection Ha as <- <- <-; auto.
Qed.
Lemma check_choke_inv e s s' o r :
  check_choke_above_threshold (T:=T) e s = (s', o, r) ->
  (s' = s /\ o = [] /\
     (r = Ok tt -> forall k, cc_max_round (s_chokes s) (auth_len (s_auth s)) = Some k -> k < s_round s)) \/
  exists k l sig, cc_max_round (s_chokes s) (auth_len (s_auth s)) = Some k /\ s_round s <= k /\
    cc_get_chokes (s_chokes s) k = Some l /\
    cr_aggregate (e_crypto e) (sc_sig <$> l) (sc_addr <$> l) = Some sig /\
    s' = with_cqc k (mkAggChoke (s_height s) k sig (sc_addr <$> l)) s /\
    ((o = [] /\ r = Err ETriggerSMR) \/ (o = [ATrigger (round_trigger k (s_height s))] /\ r = Ok tt)).
Proof.
  unfold check_choke_above_threshold, get. intros Ha.
  destruct (cc_max_round _ _) as [k|] eqn:Ek.
  2: { left. unfold ret in Ha. by simplify_eq. }
  destruct (N.ltb_spec k (s_round s)).
  { left. unfold ret in Ha. simplify_eq. split_and!; try done. intros _ k' [= <-]. done. }
  destruct (cc_get_chokes _ k) as [l|] eqn:El.
  2: { left. unfold lift in Ha. by simplify_eq. }
  cbv zeta in Ha. unfold bind at 1, aggregate_signatures in Ha.
  destruct (cr_aggregate _ _ _) as [sig|] eqn:Eg.
  2: { left. unfold fail in Ha. by simplify_eq. }
  right. exists k, l, sig. split_and!; try done. all: unfold ret, bind, modify, trigger_smr, emit, fail in Ha;
    fold (round_trigger k (s_height s)) in Ha; destruct (e_trigger e _); simpl in Ha; injection Ha as <- <- <-; auto.
Qed.
Lemma choke_inv e sc s s' o r :
  handle_signed_choke (T:=T) e sc s = (s', o, r) ->
  let ck := sc_choke sc in
  ((ck_height ck <> s_height s \/ ck_round ck < s_round s) /\ s' = s /\ o = [] /\ r = Ok tt) \/
  (ck_height ck = s_height s /\ s_round s < ck_round ck /\
     match ck_from ck with
     | UFPrevote q | UFPrecommit q => handle_aggregated_vote e q s = (s', o, r)
     | UFChoke q => handle_aggregated_choke e q s = (s', o, r)
     end) \/
  (ck_height ck = s_height s /\ ck_round ck = s_round s /\
     check_choke_above_threshold e (set_s_chokes (cc_insert (s_chokes s) (ck_round ck) sc) s) = (s', o, r)).
Proof.
  cbv zeta. unfold handle_signed_choke, get. intros Ha.
  destruct (N.eqb_spec (ck_height (sc_choke sc)) (s_height s)); simpl in Ha.
  2: { left. unfold ret in Ha. simplify_eq. auto. }
  destruct (N.ltb_spec (ck_round (sc_choke sc)) (s_round s)).
  { left. unfold ret in Ha. simplify_eq. auto. }
  right. destruct (N.ltb_spec (s_round s) (ck_round (sc_choke sc))).
  - left. destruct (ck_from (sc_choke sc)); done.
  - right. split_and!; [done|lia|]. unfold bind, modify in Ha. cbn [app] in Ha. by rewrite eta3 in Ha.
Qed.
Definition with_full (rs : vresp) (s : st T) : st T := set_s_full (<[vr_hash rs := vr_pass rs]> (s_full s)) s.
Lemma resp_inv e rs s s' o r :
  handle_resp (T:=T) e rs s = (s', o, r) ->
  (vr_height rs <> s_height s /\ s' = s /\ o = []) \/
  (vr_height rs = s_height s /\ s' = with_full rs s /\
   (o = [] \/ exists q t, o = [ATrigger (mk_trigger (vtype_trigger t) (av_hash q) None (av_round q) (av_height q))] /\
      vc_get_qc_by_hash (s_votes s) (s_height s) (vr_hash rs) t = Some q /\
      (t = Prevote -> vc_get_qc_by_hash (s_votes s) (s_height s) (vr_hash rs) Precommit = None /\
                      av_round q = s_round s))).
Proof.
  unfold handle_resp, get. intros Ha.
  destruct (N.eqb_spec (vr_height rs) (s_height s)); simpl in Ha.
  2: { left. unfold ret in Ha. by simplify_eq. }
  right. split; [done|]. unfold bind, modify in Ha. fold (with_full rs s) in Ha.
  destruct (vc_get_qc_by_hash _ _ _ Precommit) as [q|] eqn:E1.
  { rewrite eta3 in Ha. unfold trigger_smr, emit, fail in Ha.
    destruct (e_trigger e _); injection Ha as <- <- <-; (split; [done|]); [right|by left]. by exists q, Precommit. }
  destruct (vc_get_qc_by_hash _ _ _ Prevote) as [q|] eqn:E2.
  2: { unfold ret in Ha. injection Ha as <- <- <-. auto. }
  destruct (N.eqb_spec (av_round q) (s_round s)).
  2: { unfold ret in Ha. injection Ha as <- <- <-. auto. }
  rewrite eta3 in Ha. unfold trigger_smr, emit, fail in Ha.
  destruct (e_trigger e _); injection Ha as <- <- <-; (split; [done|]); [right|by left]. by exists q, Prevote.
Qed.

(** ** Certificates built *)
Lemma publish_inv e hash t s s' o r :
  publish_qc (T:=T) e hash t s = (s', o, r) ->
  (o = [] /\ s' = s) \/
  exists l sig, vc_get_votes (s_votes s) (s_height s) (s_round s) t hash = Ok l /\
    let vs := ksort sv_voter l in
    cr_aggregate (e_crypto e) (sv_sig <$> vs) (sv_voter <$> vs) = Some sig /\
    let q := mkAggVote (mkAggSig sig (voters_bitmap (s_auth s) (sv_voter <$> vs))) t (s_height s) (s_round s)
               hash (s_addr s) in
    s' = set_s_votes (vc_set_qc (s_votes s) q) s /\
    exists tr, o = ABroadcast (MAgg q) :: tr /\
      (tr = [] \/
       (tr = [ATrigger (mk_trigger (vtype_trigger t) hash None (s_round s) (s_height s))] /\
        try_get_full_txs s hash = true)).
Proof.
  intros Hp. unfold publish_qc in Hp.
  apply bind_inv in Hp as [(q & s1 & o1 & o2 & H1 & H2 & ->)|[(? & H1 & ->)|(H1 & ->)]].
  2-3: left; unfold generate_qc, get in H1; minv; ro_subst;
     repeat match goal with Ha : aggregate_signatures _ _ _ _ = _ |- _ =>
       unfold aggregate_signatures in Ha end; minv; done.
  right. unfold generate_qc, get in H1.
  destruct (vc_get_votes _ _ _ _ _) as [l| |] eqn:El; unfold bind at 1, lift at 1 in H1; [|done..].
  exists l. cbv zeta in H1. unfold aggregate_signatures in H1.
  destruct (cr_aggregate _ _ _) as [sig|] eqn:Ea; unfold ret, bind, fail in H1; [|done]. injection H1 as <- <- <-.
  exists sig. split; [done|]. cbv zeta. split; [done|].
  unfold bind, modify, broadcast, emit, get in H2. simpl in H2.
  change (try_get_full_txs _ hash) with (try_get_full_txs s hash) in H2.
  destruct (try_get_full_txs s hash); unfold ret in H2.
  - destruct (trigger_smr e _ _) as [[s2 o3] r2] eqn:Et. apply trigger_inv in Et as [-> [[-> ->]|[-> ->]]]; simplify_eq;
      (split; [done|]); eexists; (split; [reflexivity|]); auto.
  - simplify_eq. split; [done|]. eexists; split; [reflexivity|]; auto.
Qed.
Definition bqc (a : action T) : bool := match a with ABroadcast (MAgg _) => true | _ => false end.
Definition no_bqc (_ : st T) (o : list (action T)) (_ : st T) : Prop := Forall (fun a => bqc a = false) o.
Lemma nb_comp : comp no_bqc.
Proof. split; [intros s0; by apply Forall_nil|intros s1 s2 s3 o1 o2 H1 H2; by apply Forall_app]. Qed.
Lemma nb_goto e stt : keeps no_bqc (goto_new_height (T:=T) e stt).
Proof.
  intros s s' o r Hg.
  apply goto_inv in Hg as [(_ & _ & -> & _)|[(_ & _ & _ & -> & _)|[(_ & _ & _ & -> & _)|(_ & _ & _ & tr & -> & Ht)]]];
    try by repeat constructor.
  constructor; [done|]. apply Forall_app. split.
  - apply Forall_fmap, Forall_true. done.
  - destruct Ht as [[-> _]|[-> _]]; by repeat constructor.
Qed.
Local Hint Resolve nb_goto : keepsdb.
Ltac nb := by repeat constructor.
Lemma nb_tail e w : keeps no_bqc (start_tail (T:=T) lc e w).
Proof.
  apply (keeps_start_tail lc _ nb_comp).
  - intros h. keeps_go nb_comp; nb.
  - intros rr lr. keeps_go nb_comp; nb.
  - intros; nb.
Qed.
Lemma nb_react e i :
  (forall v, i <> IMsg (MVote v)) ->
  (forall h r x lr, i <> IEvent (EvPrevote h r x lr) /\ i <> IEvent (EvPrecommit h r x lr)) ->
  keeps no_bqc (react lc tenc e i).
Proof.
  intros Hi1 Hi2. apply (keeps_react _ _ _ nb_comp).
  - intros m ->. apply (keeps_msg _ _ nb_comp); intros; subst; try nb; try (by destruct (Hi1 sv)).
    all: keeps_go nb_comp; nb.
  - intros m _. keeps_go nb_comp; nb.
  - intros m _. keeps_go nb_comp; nb.
  - intros m ->. destruct m; try (by destruct (Hi2 height round hash lock_round)).
    all: keeps_go nb_comp; nb.
Qed.
End Q.
