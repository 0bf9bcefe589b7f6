(** * P_Cert: certificates the node builds (C39) and certificates it acts on (C38). *)
From Verif Require Export StateQc StateEx.
Set Default Proof Using "Type".

Section C.
Context {T : Type} `{EqDecision T}.
Context (lc : lcfg) (tenc : T -> bytes) (tdec : bytes -> option T) (spill : bool).
Local Notation run := (run lc tenc tdec spill).
Local Notation react := (react lc tenc).

(** ** C39 *)
(** [q] is backed by [vs], of validators [l]. *)
Definition backed (l : list vnode) (vs : list svote) (q : aggvote) : Prop :=
  (forall v, v ∈ vs -> sv_vote v = to_vote q) /\
  NoDup (sv_voter <$> vs) /\
  (forall v, v ∈ vs -> sv_voter v ∈ n_addr <$> l) /\
  (distinct l -> total_weight l < 2 ^ 32 ->
     2 * total_weight l < 3 * weight_of (sv_voter <$> vs) l /\
     ascending (sv_voter <$> vs) /\
     get_voters (auth_update l) (as_bitmap (av_sig q)) = sv_voter <$> vs).
Lemma weight_of_ext (x y : list bytes) l : (forall a, a ∈ x <-> a ∈ y) -> weight_of x l = weight_of y l.
Proof.
  clear lc tenc tdec spill. intros Hx. unfold weight_of, weight_where. induction l as [|n l IH]; [done|]. simpl.
  rewrite IH. f_equal. by rewrite (bool_decide_ext _ _ (Hx (n_addr n))).
Qed.
Lemma published ops l e hash t s s' o r q :
  s_votes s = vops ops -> s_auth s = auth_update l ->
  counting_vote (s_auth s) (s_votes s) (s_height s) (s_round s) t = Ok (Some hash) ->
  publish_qc (T:=T) e hash t s = (s', o, r) -> ABroadcast (MAgg q) ∈ o ->
  av_height q = s_height s /\ av_round q = s_round s /\ av_type q = t /\ av_leader q = s_addr s /\
  exists vs, backed l vs q /\ (forall v, v ∈ vs -> VVote v ∈ ops) /\
    cr_aggregate (e_crypto e) (sv_sig <$> vs) (sv_voter <$> vs) = Some (as_sig (av_sig q)).
Proof.
  intros Ev Ea Hc Hp Hin. rewrite Ea, Ev in Hc. apply counted in Hc as (as_ & Hnd & Has & Hsub & Hw).
  apply publish_inv in Hp as [[-> _]|(lv & sig & Hl & Hag & -> & tr & -> & Htr)]; [by apply elem_of_nil in Hin|].
  apply elem_of_cons in Hin as [E|Hin].
  2: { destruct Htr as [->|[-> _]]; [by apply elem_of_nil in Hin|]. by apply elem_of_list_singleton in Hin. }
  injection E as ->. cbv zeta in Hag. simpl. split_and!; try done.
  exists (ksort sv_voter lv). rewrite Ev in Hl.
  destruct (C10_first_vote_per_validator ops (s_height s) (s_round s) t) as [Hg _]. specialize (Hg hash).
  rewrite Hl in Hg. destruct Hg as [Hn Hg].
  assert (forall v, v ∈ ksort sv_voter lv <-> v ∈ lv) as Hk by (intros v; by rewrite ksort_perm).
  assert (forall a, a ∈ sv_voter <$> lv <-> a ∈ as_) as Hsame.
  { intros a. rewrite Has, elem_of_list_fmap. split.
    - intros (v & -> & Hv). apply Hg in Hv as [? ?]. eauto.
    - intros (v & Hf & Hx). exists v. assert (sv_voter v = a) as <-; [|split; [done|]; by apply Hg].
      apply first_vote_at in Hf as (_ & _ & _ & ?). done. }
  assert (forall v, v ∈ lv -> sv_voter v ∈ n_addr <$> l) as Hmem.
  { intros v Hv. apply Hsub, Hsame. apply elem_of_list_fmap. eauto. }
  split_and!; [|intros v Hv; apply Hk, Hg in Hv as [Hv _]; by eapply first_vote_in|done].
  split_and!.
  - intros v Hv. apply Hk, Hg in Hv as [Hv Hx]. apply first_vote_at in Hv as (H1 & H2 & H3 & _).
    unfold to_vote. simpl. destruct v as [? [h r' t' x] ?]; simpl in *. by subst.
  - by rewrite ksort_perm.
  - intros v Hv. by apply Hmem, Hk.
  - intros Hd Ht. destruct (C09_bitmap_names_exactly_the_voters l lv Hd Hn Hmem) as (A1 & A2 & A3 & _).
    split_and!; [|done|by rewrite Ea].
    rewrite (weight_of_ext _ as_); [by apply Hw|]. intros a. by rewrite A2.
Qed.

Lemma vops_snoc ops op : vops (ops ++ [op]) = vop_run (vops ops) op.
Proof. unfold vops. by rewrite foldl_app. Qed.
(** The last vote of a history may be the one being handled. *)
Definition fresh_vote (i : input T) (o : list (action T)) (ops : list vop) (v : svote) : Prop :=
  VVote v ∈ ops \/ i = IMsg (MVote v) \/ AOwnVote v ∈ o.
Lemma built ops l e i s s' o r q :
  s_votes s = vops ops -> s_auth s = auth_update l ->
  react e i s = (s', o, r) -> ABroadcast (MAgg q) ∈ o ->
  av_height q = s_height s /\ av_round q = s_round s /\ av_leader q = s_addr s /\
  exists vs, backed l vs q /\ (forall v, v ∈ vs -> fresh_vote i o ops v) /\
    cr_aggregate (e_crypto e) (sv_sig <$> vs) (sv_voter <$> vs) = Some (as_sig (av_sig q)).
Proof.
  clear tdec spill. intros Ev Ea Hr Hin.
  assert ((exists v, i = IMsg (MVote v)) \/
          (exists t h rd x lr, i = IEvent (match t with Prevote => EvPrevote h rd x lr | Precommit => EvPrecommit h rd x lr end)) \/
          (forall v, i <> IMsg (MVote v)) /\
          (forall h r x lr, i <> IEvent (EvPrevote h r x lr) /\ i <> IEvent (EvPrecommit h r x lr)))
    as [(v & ->)|[(t & h & rd & x & lr & ->)|[Hn1 Hn2]]].
  { destruct i as [m|ev|rs|m]; try by right; right.
    - destruct ev; try by right; right.
      + right; left. exists Prevote. eauto.
      + right; left. exists Precommit. eauto.
    - destruct m; try by right; right. left; eauto. }
  3: { pose proof (nb_react lc tenc e i Hn1 Hn2 _ _ _ _ Hr) as F. unfold no_bqc in F.
       apply (proj1 (Forall_forall _ _) F) in Hin. done. }
  - (* a vote arrives *)
    eapply react_core in Hr; [|reflexivity]. destruct Hr as [(_ & _ & -> & _)|(_ & r' & Hr & _)]; [by apply elem_of_nil in Hin|].
    unfold handle_signed_vote, get in Hr. cbv zeta in Hr.
    destruct (filter_message _ _ _); [unfold ret in Hr; simplify_eq; by apply elem_of_nil in Hin|].
    apply bind_inv in Hr as [(u & s1 & o1 & o2 & H1 & H2 & ->)|[(x & H1 & ->)|(H1 & ->)]];
      (unfold verify_address, get, ret, fail in H1; destruct (auth_contains _ _); simplify_eq); try by apply elem_of_nil in Hin.
    destruct (is_ok _); [unfold ret in H2; simplify_eq; by apply elem_of_nil in Hin|].
    apply bind_inv in H2 as [(u' & s2 & o1 & o3 & H1 & H2 & ->)|[(x & H1 & ->)|(H1 & ->)]]; unfold modify in H1; simplify_eq.
    destruct (_ <? _); [unfold ret in H2; simplify_eq; by apply elem_of_nil in Hin|].
    apply bind_inv in H2 as [(h & s2 & o1 & o4 & H1 & H2 & ->)|[(x & H1 & ->)|(H1 & ->)]];
      unfold count_now, get, lift in H1;
      [injection H1 as <- <- H1|injection H1 as ? <- ?; by apply elem_of_nil in Hin..].
    destruct h as [hash|]; [|unfold ret in H2; simplify_eq; by apply elem_of_nil in Hin].
    eapply (published (ops ++ [VVote v]) l) in H2; [|by rewrite vops_snoc, <-Ev|exact Ea|exact H1|exact Hin].
    destruct H2 as (A1 & A2 & A3 & A4 & vs & B1 & B2 & B3). split_and!; try done.
    exists vs. split_and!; try done. intros w Hw. apply B2 in Hw. apply elem_of_app in Hw as [?|Hw]; [by left|].
    apply elem_of_list_singleton in Hw. injection Hw as ->. right. by left.
  - (* the node votes *)
    assert (exists r', handle_vote_event e x t lr s = (s', o, r')) as (r' & Hv).
    { destruct t; (eapply react_core in Hr; [|reflexivity]); destruct Hr as [(_ & _ & -> & _)|(_ & r' & Hr & _)];
        try (by apply elem_of_nil in Hin); eauto. }
    clear Hr. apply vote_event_inv in Hv as [(_ & -> & _)|(sig & lk & Hsig & Hlk & Hv)]; [by apply elem_of_nil in Hin|].
    cbv zeta in Hv. set (v := own_vote sig t x s) in *.
    destruct Hv as [(_ & _ & -> & _)|(_ & o2 & Hv)]; [by apply elem_of_list_singleton in Hin|].
    unfold vote_process, get in Hv.
    destruct (s_leader s) eqn:El; destruct Hv as [-> Hv].
    2: { rewrite ?El in Hv. simpl in Hv. apply elem_of_cons in Hin as [?|Hin]; [done|]. apply elem_of_cons in Hin as [?|Hin]; [done|].
         destruct (vc_get_qc_by_id _ _ _ _); [|unfold ret in Hv; simplify_eq; by apply elem_of_nil in Hin..].
         destruct (try_get_full_txs _ _); [|unfold ret in Hv; simplify_eq; by apply elem_of_nil in Hin].
         apply trigger_inv in Hv as [_ [[-> _]|[-> _]]]; [|by apply elem_of_nil in Hin]. by apply elem_of_list_singleton in Hin. }
    change (s_leader (with_vote v s)) with (s_leader s) in Hv. rewrite ?El in Hv. cbn [negb] in Hv.
    apply elem_of_cons in Hin as [?|Hin]; [done|]. apply elem_of_cons in Hin as [?|Hin]; [done|].
    apply bind_inv in Hv as [(h' & s2 & o1 & o4 & H1 & H2 & ->)|[(y & H1 & ->)|(H1 & ->)]];
      unfold count_now, get, lift in H1;
      [injection H1 as <- <- H1|injection H1 as ? <- ?; by apply elem_of_nil in Hin..].
    destruct h' as [hash|]; [|unfold ret in H2; simplify_eq; by apply elem_of_nil in Hin].
    eapply (published (ops ++ [VVote v]) l) in H2; [|by rewrite vops_snoc, <-Ev|exact Ea|exact H1|exact Hin].
    destruct H2 as (A1 & A2 & A3 & A4 & vs & B1 & B2 & B3). split_and!; try done.
    exists vs. split_and!; try done. intros w Hw. apply B2 in Hw. apply elem_of_app in Hw as [?|Hw]; [by left|].
    apply elem_of_list_singleton in Hw. injection Hw as ->. right. right. set_solver.
Qed.
(** A certificate the node broadcasts is for its current height and round, made from votes it
    holds: received, or its own. All are votes for exactly what the certificate says, by
    different validators of the list in force, holding more than two thirds of the weight; the
    bitmap names exactly the voters, in the order in which the user's cryptography was given
    their signatures. *)
Theorem C39_certificate_backed_by_votes :
  forall b is o s e i s' o' r q,
    run b is o s true -> react e i s = (s', o', r) -> ABroadcast (MAgg q) ∈ o' ->
    av_height q = s_height s /\ av_round q = s_round s /\ av_leader q = b_addr b /\
    exists l vs,
      s_auth s = auth_update l /\ supplied b is o l /\
      (forall v, v ∈ vs -> vote_known (is ++ [(e, i)]) (o ++ o') v /\ sv_vote v = to_vote q /\
                           sv_voter v ∈ n_addr <$> l) /\
      NoDup (sv_voter <$> vs) /\
      cr_aggregate (e_crypto e) (sv_sig <$> vs) (sv_voter <$> vs) = Some (as_sig (av_sig q)) /\
      (distinct l -> total_weight l < 2 ^ 32 ->
         3 * weight_of (sv_voter <$> vs) l > 2 * total_weight l /\ ascending (sv_voter <$> vs) /\
         get_voters (auth_update l) (as_bitmap (av_sig q)) = sv_voter <$> vs).
Proof.
  intros b is o s e i s' o' r q Hrun Hr Hin.
  pose proof (run_run_inv _ _ _ _ _ _ _ _ _ Hrun) as [(ops & Ev & Fv) _ _ _ _ Had].
  pose proof (run_auth _ _ _ _ _ _ _ _ _ Hrun) as (l & Ea & Hl).
  pose proof (built _ _ _ _ _ _ _ _ _ Ev Ea Hr Hin) as (A1 & A2 & A3 & vs & (B1 & B2 & B3 & B4) & C1 & C2).
  split_and!; try done; [congruence|]. exists l, vs. split_and!; try done.
  - intros v Hv. split_and!; auto. destruct (C1 _ Hv) as [Hk|[->|Hk]].
    + apply (proj1 (Forall_forall _ _) Fv) in Hk. apply (vsrc_run_app tdec spill b is [(e, i)] o o' (VVote v)) in Hk. done.
    + left. apply received_last.
    + right. set_solver.
  - intros Hd Ht. destruct (B4 Hd Ht) as (? & ? & ?). split_and!; try done. lia.
Qed.

Theorem C39_none_at_start :
  forall b o s al q, run b [] o s al -> ABroadcast (MAgg q) ∉ o.
Proof.
  intros b o s al q Hr Hin. inversion Hr as [s0 o0 r0 Hs|? ? ? ? ? ? ? ? ? ? E]; [|by destruct is]. subst.
  unfold on_start in Hs. apply logged_inv in Hs as (r' & Hs & _).
  apply start_inv in Hs as [(_ & [->|(t & -> & _)])|(w & bs & Hw & Hd & _ & [[_ ->]|(p & Hg & Ht)])].
  - by apply elem_of_nil in Hin.
  - by apply elem_of_list_singleton in Hin.
  - by apply elem_of_nil in Hin.
  - apply nb_tail in Ht. apply (proj1 (Forall_forall _ _) Ht) in Hin. done.
Qed.

(** ** C38 *)
Definition qct (a : action T) : bool :=
  match a with
  | ATrigger t => match t_type t with TPrevoteQC | TPrecommitQC => true | _ => false end
  | _ => false
  end.
Definition no_qct (_ : st T) (o : list (action T)) (_ : st T) : Prop := Forall (fun a => qct a = false) o.
Lemma nq_comp : comp no_qct.
Proof. split; [intros s0; by apply Forall_nil|intros s1 s2 s3 o1 o2 H1 H2; by apply Forall_app]. Qed.
Lemma nq_goto e stt : keeps no_qct (goto_new_height (T:=T) e stt).
Proof.
  intros s s' o r Hg.
  apply goto_inv in Hg as [(_ & _ & -> & _)|[(_ & _ & _ & -> & _)|[(_ & _ & _ & -> & _)|(_ & _ & _ & tr & -> & Ht)]]];
    try by repeat constructor.
  constructor; [done|]. apply Forall_app. split.
  - apply Forall_fmap, Forall_true. done.
  - destruct Ht as [[-> _]|[-> _]]; by repeat constructor.
Qed.
Local Hint Resolve nq_goto : keepsdb.
Ltac nq := by repeat constructor.
Lemma nq_tail e w : keeps no_qct (start_tail (T:=T) lc e w).
Proof.
  unfold start_tail. destruct (bool_decide _); [|destruct (bool_decide _)]; try destruct (wi_lock w); keeps_go nq_comp; nq.
Qed.
Definition acts_on_qc (i : input T) : bool :=
  match i with
  | IMsg (MVote _) | IMsg (MAgg _) | IMsg (MChoke _) | IResp _
  | IEvent (EvPrevote _ _ _ _) | IEvent (EvPrecommit _ _ _ _) => true
  | _ => false
  end.
Lemma nq_react e i : acts_on_qc i = false -> keeps no_qct (react e i).
Proof.
  intros Hi. apply (keeps_react _ _ _ nq_comp).
  - intros m ->. destruct m; try done.
    all: apply (keeps_on_msg _ _ nq_comp); [intros; nq|]; unfold handle_msg; keeps_go nq_comp; nq.
  - intros m _. keeps_go nq_comp; nq.
  - intros m ->. done.
  - intros m ->. destruct m; try done. all: keeps_go nq_comp; nq.
Qed.
(** What a trigger for the state machine says about a certificate. *)
Definition announces (t : trigger) (q : aggvote) : Prop :=
  t_type t = (match av_type q with Prevote => TPrevoteQC | Precommit => TPrecommitQC end) /\
  t_height t = av_height q /\ t_round t = av_round q /\ t_hash t = av_hash q.
Definition justified (ops : list vop) (i : input T) (s : st T) (o : list (action T)) (s' : st T) (t : trigger) : Prop :=
  t_height t = s_height s /\
  (exists q, announces t q /\ (VQC q ∈ ops \/ qc_in i q \/ ABroadcast (MAgg q) ∈ o)) /\
  (t_hash t <> [] -> is_Some (s_full s' !! t_hash t)).
Lemma full_some (s : st T) h : try_get_full_txs s h = true -> h <> [] -> is_Some (s_full s !! h).
Proof. unfold try_get_full_txs. destruct h; [done|]. destruct (s_full s !! _); simpl; eauto. done. Qed.
Lemma announces_qct q : announces (qc_trigger q) q.
Proof. unfold announces, qc_trigger, mk_trigger. simpl. by destruct (av_type q). Qed.
Lemma just_publish ops i e hash t s s' o r tr :
  publish_qc (T:=T) e hash t s = (s', o, r) -> ATrigger tr ∈ o -> justified ops i s o s' tr.
Proof.
  intros Hp Hin. apply publish_inv in Hp as [[-> _]|(lv & sig & Hl & Hag & -> & tr' & -> & Htr)]; [by apply elem_of_nil in Hin|].
  apply elem_of_cons in Hin as [E|Hin]; [done|].
  destruct Htr as [->|[-> Hf]]; [by apply elem_of_nil in Hin|]. apply elem_of_list_singleton in Hin. injection Hin as ->.
  split; [done|]. split.
  - eexists. split; [|right; right; left]. unfold announces, mk_trigger. simpl. by destruct t.
  - simpl. by apply full_some.
Qed.
Lemma just_agg ops i e q s s' o r tr :
  handle_aggregated_vote (T:=T) e q s = (s', o, r) -> qc_in i q -> ATrigger tr ∈ o -> justified ops i s o s' tr.
Proof.
  intros Ha Hq Hin. apply agg_inv in Ha as [(_ & _ & -> & _)|[(_ & _ & _ & -> & _)|(Eh & _ & -> & [[-> _]|(-> & Hf & _)])]];
    try by apply elem_of_nil in Hin.
  apply elem_of_list_singleton in Hin. injection Hin as ->. split; [done|]. split.
  - exists q. split; [apply announces_qct|auto].
  - simpl. by apply full_some.
Qed.
Lemma just_react ops e i s s' o r tr :
  s_votes s = vops ops -> react e i s = (s', o, r) -> ATrigger tr ∈ o ->
  t_type tr = TPrevoteQC \/ t_type tr = TPrecommitQC -> justified ops i s o s' tr.
Proof.
  clear tdec spill. intros Ev Hr Hin Ht.
  destruct (acts_on_qc i) eqn:Ei.
  2: { pose proof (nq_react e i Ei _ _ _ _ Hr) as F. apply (proj1 (Forall_forall _ _) F) in Hin. simpl in Hin.
       by destruct Ht as [Ht|Ht]; rewrite Ht in Hin. }
  assert (exists x r', core lc tenc e i = Some x /\ x s = (s', o, r')) as (x & r' & Hx & Hc).
  { destruct (core lc tenc e i) as [x|] eqn:Ec.
    - eapply react_core in Hr as [(_ & _ & -> & _)|(_ & r' & Hr & _)]; [by apply elem_of_nil in Hin|by eauto|done].
    - destruct i as [m|ev|rs|m]; try done; [by destruct ev|by destruct m]. }
  clear Hr.
  assert (forall t h lr, handle_vote_event e h t lr s = (s', o, r') -> justified ops i s o s' tr) as Hvote.
  { intros t h lr Hv. apply vote_event_inv in Hv as [(_ & -> & _)|(sig & lk & Hsig & Hlk & Hv)]; [by apply elem_of_nil in Hin|].
    cbv zeta in Hv. set (v := own_vote sig t h s) in *.
    destruct Hv as [(_ & _ & -> & _)|(_ & o2 & Hv)]; [by apply elem_of_list_singleton in Hin|].
    unfold vote_process, get in Hv.
    destruct (s_leader s) eqn:El; destruct Hv as [-> Hv];
      (apply elem_of_cons in Hin as [?|Hin]; [done|]); (apply elem_of_cons in Hin as [?|Hin]; [done|]).
    - change (s_leader (with_vote v s)) with (s_leader s) in Hv. rewrite ?El in Hv. cbn [negb] in Hv.
      apply bind_inv in Hv as [(h' & s2 & o1 & o4 & H1 & H2 & ->)|[(y & H1 & ->)|(H1 & ->)]];
        unfold count_now, get, lift in H1;
        [injection H1 as <- <- H1|injection H1 as ? <- ?; by apply elem_of_nil in Hin..].
      destruct h' as [hash|]; [|unfold ret in H2; simplify_eq; by apply elem_of_nil in Hin].
      pose proof (just_publish ops i _ _ _ _ _ _ _ _ H2 Hin) as (J1 & (q & J2 & J3) & J4).
      split; [exact J1|]. split; [|exact J4]. exists q. split; [done|].
      destruct J3 as [?|[?|?]]; auto. right. right. set_solver.
    - rewrite ?El in Hv. cbn [negb] in Hv.
      destruct (vc_get_qc_by_id _ _ _ _) as [q| |] eqn:Eq; [|unfold ret in Hv; simplify_eq; by apply elem_of_nil in Hin..].
      destruct (try_get_full_txs _ _) eqn:Ef; [|unfold ret in Hv; simplify_eq; by apply elem_of_nil in Hin].
      apply trigger_inv in Hv as [-> [[-> _]|[-> _]]]; [|by apply elem_of_nil in Hin].
      apply elem_of_list_singleton in Hin. injection Hin as ->. rewrite Ev in Eq.
      apply lookup_id in Eq as (Hq & E1 & E2 & E3). split; [done|]. split.
      + exists q. split; [|by left]. unfold announces. simpl. rewrite E3. by destruct t.
      + simpl. by apply full_some. }
  destruct i as [m|ev|rs|m]; try done.
  - destruct ev; simpl in Hx; simplify_eq; eapply Hvote; eauto.
  - simpl in Hx. simplify_eq. apply resp_inv in Hc as [(_ & _ & ->)|(Eh & -> & [->|(q & t & -> & Hq & _)])];
      try by apply elem_of_nil in Hin.
    apply elem_of_list_singleton in Hin. injection Hin as ->. rewrite Ev in Hq. apply lookup_hash in Hq as (Hq & E1 & E2 & E3).
    split; [done|]. split.
    + exists q. split; [|by left]. unfold announces. simpl. rewrite E3. by destruct t.
    + simpl. rewrite E2, lookup_insert. eauto.
  - destruct m; simpl in Hx; simplify_eq.
    + unfold handle_signed_vote, get in Hc. cbv zeta in Hc.
      destruct (filter_message _ _ _); [unfold ret in Hc; simplify_eq; by apply elem_of_nil in Hin|].
      apply bind_inv in Hc as [(u & s1 & o1 & o2 & H1 & H2 & ->)|[(x & H1 & ->)|(H1 & ->)]];
        (unfold verify_address, get, ret, fail in H1; destruct (auth_contains _ _); simplify_eq); try by apply elem_of_nil in Hin.
      destruct (is_ok _); [unfold ret in H2; simplify_eq; by apply elem_of_nil in Hin|].
      apply bind_inv in H2 as [(u' & s2 & o1 & o3 & H1 & H2 & ->)|[(x & H1 & ->)|(H1 & ->)]]; unfold modify in H1; simplify_eq.
      destruct (_ <? _); [unfold ret in H2; simplify_eq; by apply elem_of_nil in Hin|].
      apply bind_inv in H2 as [(h & s2 & o1 & o4 & H1 & H2 & ->)|[(x & H1 & ->)|(H1 & ->)]];
        unfold count_now, get, lift in H1;
        [injection H1 as <- <- H1|injection H1 as ? <- ?; by apply elem_of_nil in Hin..].
      destruct h as [hash|]; [|unfold ret in H2; simplify_eq; by apply elem_of_nil in Hin].
      exact (just_publish ops _ _ _ _ _ _ _ _ _ H2 Hin).
    + eapply just_agg; [exact Hc| |done]. by left.
    + apply choke_inv in Hc as [(_ & _ & -> & _)|[(_ & _ & Hc)|(_ & _ & Hc)]]; [by apply elem_of_nil in Hin|..].
      * destruct (ck_from _) eqn:Ef.
        1-2: eapply just_agg; [exact Hc| |done]; right; eauto.
        apply aggchoke_inv in Hc as [(_ & _ & -> & _)|(_ & _ & [[-> _]|[-> _]])]; try by apply elem_of_nil in Hin.
        apply elem_of_list_singleton in Hin. injection Hin as ->. by destruct Ht.
      * apply check_choke_inv in Hc as [(_ & -> & _)|(k & l & sig & _ & _ & _ & _ & _ & [[-> _]|[-> _]])];
          try by apply elem_of_nil in Hin.
        apply elem_of_list_singleton in Hin. injection Hin as ->. by destruct Ht.
Qed.

(** Every certificate handed to the state machine is one the node holds; if it is for a block,
    an answer of check_block for the block's hash was received in this run, and the certificate
    is for the node's height. *)
Theorem C38_only_checked_blocks_reach_the_state_machine :
  forall b is o s al t,
    run b is o s al -> ATrigger t ∈ o -> t_type t = TPrevoteQC \/ t_type t = TPrecommitQC ->
    (exists q, qc_known tdec spill b is o q /\
       t_type t = (match av_type q with Prevote => TPrevoteQC | Precommit => TPrecommitQC end) /\
       t_height t = av_height q /\ t_round t = av_round q /\ t_hash t = av_hash q) /\
    (t_hash t <> [] -> exists rs, received is (IResp rs) /\ vr_hash rs = t_hash t).
Proof.
  intros b is o s al t Hr Hin Ht. induction Hr as [s o r Hs|is o s e i s' o' r Hr IH Hs].
  - exfalso. unfold on_start in Hs. apply logged_inv in Hs as (r' & Hs & _).
    apply start_inv in Hs as [(_ & [->|(t' & -> & Et & _)])|(w & bs & Hw & Hd & _ & [[_ ->]|(p & Hg & Hta)])].
    + by apply elem_of_nil in Hin.
    + apply elem_of_list_singleton in Hin. injection Hin as ->. rewrite Et in Ht. by destruct Ht.
    + by apply elem_of_nil in Hin.
    + apply nq_tail in Hta. apply (proj1 (Forall_forall _ _) Hta) in Hin. simpl in Hin.
      by destruct Ht as [Ht|Ht]; rewrite Ht in Hin.
  - apply elem_of_app in Hin as [Hin|Hin].
    + destruct (IH Hin) as ((q & Hq & Hq') & Hf). split.
      * exists q. split; [|done]. exact (vsrc_run_app tdec spill b is [(e, i)] o o' (VQC q) Hq).
      * intros Hn. destruct (Hf Hn) as (rs & ? & ?). exists rs. split; [by apply received_app|done].
    + pose proof (run_run_inv _ _ _ _ _ _ _ _ _ Hr) as [(ops & Ev & Fv) _ _ _ _ Had].
      pose proof (run_run_inv _ _ _ _ _ _ _ _ _ (run_step _ _ _ _ _ _ _ _ _ _ _ _ _ Hr Hs)) as [_ _ _ _ Hfull _].
      destruct (just_react _ _ _ _ _ _ _ _ Ev Hs Hin Ht) as (_ & (q & Ha & Hq) & Hf). split.
      * exists q. split; [|exact Ha]. destruct Hq as [Hq|[Hq|Hq]].
        -- apply (proj1 (Forall_forall _ _) Fv) in Hq.
           exact (vsrc_run_app tdec spill b is [(e, i)] o o' (VQC q) Hq).
        -- left. exists i. split; [apply received_last|done].
        -- right. left. set_solver.
      * intros Hn. destruct (Hf Hn) as [x Hx]. apply Hfull in Hx as (rs & ? & ? & _). eauto.
Qed.
End C.

(** The leader of [leader_history]: its own vote and two received ones make the certificate. *)
Definition built_history := take 5 leader_history.
Example C39_example :
  let s := nstate nB None built_history in
  let x := react nlc ntenc (nenv nB true) (IMsg (MVote (nvote nC 1 0 Prevote hsh))) s in
  nrun nB None built_history (nouts nB None built_history) s true /\
  ABroadcast (MAgg (nqc xe0 [nA; nB; nC] nB 1 0 Prevote hsh)) ∈ x.1.2.
Proof.
  cbv zeta. split; [apply nstate_run; by vm_compute|]. apply elem_of_list_In. vm_compute. tauto.
Qed.
Print Assumptions C39_certificate_backed_by_votes.

(** In [follower_history] both certificates reach the state machine, after the block was checked. *)
Definition qc_to_smr (t : ttype) : action bytes := ATrigger (mkTrigger t SrcState hsh None 0 1 None).
Example C38_example :
  nrun nA None follower_history (nouts nA None follower_history) (nstate nA None follower_history) true /\
  qc_to_smr TPrevoteQC ∈ nouts nA None follower_history /\
  qc_to_smr TPrecommitQC ∈ nouts nA None follower_history /\
  received follower_history (IResp (mkVResp 1 0 hsh true)).
Proof.
  split_and!.
  - apply nstate_run. by vm_compute.
  - apply elem_of_list_In. vm_compute. tauto.
  - apply elem_of_list_In. vm_compute. tauto.
  - exists (nenv nA true). unfold follower_history, ok_env. simpl. set_solver.
Qed.
(** Without the answer of check_block neither certificate is handed over. *)
Definition unchecked_history : list (env bytes * input bytes) :=
  ok_env nA <$> [
    IMsg (MStatus (nstatus 1)); IEvent (ev_new 1 0); IMsg (MProposal (nprop nB 1 0 blk None));
    IEvent (EvPrevote 1 0 hsh None); IMsg (MAgg pvqc); IMsg (MAgg pcqc)].
Example C38_unchecked_example :
  nalive nA None unchecked_history = true /\
  Forall (fun a => qct a = false) (nouts nA None unchecked_history).
Proof.
  split; [by vm_compute|]. eapply Forall_impl; [apply (forallb_holds (fun a => negb (qct a))); by vm_compute|].
  intros a Ha. simpl in Ha. by destruct (qct a).
Qed.

(** The content that is committed need not be the one that was checked: the leader B sends a
    second proposal with the same hash and other content. It is refused ([EMultiProposal]) but
    its content has already replaced the first one. All messages are correctly signed. *)
Definition blk2 : bytes := [xee; x77].
Definition second_prop : sproposal bytes :=
  let p := mkProposal 1 0 blk2 hsh None nB in mkSProposal (nB ++ enc (proposal_rlp ntenc p)) p.
Definition swapped_history : list (env bytes * input bytes) :=
  ok_env nA <$> [
    IMsg (MStatus (nstatus 1)); IEvent (ev_new 1 0); IMsg (MProposal (nprop nB 1 0 blk None));
    IMsg (MProposal second_prop);
    IEvent (EvPrevote 1 0 hsh None); IResp (mkVResp 1 0 hsh true); IMsg (MAgg pvqc);
    IEvent (EvPrecommit 1 0 hsh (Some 0)); IMsg (MAgg pcqc); IEvent (EvCommit hsh)].
Theorem C38_committed_content_checked_refuted :
  exists is o s c,
    nrun nA None is o s true /\ ACommit 1 c ∈ o /\
    Forall (fun a => match a with ACheck _ _ _ x => x <> c_content c | _ => True end) o /\
    Forall (fun x => signed_ok nA x = true) is.
Proof.
  exists swapped_history, (nouts nA None swapped_history), (nstate nA None swapped_history),
    (mkCommit 1 blk2 (mkProof 1 0 hsh (av_sig pcqc))).
  split_and!.
  - apply nstate_run. by vm_compute.
  - apply elem_of_list_In. vm_compute. tauto.
  - eapply Forall_impl; [apply (forallb_holds (fun a => match a with ACheck _ _ _ x => negb (bool_decide (x = blk2)) | _ => true end)); by vm_compute|].
    intros [] Ha; try done. intros E. simpl in E. subst. by vm_compute in Ha.
  - apply forallb_holds. by vm_compute.
Qed.
Print Assumptions C39_none_at_start.
Print Assumptions C38_only_checked_blocks_reach_the_state_machine.
Print Assumptions C38_committed_content_checked_refuted.
