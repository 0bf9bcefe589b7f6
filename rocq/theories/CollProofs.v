(** * CollProofs: the collectors implement CollSpec. *)
From Verif Require Export CollSpec AuthProofs.

(** ** Reading a collector through defaults *)
Definition rnd (c : votecol) (h r : N) : roundcol := default roundcol_new (vc_round c h r).
Definition qch (c : votecol) (h : N) (x : bytes) : qcpair :=
  default qcpair_new (c !! h ≫= fun vrc => vc_by_hash vrc !! x).

Lemma get_votes_rnd c h r t x :
  vc_get_votes c h r t x =
  match votes_get (rc_votes (rnd c h r) t) x with Some l => Ok l | None => Err EStorage end.
Proof.
  unfold vc_get_votes, rnd. destruct (vc_round c h r) as [rc|]; simpl; [done|].
  destruct t; done.
Qed.
Lemma get_qc_rnd c h r t :
  vc_get_qc_by_id c h r t =
  match qcpair_get (rc_qc (rnd c h r)) t with Some q => Ok q | None => Err EStorage end.
Proof.
  unfold vc_get_qc_by_id, rnd. destruct (vc_round c h r) as [rc|]; simpl; [done|].
  destruct t; done.
Qed.
Lemma get_qc_hash_qch c h x t : vc_get_qc_by_hash c h x t = qcpair_get (qch c h x) t.
Proof.
  unfold vc_get_qc_by_hash, qch. destruct (c !! h) as [vrc|]; simpl; [|by destruct t].
  destruct (vc_by_hash vrc !! x); simpl; [done|by destruct t].
Qed.
Lemma get_map_rnd c h r t :
  vc_get_vote_map c h r t =
  let m := vs_by_hash (rc_votes (rnd c h r) t) in if decide (m = ∅) then Err EStorage else Ok m.
Proof.
  unfold vc_get_vote_map, rnd. destruct (vc_round c h r) as [rc|]; simpl; [done|].
  destruct t; simpl; rewrite decide_True; done.
Qed.
Lemma vote_count_rnd c h r t : vc_vote_count c h r t = votes_count (rc_votes (rnd c h r) t).
Proof. unfold vc_vote_count, rnd. destruct (vc_round c h r); [done|]. by destruct t. Qed.

Lemma rnd_vote c x v a h r :
  rnd (vc_insert_vote c x v a) h r =
  if decide (v_height (sv_vote v) = h /\ v_round (sv_vote v) = r)
  then rc_insert_vote (rnd c h r) x v a else rnd c h r.
Proof.
  unfold rnd, vc_round, vc_insert_vote, vrc_insert_vote.
  destruct (decide (v_height (sv_vote v) = h)) as [Hh|Hh].
  - rewrite <-Hh, lookup_insert. simpl.
    destruct (decide (v_round (sv_vote v) = r)) as [Hr|Hr].
    + rewrite decide_True by done. rewrite <-Hr, lookup_insert. simpl.
      destruct (c !! v_height (sv_vote v)); done.
    + rewrite decide_False by tauto. rewrite lookup_insert_ne by done.
      destruct (c !! v_height (sv_vote v)); done.
  - rewrite decide_False by tauto. rewrite lookup_insert_ne by done. done.
Qed.
Lemma rnd_qc c q h r :
  rnd (vc_set_qc c q) h r =
  if decide (av_height q = h /\ av_round q = r) then rc_set_qc (rnd c h r) q else rnd c h r.
Proof.
  unfold rnd, vc_round, vc_set_qc, vrc_set_qc.
  destruct (decide (av_height q = h)) as [Hh|Hh].
  - rewrite <-Hh, lookup_insert. simpl.
    destruct (decide (av_round q = r)) as [Hr|Hr].
    + rewrite decide_True by done. rewrite <-Hr, lookup_insert. simpl.
      destruct (c !! av_height q); done.
    + rewrite decide_False by tauto. rewrite lookup_insert_ne by done.
      destruct (c !! av_height q); done.
  - rewrite decide_False by tauto. rewrite lookup_insert_ne by done. done.
Qed.
Lemma rnd_take c h' h r :
  rnd (vc_take_height c h').1 h r = if decide (h = h') then roundcol_new else rnd c h r.
Proof.
  unfold rnd, vc_round; simpl. destruct (decide (h = h')) as [->|Hh].
  - by rewrite lookup_delete.
  - by rewrite lookup_delete_ne.
Qed.
Lemma split_off_lookup {V} till (m : gmap N V) k :
  split_off till m !! k = if decide (k < till) then None else m !! k.
Proof.
  unfold split_off. destruct (decide (k < till)) as [Hk|Hk].
  - apply map_filter_lookup_None. right. intros x _. simpl. lia.
  - destruct (m !! k) as [x|] eqn:E.
    + apply map_filter_lookup_Some. simpl. split; [done|lia].
    + apply map_filter_lookup_None. by left.
Qed.
Lemma rnd_flush c till h r :
  rnd (vc_flush c till) h r = if decide (h < till) then roundcol_new else rnd c h r.
Proof.
  unfold rnd, vc_round, vc_flush. rewrite split_off_lookup. destruct (decide (h < till)); done.
Qed.
Lemma qch_vote c x v a h y : qch (vc_insert_vote c x v a) h y = qch c h y.
Proof.
  unfold qch, vc_insert_vote, vrc_insert_vote. destruct (decide (v_height (sv_vote v) = h)) as [<-|Hh].
  - rewrite lookup_insert. simpl. destruct (c !! v_height (sv_vote v)); done.
  - by rewrite lookup_insert_ne.
Qed.
Lemma qch_qc c q h y :
  qch (vc_set_qc c q) h y =
  if decide (av_height q = h /\ av_hash q = y) then qcpair_set (qch c h y) q else qch c h y.
Proof.
  unfold qch, vc_set_qc, vrc_set_qc. destruct (decide (av_height q = h)) as [Hh|Hh].
  - rewrite <-Hh, lookup_insert. simpl. destruct (decide (av_hash q = y)) as [Hr|Hr].
    + rewrite decide_True by done. rewrite <-Hr, lookup_insert. simpl.
      destruct (c !! av_height q); done.
    + rewrite decide_False by tauto. rewrite lookup_insert_ne by done.
      destruct (c !! av_height q); done.
  - rewrite decide_False by tauto. rewrite lookup_insert_ne by done. done.
Qed.
Lemma qch_take c h' h y :
  qch (vc_take_height c h').1 h y = if decide (h = h') then qcpair_new else qch c h y.
Proof.
  unfold qch; simpl. destruct (decide (h = h')) as [->|Hh].
  - by rewrite lookup_delete.
  - by rewrite lookup_delete_ne.
Qed.
Lemma qch_flush c till h y :
  qch (vc_flush c till) h y = if decide (h < till) then qcpair_new else qch c h y.
Proof.
  unfold qch, vc_flush. rewrite split_off_lookup. destruct (decide (h < till)); done.
Qed.

Lemma rc_votes_insert rc x v a t :
  rc_votes (rc_insert_vote rc x v a) t =
  if decide (v_type (sv_vote v) = t) then votes_insert (rc_votes rc t) x a v else rc_votes rc t.
Proof. unfold rc_insert_vote. destruct (v_type (sv_vote v)), t; done. Qed.
Lemma rc_votes_set_qc rc q t : rc_votes (rc_set_qc rc q) t = rc_votes rc t.
Proof. by destruct t. Qed.
Lemma rc_qc_insert rc x v a : rc_qc (rc_insert_vote rc x v a) = rc_qc rc.
Proof. unfold rc_insert_vote. by destruct (v_type (sv_vote v)). Qed.
Lemma qcpair_get_set p q t :
  qcpair_get (qcpair_set p q) t = if decide (av_type q = t) then Some q else qcpair_get p t.
Proof. unfold qcpair_set. destruct (av_type q), t; done. Qed.

(** ** Votes *)
Definition vs_of (c : votecol) (h r : N) (t : vtype) : votes := rc_votes (rnd c h r) t.

Lemma vs_of_step c op h r t :
  vs_of (vop_run c op) h r t =
  match op with
  | VVote v =>
      if (v_height (sv_vote v) =? h) && (v_round (sv_vote v) =? r) &&
         bool_decide (v_type (sv_vote v) = t)
      then votes_insert (vs_of c h r t) (v_hash (sv_vote v)) (sv_voter v) v else vs_of c h r t
  | VQC _ => vs_of c h r t
  | VTake h' => if h =? h' then votes_new else vs_of c h r t
  | VFlush till => if h <? till then votes_new else vs_of c h r t
  end.
Proof.
  unfold vs_of, vop_run. destruct op as [v|q|h'|till].
  - rewrite rnd_vote. destruct (N.eqb_spec (v_height (sv_vote v)) h) as [Hh|Hh]; simpl.
    + destruct (N.eqb_spec (v_round (sv_vote v)) r) as [Hr|Hr]; simpl.
      * rewrite decide_True by done. rewrite rc_votes_insert.
        destruct (decide (v_type (sv_vote v) = t)).
        -- by rewrite bool_decide_eq_true_2.
        -- by rewrite bool_decide_eq_false_2.
      * rewrite decide_False by tauto. done.
    + rewrite decide_False by tauto. done.
  - rewrite rnd_qc. destruct (decide _); [|done]. apply rc_votes_set_qc.
  - rewrite rnd_take. destruct (N.eqb_spec h h').
    + rewrite decide_True by done. by destruct t.
    + by rewrite decide_False.
  - rewrite rnd_flush. destruct (N.ltb_spec h till).
    + rewrite decide_True by done. by destruct t.
    + rewrite decide_False by lia. done.
Qed.

Lemma votes_insert_addr vs x a v a' :
  vs_by_addr (votes_insert vs x a v) !! a' =
  match vs_by_addr vs !! a' with
  | Some w => Some w
  | None => if decide (a = a') then Some v else None
  end.
Proof.
  unfold votes_insert. destruct (vs_by_addr vs !! a) as [w|] eqn:E; simpl.
  - destruct (vs_by_addr vs !! a') eqn:E'; [done|]. destruct (decide (a = a')); congruence.
  - destruct (decide (a = a')) as [<-|Hn].
    + rewrite lookup_insert, E. done.
    + rewrite lookup_insert_ne by done. by destruct (vs_by_addr vs !! a').
Qed.

(** by_hash indexes by_addr exactly; no empty sets. *)
Definition votes_ok (vs : votes) : Prop :=
  (forall x s, vs_by_hash vs !! x = Some s -> s <> ∅) /\
  (forall x a, (exists s, vs_by_hash vs !! x = Some s /\ a ∈ s) <->
               (exists v, vs_by_addr vs !! a = Some v /\ v_hash (sv_vote v) = x)) /\
  (forall a v, vs_by_addr vs !! a = Some v -> sv_voter v = a).
Lemma votes_ok_new : votes_ok votes_new.
Proof.
  split; [|split]; simpl.
  - intros x s H. by rewrite lookup_empty in H.
  - intros x a. setoid_rewrite lookup_empty. split; intros (? & ? & ?); done.
  - intros a v H. by rewrite lookup_empty in H.
Qed.
Lemma votes_ok_insert vs v :
  votes_ok vs -> votes_ok (votes_insert vs (v_hash (sv_vote v)) (sv_voter v) v).
Proof.
  intros (H1 & H2 & H3). unfold votes_insert.
  destruct (vs_by_addr vs !! sv_voter v) as [w|] eqn:E; [done|]. split; [|split]; simpl.
  - intros x s Hs. destruct (decide (v_hash (sv_vote v) = x)) as [<-|Hn].
    + rewrite lookup_insert in Hs. simplify_eq. set_solver.
    + rewrite lookup_insert_ne in Hs by done. eauto.
  - intros x a. destruct (decide (v_hash (sv_vote v) = x)) as [<-|Hn].
    + rewrite lookup_insert. destruct (decide (sv_voter v = a)) as [<-|Ha].
      * rewrite lookup_insert. split; [eauto|]. intros _. eexists. split; [done|]. set_solver.
      * rewrite lookup_insert_ne by done. rewrite <-H2. split.
        -- intros (s & Hs & Hin). simplify_eq.
           destruct (vs_by_hash vs !! v_hash (sv_vote v)) as [s|]; simpl in Hin;
             [|set_solver]. exists s. split; [done|]. set_solver.
        -- intros (s & Hs & Hin). rewrite Hs. simpl. eexists. split; [done|]. set_solver.
    + rewrite lookup_insert_ne by done. destruct (decide (sv_voter v = a)) as [<-|Ha].
      * rewrite lookup_insert. rewrite H2. rewrite E. split; intros (? & ? & ?); congruence.
      * rewrite lookup_insert_ne by done. apply H2.
  - intros a w Hw. destruct (decide (sv_voter v = a)) as [<-|Ha].
    + rewrite lookup_insert in Hw. by simplify_eq.
    + rewrite lookup_insert_ne in Hw by done. eauto.
Qed.

Lemma vops_snoc ops op : vops (ops ++ [op]) = vop_run (vops ops) op.
Proof. unfold vops. by rewrite foldl_snoc. Qed.
Lemma vops_votes_ok ops h r t : votes_ok (vs_of (vops ops) h r t).
Proof.
  induction ops as [|op ops IH] using rev_ind.
  - unfold vs_of, rnd, vc_round, vops; simpl. rewrite lookup_empty. destruct t; apply votes_ok_new.
  - rewrite vops_snoc, vs_of_step. destruct op as [v|q|h'|till]; [|done| |].
    + destruct (_ && _); [|done]. by apply votes_ok_insert.
    + destruct (_ =? _); [apply votes_ok_new|done].
    + destruct (_ <? _); [apply votes_ok_new|done].
Qed.
Lemma first_vote_snoc ops op h r t a :
  first_vote (ops ++ [op]) h r t a = first_vote_step h r t a (first_vote ops h r t a) op.
Proof. unfold first_vote. by rewrite foldl_snoc. Qed.
Lemma vops_first_vote ops h r t a :
  vs_by_addr (vs_of (vops ops) h r t) !! a = first_vote ops h r t a.
Proof.
  induction ops as [|op ops IH] using rev_ind.
  - unfold vs_of, rnd, vc_round, vops; simpl. rewrite lookup_empty. destruct t; apply lookup_empty.
  - rewrite vops_snoc, vs_of_step, first_vote_snoc. destruct op as [v|q|h'|till]; simpl.
    + unfold vote_at. destruct (_ && _ && _) eqn:Eg; simpl.
      * rewrite votes_insert_addr, IH. destruct (first_vote ops h r t a); [done|].
        destruct (decide (sv_voter v = a)).
        -- by rewrite bool_decide_eq_true_2.
        -- by rewrite bool_decide_eq_false_2.
      * rewrite IH. by destruct (first_vote ops h r t a).
    + done.
    + destruct (_ =? _); [apply lookup_empty|done].
    + destruct (_ <? _); [apply lookup_empty|done].
Qed.
Lemma first_vote_at ops h r t a v :
  first_vote ops h r t a = Some v ->
  v_height (sv_vote v) = h /\ v_round (sv_vote v) = r /\ v_type (sv_vote v) = t /\ sv_voter v = a.
Proof.
  induction ops as [|op ops IH] using rev_ind; [done|].
  rewrite first_vote_snoc. destruct op as [w|q|h'|till]; simpl.
  - destruct (first_vote ops h r t a) as [u|] eqn:E; [intros; simplify_eq; auto|].
    unfold vote_at. destruct (_ && _) eqn:Eg; [|done]. intros; simplify_eq.
    rewrite !andb_true_iff, !bool_decide_eq_true, !N.eqb_eq in Eg. tauto.
  - done.
  - destruct (_ =? _); done.
  - destruct (_ <? _); done.
Qed.

Lemma mapM_elem_of {A B} (f : A -> option B) l k y :
  mapM f l = Some k -> y ∈ k <-> exists x, x ∈ l /\ f x = Some y.
Proof.
  intros H. apply mapM_Some in H. revert y. induction H as [|x z l k Hx Hr IH]; intros y.
  - split; [intros Hy; by apply elem_of_nil in Hy|]. intros (x & Hx & _). by apply elem_of_nil in Hx.
  - rewrite elem_of_cons, IH. split.
    + intros [->|(x' & Hx' & E)]; [exists x; split; [left|done]|exists x'; split; [by right|done]].
    + intros (x' & Hx' & E). apply elem_of_cons in Hx' as [->|Hx']; [left; congruence|right; eauto].
Qed.
(** What [get_votes] returns. *)
Lemma votes_get_spec vs x :
  votes_ok vs ->
  match votes_get vs x with
  | Some l => NoDup (sv_voter <$> l) /\ l <> [] /\
      forall v, v ∈ l <-> vs_by_addr vs !! sv_voter v = Some v /\ v_hash (sv_vote v) = x
  | None => forall a v, vs_by_addr vs !! a = Some v -> v_hash (sv_vote v) <> x
  end.
Proof.
  intros (H1 & H2 & H3). unfold votes_get. destruct (vs_by_hash vs !! x) as [s|] eqn:E.
  - assert (forall a, a ∈ s -> exists v, vs_by_addr vs !! a = Some v /\ v_hash (sv_vote v) = x) as Hs.
    { intros a Ha. apply H2. eauto. }
    destruct (mapM (fun a => vs_by_addr vs !! a) (elements s)) as [l|] eqn:Em.
    + assert (sv_voter <$> l = elements s) as Hl.
      { clear Hs E. apply mapM_Some in Em. induction Em as [|a v l' k Ha Hr IH]; [done|].
        rewrite fmap_cons, IH. f_equal. eauto. }
      split; [rewrite Hl; apply NoDup_elements|]. split.
      { intros ->. simpl in Hl. apply (H1 _ _ E). symmetry in Hl. apply elements_empty_inv in Hl.
        by apply leibniz_equiv. }
      intros v. rewrite (mapM_elem_of _ _ _ _ Em). split.
      * intros (a & Ha & Hv). rewrite elem_of_elements in Ha.
        destruct (Hs _ Ha) as (v' & Hv' & Hx). rewrite Hv in Hv'. simplify_eq.
        by rewrite (H3 _ _ Hv).
      * intros (Hv & Hx). exists (sv_voter v). split; [|done]. rewrite elem_of_elements.
        destruct (proj2 (H2 x (sv_voter v))) as (s' & Hs' & Hin); [eauto|]. congruence.
    + exfalso. apply mapM_None in Em. apply Exists_exists in Em as (a & Ha & Hn).
      rewrite elem_of_elements in Ha. destruct (Hs _ Ha) as (v & Hv & _). congruence.
  - intros a v Hv Hx. destruct (proj2 (H2 x a)) as (s & Hs & _); [eauto|]. congruence.
Qed.

(** ** Certificates *)
Lemma last_qc_snoc ops op h sel :
  last_qc (ops ++ [op]) h sel = last_qc_step h sel (last_qc ops h sel) op.
Proof. unfold last_qc. by rewrite foldl_snoc. Qed.
Lemma vops_qc_id ops h r t :
  qcpair_get (rc_qc (rnd (vops ops) h r)) t =
  last_qc ops h (fun q => (av_round q =? r) && bool_decide (av_type q = t)).
Proof.
  induction ops as [|op ops IH] using rev_ind.
  - unfold rnd, vc_round, vops; simpl. rewrite lookup_empty. by destruct t.
  - rewrite vops_snoc, last_qc_snoc, <-IH. destruct op as [v|q|h'|till]; cbn [vop_run last_qc_step].
    + rewrite rnd_vote. destruct (decide _); [|done]. by rewrite rc_qc_insert.
    + rewrite rnd_qc. destruct (N.eqb_spec (av_height q) h), (N.eqb_spec (av_round q) r); simpl;
        try (rewrite decide_False by tauto; done).
      rewrite decide_True by done. simpl. rewrite qcpair_get_set.
      destruct (decide (av_type q = t)).
      * by rewrite bool_decide_eq_true_2.
      * by rewrite bool_decide_eq_false_2.
    + rewrite rnd_take. destruct (N.eqb_spec h h').
      * rewrite decide_True by done. by destruct t.
      * by rewrite decide_False.
    + rewrite rnd_flush. destruct (N.ltb_spec h till).
      * rewrite decide_True by done. by destruct t.
      * rewrite decide_False by lia. done.
Qed.
Lemma vops_qc_hash ops h x t :
  qcpair_get (qch (vops ops) h x) t =
  last_qc ops h (fun q => bool_decide (av_hash q = x) && bool_decide (av_type q = t)).
Proof.
  induction ops as [|op ops IH] using rev_ind.
  - unfold qch, vops; simpl. rewrite lookup_empty. by destruct t.
  - rewrite vops_snoc, last_qc_snoc, <-IH. destruct op as [v|q|h'|till]; cbn [vop_run last_qc_step].
    + by rewrite qch_vote.
    + rewrite qch_qc. destruct (N.eqb_spec (av_height q) h); simpl;
        [|rewrite decide_False by tauto; done].
      destruct (decide (av_hash q = x)).
      * rewrite decide_True by done. rewrite (bool_decide_eq_true_2 (av_hash q = x)) by done.
        simpl. rewrite qcpair_get_set. destruct (decide (av_type q = t)).
        -- by rewrite bool_decide_eq_true_2.
        -- by rewrite bool_decide_eq_false_2.
      * rewrite decide_False by tauto. by rewrite (bool_decide_eq_false_2 (av_hash q = x)).
    + rewrite qch_take. destruct (N.eqb_spec h h').
      * rewrite decide_True by done. by destruct t.
      * by rewrite decide_False.
    + rewrite qch_flush. destruct (N.ltb_spec h till).
      * rewrite decide_True by done. by destruct t.
      * rewrite decide_False by lia. done.
Qed.
Lemma last_qc_sel ops h sel q :
  last_qc ops h sel = Some q -> av_height q = h /\ sel q = true /\ VQC q ∈ ops.
Proof.
  induction ops as [|op ops IH] using rev_ind; [done|].
  rewrite last_qc_snoc, elem_of_app, elem_of_list_singleton. destruct op as [w|q'|h'|till]; simpl.
  - intros H. destruct (IH H) as (? & ? & ?). auto.
  - destruct (_ && _) eqn:E; [|intros H; destruct (IH H) as (? & ? & ?); auto].
    intros; simplify_eq. rewrite andb_true_iff, N.eqb_eq in E. destruct E. auto.
  - destruct (_ =? _); [done|]. intros H. destruct (IH H) as (? & ? & ?). auto.
  - destruct (_ <? _); [done|]. intros H. destruct (IH H) as (? & ? & ?). auto.
Qed.

(** ** Proposals *)
Section Prop_.
Context {T : Type} `{EqDecision T}.
Definition pget (c : propcol T) (h r : N) : option (sproposal T) := c !! h ≫= fun rc => rc !! r.
Lemma pc_get_pget (c : propcol T) h r :
  pc_get c h r = match pget c h r with Some p => Ok p | None => Err EStorage end.
Proof. unfold pc_get, pget. destruct (c !! h) as [rc|]; simpl; [|done]. by destruct (rc !! r). Qed.
Lemma pget_step (c : propcol T) op h r :
  pget (pop_run c op) h r = first_prop_step h r (pget c h r) op.
Proof.
  destruct op as [h' r' p|h'|till]; simpl.
  - unfold pget, pc_insert, prc_insert.
    destruct (N.eqb_spec h h') as [<-|Hh]; simpl.
    + destruct (c !! h) as [rc|] eqn:Ec; simpl.
      * destruct (rc !! r') as [p'|] eqn:Er; simpl.
        -- destruct (decide (p' = p)); simpl; rewrite lookup_insert; simpl;
           destruct (N.eqb_spec r r') as [<-|Hr]; rewrite ?Er; try done; by destruct (rc !! r).
        -- rewrite lookup_insert. simpl. destruct (N.eqb_spec r r') as [<-|Hr].
           ++ rewrite lookup_insert, Er. done.
           ++ rewrite lookup_insert_ne by done. by destruct (rc !! r).
      * rewrite lookup_empty. simpl. rewrite lookup_insert. simpl.
        destruct (N.eqb_spec r r') as [<-|Hr].
        -- by rewrite lookup_insert.
        -- rewrite lookup_insert_ne by done. by rewrite lookup_empty.
    + assert (forall x, <[h' := x]> c !! h = c !! h) as Hl by (intros; by rewrite lookup_insert_ne).
      destruct (default ∅ (c !! h') !! r') as [p'|]; [destruct (decide (p' = p))|]; simpl; rewrite Hl;
      destruct (c !! h ≫= _); done.
  - unfold pget. destruct (N.eqb_spec h h') as [->|Hh].
    + by rewrite lookup_delete.
    + by rewrite lookup_delete_ne.
  - unfold pget, pc_flush. rewrite split_off_lookup. destruct (N.ltb_spec h till).
    + by rewrite decide_True.
    + rewrite decide_False by lia. done.
Qed.
Lemma pops_first (ops : list (pop T)) h r : pget (pops ops) h r = first_prop ops h r.
Proof.
  induction ops as [|op ops IH] using rev_ind.
  - unfold pget, pops; simpl. by rewrite lookup_empty.
  - unfold pops, first_prop in *. rewrite !foldl_snoc, pget_step, IH. done.
Qed.
Lemma pc_insert_result (c : propcol T) h r p :
  (pc_insert c h r p).2 =
  match pget c h r with
  | Some p' => if decide (p' = p) then Ok tt else Err (EMultiProposal h r)
  | None => Ok tt
  end.
Proof.
  unfold pc_insert, prc_insert, pget. destruct (c !! h) as [rc|]; simpl.
  - destruct (rc !! r) as [p'|]; [|done]. destruct (decide (p' = p)); done.
  - rewrite lookup_empty. done.
Qed.
End Prop_.

(** ** Chokes *)
Definition choke_dom (c : chokecol) (r : N) : gset bytes :=
  match cc_chokes c !! r with Some m => dom m | None => ∅ end.
Lemma cops_dom ops r :
  NoDup (chokers ops r) /\ choke_dom (cops ops) r = list_to_set (chokers ops r).
Proof.
  induction ops as [|op ops [IH1 IH2]] using rev_ind.
  { split; [constructor|]. unfold choke_dom, cops; simpl. by rewrite lookup_empty. }
  unfold cops, chokers in *. rewrite !foldl_snoc.
  destruct op as [r' sc|r' q|]; simpl; [| |split; [constructor|unfold choke_dom; simpl; by rewrite lookup_empty]].
  - set (cur := foldl (chokers_step r) [] ops) in *. set (c := foldl cop_run chokecol_new ops) in *.
    assert (choke_dom (cc_insert c r' sc) r =
      if r =? r' then {[sc_addr sc]} ∪ choke_dom c r else choke_dom c r) as Hd.
    { unfold choke_dom, cc_insert; simpl. destruct (N.eqb_spec r r') as [<-|Hr].
      - rewrite lookup_insert. rewrite dom_insert_L. destruct (cc_chokes c !! r); simpl; [done|].
        by rewrite dom_empty_L.
      - by rewrite lookup_insert_ne. }
    rewrite Hd. destruct (r =? r'); simpl; [|done].
    destruct (decide (sc_addr sc ∈ cur)) as [Hin|Hin].
    + rewrite bool_decide_eq_true_2 by done. simpl. split; [done|]. rewrite IH2.
      apply leibniz_equiv. set_solver.
    + rewrite bool_decide_eq_false_2 by done. simpl. split; [by constructor|]. by rewrite IH2.
  - split; [done|]. rewrite <-IH2. done.
Qed.
Lemma cops_size ops r m :
  cc_chokes (cops ops) !! r = Some m -> size m = length (chokers ops r).
Proof.
  intros Hm. destruct (cops_dom ops r) as [Hn Hd]. unfold choke_dom in Hd. rewrite Hm in Hd.
  rewrite <-size_dom, Hd. by apply size_list_to_set.
Qed.
Lemma cops_none ops r : cc_chokes (cops ops) !! r = None -> chokers ops r = [].
Proof.
  intros Hm. destruct (cops_dom ops r) as [Hn Hd]. unfold choke_dom in Hd. rewrite Hm in Hd.
  destruct (chokers ops r) as [|x l]; [done|]. exfalso.
  assert (x ∈ (∅ : gset bytes)) by (rewrite Hd; set_solver). set_solver.
Qed.
Lemma find_sorted (l : list (N * gmap bytes schoke)) p :
  StronglySorted key_desc l ->
  match List.find p l with
  | Some kv => kv ∈ l /\ p kv = true /\ forall kv', kv' ∈ l -> p kv' = true -> kv'.1 <= kv.1
  | None => forall kv, kv ∈ l -> p kv = false
  end.
Proof.
  induction 1 as [|x l Hs IH Hf]; simpl.
  { intros kv Hkv. by apply elem_of_nil in Hkv. }
  rewrite Forall_forall in Hf. destruct (p x) eqn:E.
  - split; [left|]. split; [done|]. intros kv' Hin _. apply elem_of_cons in Hin as [->|Hin]; [done|].
    exact (Hf _ Hin).
  - destruct (List.find p l) as [kv|].
    + destruct IH as (H1 & H2 & H3). split; [by right|]. split; [done|]. intros kv' Hin Hp.
      apply elem_of_cons in Hin as [->|Hin]; [congruence|auto].
    + intros kv Hin. apply elem_of_cons in Hin as [->|Hin]; auto.
Qed.
Lemma max_round_spec ops n :
  match cc_max_round (cops ops) n with
  | Some r => (2 * n < 3 * length (chokers ops r))%nat /\
      forall r', r < r' -> (3 * length (chokers ops r') <= 2 * n)%nat
  | None => forall r, (3 * length (chokers ops r) <= 2 * n)%nat
  end.
Proof.
  unfold cc_max_round.
  set (l := merge_sort key_desc (map_to_list (cc_chokes (cops ops)))).
  assert (StronglySorted key_desc l) as Hs.
  { apply StronglySorted_merge_sort; [intros ? ? ?|intros ? ?]; unfold key_desc; lia. }
  assert (forall r m, (r, m) ∈ l <-> cc_chokes (cops ops) !! r = Some m) as Hl.
  { intros r m. unfold l. rewrite merge_sort_Permutation. apply elem_of_map_to_list. }
  pose proof (find_sorted l (fun kv => (n * 2 <? size kv.2 * 3)%nat) Hs) as H.
  destruct (List.find _ l) as [[r m]|]; simpl in *.
  - destruct H as (H1 & H2 & H3). apply Hl in H1. rewrite (cops_size _ _ _ H1) in H2.
    apply Nat.ltb_lt in H2. split; [lia|]. intros r' Hr'.
    destruct (cc_chokes (cops ops) !! r') as [m'|] eqn:E'.
    + rewrite <-(cops_size _ _ _ E'). destruct (decide (n * 2 < size m' * 3)%nat) as [Hc|Hc]; [|lia].
      specialize (H3 (r', m') (proj2 (Hl _ _) E')). simpl in H3. rewrite Nat.ltb_lt in H3.
      specialize (H3 Hc). lia.
    + rewrite (cops_none _ _ E'). simpl. lia.
  - intros r. destruct (cc_chokes (cops ops) !! r) as [m'|] eqn:E'.
    + specialize (H (r, m') (proj2 (Hl _ _) E')). simpl in H. apply Nat.ltb_ge in H.
      rewrite (cops_size _ _ _ E') in H. lia.
    + rewrite (cops_none _ _ E'). simpl. lia.
Qed.

(** ** Counting *)
Lemma weight_of_cons x who vals n :
  distinct vals -> n ∈ vals -> n_addr n = x -> x ∉ who ->
  weight_of (x :: who) vals = n_vw n + weight_of who vals.
Proof.
  intros Hd Hn <- Hw. unfold weight_of, weight_where, distinct in *.
  revert Hn. induction vals as [|m vals IH]; intros Hn; [by apply elem_of_nil in Hn|].
  rewrite fmap_cons in Hd. apply NoDup_cons in Hd as [Hm Hd].
  unfold sumN in *; simpl. apply elem_of_cons in Hn as [->|Hn].
  - rewrite bool_decide_eq_true_2 by left. rewrite (bool_decide_eq_false_2 (n_addr m ∈ who)) by done.
    f_equal. rewrite N.add_0_l.
    change (sumN (fun n => if bool_decide (n_addr n ∈ n_addr m :: who) then n_vw n else 0) vals =
            sumN (fun n => if bool_decide (n_addr n ∈ who) then n_vw n else 0) vals).
    apply sumN_ext. intros y Hy. apply (f_equal (fun b : bool => if b then n_vw y else 0)).
    apply bool_decide_ext. rewrite elem_of_cons. split; [intros [E|?]; [|done]|auto].
    exfalso. apply Hm. rewrite <-E. by apply elem_of_list_fmap_1.
  - rewrite IH by done.
    assert (n_addr m <> n_addr n) as Hne.
    { intros E. apply Hm. rewrite E. by apply elem_of_list_fmap_1. }
    assert (bool_decide (n_addr m ∈ n_addr n :: who) = bool_decide (n_addr m ∈ who)) as ->.
    { apply bool_decide_ext. rewrite elem_of_cons. tauto. }
    lia.
Qed.
Lemma weight_of_nil vals : weight_of [] vals = 0.
Proof.
  unfold weight_of, weight_where. induction vals as [|m vals IH]; [done|]. exact IH.
Qed.
Lemma weight_of_ext who1 who2 vals : (forall x, x ∈ who1 <-> x ∈ who2) ->
  weight_of who1 vals = weight_of who2 vals.
Proof.
  intros H. apply sumN_ext. intros y _. apply (f_equal (fun b : bool => if b then n_vw y else 0)).
  apply bool_decide_ext. apply H.
Qed.
Lemma weight_where_ext P Q vals : (forall n, n ∈ vals -> P (n_addr n) = Q (n_addr n)) ->
  weight_where P vals = weight_where Q vals.
Proof. intros H. apply sumN_ext. intros y Hy. by rewrite H. Qed.
Lemma count_addrs_ok vals l acc :
  distinct vals -> NoDup l -> (forall x, x ∈ l -> x ∈ n_addr <$> vals) ->
  acc + weight_of l vals < 2 ^ 32 ->
  count_addrs (auth_update vals) l acc = Ok (acc + weight_of l vals).
Proof.
  intros Hd. revert acc. induction l as [|x l IH]; intros acc Hn Hin Hs; simpl.
  { rewrite weight_of_nil. f_equal. lia. }
  apply NoDup_cons in Hn as [Hx Hn].
  assert (x ∈ n_addr <$> vals) as Hxv by (apply Hin; left).
  apply elem_of_list_fmap in Hxv as (n & En & Hnv).
  rewrite (weight_of_cons x l vals n) in * by done.
  unfold get_vote_weight. rewrite En, (auth_update_vmap vals n Hd Hnv). simpl.
  rewrite IH; [f_equal| | |].
  - rewrite w32_small by (unfold U32; lia). lia.
  - done.
  - intros y Hy. apply Hin. by right.
  - rewrite w32_small by (unfold U32; lia). lia.
Qed.
Lemma count_hashes_spec vals thr (l : list (bytes * list bytes)) :
  distinct vals -> total_weight vals < 2 ^ 32 ->
  (forall x as_, (x, as_) ∈ l -> NoDup as_ /\ forall a, a ∈ as_ -> a ∈ n_addr <$> vals) ->
  match count_hashes (auth_update vals) thr l with
  | Ok (Some x) => exists as_, (x, as_) ∈ l /\ thr < weight_of as_ vals * 3
  | Ok None => forall x as_, (x, as_) ∈ l -> weight_of as_ vals * 3 <= thr
  | _ => False
  end.
Proof.
  intros Hd Ht. induction l as [|[x as_] l IH]; intros Hl; simpl.
  { intros x as_ Hx. by apply elem_of_nil in Hx. }
  destruct (Hl x as_ ltac:(left)) as [Hn Hin].
  pose proof (weight_of_le as_ vals).
  rewrite count_addrs_ok by (try done; lia). cbn [rbind]. rewrite N.add_0_l.
  destruct (N.ltb_spec thr (weight_of as_ vals * 3)) as [Hlt|Hge].
  - exists as_. split; [left|done].
  - specialize (IH (fun x' as' H' => Hl x' as' (elem_of_list_further _ _ _ H'))).
    destruct (count_hashes _ _ l) as [[y|]| |]; try done.
    + destruct IH as (as' & Hin' & Hw). exists as'. split; [by right|done].
    + intros y as' Hy. apply elem_of_cons in Hy as [E|Hy]; [simplify_eq; done|]. eauto.
Qed.
(** Two disjoint sets cannot both hold more than two thirds. *)
Lemma disjoint_quorums vals (p q : list bytes) :
  2 * total_weight vals < weight_of p vals * 3 -> 2 * total_weight vals < weight_of q vals * 3 ->
  exists a, a ∈ p /\ a ∈ q.
Proof.
  intros Hp Hq.
  destruct (quorum_intersection vals (fun a => bool_decide (a ∈ p)) (fun a => bool_decide (a ∈ q))
     (fun _ => false)) as (n & _ & H1 & H2 & _).
  - unfold weight_of in *. lia.
  - unfold weight_of in *. lia.
  - assert (weight_where (fun _ => false) vals = 0) as ->.
    { clear. unfold weight_where. induction vals as [|m vals IH]; [done|]. exact IH. }
    pose proof (weight_of_le p vals). lia.
  - apply bool_decide_eq_true in H1, H2. eauto.
Qed.
