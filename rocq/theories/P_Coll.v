(** * P_Coll: caches and counting (C10-C15). *)
From Verif Require Import CollProofs.

(** Example data. *)
Definition mkv (h r : N) (t : vtype) (x who : bytes) : svote := mkSVote [] (mkVote h r t x) who.
Definition mkq (h r : N) (t : vtype) (x : bytes) : aggvote := mkAggVote (mkAggSig [] []) t h r x [].
Definition aA : bytes := [x0a].
Definition aB : bytes := [x0b].
Definition aC : bytes := [x0c].
Definition X : bytes := [xf1].
Definition Y : bytes := [xf2].
Definition ex_ops : list vop :=
  [VVote (mkv 1 0 Prevote X aA); VVote (mkv 1 0 Prevote Y aA); VVote (mkv 1 0 Prevote X aB);
   VQC (mkq 1 0 Prevote X); VVote (mkv 2 0 Prevote Y aC); VVote (mkv 1 0 Precommit Y aA);
   VQC (mkq 1 1 Prevote X); VFlush 1].
Definition ex_vals3 : list vnode := [mkVNode aC 1 1; mkVNode aA 1 3; mkVNode aB 1 2].

(** ** C10 *)
(** After any history, [get_votes] returns for a hash exactly the validators' first votes for
    that hash, each validator once; and a validator's address is listed under a hash in the
    vote map iff its first vote was for that hash, hence under at most one hash. *)
Theorem C10_first_vote_per_validator :
  forall (ops : list vop) h r t,
    (forall x, match vc_get_votes (vops ops) h r t x with
       | Ok l => NoDup (sv_voter <$> l) /\
           forall v, v ∈ l <-> first_vote ops h r t (sv_voter v) = Some v /\ v_hash (sv_vote v) = x
       | _ => forall a v, first_vote ops h r t a = Some v -> v_hash (sv_vote v) <> x
       end) /\
    (forall m x a, vc_get_vote_map (vops ops) h r t = Ok m ->
       (exists s, m !! x = Some s /\ a ∈ s) <->
       (exists v, first_vote ops h r t a = Some v /\ v_hash (sv_vote v) = x)).
Proof.
  intros ops h r t. pose proof (vops_votes_ok ops h r t) as Hok. split.
  - intros x. rewrite get_votes_rnd. fold (vs_of (vops ops) h r t).
    pose proof (votes_get_spec _ x Hok) as H.
    destruct (votes_get _ x) as [l|]; simpl.
    + destruct H as (H1 & _ & H2). split; [done|]. intros v. rewrite H2, vops_first_vote. done.
    + intros a v Hv. apply (H a v). by rewrite vops_first_vote.
  - intros m x a Hm. rewrite get_map_rnd in Hm. fold (vs_of (vops ops) h r t) in Hm. simpl in Hm.
    destruct (decide _); [done|]. simplify_eq. destruct Hok as (_ & H2 & _).
    rewrite H2. setoid_rewrite vops_first_vote. done.
Qed.
(** What was stored first stays what is remembered, whatever comes later, until its height is
    dropped. *)
Theorem C10_later_votes_change_nothing :
  forall ops ops' h r t a v,
    first_vote ops h r t a = Some v ->
    Forall (fun op => match op with
            | VVote _ | VQC _ => True
            | VTake h' => h' <> h
            | VFlush till => till <= h end) ops' ->
    first_vote (ops ++ ops') h r t a = Some v.
Proof.
  intros ops ops' h r t a v H Hf. unfold first_vote in *. rewrite foldl_app, H. clear H.
  induction Hf as [|op ops' Ho Hf IH]; [done|]. simpl. destruct op as [w|q|h'|till]; simpl; try done.
  - destruct (N.eqb_spec h h'); [congruence|done].
  - destruct (N.ltb_spec h till); [lia|done].
Qed.
Example C10_example :
  first_vote ex_ops 1 0 Prevote aA = Some (mkv 1 0 Prevote X aA) /\
  vc_get_votes (vops ex_ops) 1 0 Prevote X = Ok [mkv 1 0 Prevote X aA; mkv 1 0 Prevote X aB] /\
  vc_get_votes (vops ex_ops) 1 0 Prevote Y = Err EStorage /\
  vc_vote_count (vops ex_ops) 1 0 Prevote = 2%nat.
Proof. vm_compute. done. Qed.

(** ** C11 *)
(** [l] lists the map [m] in some order, each set in some order (what iterating over the
    HashMap of HashSets may yield). *)
Definition lists_map (l : list (bytes * list bytes)) (m : gmap bytes (gset bytes)) : Prop :=
  forall x, (forall as_, (x, as_) ∈ l -> exists s, m !! x = Some s /\ as_ ≡ₚ elements s) /\
            (forall s, m !! x = Some s -> exists as_, (x, as_) ∈ l).
(** If all recorded voters are validators and the total weight fits u32, then for every
    iteration order the result is: the hash for which the first votes recorded hold more than
    two thirds of the weight, if there is one, else none; and there is at most one. *)
Theorem C11_counting_exact_any_order :
  forall vals ops h r t m l,
    distinct vals -> total_weight vals < 2 ^ 32 ->
    (forall a v, first_vote ops h r t a = Some v -> a ∈ n_addr <$> vals) ->
    vc_get_vote_map (vops ops) h r t = Ok m -> lists_map l m ->
    let votes_for x := weight_where (fun a => match first_vote ops h r t a with
                         | Some v => bool_decide (v_hash (sv_vote v) = x) | None => false end) vals in
    match count_hashes (auth_update vals) (2 * total_weight vals) l with
    | Ok (Some x) => 3 * votes_for x > 2 * total_weight vals /\
                     forall y, 3 * votes_for y > 2 * total_weight vals -> y = x
    | Ok None => forall y, ~ 3 * votes_for y > 2 * total_weight vals
    | _ => False
    end.
Proof.
  intros vals ops h r t m l Hd Ht Hin Hm Hl votes_for.
  destruct (C10_first_vote_per_validator ops h r t) as [_ Hmap].
  assert (forall x as_, (x, as_) ∈ l -> NoDup as_ /\
            (forall a, a ∈ as_ <-> exists v, first_vote ops h r t a = Some v /\ v_hash (sv_vote v) = x))
    as Hset.
  { intros x as_ Hx. destruct (proj1 (Hl x) _ Hx) as (s & Hs & Hp). split.
    - rewrite Hp. apply NoDup_elements.
    - intros a. rewrite <-(Hmap m x a Hm), Hp, elem_of_elements. split; [eauto|].
      intros (s' & Hs' & ?). congruence. }
  assert (forall x as_, (x, as_) ∈ l -> weight_of as_ vals = votes_for x) as Hw.
  { intros x as_ Hx. apply weight_where_ext. intros n Hn. destruct (Hset _ _ Hx) as [_ Ha].
    destruct (first_vote ops h r t (n_addr n)) as [v|] eqn:E.
    - apply bool_decide_ext. rewrite Ha, E. split; [intros (?&?&?); simplify_eq; done|eauto].
    - apply bool_decide_eq_false. rewrite Ha, E. intros (?&?&?). done. }
  pose proof (count_hashes_spec vals (2 * total_weight vals) l Hd Ht) as H.
  assert (forall y, votes_for y > 0 -> exists as_, (y, as_) ∈ l) as Hex.
  { intros y Hy. unfold votes_for, weight_where in Hy. apply N.gt_lt, sumN_pos in Hy as (n & Hn & Hf).
    destruct (first_vote ops h r t (n_addr n)) as [v|] eqn:E; [|lia].
    destruct (bool_decide _) eqn:Eb; [|lia]. apply bool_decide_eq_true in Eb.
    destruct (proj2 (Hmap m y (n_addr n) Hm)) as (s & Hs & _); [eauto|]. by apply (proj2 (Hl y) s). }
  specialize (H ltac:(intros x as_ Hx; destruct (Hset _ _ Hx) as [? Ha]; split; [done|];
    intros a Haa; apply Ha in Haa as (v & Hv & _); eauto)).
  destruct (count_hashes _ _ l) as [[x|]| |]; try done.
  - destruct H as (as_ & Hx & Hq). rewrite (Hw _ _ Hx) in Hq. split; [lia|].
    intros y Hy. destruct (Hex y ltac:(lia)) as (as' & Hy').
    destruct (disjoint_quorums vals as_ as') as (a & Ha & Ha').
    + rewrite (Hw _ _ Hx). lia.
    + rewrite (Hw _ _ Hy'). lia.
    + apply (proj2 (Hset _ _ Hx)) in Ha as (v & Hv & <-).
      apply (proj2 (Hset _ _ Hy')) in Ha' as (v' & Hv' & <-). congruence.
  - intros y Hy. destruct (Hex y ltac:(lia)) as (as' & Hy'). specialize (H _ _ Hy').
    rewrite (Hw _ _ Hy') in H. lia.
Qed.
(** [counting_vote] is [count_hashes] for one such order. *)
Theorem C11_counting_vote :
  forall vals c h r t, total_weight vals * 2 < 2 ^ 64 ->
    match vc_get_vote_map c h r t with
    | Ok m => exists l, lists_map l m /\
        counting_vote (auth_update vals) c h r t =
        count_hashes (auth_update vals) (2 * total_weight vals) l
    | e => counting_vote (auth_update vals) c h r t = Err EStorage
    end.
Proof.
  intros vals c h r t Hw. unfold counting_vote. destruct (vc_get_vote_map c h r t) as [m|e|] eqn:E.
  - exists (prod_map id elements <$> map_to_list m). split.
    + intros x. split.
      * intros as_ Hx. apply elem_of_list_fmap in Hx as ([y s] & Exy & Hy). simpl in Exy.
        unfold prod_map in Exy; simpl in Exy. simplify_eq. apply elem_of_map_to_list in Hy. eauto.
      * intros s Hs. exists (elements s). apply elem_of_list_fmap. exists (x, s).
        split; [done|]. by apply elem_of_map_to_list.
    + simpl. unfold get_vote_weight_sum. rewrite auth_update_vsum.
      rewrite (w64_small (total_weight vals)) by (unfold U64; lia).
      rewrite w64_small by (unfold U64; lia). f_equal. lia.
  - unfold vc_get_vote_map in E. destruct (vc_round _ _ _); simpl in E; [destruct (decide _)|];
      simplify_eq; done.
  - unfold vc_get_vote_map in E. destruct (vc_round _ _ _); simpl in E; [destruct (decide _)|];
      simplify_eq; done.
Qed.
(** Without the bound: all validators voted X, yet no hash is found. *)
Theorem C11_u32_overflow_refuted :
  exists vals ops h r t,
    distinct vals /\ Forall (fun n => n_vw n < 2 ^ 32) vals /\
    (forall n, n ∈ vals -> exists v, first_vote ops h r t (n_addr n) = Some v /\ v_hash (sv_vote v) = X) /\
    counting_vote (auth_update vals) (vops ops) h r t = Ok None.
Proof.
  exists [mkVNode aA 1 (2 ^ 31); mkVNode aB 1 (2 ^ 31)],
    [VVote (mkv 1 0 Prevote X aA); VVote (mkv 1 0 Prevote X aB)], 1, 0, Prevote.
  split; [unfold distinct; apply (bool_decide_eq_true _); vm_compute; reflexivity|].
  split; [repeat constructor|]. split; [|vm_compute; reflexivity].
  intros n Hn. apply elem_of_cons in Hn as [->|Hn]; [eexists; split; reflexivity|].
  apply elem_of_list_singleton in Hn as ->. eexists; split; reflexivity.
Qed.
Example C11_example :
  distinct ex_vals3 /\ total_weight ex_vals3 = 6 /\
  counting_vote (auth_update ex_vals3) (vops ex_ops) 1 0 Prevote = Ok (Some X) /\
  counting_vote (auth_update ex_vals3) (vops ex_ops) 1 0 Precommit = Ok None.
Proof.
  split; [unfold distinct; apply (bool_decide_eq_true _); vm_compute; reflexivity|].
  vm_compute. done.
Qed.

(** ** C12 *)
Theorem C12_first_proposal_wins :
  forall (T : Type) (D : EqDecision T) (ops : list (pop T)) h r,
    pc_get (pops ops) h r =
      match first_prop ops h r with Some p => Ok p | None => Err EStorage end /\
    forall p,
      (pc_insert (pops ops) h r p).2 =
        (match first_prop ops h r with
         | Some p' => if decide (p' = p) then Ok tt else Err (EMultiProposal h r)
         | None => Ok tt end) /\
      (forall p', first_prop ops h r = Some p' ->
         forall h' r', pc_get (pc_insert (pops ops) h r p).1 h' r' = pc_get (pops ops) h' r').
Proof.
  intros T D ops h r. split; [by rewrite pc_get_pget, pops_first|].
  intros p. split; [by rewrite pc_insert_result, pops_first|].
  intros p' Hp' h' r'. rewrite !pc_get_pget.
  pose proof (pget_step (pops ops) (PInsert h r p) h' r') as Hst. cbn [pop_run] in Hst.
  rewrite Hst, pops_first. simpl.
  destruct (first_prop ops h' r') as [q|] eqn:E; [done|].
  destruct (N.eqb_spec h' h) as [->|]; simpl; [|done].
  destruct (N.eqb_spec r' r) as [->|]; simpl; [|done]. congruence.
Qed.
Definition ex_sp (x : bytes) : sproposal N := mkSProposal [] (mkProposal 3 0 7 x None aA).
Example C12_example :
  pc_get (pops [PInsert 3 0 (ex_sp X); PInsert 3 0 (ex_sp Y); PFlush 3]) 3 0 = Ok (ex_sp X) /\
  (pc_insert (pops [PInsert 3 0 (ex_sp X)]) 3 0 (ex_sp Y)).2 = Err (EMultiProposal 3 0).
Proof. vm_compute. done. Qed.

(** ** C13 *)
Theorem C13_flush_drops_exactly_older_heights :
  forall (T : Type) (D : EqDecision T) (pc : propcol T) (c : votecol) till h r t x,
    pc_get (pc_flush pc till) h r = (if h <? till then Err EStorage else pc_get pc h r) /\
    vc_get_votes (vc_flush c till) h r t x = (if h <? till then Err EStorage else vc_get_votes c h r t x) /\
    vc_get_vote_map (vc_flush c till) h r t = (if h <? till then Err EStorage else vc_get_vote_map c h r t) /\
    vc_get_qc_by_id (vc_flush c till) h r t = (if h <? till then Err EStorage else vc_get_qc_by_id c h r t) /\
    vc_get_qc_by_hash (vc_flush c till) h x t = (if h <? till then None else vc_get_qc_by_hash c h x t) /\
    vc_vote_count (vc_flush c till) h r t = (if h <? till then 0%nat else vc_vote_count c h r t) /\
    (vc_take_height (vc_flush c till) h).2 = (if h <? till then None else (vc_take_height c h).2) /\
    (pc_take_height (pc_flush pc till) h).2 = (if h <? till then None else (pc_take_height pc h).2).
Proof.
  intros T D pc c till h r t x.
  unfold pc_get, vc_get_votes, vc_get_vote_map, vc_get_qc_by_id, vc_get_qc_by_hash, vc_vote_count,
    vc_take_height, pc_take_height, vc_round, pc_flush, vc_flush; simpl.
  rewrite !split_off_lookup. destruct (N.ltb_spec h till).
  - rewrite !decide_True by done. done.
  - rewrite !decide_False by lia. done.
Qed.
Example C13_example :
  vc_get_qc_by_id (vc_flush (vops ex_ops) 2) 1 0 Prevote = Err EStorage /\
  vc_vote_count (vc_flush (vops ex_ops) 2) 2 0 Prevote = 1%nat.
Proof. vm_compute. done. Qed.

(** ** C14 *)
Theorem C14_highest_round_with_enough_chokes :
  forall (ops : list cop) (n : nat),
    (forall r, NoDup (chokers ops r)) /\
    match cc_max_round (cops ops) n with
    | Some r => (3 * length (chokers ops r) > 2 * n)%nat /\
        forall r', (3 * length (chokers ops r') > 2 * n)%nat -> r' <= r
    | None => forall r, ~ (3 * length (chokers ops r) > 2 * n)%nat
    end.
Proof.
  intros ops n. split; [intros r; apply cops_dom|].
  pose proof (max_round_spec ops n) as H. destruct (cc_max_round (cops ops) n) as [r|].
  - destruct H as [H1 H2]. split; [lia|]. intros r' Hr'. destruct (decide (r < r')) as [Hl|]; [|lia].
    specialize (H2 _ Hl). lia.
  - intros r Hr. specialize (H r). lia.
Qed.
Definition ex_sc (r : N) (a : bytes) : cop :=
  CChoke r (mkSChoke [] (mkChoke 1 r (UFPrecommit mock_init_qc)) a).
Example C14_example :
  cc_max_round (cops [ex_sc 2 aA; ex_sc 2 aB; ex_sc 2 aC; ex_sc 4 aA; ex_sc 4 aA; ex_sc 4 aA]) 4 = Some 2 /\
  chokers [ex_sc 2 aA; ex_sc 2 aB; ex_sc 2 aA] 2 = [aB; aA].
Proof. vm_compute. done. Qed.

(** ** C15 *)
Theorem C15_certificates_under_their_own_key :
  forall (ops : list vop) h r t x,
    vc_get_qc_by_id (vops ops) h r t =
      (match last_qc ops h (fun q => (av_round q =? r) && bool_decide (av_type q = t)) with
       | Some q => Ok q | None => Err EStorage end) /\
    vc_get_qc_by_hash (vops ops) h x t =
      last_qc ops h (fun q => bool_decide (av_hash q = x) && bool_decide (av_type q = t)) /\
    (forall q, vc_get_qc_by_id (vops ops) h r t = Ok q ->
       av_height q = h /\ av_round q = r /\ av_type q = t /\ VQC q ∈ ops) /\
    (forall q, vc_get_qc_by_hash (vops ops) h x t = Some q ->
       av_height q = h /\ av_hash q = x /\ av_type q = t /\ VQC q ∈ ops).
Proof.
  intros ops h r t x. rewrite get_qc_rnd, get_qc_hash_qch, vops_qc_id, vops_qc_hash.
  split; [done|]. split; [done|]. split.
  - intros q. destruct (last_qc _ _ _) as [q'|] eqn:E; [|done]. intros; simplify_eq.
    apply last_qc_sel in E as (H1 & H2 & H3). rewrite andb_true_iff, N.eqb_eq, bool_decide_eq_true in H2.
    tauto.
  - intros q E. apply last_qc_sel in E as (H1 & H2 & H3).
    rewrite andb_true_iff, !bool_decide_eq_true in H2. tauto.
Qed.
Example C15_example :
  vc_get_qc_by_hash (vops ex_ops) 1 X Prevote = Some (mkq 1 1 Prevote X) /\
  vc_get_qc_by_id (vops ex_ops) 1 0 Prevote = Ok (mkq 1 0 Prevote X).
Proof. vm_compute. done. Qed.

Print Assumptions C10_first_vote_per_validator.
Print Assumptions C10_later_votes_change_nothing.
Print Assumptions C11_counting_exact_any_order.
Print Assumptions C11_counting_vote.
Print Assumptions C11_u32_overflow_refuted.
Print Assumptions C12_first_proposal_wins.
Print Assumptions C13_flush_drops_exactly_older_heights.
Print Assumptions C14_highest_round_with_enough_chokes.
Print Assumptions C15_certificates_under_their_own_key.
