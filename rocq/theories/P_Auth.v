(** * P_Auth: validators, leaders, bitmaps (C05-C09). *)
From Verif Require Import AuthProofs.

(** Example validators with unequal weights, given in two orders. *)
Definition vA := mkVNode [x41] 1 4.
Definition vB := mkVNode [x42] 2 3.
Definition vC := mkVNode [x43] 0 2.
Definition vD := mkVNode [x44] 5 1.
Definition ex_vals := [vC; vA; vD; vB].
(** the largest prime below 4 is 3 *)
Definition ex_lc (random : bool) : lcfg := mkLcfg random (fun _ => 3) 10.

(** ** C05 *)
(** The order in which the chain lists the validators is irrelevant to leaders, voters and
    thresholds. *)
Theorem C05_order_of_list_irrelevant :
  forall lc l1 l2 height round bitmap,
    distinct l1 -> l1 ≡ₚ l2 ->
    get_proposer lc (auth_update l1) height round = get_proposer lc (auth_update l2) height round /\
    get_leader lc height round l1 = get_leader lc height round l2 /\
    get_voters (auth_update l1) bitmap = get_voters (auth_update l2) bitmap /\
    extract_voters l1 bitmap = extract_voters l2 bitmap /\
    is_above_threshold (auth_update l1) bitmap = is_above_threshold (auth_update l2) bitmap.
Proof.
  intros lc l1 l2 h r bm Hd Hp.
  rewrite (auth_update_perm l1 l2 Hd Hp). unfold get_leader, extract_voters.
  rewrite (ksort_perm_eq n_addr l1 l2 Hd Hp). repeat split.
Qed.
(** Position [i] of every bitmap is the [i]-th address in ascending order. *)
Theorem C05_positions_are_ascending_addresses :
  forall l, distinct l ->
    ascending (a_addr (auth_update l)) /\ a_addr (auth_update l) ≡ₚ n_addr <$> l.
Proof.
  intros l Hd. split; [by apply auth_update_ascending|].
  rewrite auth_update_addr. by rewrite (ksort_perm n_addr l).
Qed.
(** The public [get_leader] and the internal [get_proposer] agree; where the internal one
    returns an error the public one panics. *)
Theorem C05_public_and_internal_agree :
  forall lc height round l,
    lc_random lc = false \/ sumN n_pw l < 2 ^ 32 ->
    (forall x, get_leader lc height round l = Ok x <->
               get_proposer lc (auth_update l) height round = Ok x) /\
    (forall bitmap, extract_voters l bitmap = get_voters (auth_update l) bitmap).
Proof.
  intros lc h r l Hc. split; [|intros; apply extract_eq_get].
  intros x. rewrite leader_proposer by done.
  destruct (get_proposer lc (auth_update l) h r); split; intros H; simplify_eq; done.
Qed.
(** With random leaders and propose weights summing to 2^32 or more they differ. *)
Theorem C05_random_u32_sum_refuted :
  exists lc l height round x,
    lc_random lc = true /\ distinct l /\ Forall (fun n => n_pw n < 2 ^ 32) l /\
    get_proposer lc (auth_update l) height round = Ok x /\
    get_leader lc height round l <> Ok x.
Proof.
  exists (ex_lc true), [mkVNode [x41] (2 ^ 31) 1; mkVNode [x42] (2 ^ 31) 1], 1, 0.
  eexists. split; [done|]. split.
  { unfold distinct. apply (bool_decide_eq_true _). vm_compute. reflexivity. }
  split; [repeat constructor|]. split; [vm_compute; reflexivity|]. vm_compute. discriminate.
Qed.
Example C05_example :
  distinct ex_vals /\ ex_vals ≡ₚ [vA; vB; vC; vD] /\
  (fun h => get_leader (ex_lc false) h 0 ex_vals) <$> [1; 2; 3] = [Ok [x44]; Ok [x43]; Ok [x42]] /\
  get_leader (ex_lc true) 7 1 ex_vals = get_proposer (ex_lc true) (auth_update [vA; vB; vC; vD]) 7 1.
Proof.
  split; [unfold distinct; apply (bool_decide_eq_true _); vm_compute; reflexivity|].
  split; [unfold ex_vals; solve_Permutation|]. vm_compute. done.
Qed.

(** ** C06 *)
(** In any [n] consecutive rounds of a height each of the [n] validators leads exactly once. *)
Theorem C06_round_robin_fair :
  forall lc l height r0 v,
    lc_random lc = false -> distinct l -> N.of_nat (length l) < 2 ^ 32 ->
    height * lc_prime lc (N.of_nat (length l)) + r0 + N.of_nat (length l) <= 2 ^ 64 ->
    v ∈ l ->
    exists k, k < N.of_nat (length l) /\
      get_proposer lc (auth_update l) height (r0 + k) = Ok (n_addr v) /\
      forall k', k' < N.of_nat (length l) ->
        get_proposer lc (auth_update l) height (r0 + k') = Ok (n_addr v) -> k' = k.
Proof.
  intros lc l h r0 v Hr Hd Hn Ho Hv.
  assert (0 < N.of_nat (length l)) as Hpos.
  { destruct l; [by apply elem_of_nil in Hv|]. simpl. lia. }
  assert (n_addr v ∈ a_addr (auth_update l)) as Hin.
  { rewrite auth_update_addr, (ksort_perm n_addr l). by apply elem_of_list_fmap_1. }
  apply elem_of_list_lookup in Hin as [i Hi].
  assert (N.of_nat i < N.of_nat (length l)) as Hil.
  { apply lookup_lt_Some in Hi. rewrite auth_update_addr, fmap_length in Hi.
    rewrite (Permutation_length (ksort_perm n_addr l)) in Hi. lia. }
  assert (NoDup (a_addr (auth_update l))) as Hnd.
  { apply ascending_nodup, auth_update_ascending. done. }
  destruct (window_residue (h * lc_prime lc (N.of_nat (length l)) + r0) (N.of_nat (length l)) (N.of_nat i))
    as (k & Hk & Hm & Hu); [done|done|].
  exists k. split; [done|]. split.
  - destruct (rotation_proposer lc l h (r0 + k)) as (x & Hx & Hg); [done|lia|lia|].
    rewrite N.add_assoc, Hm, Nat2N.id, Hi in Hx. simplify_eq. done.
  - intros k' Hk' Hg. apply Hu; [done|].
    destruct (rotation_proposer lc l h (r0 + k')) as (x & Hx & Hg'); [done|lia|lia|].
    rewrite Hg in Hg'. simplify_eq. rewrite N.add_assoc in Hx.
    pose proof (proj1 (NoDup_alt _) Hnd _ _ _ Hx Hi) as E. lia.
Qed.
Example C06_example :
  (fun r => get_proposer (ex_lc false) (auth_update ex_vals) 5 r) <$> [10; 11; 12; 13] =
  [Ok [x42]; Ok [x43]; Ok [x44]; Ok [x41]].
Proof. vm_compute. done. Qed.

(** ** C07 *)
(** Let [tmp] be [floor(u64::MAX / sum)]. The accepted digits are those below [sum * tmp]; they
    are cut into consecutive intervals of [w_i * tmp] digits, and the digits selecting
    validator [i] are exactly the [i]-th interval. *)
Theorem C07_exactly_proportional :
  forall (ws : list N), let sum := sumN id ws in let tmp := (2 ^ 64 - 1) / sum in
    0 < sum < 2 ^ 64 ->
    forall i w, ws !! i = Some w ->
    forall d, (d < sum * tmp /\ pick d tmp 0 ws 0 = i) <->
              sumN id (take i ws) * tmp <= d < sumN id (take i ws) * tmp + w * tmp.
Proof.
  intros ws sum tmp Hs i w Hi d. destruct (tmp_bounds sum Hs) as [H1 H2].
  apply pick_iff; done.
Qed.
(** The result uses the first acceptable output of the generator, is in range, and its
    validator has positive weight. *)
Theorem C07_index_in_range_and_positive :
  forall fuel seed (ws : list N) i, let sum := sumN id ws in let tmp := (2 ^ 64 - 1) / sum in
    sum < 2 ^ 64 ->
    get_random_proposer_index fuel seed ws sum = Ok i ->
    exists k d w,
      d = pcg_out (Nat.iter (S k) pcg_next (pcg_seed seed)) /\ d < sum * tmp /\
      (forall j, (j < k)%nat -> sum * tmp <= pcg_out (Nat.iter (S j) pcg_next (pcg_seed seed))) /\
      pick d tmp 0 ws 0 = i /\ ws !! i = Some w /\ 0 < w.
Proof.
  intros fuel seed ws i sum tmp Hs H. unfold get_random_proposer_index in H.
  destruct (N.eqb_spec sum 0) as [?|Hz]; [done|].
  destruct (tmp_bounds sum ltac:(lia)) as [H1 H2].
  rewrite w64_small in H by exact H2.
  destruct (draw _ _ _) as [d|] eqn:E; [|done]. simplify_eq.
  destruct (draw_spec _ _ _ _ E) as (k & Hd & Hb & Hj).
  destruct (pick_spec ws 0 0 tmp d) as (i & w & Hi & Hp & Hr); [done| | |done|].
  { rewrite N.add_0_l. exact H2. }
  { lia. }
  exists k, d, w. do 3 (split; [done|]). split; [done|].
  assert (pick d (u64_max / sum) 0 ws 0 = i) as -> by exact Hp.
  split; [done|]. destruct (decide (w = 0)) as [->|]; lia.
Qed.
(** Hence a validator of propose weight 0 never leads, whatever the height and round. *)
Theorem C07_zero_weight_never_leads :
  forall lc l height round x,
    lc_random lc = true -> sumN n_pw l < 2 ^ 64 ->
    get_proposer lc (auth_update l) height round = Ok x ->
    exists n, n ∈ l /\ n_addr n = x /\ 0 < n_pw n.
Proof.
  intros lc l h r x Hr Hs H. unfold get_proposer in H. rewrite Hr in H.
  rewrite auth_update_pw, auth_update_psum, auth_update_addr in H.
  rewrite (w64_small (sumN n_pw l)) in H by exact Hs.
  assert (sumN n_pw l = sumN id (n_pw <$> ksort n_addr l)) as Es.
  { rewrite sumN_fmap. rewrite <-(sumN_perm _ _ _ (ksort_perm n_addr l)). done. }
  rewrite Es in H.
  destruct (get_random_proposer_index _ _ _ _) as [i| |] eqn:E; simpl in H; try done.
  apply C07_index_in_range_and_positive in E as (k & d & w & _ & _ & _ & _ & Hi & Hw);
    [|rewrite <-Es; done].
  rewrite list_lookup_fmap in H. rewrite list_lookup_fmap in Hi.
  destruct (ksort n_addr l !! i) as [n|] eqn:En; simpl in *; simplify_eq.
  exists n. split; [|done]. apply elem_of_list_lookup_2 in En. by rewrite ksort_perm in En.
Qed.
Example C07_example :
  (fun h => get_proposer (ex_lc true) (auth_update ex_vals) h 0) <$> [1; 2; 3; 4; 5; 6] =
  [Ok [x44]; Ok [x44]; Ok [x42]; Ok [x42]; Ok [x44]; Ok [x42]].
Proof. vm_compute. reflexivity. Qed.

(** ** C08 *)
Theorem C08_threshold_exact :
  forall l bitmap,
    distinct l -> 3 * total_weight l < 2 ^ 64 ->
    exists b, is_above_threshold (auth_update l) bitmap = Ok b /\
      (b = true <-> 3 * weight_of (get_voters (auth_update l) bitmap) l > 2 * total_weight l).
Proof.
  intros l bm Hd Hw. rewrite threshold_exact by done. eexists. split; [done|].
  rewrite N.ltb_lt. lia.
Qed.
Theorem C08_quorums_share_honest :
  forall l bitmap1 bitmap2 (faulty : list bytes),
    distinct l -> 3 * total_weight l < 2 ^ 64 ->
    is_above_threshold (auth_update l) bitmap1 = Ok true ->
    is_above_threshold (auth_update l) bitmap2 = Ok true ->
    3 * weight_of faulty l < total_weight l ->
    exists a, a ∈ n_addr <$> l /\ a ∈ get_voters (auth_update l) bitmap1 /\
      a ∈ get_voters (auth_update l) bitmap2 /\ a ∉ faulty.
Proof.
  intros l b1 b2 F Hd Hw H1 H2 HF.
  rewrite threshold_exact in H1, H2 by done. injection H1 as H1. injection H2 as H2.
  apply N.ltb_lt in H1, H2.
  destruct (quorum_intersection l
    (fun a => bool_decide (a ∈ get_voters (auth_update l) b1))
    (fun a => bool_decide (a ∈ get_voters (auth_update l) b2))
    (fun a => bool_decide (a ∈ F)) H1 H2 HF) as (n & Hn & HP & HQ & HN).
  apply bool_decide_eq_true in HP, HQ. apply bool_decide_eq_false in HN.
  exists (n_addr n). split; [by apply elem_of_list_fmap_1|]. done.
Qed.
(** With a repeated address the check accepts a set holding less than 2/3 of the weight. *)
Theorem C08_duplicate_address_refuted :
  exists l bitmap,
    ~ distinct l /\ is_above_threshold (auth_update l) bitmap = Ok true /\
    3 * weight_of (get_voters (auth_update l) bitmap) l < 2 * total_weight l.
Proof.
  exists [mkVNode [x41] 1 0; mkVNode [x41] 1 10; mkVNode [x42] 1 6], [xc0].
  split.
  { unfold distinct. simpl. intros H. apply NoDup_cons in H as [H _]. apply H. left. }
  split; vm_compute; reflexivity.
Qed.
Example C08_example :
  distinct ex_vals /\ total_weight ex_vals = 10 /\
  is_above_threshold (auth_update ex_vals) [xc0] = Ok true /\   (* A and B: 7 *)
  is_above_threshold (auth_update ex_vals) [xb0] = Ok true /\   (* A, C and D: 7 *)
  is_above_threshold (auth_update ex_vals) [x70] = Ok false /\  (* B, C and D: 6 *)
  3 * weight_of [[x42]] ex_vals < total_weight ex_vals.         (* B faulty: 3 *)
Proof.
  split; [unfold distinct; apply (bool_decide_eq_true _); vm_compute; reflexivity|]. vm_compute. done.
Qed.

(** ** C09 *)
(** [voters]: the voters in the order their signatures are handed to [aggregate_signatures]
    ([generate_qc] sorts the votes by voter first). Reading the bitmap gives the same list. *)
Theorem C09_bitmap_names_exactly_the_voters :
  forall l (votes : list svote),
    distinct l -> NoDup (sv_voter <$> votes) ->
    (forall v, v ∈ votes -> sv_voter v ∈ n_addr <$> l) ->
    let voters := sv_voter <$> ksort sv_voter votes in
    let bitmap := voters_bitmap (auth_update l) voters in
    ascending voters /\ voters ≡ₚ sv_voter <$> votes /\
    get_voters (auth_update l) bitmap = voters /\ extract_voters l bitmap = voters.
Proof.
  intros l votes Hd Hn Hin voters bitmap.
  assert (ascending voters) as Ha.
  { apply sorted_ascending; [|apply ksort_sorted]. by rewrite ksort_perm. }
  assert (voters ≡ₚ sv_voter <$> votes) as Hp by (unfold voters; by rewrite ksort_perm).
  assert (get_voters (auth_update l) bitmap = voters) as Hg.
  { apply bitmap_voters_exact; [done..|]. intros x Hx. rewrite Hp in Hx.
    apply elem_of_list_fmap in Hx as (v & -> & Hv). auto. }
  split; [done|]. split; [done|]. split; [done|]. by rewrite extract_eq_get.
Qed.
Example C09_example :
  let l := (fun i => mkVNode [i] 1 1) <$> [x01;x02;x03;x04;x05;x06;x07;x08;x09;x0a] in
  let vs := (fun i => mkSVote [] (mkVote 1 0 Prevote []) [i]) <$> [x09; x02; x0a] in
  voters_bitmap (auth_update l) (sv_voter <$> ksort sv_voter vs) = [x40; xc0] /\
  get_voters (auth_update l) [x40; xc0] = [[x02]; [x09]; [x0a]].
Proof. vm_compute. done. Qed.

Print Assumptions C05_order_of_list_irrelevant.
Print Assumptions C05_positions_are_ascending_addresses.
Print Assumptions C05_public_and_internal_agree.
Print Assumptions C05_random_u32_sum_refuted.
Print Assumptions C06_round_robin_fair.
Print Assumptions C07_exactly_proportional.
Print Assumptions C07_index_in_range_and_positive.
Print Assumptions C07_zero_weight_never_leads.
Print Assumptions C08_threshold_exact.
Print Assumptions C08_quorums_share_honest.
Print Assumptions C08_duplicate_address_refuted.
Print Assumptions C09_bitmap_names_exactly_the_voters.
