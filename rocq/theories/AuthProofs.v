(** * AuthProofs: facts about sorting, bitmaps, leader election and thresholds. *)
From Verif Require Export Auth Spec.

(** ** Sums *)
Lemma sumN_app {A} (f : A -> N) l k : sumN f (l ++ k) = sumN f l + sumN f k.
Proof. induction l as [|x l IH]; simpl; [done|]. unfold sumN in *. lia. Qed.
Lemma sumN_perm {A} (f : A -> N) l k : l ≡ₚ k -> sumN f l = sumN f k.
Proof. induction 1; simpl; unfold sumN in *; simpl; lia. Qed.
Lemma sumN_le {A} (f g : A -> N) l : (forall x, x ∈ l -> f x <= g x) -> sumN f l <= sumN g l.
Proof.
  induction l as [|x l IH]; intros H; simpl; [done|]. unfold sumN in *; simpl.
  pose proof (H x ltac:(left)). specialize (IH (fun y Hy => H y (elem_of_list_further _ _ _ Hy))). lia.
Qed.
Lemma sumN_ext {A} (f g : A -> N) l : (forall x, x ∈ l -> f x = g x) -> sumN f l = sumN g l.
Proof.
  induction l as [|x l IH]; intros H; simpl; [done|]. unfold sumN in *; simpl.
  rewrite (H x ltac:(left)), IH; [done|]. intros y Hy. apply H. by right.
Qed.
Lemma sumN_add {A} (f g : A -> N) l : sumN (fun x => f x + g x) l = sumN f l + sumN g l.
Proof. induction l as [|x l IH]; simpl; [done|]. unfold sumN in *; simpl. lia. Qed.
Lemma sumN_pos {A} (f : A -> N) l : 0 < sumN f l -> exists x, x ∈ l /\ 0 < f x.
Proof.
  induction l as [|x l IH]; unfold sumN in *; simpl; [lia|]. intros H.
  destruct (decide (0 < f x)) as [Hx|Hx]; [exists x; split; [left|done]|].
  destruct IH as (y & Hy & Hf); [lia|]. exists y. split; [by right|done].
Qed.
Lemma sumN_fmap {A B} (g : A -> B) (f : B -> N) l : sumN f (g <$> l) = sumN (fun x => f (g x)) l.
Proof. induction l as [|x l IH]; [done|]. rewrite fmap_cons. unfold sumN in *; simpl. rewrite IH. done. Qed.

(** ** Sorting *)
Section SortFacts.
Context {A : Type} (key : A -> bytes).
Definition kle (x y : A) : Prop := ble (key x) (key y).

Lemma kinsert_perm x l : kinsert key x l ≡ₚ x :: l.
Proof.
  induction l as [|y l IH]; simpl; [done|]. destruct (decide _); [done|].
  rewrite IH. constructor.
Qed.
Lemma ksort_perm l : ksort key l ≡ₚ l.
Proof. induction l as [|x l IH]; simpl; [done|]. rewrite kinsert_perm, IH. done. Qed.

Lemma kinsert_sorted x l : StronglySorted kle l -> StronglySorted kle (kinsert key x l).
Proof.
  induction 1 as [|y l Hs IH Hf]; simpl; [repeat constructor|].
  destruct (decide (ble (key x) (key y))) as [Hle|Hnle].
  - constructor; [by constructor|]. constructor; [done|].
    eapply stdpp.list.Forall_impl; [exact Hf|]. intros z Hz. eapply ble_trans; eauto.
  - constructor; [done|]. rewrite (kinsert_perm x l). constructor; [|done].
    destruct (ble_total (key x) (key y)); done.
Qed.
Lemma ksort_sorted l : StronglySorted kle (ksort key l).
Proof. induction l; simpl; [constructor|]. by apply kinsert_sorted. Qed.

Lemma nodup_key_inj l x y : NoDup (key <$> l) -> x ∈ l -> y ∈ l -> key x = key y -> x = y.
Proof.
  intros Hn Hx Hy Hk. induction l as [|z l IH]; [by apply elem_of_nil in Hx|].
  rewrite fmap_cons in Hn. apply NoDup_cons in Hn as [Hz Hn].
  apply elem_of_cons in Hx as [->|Hx], Hy as [->|Hy]; auto.
  - destruct Hz. rewrite Hk. by apply elem_of_list_fmap_1.
  - destruct Hz. rewrite <-Hk. by apply elem_of_list_fmap_1.
Qed.

Lemma sorted_unique l1 l2 :
  NoDup (key <$> l1) -> StronglySorted kle l1 -> StronglySorted kle l2 -> l1 ≡ₚ l2 -> l1 = l2.
Proof.
  revert l2. induction l1 as [|x l1 IH]; intros [|y l2] Hn H1 H2 Hp.
  - done.
  - by apply Permutation_nil in Hp.
  - symmetry in Hp. by apply Permutation_nil in Hp.
  - apply StronglySorted_inv in H1 as [H1 F1]. apply StronglySorted_inv in H2 as [H2 F2].
    assert (x = y) as ->.
    { apply (nodup_key_inj (x :: l1)); [done|left| |].
      - rewrite Hp. left.
      - assert (x ∈ y :: l2) as Hx by (rewrite <-Hp; left).
        assert (y ∈ x :: l1) as Hy by (rewrite Hp; left).
        apply elem_of_cons in Hx as [->|Hx]; [done|].
        apply elem_of_cons in Hy as [->|Hy]; [done|].
        rewrite stdpp.list.Forall_forall in F1, F2.
        apply ble_antisym; [exact (F1 _ Hy)|exact (F2 _ Hx)]. }
    rewrite fmap_cons in Hn. apply NoDup_cons in Hn as [_ Hn].
    f_equal. apply IH; auto. by apply Permutation_cons_inv in Hp.
Qed.

Lemma ksort_perm_eq l1 l2 : NoDup (key <$> l1) -> l1 ≡ₚ l2 -> ksort key l1 = ksort key l2.
Proof.
  intros Hn Hp. apply sorted_unique; auto using ksort_sorted.
  - by rewrite ksort_perm.
  - rewrite !ksort_perm. done.
Qed.

Lemma sorted_ascending l : NoDup (key <$> l) -> StronglySorted kle l -> ascending (key <$> l).
Proof.
  intros Hn. induction 1 as [|x l Hs IH Hf]; [constructor|].
  rewrite fmap_cons in *. apply NoDup_cons in Hn as [Hx Hn].
  constructor; [by apply IH|]. apply stdpp.list.Forall_forall. intros k Hk.
  apply elem_of_list_fmap in Hk as (y & -> & Hy).
  rewrite stdpp.list.Forall_forall in Hf. specialize (Hf _ Hy). unfold kle, ble, blt in *.
  destruct (bcmp (key x) (key y)) eqn:E; try done. apply bcmp_eq in E.
  destruct Hx. rewrite E. by apply elem_of_list_fmap_1.
Qed.
End SortFacts.

Lemma blt_trans a b c : blt a b -> blt b c -> blt a c.
Proof. apply bcmp_lt_trans. Qed.
Lemma blt_irrefl a : ~ blt a a.
Proof. unfold blt. rewrite bcmp_refl. done. Qed.
Lemma blt_asym a b : blt a b -> ~ blt b a.
Proof. intros H1 H2. eapply blt_irrefl, blt_trans; eauto. Qed.

Lemma ascending_unique l1 l2 :
  ascending l1 -> ascending l2 -> (forall x, x ∈ l1 <-> x ∈ l2) -> l1 = l2.
Proof.
  revert l2. induction l1 as [|x l1 IH]; intros [|y l2] H1 H2 He.
  - done.
  - exfalso. pose proof (proj2 (He y) ltac:(left)) as H. by apply elem_of_nil in H.
  - exfalso. pose proof (proj1 (He x) ltac:(left)) as H. by apply elem_of_nil in H.
  - apply StronglySorted_inv in H1 as [H1 F1]. apply StronglySorted_inv in H2 as [H2 F2].
    rewrite stdpp.list.Forall_forall in F1, F2.
    assert (x = y) as ->.
    { pose proof (proj1 (He x) ltac:(left)) as Hx. pose proof (proj2 (He y) ltac:(left)) as Hy.
      apply elem_of_cons in Hx as [->|Hx]; [done|]. apply elem_of_cons in Hy as [->|Hy]; [done|].
      exfalso. eapply blt_asym; eauto. }
    f_equal. apply IH; auto. intros z. split; intros Hz.
    + pose proof (proj1 (He z) ltac:(right; done)) as H.
      apply elem_of_cons in H as [->|H]; [|done]. exfalso. eapply blt_irrefl; eauto.
    + pose proof (proj2 (He z) ltac:(right; done)) as H.
      apply elem_of_cons in H as [->|H]; [|done]. exfalso. eapply blt_irrefl; eauto.
Qed.
Lemma ascending_nodup l : ascending l -> NoDup l.
Proof.
  induction 1 as [|x l Hs IH Hf]; [constructor|]. constructor; [|done].
  rewrite stdpp.list.Forall_forall in Hf. intros Hx. by apply (blt_irrefl x), Hf.
Qed.

(** ** [auth_update] in closed form *)
Lemma fold_push l a :
  fold_left auth_push l a =
  mkAuth (a_addr a ++ (n_addr <$> l)) (a_pw a ++ (n_pw <$> l))
    (fold_left (fun m n => <[n_addr n := n_vw n]> m) l (a_vmap a))
    (foldl (fun s n => w64 (s + n_pw n)) (a_psum a) l)
    (foldl (fun s n => w64 (s + n_vw n)) (a_vsum a) l).
Proof.
  revert a. induction l as [|x l IH]; intros a; simpl.
  - rewrite !app_nil_r. by destruct a.
  - rewrite IH. simpl. rewrite <-!app_assoc. done.
Qed.

Lemma foldl_w64 {A} (f : A -> N) l s : foldl (fun s n => w64 (s + f n)) s l =
  match l with [] => s | _ => w64 (s + sumN f l) end.
Proof.
  revert s. induction l as [|x l IH]; intros s; simpl; [done|]. rewrite IH.
  destruct l as [|y l].
  - unfold sumN; simpl. f_equal. lia.
  - unfold sumN; simpl. unfold w64. rewrite N.add_mod_idemp_l by done. f_equal. lia.
Qed.
Lemma foldl_w64_0 {A} (f : A -> N) l : foldl (fun s n => w64 (s + f n)) 0 l = w64 (sumN f l).
Proof. rewrite foldl_w64. destruct l; done. Qed.
Lemma foldl_w32_0 {A} (f : A -> N) l s : s < U32 ->
  foldl (fun s n => w32 (s + f n)) s l = w32 (s + sumN f l).
Proof.
  revert s. induction l as [|x l IH]; intros s Hs; simpl.
  - unfold sumN; simpl. rewrite N.add_0_r, w32_small; done.
  - rewrite IH by (apply N.mod_lt; done). unfold sumN; simpl. unfold w32.
    rewrite N.add_mod_idemp_l by done. f_equal. lia.
Qed.

Lemma auth_update_addr l : a_addr (auth_update l) = n_addr <$> ksort n_addr l.
Proof. unfold auth_update. rewrite fold_push. done. Qed.
Lemma auth_update_pw l : a_pw (auth_update l) = n_pw <$> ksort n_addr l.
Proof. unfold auth_update. rewrite fold_push. done. Qed.
Lemma auth_update_vsum l : a_vsum (auth_update l) = w64 (total_weight l).
Proof.
  unfold auth_update. rewrite fold_push. simpl. rewrite foldl_w64_0.
  unfold total_weight. by rewrite (sumN_perm _ _ _ (ksort_perm n_addr l)).
Qed.
Lemma auth_update_psum l : a_psum (auth_update l) = w64 (sumN n_pw l).
Proof.
  unfold auth_update. rewrite fold_push. simpl. rewrite foldl_w64_0.
  by rewrite (sumN_perm _ _ _ (ksort_perm n_addr l)).
Qed.
Lemma auth_update_vmap_fold (l : list vnode) (m : gmap bytes N) n :
  NoDup (n_addr <$> l) -> n ∈ l ->
  fold_left (fun m n => <[n_addr n := n_vw n]> m) l m !! n_addr n = Some (n_vw n).
Proof.
  revert m. induction l as [|x l IH]; intros m Hn Hin; [by apply elem_of_nil in Hin|].
  simpl. rewrite fmap_cons in Hn. apply NoDup_cons in Hn as [Hx Hn].
  apply elem_of_cons in Hin as [->|Hin]; [|by apply IH].
  clear IH. assert (forall m : gmap bytes N, m !! n_addr x = Some (n_vw x) ->
    fold_left (fun m n => <[n_addr n := n_vw n]> m) l m !! n_addr x = Some (n_vw x)) as H.
  { clear Hn. induction l as [|y l IH]; intros m' Hm'; simpl; [done|].
    apply IH.
    - intros H. apply Hx. rewrite fmap_cons. by right.
    - rewrite lookup_insert_ne; [done|]. intros E. apply Hx. rewrite fmap_cons, E. left. }
  apply H. by rewrite lookup_insert.
Qed.
Lemma auth_update_vmap l n :
  distinct l -> n ∈ l -> a_vmap (auth_update l) !! n_addr n = Some (n_vw n).
Proof.
  intros Hn Hin. unfold auth_update. rewrite fold_push. simpl.
  apply auth_update_vmap_fold.
  - unfold distinct in Hn. by rewrite ksort_perm.
  - by rewrite ksort_perm.
Qed.
Lemma auth_update_vmap_dom_fold (l : list vnode) (m : gmap bytes N) x :
  is_Some (fold_left (fun m n => <[n_addr n := n_vw n]> m) l m !! x) <->
  is_Some (m !! x) \/ x ∈ n_addr <$> l.
Proof.
  revert m. induction l as [|y l IH]; intros m; simpl.
  - rewrite elem_of_nil. tauto.
  - rewrite IH, elem_of_cons. rewrite lookup_insert_is_Some.
    destruct (decide (n_addr y = x)); [subst; tauto|].
    split; [intros [[->|[_ ?]]|?]; auto|intros [?|[->|?]]; auto].
Qed.
Lemma auth_update_vmap_dom l x :
  is_Some (a_vmap (auth_update l) !! x) <-> x ∈ n_addr <$> l.
Proof.
  unfold auth_update. rewrite fold_push. simpl. rewrite auth_update_vmap_dom_fold.
  rewrite lookup_empty. rewrite (ksort_perm n_addr l). split; [intros [[? ?]|?]; done|auto].
Qed.
Lemma auth_contains_spec l x : auth_contains (auth_update l) x = true <-> x ∈ n_addr <$> l.
Proof.
  unfold auth_contains. rewrite auth_update_addr.
  rewrite existsb_exists. setoid_rewrite bool_decide_eq_true. setoid_rewrite <-elem_of_list_In.
  split.
  - intros (y & Hy & ->). by rewrite (ksort_perm n_addr l) in Hy.
  - intros Hx. exists x. split; [|done]. by rewrite (ksort_perm n_addr l).
Qed.
Lemma auth_update_perm l1 l2 : distinct l1 -> l1 ≡ₚ l2 -> auth_update l1 = auth_update l2.
Proof. intros Hd Hp. unfold auth_update. by rewrite (ksort_perm_eq n_addr l1 l2). Qed.
Lemma auth_update_ascending l : distinct l -> ascending (a_addr (auth_update l)).
Proof.
  intros Hd. rewrite auth_update_addr. apply sorted_ascending; [|apply ksort_sorted].
  unfold distinct in Hd. by rewrite ksort_perm.
Qed.

(** ** [select] *)
Lemma select_cons {A} b bs (x : A) l :
  select (b :: bs) (x :: l) = (if b then [x] else []) ++ select bs l.
Proof. unfold select. simpl. rewrite filter_cons. destruct b; simpl; done. Qed.
Lemma select_fmap {A B} (f : A -> B) bs l : select bs (f <$> l) = f <$> select bs l.
Proof.
  revert l. induction bs as [|b bs IH]; intros [|x l]; try done.
  rewrite fmap_cons, !select_cons, fmap_app, IH. destruct b; done.
Qed.
Lemma select_sublist {A} bs (l : list A) : sublist (select bs l) l.
Proof.
  revert bs. induction l as [|x l IH]; intros [|b bs]; try (constructor; fail).
  - unfold select. simpl. apply sublist_nil_l.
  - rewrite select_cons. destruct b; simpl; constructor; apply IH.
Qed.
Lemma select_elem {A} bs (l : list A) x : x ∈ select bs l -> x ∈ l.
Proof. intros H. eapply elem_of_submseteq; [exact H|]. apply sublist_submseteq, select_sublist. Qed.
Lemma sublist_nodup {A} (l k : list A) : sublist l k -> NoDup k -> NoDup l.
Proof.
  induction 1 as [|x l k H IH|x l k H IH]; intros Hn; [constructor| |];
    apply NoDup_cons in Hn as [Hx Hn]; [|auto].
  constructor; [|auto]. intros Hin. apply Hx. eapply elem_of_submseteq; [exact Hin|].
  by apply sublist_submseteq.
Qed.
Lemma sublist_ascending l k : sublist l k -> ascending k -> ascending l.
Proof.
  induction 1 as [|x l k H IH|x l k H IH]; intros Hn; [constructor| |];
    apply StronglySorted_inv in Hn as [Hn Hf]; [|by apply IH].
  constructor; [by apply IH|]. rewrite stdpp.list.Forall_forall in *. intros y Hy. apply Hf.
  eapply elem_of_submseteq; [exact Hy|]. by apply sublist_submseteq.
Qed.
(** The nodes selected are those whose address is selected (distinct addresses). *)
Lemma select_weight bs (l : list vnode) :
  NoDup (n_addr <$> l) ->
  sumN n_vw (select bs l) = weight_of (n_addr <$> select bs l) l.
Proof.
  unfold weight_of, weight_where.
  revert bs. induction l as [|x l IH]; intros bs Hn.
  { unfold select. rewrite zip_with_nil_r. done. }
  destruct bs as [|b bs].
  { symmetry. transitivity (sumN (fun _ : vnode => 0) (x :: l)).
    - apply sumN_ext. intros y Hy. rewrite bool_decide_eq_false_2; [done|]. apply not_elem_of_nil.
    - clear. generalize (x :: l). intros k. induction k as [|y k IH]; [done|].
      exact IH. }
  rewrite fmap_cons in Hn. apply NoDup_cons in Hn as [Hx Hn]. specialize (IH bs Hn).
  assert (n_addr x ∉ n_addr <$> select bs l) as Hxs.
  { intros H. apply elem_of_list_fmap in H as (y & E & Hy). apply select_elem in Hy.
    apply Hx. rewrite E. by apply elem_of_list_fmap_1. }
  rewrite select_cons, sumN_app, IH. destruct b; simpl.
  - unfold sumN; simpl. rewrite bool_decide_eq_true_2 by left. rewrite N.add_0_r. f_equal.
    change (sumN (fun n => if bool_decide (n_addr n ∈ n_addr <$> select bs l) then n_vw n else 0) l =
      sumN (fun n => if bool_decide (n_addr n ∈ n_addr x :: (n_addr <$> select bs l)) then n_vw n else 0) l).
    apply sumN_ext. intros y Hy. apply (f_equal (fun b : bool => if b then n_vw y else 0)).
    apply bool_decide_ext. rewrite elem_of_cons. split; [auto|]. intros [E|?]; [|done].
    exfalso. apply Hx. rewrite <-E. by apply elem_of_list_fmap_1.
  - unfold sumN; simpl. rewrite bool_decide_eq_false_2 by done. done.
Qed.

(** ** Thresholds *)
Lemma sum_weights_ok l s acc :
  distinct l -> (forall x, x ∈ s -> x ∈ l) ->
  sum_weights (a_vmap (auth_update l)) (n_addr <$> s) acc =
  Ok (match s with [] => acc | _ => w64 (acc + sumN n_vw s) end).
Proof.
  intros Hd. revert acc. induction s as [|x s IH]; intros acc Hs; simpl; [done|].
  rewrite (auth_update_vmap l x Hd) by (apply Hs; left).
  rewrite IH by (intros y Hy; apply Hs; by right). f_equal.
  destruct s as [|y s]; unfold sumN; simpl; [f_equal; lia|].
  unfold w64. rewrite N.add_mod_idemp_l by done. f_equal. lia.
Qed.
Lemma get_voters_nodes l bm :
  get_voters (auth_update l) bm = n_addr <$> select (bits_of bm) (ksort n_addr l).
Proof. unfold get_voters. rewrite auth_update_addr. apply select_fmap. Qed.
Lemma weight_of_perm who l1 l2 : l1 ≡ₚ l2 -> weight_of who l1 = weight_of who l2.
Proof. apply sumN_perm. Qed.
Lemma weight_of_le who l : weight_of who l <= total_weight l.
Proof. apply sumN_le. intros x _. destruct (bool_decide _); lia. Qed.

Lemma threshold_exact l bm :
  distinct l -> 3 * total_weight l < 2 ^ 64 ->
  is_above_threshold (auth_update l) bm =
  Ok (2 * total_weight l <? 3 * weight_of (get_voters (auth_update l) bm) l).
Proof.
  intros Hd Hw. unfold is_above_threshold.
  fold (get_voters (auth_update l) bm). rewrite get_voters_nodes.
  rewrite sum_weights_ok; [|done|].
  2: { intros x Hx. apply select_elem in Hx. by rewrite ksort_perm in Hx. }
  rewrite auth_update_vsum. simpl.
  pose proof (weight_of_le (n_addr <$> select (bits_of bm) (ksort n_addr l)) l) as Hle.
  assert (sumN n_vw (select (bits_of bm) (ksort n_addr l)) =
          weight_of (n_addr <$> select (bits_of bm) (ksort n_addr l)) l) as Hs.
  { rewrite select_weight; [|unfold distinct in Hd; by rewrite ksort_perm].
    apply weight_of_perm, ksort_perm. }
  rewrite <-Hs in *. clear Hs.
  assert (forall A (k : list A) (f : A -> N), sumN f k < 2 ^ 64 ->
    match k with [] => 0 | _ => w64 (0 + sumN f k) end = sumN f k) as Hm.
  { intros A [|] f Hf; [done|]. rewrite N.add_0_l. apply w64_small. exact Hf. }
  rewrite Hm by lia. rewrite (w64_small (total_weight l)) by (unfold U64; lia).
  rewrite !w64_small by (unfold U64; lia). f_equal. f_equal; lia.
Qed.

(** Weighted quorum intersection. *)
Lemma quorum_intersection (l : list vnode) (P Q F : bytes -> bool) :
  2 * total_weight l < 3 * weight_where P l ->
  2 * total_weight l < 3 * weight_where Q l ->
  3 * weight_where F l < total_weight l ->
  exists n, n ∈ l /\ P (n_addr n) = true /\ Q (n_addr n) = true /\ F (n_addr n) = false.
Proof.
  intros HP HQ HF.
  assert (exists n, n ∈ l /\ 0 < (if P (n_addr n) && Q (n_addr n) && negb (F (n_addr n))
                                  then n_vw n else 0)) as (n & Hin & Hn).
  { apply sumN_pos.
    assert (weight_where P l + weight_where Q l <=
      total_weight l + weight_where F l +
      sumN (fun n => if P (n_addr n) && Q (n_addr n) && negb (F (n_addr n)) then n_vw n else 0) l) as H.
    { unfold weight_where, total_weight. rewrite <-!sumN_add. apply sumN_le.
      intros x _. destruct (P _), (Q _), (F _); simpl; lia. }
    lia. }
  exists n. split; [done|]. destruct (P _), (Q _), (F _); simpl in Hn; repeat split; lia.
Qed.

(** ** Bitmaps *)
Lemma n2b_testbit n i : n < 256 -> N.testbit (b2n (n2b n)) i = N.testbit n i.
Proof. intros H. by rewrite b2n_n2b. Qed.
Lemma bit_at_le l i : bit_at l i <= 1.
Proof. unfold bit_at. destruct (l !! i) as [[]|]; lia. Qed.
Lemma pack8_bits l :
  byte_bits (pack8 l) = (fun i => default false (l !! i)) <$> [0;1;2;3;4;5;6;7]%nat.
Proof.
  unfold byte_bits, pack8.
  assert (forall i, exists b : bool, bit_at l i = (if b then 1 else 0) /\ default false (l !! i) = b) as H.
  { intros i. exists (default false (l !! i)). unfold bit_at. destruct (l !! i) as [[]|]; done. }
  destruct (H 0%nat) as (b0 & -> & E0), (H 1%nat) as (b1 & -> & E1), (H 2%nat) as (b2 & -> & E2),
    (H 3%nat) as (b3 & -> & E3), (H 4%nat) as (b4 & -> & E4), (H 5%nat) as (b5 & -> & E5),
    (H 6%nat) as (b6 & -> & E6), (H 7%nat) as (b7 & -> & E7).
  simpl. simpl in E0, E1, E2, E3, E4, E5, E6, E7. rewrite E0, E1, E2, E3, E4, E5, E6, E7.
  clear. destruct b0, b1, b2, b3, b4, b5, b6, b7; vm_compute; reflexivity.
Qed.
Lemma pack8_prefix l : (8 <= length l)%nat -> byte_bits (pack8 l) = take 8 l.
Proof.
  intros Hl. rewrite pack8_bits.
  do 8 (destruct l as [|? l]; simpl in Hl; [lia|]). done.
Qed.
(** Packing then unpacking gives the bits back, followed by padding zeros. *)
Lemma to_bytes_fuel_bits f l : (length l <= f)%nat ->
  exists k, bits_of (to_bytes_fuel f l) = l ++ replicate k false.
Proof.
  revert l. induction f as [|f IH]; intros l Hl.
  { destruct l; simpl in Hl; [|lia]. by exists 0%nat. }
  destruct l as [|b l]; [by exists 0%nat|].
  change (to_bytes_fuel (S f) (b :: l)) with (pack8 (b :: l) :: to_bytes_fuel f (drop 8 (b :: l))).
  unfold bits_of. rewrite bind_cons. fold (bits_of (to_bytes_fuel f (drop 8 (b :: l)))).
  destruct (IH (drop 8 (b :: l))) as [k Hk].
  { rewrite drop_length. simpl in *. lia. }
  rewrite Hk. destruct (decide (8 <= length (b :: l))%nat) as [H8|H8].
  - exists k. rewrite pack8_prefix by done. rewrite app_assoc, take_drop. done.
  - rewrite pack8_bits. clear IH Hk Hl.
    assert (drop 8 (b :: l) = []) as -> by (apply drop_ge; lia).
    exists (8 - length (b :: l) + k)%nat.
    do 7 (destruct l as [|? l]; [reflexivity|]). simpl in H8. lia.
Qed.
Lemma to_bytes_bits l : exists k, bits_of (to_bytes l) = l ++ replicate k false.
Proof. apply to_bytes_fuel_bits. done. Qed.
Lemma select_app_pad {A} bs k (l : list A) : length bs = length l ->
  select (bs ++ replicate k false) l = select bs l.
Proof.
  intros Hl. revert bs Hl. induction l as [|x l IH]; intros [|b bs] Hl; try done.
  - simpl. unfold select. destruct k; done.
  - simpl app. rewrite !select_cons, IH; [done|]. simpl in Hl. congruence.
Qed.
Lemma select_filter {A} (p : A -> bool) l : select (p <$> l) l = filter (fun x => p x = true) l.
Proof.
  induction l as [|x l IH]; [done|]. rewrite fmap_cons, select_cons, filter_cons, IH.
  destruct (p x); done.
Qed.

(** ** A produced bitmap *)
Lemma sublist_filter {A} (P : A -> Prop) `{forall x, Decision (P x)} (l : list A) :
  sublist (filter P l) l.
Proof.
  induction l as [|x l IH]; [constructor|]. rewrite filter_cons.
  destruct (decide (P x)); constructor; done.
Qed.
Lemma bitmap_voters a voters :
  get_voters a (voters_bitmap a voters) = filter (fun x => x ∈ voters) (a_addr a).
Proof.
  unfold get_voters, voters_bitmap.
  destruct (to_bytes_bits ((fun x => bool_decide (x ∈ voters)) <$> a_addr a)) as [k ->].
  rewrite select_app_pad by (by rewrite fmap_length). rewrite select_filter.
  apply list_filter_iff. intros x. apply bool_decide_eq_true.
Qed.
Lemma bitmap_voters_exact l (voters : list bytes) :
  distinct l -> ascending voters -> (forall x, x ∈ voters -> x ∈ n_addr <$> l) ->
  get_voters (auth_update l) (voters_bitmap (auth_update l) voters) = voters.
Proof.
  intros Hd Ha Hin. rewrite bitmap_voters. apply ascending_unique; [|done|].
  - eapply sublist_ascending; [|by apply auth_update_ascending]. apply sublist_filter.
  - intros x. rewrite elem_of_list_filter. split; [tauto|]. intros Hx. split; [done|].
    rewrite auth_update_addr, (ksort_perm n_addr l). auto.
Qed.
Lemma extract_eq_get l bm : extract_voters l bm = get_voters (auth_update l) bm.
Proof. by rewrite get_voters_nodes. Qed.

(** ** Leaders *)
Lemma leader_proposer lc h r l :
  lc_random lc = false \/ sumN n_pw l < 2 ^ 32 ->
  get_leader lc h r l =
    match get_proposer lc (auth_update l) h r with Err _ => Panic | x => x end.
Proof.
  intros Hc. unfold get_leader, get_proposer.
  rewrite auth_update_pw, auth_update_psum, auth_update_addr, fmap_length.
  rewrite (foldl_w32_0 n_pw (ksort n_addr l) 0) by done.
  rewrite N.add_0_l, (sumN_perm _ _ _ (ksort_perm n_addr l)).
  destruct (lc_random lc) eqn:El.
  - destruct Hc as [?|Hc]; [done|]. rewrite w32_small by exact Hc.
    rewrite (w64_small (sumN n_pw l)) by (unfold U64; lia).
    assert (match (get_random_proposer_index (lc_fuel lc) (w64 (h + r)) (n_pw <$> ksort n_addr l)
       (sumN n_pw l)) with Err e => False | _ => True end) as Hne.
    { unfold get_random_proposer_index. destruct (_ =? 0); [done|].
      destruct (draw _ _ _); done. }
    destruct (get_random_proposer_index _ _ _ _) as [i|e|]; simpl; [|done|done].
    rewrite list_lookup_fmap. destruct (ksort n_addr l !! i); done.
  - unfold rotation_leader_index. destruct (_ =? 0); simpl; [done|].
    rewrite list_lookup_fmap. destruct (ksort n_addr l !! _); done.
Qed.

Lemma rotation_proposer lc (l : list vnode) h r :
  lc_random lc = false -> 0 < N.of_nat (length l) < 2 ^ 32 ->
  h * lc_prime lc (N.of_nat (length l)) + r < 2 ^ 64 ->
  exists x, a_addr (auth_update l) !!
      N.to_nat ((h * lc_prime lc (N.of_nat (length l)) + r) mod N.of_nat (length l)) = Some x /\
    get_proposer lc (auth_update l) h r = Ok x.
Proof.
  intros Hr Hn Ho. unfold get_proposer, rotation_leader_index. rewrite Hr.
  assert (length (a_addr (auth_update l)) = length l) as Hl.
  { rewrite auth_update_addr, fmap_length. by rewrite (Permutation_length (ksort_perm n_addr l)). }
  rewrite Hl, w32_small by (unfold U32; lia).
  destruct (N.eqb_spec (N.of_nat (length l)) 0) as [?|_]; [lia|]. simpl.
  rewrite w64_small by (unfold U64; exact Ho).
  destruct (lookup_lt_is_Some_2 (a_addr (auth_update l))
    (N.to_nat ((h * lc_prime lc (N.of_nat (length l)) + r) mod N.of_nat (length l)))) as [x Hx].
  { rewrite Hl. pose proof (N.mod_lt (h * lc_prime lc (N.of_nat (length l)) + r) (N.of_nat (length l))). lia. }
  exists x. rewrite Hx. done.
Qed.
(** In a window of [n] consecutive numbers each residue occurs exactly once. *)
Lemma window_residue b n i : 0 < n -> i < n -> exists k, k < n /\ (b + k) mod n = i /\
  forall k', k' < n -> (b + k') mod n = i -> k' = k.
Proof.
  intros Hn Hi. exists ((i + n - b mod n) mod n).
  pose proof (N.mod_lt b n ltac:(lia)) as Hb.
  pose proof (N.div_mod b n ltac:(lia)) as E.
  set (m := b mod n) in *. set (q := b / n) in *. clearbody m q.
  split; [apply N.mod_lt; lia|]. split.
  - rewrite N.add_mod_idemp_r by lia.
    replace (b + (i + n - m)) with (i + (q + 1) * n) by lia.
    rewrite N.mod_add by lia. by apply N.mod_small.
  - intros k' Hk' <-.
    destruct (decide (m + k' < n)) as [Hs|Hs].
    + replace (b + k') with (m + k' + q * n) by lia.
      rewrite N.mod_add by lia. rewrite (N.mod_small (m + k')) by done.
      replace (m + k' + n - m) with (k' + 1 * n) by lia.
      rewrite N.mod_add by lia. by rewrite N.mod_small.
    + replace (b + k') with (m + k' - n + (q + 1) * n) by lia.
      rewrite N.mod_add by lia. rewrite (N.mod_small (m + k' - n)) by lia.
      replace (m + k' - n + n - m) with k' by lia. by rewrite N.mod_small.
Qed.

(** ** Random leader *)
Lemma pick_spec ws : forall acc idx tmp d,
  0 < tmp -> (acc + sumN id ws) * tmp < 2 ^ 64 -> acc * tmp <= d -> d < (acc + sumN id ws) * tmp ->
  exists i w, ws !! i = Some w /\ pick d tmp acc ws idx = (idx + i)%nat /\
    (acc + sumN id (take i ws)) * tmp <= d < (acc + sumN id (take i ws) + w) * tmp.
Proof.
  induction ws as [|w ws IH]; intros acc idx tmp d Ht Ho Hlo Hhi.
  { unfold sumN in *; simpl in *. lia. }
  change (sumN id (w :: ws)) with (w + sumN id ws) in *. simpl pick.
  assert (acc + w < 2 ^ 64) as Hs1.
  { eapply N.le_lt_trans; [|exact Ho]. transitivity ((acc + (w + sumN id ws)) * 1); [lia|].
    apply N.mul_le_mono_l. lia. }
  assert ((acc + w) * tmp < 2 ^ 64) as Hs2.
  { eapply N.le_lt_trans; [|exact Ho]. apply N.mul_le_mono_r. lia. }
  rewrite (w64_small (acc + w)) by exact Hs1. rewrite (w64_small ((acc + w) * tmp)) by exact Hs2.
  destruct (N.ltb_spec d ((acc + w) * tmp)) as [Hd|Hd].
  - exists 0%nat, w. simpl. split; [done|]. split; [lia|]. unfold sumN; simpl. rewrite N.add_0_r. done.
  - destruct (IH (acc + w) (S idx) tmp d) as (i & w' & Hi & Hp & Hr); [done| |done| |].
    + by rewrite <-N.add_assoc.
    + by rewrite <-N.add_assoc.
    + exists (S i), w'. simpl. split; [done|]. split; [rewrite Hp; lia|].
      change (sumN id (w :: take i ws)) with (w + sumN id (take i ws)).
      rewrite !N.add_assoc. done.
Qed.
Lemma sumN_take_mono (ws : list N) i j w : (i < j)%nat -> ws !! i = Some w ->
  sumN id (take i ws) + w <= sumN id (take j ws).
Proof.
  revert i j. induction ws as [|x ws IH]; intros i j Hij Hi; [done|].
  destruct j as [|j]; [lia|]. destruct i as [|i]; simpl in *.
  - simplify_eq. unfold sumN, id; simpl. lia.
  - specialize (IH i j ltac:(lia) Hi). unfold sumN, id in *; simpl. lia.
Qed.
Lemma pick_iff ws tmp d i w :
  0 < tmp -> sumN id ws * tmp < 2 ^ 64 -> ws !! i = Some w ->
  (d < sumN id ws * tmp /\ pick d tmp 0 ws 0 = i) <->
  sumN id (take i ws) * tmp <= d < sumN id (take i ws) * tmp + w * tmp.
Proof.
  intros Ht Ho Hi.
  assert (d < sumN id ws * tmp -> exists j w', ws !! j = Some w' /\ pick d tmp 0 ws 0 = j /\
    sumN id (take j ws) * tmp <= d < (sumN id (take j ws) + w') * tmp) as Hp.
  { intros Hd. destruct (pick_spec ws 0 0 tmp d) as (j & w' & Hj & Hk & Hr);
      rewrite ?N.add_0_l in *; try done; try lia.
    exists j, w'. done. }
  split.
  - intros [Hd Hk]. destruct (Hp Hd) as (j & w' & Hj & Hk' & Hr). rewrite Hk in Hk'. subst j.
    rewrite Hi in Hj. simplify_eq. rewrite N.mul_add_distr_r in Hr. done.
  - intros Hr. rewrite <-N.mul_add_distr_r in Hr.
    assert (d < sumN id ws * tmp) as Hd.
    { eapply N.lt_le_trans; [apply Hr|]. apply N.mul_le_mono_r.
      rewrite <-(take_drop (S i) ws) at 2. rewrite sumN_app.
      pose proof (sumN_take_mono ws i (S i) w ltac:(lia) Hi). lia. }
    split; [done|]. destruct (Hp Hd) as (j & w' & Hj & Hk' & Hr'). rewrite Hk'.
    destruct (Nat.lt_trichotomy i j) as [Hlt|[->|Hlt]]; [|done|]; exfalso.
    + pose proof (sumN_take_mono ws i j w Hlt Hi) as Hm. apply (N.mul_le_mono_r _ _ tmp) in Hm. lia.
    + pose proof (sumN_take_mono ws j i w' Hlt Hj) as Hm. apply (N.mul_le_mono_r _ _ tmp) in Hm. lia.
Qed.
Lemma draw_spec fuel bound s d : draw fuel bound s = Some d ->
  exists k, d = pcg_out (Nat.iter (S k) pcg_next s) /\ d < bound /\
    forall j, (j < k)%nat -> bound <= pcg_out (Nat.iter (S j) pcg_next s).
Proof.
  revert s. induction fuel as [|f IH]; intros s H; simpl in H; [done|].
  destruct (N.leb_spec bound (pcg_out (pcg_next s))) as [Hb|Hb].
  - destruct (IH _ H) as (k & E & Hd & Hj). exists (S k).
    assert (forall n, Nat.iter n pcg_next (pcg_next s) = Nat.iter (S n) pcg_next s) as Hit.
    { intros n. rewrite Nat.iter_succ_r. done. }
    rewrite Hit in E. split; [done|]. split; [done|]. intros [|j] Hlt; [exact Hb|].
    rewrite <-Hit. apply Hj. lia.
  - simplify_eq. exists 0%nat. split; [done|]. split; [done|]. intros j Hj. lia.
Qed.
Lemma tmp_bounds sum : 0 < sum < 2 ^ 64 ->
  0 < u64_max / sum /\ sum * (u64_max / sum) < 2 ^ 64.
Proof.
  intros Hs. split.
  - apply N.div_str_pos. unfold u64_max, U64. lia.
  - pose proof (N.mul_div_le u64_max sum ltac:(lia)). unfold u64_max, U64 in *. lia.
Qed.
