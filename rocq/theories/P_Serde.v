(** * P_Serde: what serde writes, serde reads back (C59). *)
From Verif Require Export Serde P_Codec.
Set Default Proof Using "Type".

(** ** Specification *)
(** Two documents that differ only in the order of the entries of their objects. *)
Inductive same_doc : json -> json -> Prop :=
| sd_same j : same_doc j j
| sd_arr l l' : Forall2 same_doc l l' -> same_doc (JArr l) (JArr l')
| sd_obj l l1 l' : l ≡ₚ l1 -> Forall2 (fun x y => x.1 = y.1 /\ same_doc x.2 y.2) l1 l' -> same_doc (JObj l) (JObj l').
(** The order of entries does not matter. *)
Definition unordered {A} (d : json -> option A) : Prop := forall j j', same_doc j j' -> d j = d j'.
(** How a struct with the fields [names] is read from an object: entries with other keys do not
    matter, a field given twice is an error, a missing field is one too ([may] of them may miss),
    and the order does not matter. *)
Record reads_struct {A} (names may : list bytes) (d : json -> option A) : Prop := mkReads {
  rs_unknown : forall k v l, k ∉ names -> d (JObj ((k, v) :: l)) = d (JObj l);
  rs_twice : forall k v v' l, k ∈ names -> d (JObj ((k, v) :: (k, v') :: l)) = None;
  rs_missing : forall k l, k ∈ names -> k ∉ may -> k ∉ l.*1 -> d (JObj l) = None;
  rs_unordered : unordered d }.

(** ** Objects *)
Lemma key_perm k l l' : l ≡ₚ l' -> key k l = key k l'.
Proof.
  intros Hp. unfold key. assert (filter (fun x : bytes * json => x.1 = k) l ≡ₚ filter (fun x => x.1 = k) l') as Hf by by rewrite Hp.
  destruct (filter _ l) as [|x [|y q]].
  - apply Permutation_nil_l in Hf. by rewrite <-Hf.
  - apply Permutation_singleton_l in Hf. by rewrite <-Hf.
  - apply Permutation_length in Hf. destruct (filter _ l') as [|x' [|y' q']]; [discriminate Hf..|done].
Qed.
Lemma key_pointwise k l l' : Forall2 (fun x y => x.1 = y.1 /\ same_doc x.2 y.2) l l' ->
  option_Forall2 (option_Forall2 same_doc) (key k l) (key k l').
Proof.
  intros Hf. assert (Forall2 (fun x y => x.1 = y.1 /\ same_doc x.2 y.2) (filter (fun x : bytes * json => x.1 = k) l) (filter (fun x => x.1 = k) l')) as Hx.
  { induction Hf as [|x y l l' [Hk Hv] Hf IH]; [constructor|]. rewrite !filter_cons, <-Hk. destruct (decide _); [|done]. by constructor. }
  unfold key. destruct Hx as [|x y q q' [_ Hv] [|]]; repeat constructor; done.
Qed.
Lemma key_other k k' v l : k' <> k -> key k ((k', v) :: l) = key k l.
Proof. intros Hn. unfold key. by rewrite filter_cons_False. Qed.
Lemma key_twice k v v' l : key k ((k, v) :: (k, v') :: l) = None.
Proof. unfold key. by rewrite !filter_cons_True. Qed.
Lemma key_none k l : k ∉ l.*1 -> key k l = Some None.
Proof.
  intros Hn. unfold key. replace (filter (fun x : bytes * json => x.1 = k) l) with (@nil (bytes * json)); [done|].
  symmetry. induction l as [|x l IH]; [done|]. simpl in Hn. apply not_elem_of_cons in Hn as [H1 H2]. rewrite filter_cons_False by done. auto.
Qed.
Lemma same_docs l l' : same_doc (JArr l) (JArr l') -> Forall2 same_doc l l'.
Proof.
  intros H. remember (JArr l) as j eqn:E. remember (JArr l') as j' eqn:E'. destruct H as [j| |]; [|simplify_eq; done|done].
  subst j. injection E' as ->. apply Forall2_same_length_lookup_2; [done|]. intros i x y Hx Hy. rewrite Hx in Hy. injection Hy as ->. constructor.
Qed.
Lemma fields_same names : forall j j', same_doc j j' ->
  option_Forall2 (Forall2 (option_Forall2 same_doc)) (fields names j) (fields names j').
Proof.
  assert (forall o : option (list (option json)), option_Forall2 (Forall2 (option_Forall2 same_doc)) o o) as Hrefl.
  { intros [l|]; constructor. induction l as [|x l IH]; constructor; [|done]. destruct x; repeat constructor. }
  intros j j' [j0|l l' Hl|l l1 l' Hp Hl]; [apply Hrefl| |].
  - simpl. rewrite (Forall2_length _ _ _ Hl). destruct (decide _); constructor.
    clear -Hl. induction Hl as [|x y l l' H Hl IH]; [constructor|]. rewrite !fmap_cons. constructor; [by constructor|done].
  - simpl. induction names as [|k names IH]; [repeat constructor|]. simpl. rewrite (key_perm k _ _ Hp).
    pose proof (key_pointwise k _ _ Hl) as Hk. destruct Hk as [a b Hk|]; simpl; [|constructor].
    destruct IH as [a' b' IH|]; simpl; repeat constructor; done.
Qed.
Lemma fields_unknown names k v l : k ∉ names -> fields names (JObj ((k, v) :: l)) = fields names (JObj l).
Proof.
  simpl. induction names as [|k' names IH]; intros Hn; [done|]. apply not_elem_of_cons in Hn as [H1 H2]. simpl. rewrite key_other by done. by rewrite IH.
Qed.
Lemma fields_twice names k v v' l : k ∈ names -> fields names (JObj ((k, v) :: (k, v') :: l)) = None.
Proof.
  simpl. induction 1 as [k names|k k' names H IH]; simpl; [by rewrite key_twice|]. destruct (key _ _); simpl; [|done]. by rewrite IH.
Qed.
Lemma fields_missing names k l fs : k ∈ names -> k ∉ l.*1 -> fields names (JObj l) = Some fs ->
  exists i, names !! i = Some k /\ fs !! i = Some None.
Proof.
  simpl. intros Hk Hn. revert fs. induction Hk as [k names|k k' names Hk IH]; intros fs; simpl.
  - rewrite key_none by done. simpl. destruct (mapM _ _); simpl; [|done]. intros [= <-]. by exists 0%nat.
  - destruct (key k' l); simpl; [|done]. destruct (mapM _ _) as [fs'|]; simpl; [|done]. intros [= <-]. destruct (IH Hn fs' eq_refl) as (i & H1 & H2). by exists (S i).
Qed.
Lemma variant_same j j' : same_doc j j' ->
  match variant j, variant j' with
  | Some (s, x), Some (s', x') => s = s' /\ option_Forall2 same_doc x x'
  | None, None => True
  | _, _ => False
  end.
Proof.
  intros [j0|l l' Hl|l l1 l' Hp Hl].
  - destruct (variant j0) as [[s [x|]]|]; repeat constructor.
  - done.
  - assert (length l = length l') as El by by rewrite Hp, (Forall2_length _ _ _ Hl).
    destruct l as [|[k v] [|]]; destruct l' as [|[k' v'] [|]]; try discriminate El; try done.
    apply Permutation_singleton_l in Hp. subst l1. inversion Hl as [|? ? ? ? [H1 H2]]; subst. simpl in *. split; [done|by constructor].
Qed.
Lemma req_same {A} (d : json -> option A) x x' : unordered d -> option_Forall2 same_doc x x' -> req d x = req d x'.
Proof. intros Hd [a b H|]; [|done]. simpl. by apply Hd. Qed.
Lemma opt_same {A} (d : json -> option A) x x' : unordered d -> option_Forall2 same_doc x x' -> opt d x = opt d x'.
Proof.
  intros Hd [a b H|]; [|done]. pose proof (Hd _ _ H) as E.
  destruct H as [j|l l' Hl|l l1 l' Hp Hl]; [done|simpl; by rewrite E..].
Qed.
Lemma multi_list {A} (d : json -> option A) l l' : unordered d -> Forall2 same_doc l l' -> mapM d l = mapM d l'.
Proof. intros Hd. induction 1 as [|x y l l' H Hl IH]; [done|]. simpl. by rewrite (Hd _ _ H), IH. Qed.
Lemma num_unordered m : unordered (de_num m).
Proof. intros j j' [|l l' ?|l l1 l' ? ?]; done. Qed.
Lemma units_unordered {A} (names : list (bytes * A)) : unordered (units names).
Proof.
  intros j j' H. induction names as [|[k a] names IH]; [done|]. simpl. pose proof (variant_same _ _ H) as Hv.
  destruct (variant j) as [[s x]|], (variant j') as [[s' x']|]; try done. destruct Hv as [-> Hx]. destruct (decide _); [|done].
  destruct Hx as [a0 b0 Hx|]; [|done]. destruct Hx; done.
Qed.

Section P.
Context (hex_encode : bytes -> bytes) (hex_decode : bytes -> option bytes).
Local Notation de_hex := (de_hex hex_decode).
Lemma hex_unordered : unordered de_hex.
Proof. intros j j' [|l l' ?|l l1 l' ? ?]; done. Qed.
Ltac struct_go H :=
  let Hf := fresh in
  lazymatch goal with |- match fields ?n ?j with _ => _ end = _ => pose proof (fields_same n _ _ H) as Hf end;
  destruct Hf as [fs fs' Hf|]; [|done];
  repeat (destruct Hf as [|? ? ? ? ? Hf]; [done|]); destruct Hf; [|done].
Lemma wrap_unordered : unordered (de_wrap hex_decode).
Proof. intros j j' H. unfold de_wrap. struct_go H. apply req_same; [apply hex_unordered|done]. Qed.
Lemma multi_unordered : unordered (de_multi hex_decode).
Proof.
  intros j j' H. unfold de_multi.
  assert (forall v v', same_doc v v' ->
    match v with JArr l => mapM (de_wrap hex_decode) l | _ => None end = match v' with JArr l => mapM (de_wrap hex_decode) l | _ => None end) as Hv.
  { intros v v' [|l l' Hl|l l1 l' ? ?]; [done| |done]. apply multi_list; [apply wrap_unordered|done]. }
  destruct H as [j0|l l' Hl|l l1 l' Hp Hl]; [done| |].
  - destruct Hl as [|x y q q' Hx [|]]; [done| |done]. by apply Hv.
  - assert (length l = length l') as El by by rewrite Hp, (Forall2_length _ _ _ Hl).
    destruct l as [|[k v] [|]]; destruct l' as [|[k' v'] [|]]; try discriminate El; try done.
    apply Permutation_singleton_l in Hp. subst l1. inversion Hl as [|? ? ? ? [H1 H2]]; subst. simpl in *. subst k'. destruct (decide _); [|done]. by apply Hv.
Qed.
Ltac req_go := repeat match goal with
  | H : option_Forall2 same_doc ?x ?y |- context [req ?d ?x] => rewrite (req_same d x y) by first [exact H|auto with serdedb]
  | H : option_Forall2 same_doc ?x ?y |- context [opt ?d ?x] => rewrite (opt_same d x y) by first [exact H|auto with serdedb]
  end; reflexivity.
Lemma u64_unordered : unordered de_u64.
Proof. apply num_unordered. Qed.
Lemma u32_unordered : unordered de_u32.
Proof. apply num_unordered. Qed.
Lemma vtype_unordered : unordered de_vtype.
Proof. apply units_unordered. Qed.
Lemma step_unordered : unordered de_step.
Proof. apply units_unordered. Qed.
Lemma tsrc_unordered : unordered de_tsrc.
Proof. apply units_unordered. Qed.
Local Hint Resolve hex_unordered u64_unordered u32_unordered vtype_unordered step_unordered multi_unordered : serdedb.
Lemma aggsig_unordered : unordered (de_aggsig hex_decode).
Proof. intros j j' H. unfold de_aggsig. struct_go H. req_go. Qed.
Local Hint Resolve aggsig_unordered : serdedb.
Lemma aggvote_unordered : unordered (de_aggvote hex_decode).
Proof. intros j j' H. unfold de_aggvote. struct_go H. req_go. Qed.
Local Hint Resolve aggvote_unordered : serdedb.
Lemma node_unordered : unordered (de_node hex_decode).
Proof. intros j j' H. unfold de_node. struct_go H. req_go. Qed.
Local Hint Resolve node_unordered : serdedb.
Lemma aggchoke_unordered : unordered (de_aggchoke hex_decode).
Proof. intros j j' H. unfold de_aggchoke. struct_go H. req_go. Qed.
Local Hint Resolve aggchoke_unordered : serdedb.
Lemma upfrom_unordered : unordered (de_upfrom hex_decode).
Proof.
  intros j j' H%variant_same. unfold de_upfrom. destruct (variant j) as [[s x]|], (variant j') as [[s' x']|]; try done.
  destruct H as [-> [a b H|]]; [|done]. by rewrite (aggvote_unordered _ _ H), (aggchoke_unordered _ _ H).
Qed.
Lemma vreason_unordered : unordered de_vreason.
Proof.
  intros j j' H. unfold de_vreason. rewrite (units_unordered _ _ _ H). apply variant_same in H.
  destruct (variant j) as [[s x]|], (variant j') as [[s' x']|]; try done. destruct H as [-> Hx].
  assert (forall f, x ≫= de_pair f = x' ≫= de_pair f) as Hpair.
  { intros f. destruct Hx as [a b H|]; [|done]. simpl. destruct H as [|l l' Hl|l l1 l' ? ?]; [done| |done].
    destruct Hl as [|x1 y1 q1 q1' H1 [|x2 y2 q2 q2' H2 [|]]]; try done. simpl. unfold de_u64. by rewrite (num_unordered _ _ _ H1), (num_unordered _ _ _ H2). }
  assert ((x ≫= fun v => RLeaderBelow <$> de_vtype v) = (x' ≫= fun v => RLeaderBelow <$> de_vtype v)) as ->.
  { destruct Hx as [a b H|]; [|done]. simpl. unfold de_vtype. by rewrite (units_unordered _ _ _ H). }
  by rewrite !Hpair.
Qed.
Context {T : Type} (ser_t : T -> json) (de_t : json -> option T) (Ht : unordered de_t).
Lemma wallock_unordered : unordered (de_wallock hex_decode de_t).
Proof using Ht. intros j j' H. unfold de_wallock. struct_go H. req_go. Qed.
Local Hint Resolve wallock_unordered upfrom_unordered : serdedb.
Lemma walinfo_unordered : unordered (de_walinfo hex_decode de_t).
Proof using Ht. intros j j' H. unfold de_walinfo. struct_go H. req_go. Qed.

(** ** Structs *)
Lemma reads_fields {A} names may (d : json -> option A) (f : list (option json) -> option A) :
  (forall l, d (JObj l) = fields names (JObj l) ≫= f) -> unordered d ->
  (forall fs i k, names !! i = Some k -> k ∉ may -> fs !! i = Some None -> f fs = None) -> reads_struct names may d.
Proof.
  clear. intros Hd Hu Hm. split; [..|done].
  - intros k v l Hk. by rewrite !Hd, fields_unknown.
  - intros k v v' l Hk. by rewrite Hd, fields_twice.
  - intros k l Hk Hk' Hn. rewrite Hd. destruct (fields names (JObj l)) as [fs|] eqn:E; [|done].
    destruct (fields_missing _ _ _ _ Hk Hn E) as (i & H1 & H2). simpl. by eapply Hm.
Qed.
Lemma zip_key k (names : list bytes) (vs : list json) : k ∉ names -> key k (zip names vs) = Some None.
Proof.
  clear. intros Hn. apply key_none. intros Hk. apply Hn. clear Hn. revert vs Hk.
  induction names as [|k' names IH]; intros [|v vs]; simpl; try (by intros ?%elem_of_nil).
  intros [->|Hk]%elem_of_cons; [left|right; eauto].
Qed.
Lemma fields_zip names vs : NoDup names -> length vs = length names -> fields names (JObj (zip names vs)) = Some (Some <$> vs).
Proof.
  clear. simpl. intros Hd. assert (forall pre, (forall x, x ∈ pre -> x.1 ∉ names) -> length vs = length names ->
    mapM (fun k => key k (pre ++ zip names vs)) names = Some (Some <$> vs)) as H; [|intros Hl; apply (H []); [by intros ? ?%elem_of_nil|done]].
  revert vs. induction Hd as [|k names Hk Hd IH]; intros [|v vs] pre Hp Hl; try discriminate Hl; [done|].
  simpl. assert (key k (pre ++ (k, v) :: zip names vs) = Some (Some v)) as ->.
  { unfold key. rewrite filter_app, filter_cons_True by done.
    assert (filter (fun x : bytes * json => x.1 = k) pre = []) as ->.
    { clear -Hp. induction pre as [|x pre IH]; [done|]. rewrite filter_cons_False.
      - apply IH. intros y Hy. apply Hp. by right.
      - intros E. apply (Hp x); [left|]. rewrite E. left. }
    pose proof (zip_key k names vs Hk) as Hz. unfold key in Hz. simpl. by destruct (filter _ (zip names vs)) as [|? []]. }
  simpl. replace (pre ++ (k, v) :: zip names vs) with ((pre ++ [(k, v)]) ++ zip names vs) by (by rewrite <-app_assoc).
  rewrite IH; [done| |].
  - intros x [Hx|Hx%elem_of_list_singleton]%elem_of_app; [|by subst x]. apply Hp in Hx. intros Hx'. apply Hx. by right.
  - by injection Hl.
Qed.

(** ** Round trips *)
Context (Hhex : forall x, hex_decode (hex_encode x) = Some x).
Context (Hrt : forall t, de_t (ser_t t) = Some t).
Lemma num_rt m n : n < m -> de_num m (JNum n) = Some n.
Proof. clear. intros Hn. simpl. by rewrite (proj2 (N.ltb_lt _ _) Hn). Qed.
Lemma hex_rt x : de_hex (ser_hex hex_encode x) = Some x.
Proof using Hhex. apply Hhex. Qed.
Lemma vtype_rt t : de_vtype (ser_vtype t) = Some t.
Proof. clear. by destruct t. Qed.
Lemma step_rt t : de_step (ser_step t) = Some t.
Proof. clear. by destruct t. Qed.
Lemma tsrc_rt t : de_tsrc (ser_tsrc t) = Some t.
Proof. clear. by destruct t. Qed.
Ltac names_ok := apply (bool_decide_unpack _); vm_compute; reflexivity.
Lemma aggsig_rt x : de_aggsig hex_decode (ser_aggsig hex_encode x) = Some x.
Proof using Hhex.
  unfold de_aggsig. change (ser_aggsig hex_encode x) with (JObj (zip [nm "signature"; nm "address_bitmap"] [ser_hex hex_encode (as_sig x); ser_hex hex_encode (as_bitmap x)])).
  rewrite fields_zip; [|names_ok|done]. cbn [fmap list_fmap req mbind option_bind]. rewrite !hex_rt. by destruct x.
Qed.
Ltac rt_go names vs := rewrite (fields_zip names vs); [|names_ok|done]; cbn [fmap list_fmap req mbind option_bind opt].
Lemma wrap_rt x : de_wrap hex_decode (ser_wrap hex_encode x) = Some x.
Proof using Hhex.
  unfold de_wrap. change (ser_wrap hex_encode x) with (JObj (zip [nm "inner"] [ser_hex hex_encode x])).
  rewrite fields_zip; [|names_ok|done]. cbn [fmap list_fmap req mbind option_bind]. apply hex_rt.
Qed.
Lemma multi_rt l : de_multi hex_decode (ser_multi hex_encode l) = Some l.
Proof using Hhex.
  unfold de_multi, ser_multi. rewrite decide_True by done. induction l as [|x l IH]; [done|]. rewrite fmap_cons. cbn [mapM]. rewrite wrap_rt, IH. done.
Qed.
Lemma aggvote_rt' x : wf_aggvote x -> de_aggvote hex_decode (ser_aggvote hex_encode x) = Some x.
Proof using Hhex.
  intros [H1 H2]. unfold de_aggvote.
  change (ser_aggvote hex_encode x) with (JObj (zip aggvote_names [ser_aggsig hex_encode (av_sig x); ser_vtype (av_type x); JNum (av_height x);
    JNum (av_round x); ser_hex hex_encode (av_hash x); ser_hex hex_encode (av_leader x)])).
  rewrite fields_zip; [|names_ok|done]. cbn [fmap list_fmap req mbind option_bind].
  rewrite aggsig_rt, vtype_rt, !hex_rt. unfold de_u64. rewrite !num_rt by done. by destruct x.
Qed.
Lemma node_rt x : wf_vnode x -> de_node hex_decode (ser_node hex_encode x) = Some x.
Proof using Hhex.
  intros [H1 H2]. unfold de_node.
  change (ser_node hex_encode x) with (JObj (zip node_names [ser_hex hex_encode (n_addr x); JNum (n_pw x); JNum (n_vw x)])).
  rewrite fields_zip; [|names_ok|done]. cbn [fmap list_fmap req mbind option_bind].
  rewrite !hex_rt. unfold de_u32. rewrite !num_rt by done. by destruct x.
Qed.
Lemma aggchoke_rt' x : wf_aggchoke x -> de_aggchoke hex_decode (ser_aggchoke hex_encode x) = Some x.
Proof using Hhex.
  intros [H1 H2]. unfold de_aggchoke.
  change (ser_aggchoke hex_encode x) with (JObj (zip aggchoke_names [JNum (ac_height x); JNum (ac_round x); ser_hex hex_encode (ac_sig x);
    ser_multi hex_encode (ac_voters x)])).
  rewrite fields_zip; [|names_ok|done]. cbn [fmap list_fmap req mbind option_bind].
  rewrite hex_rt, multi_rt. unfold de_u64. rewrite !num_rt by done. by destruct x.
Qed.
Lemma upfrom_rt' x : wf_upfrom x -> de_upfrom hex_decode (ser_upfrom hex_encode x) = Some x.
Proof using Hhex.
  destruct x as [q|q|q]; intros Hq; unfold de_upfrom, ser_upfrom, variant.
  - rewrite decide_True by done. by rewrite aggvote_rt'.
  - rewrite decide_False, decide_True by done. by rewrite aggvote_rt'.
  - rewrite !decide_False, decide_True by done. by rewrite aggchoke_rt'.
Qed.
Definition wf_vreason (x : vreason) : Prop :=
  match x with RHigherPrevoteQC a b | RHigherPrecommitQC a b | RHigherChokeQC a b => a < U64 /\ b < U64 | _ => True end.
Lemma vreason_rt x : wf_vreason x -> de_vreason (ser_vreason x) = Some x.
Proof.
  clear. assert (forall f a b, a < U64 -> b < U64 -> de_pair f (ser_pair a b) = Some (f a b)) as Hp.
  { intros f a b Ha Hb. unfold de_pair, ser_pair, de_u64. by rewrite !num_rt. }
  destruct x as [| | | |a b|a b|a b|t|]; intros Hx; try reflexivity; unfold de_vreason, ser_vreason, variant.
  - rewrite decide_True by done. cbn [mbind option_bind]. by rewrite Hp by apply Hx.
  - rewrite decide_False, decide_True by done. cbn [mbind option_bind]. by rewrite Hp by apply Hx.
  - rewrite !decide_False, decide_True by done. cbn [mbind option_bind]. by rewrite Hp by apply Hx.
  - rewrite !decide_False, decide_True by done. cbn [mbind option_bind]. by rewrite vtype_rt.
Qed.
Lemma wallock_rt' x : wf_wallock x -> de_wallock hex_decode de_t (ser_wallock hex_encode ser_t x) = Some x.
Proof using Hhex Hrt.
  intros [H1 H2]. unfold de_wallock.
  change (ser_wallock hex_encode ser_t x) with (JObj (zip wallock_names [JNum (wl_round x); ser_aggvote hex_encode (wl_votes x); ser_t (wl_content x)])).
  rewrite fields_zip; [|names_ok|done]. cbn [fmap list_fmap req mbind option_bind].
  rewrite aggvote_rt', Hrt by done. unfold de_u64. rewrite !num_rt by done. by destruct x.
Qed.
Lemma walinfo_rt' x : wf_walinfo x -> de_walinfo hex_decode de_t (ser_walinfo hex_encode ser_t x) = Some x.
Proof using Hhex Hrt.
  intros (H1 & H2 & H3 & H4). unfold de_walinfo.
  change (ser_walinfo hex_encode ser_t x) with (JObj (zip walinfo_names [JNum (wi_height x); JNum (wi_round x); ser_step (wi_step x);
    match wi_lock x with Some l => ser_wallock hex_encode ser_t l | None => JNull end; ser_upfrom hex_encode (wi_from x)])).
  rewrite fields_zip; [|names_ok|done]. cbn [fmap list_fmap req mbind option_bind].
  assert (opt (de_wallock hex_decode de_t) (Some match wi_lock x with Some l => ser_wallock hex_encode ser_t l | None => JNull end) = Some (wi_lock x)) as ->.
  { destruct (wi_lock x) as [l|] eqn:El; [|done]. pose proof (wallock_rt' _ (H3 _ eq_refl)) as E. unfold opt, ser_wallock in *. by rewrite E. }
  rewrite step_rt, upfrom_rt' by done. unfold de_u64. rewrite !num_rt by done. by destruct x.
Qed.

(** ** Ranges *)
Lemma num_range m x n : req (de_num m) x = Some n -> n < m.
Proof. clear. destruct x as [[]|]; simpl; try done. destruct (n0 <? m) eqn:E; [|done]. intros [= <-]. by apply N.ltb_lt. Qed.
Ltac list_go H := repeat match type of H with match ?x with _ => _ end = _ => destruct x; try discriminate H end.
Ltac bind_go H := repeat match type of H with ((?x ≫= _) = _) => let E := fresh "E" in destruct x eqn:E; [cbn [mbind option_bind] in H|discriminate H] end.
Lemma aggvote_range j x : de_aggvote hex_decode j = Some x -> wf_aggvote x.
Proof.
  clear. unfold de_aggvote. intros H. list_go H. bind_go H. injection H as <-. split; by eapply num_range.
Qed.
Lemma aggchoke_range j x : de_aggchoke hex_decode j = Some x -> wf_aggchoke x.
Proof. clear. unfold de_aggchoke. intros H. list_go H. bind_go H. injection H as <-. split; by eapply num_range. Qed.
Lemma node_range j x : de_node hex_decode j = Some x -> wf_vnode x.
Proof. clear. unfold de_node. intros H. list_go H. bind_go H. injection H as <-. split; by eapply num_range. Qed.
Lemma upfrom_range j x : de_upfrom hex_decode j = Some x -> wf_upfrom x.
Proof.
  clear. unfold de_upfrom. intros H. destruct (variant j) as [[s [v|]]|]; try done.
  repeat (destruct (decide _); [apply fmap_Some in H as (q & Hq & ->); first [by eapply aggvote_range|by eapply aggchoke_range]|]). done.
Qed.
Lemma vreason_range j x : de_vreason j = Some x -> wf_vreason x.
Proof.
  clear. unfold de_vreason. intros H. destruct (variant j) as [[s v]|] eqn:Ev; [|done].
  assert (forall f x, (f = RHigherPrevoteQC \/ f = RHigherPrecommitQC \/ f = RHigherChokeQC) -> v ≫= de_pair f = Some x -> wf_vreason x) as Hp.
  { clear. intros f x Hf. destruct v as [v|]; [|done]. simpl. destruct v as [| | | |l|]; try done. destruct l as [|a [|b []]]; try done. simpl.
    destruct (de_u64 a) as [na|] eqn:Ea; [|done]. destruct (de_u64 b) as [nb|] eqn:Eb; [|done]. simpl. intros [= <-].
    apply (num_range _ (Some _)) in Ea, Eb. destruct Hf as [Hf|[Hf|Hf]]; subst f; done. }
  destruct (decide _); [eapply Hp, H; tauto|]. destruct (decide _); [eapply Hp, H; tauto|]. destruct (decide _); [eapply Hp, H; tauto|].
  destruct (decide _). { destruct v as [v|]; [|done]. simpl in H. apply fmap_Some in H as (q & _ & ->). done. }
  cbn [units] in H. rewrite Ev in H. repeat (destruct (decide _); [destruct (unit_of v); [by injection H as <-|done]|]). done.
Qed.
Lemma wallock_range j x : de_wallock hex_decode de_t j = Some x -> wf_wallock x.
Proof.
  clear. unfold de_wallock. intros H. list_go H. bind_go H. injection H as <-. split; [by eapply num_range|].
  match goal with E : req (de_aggvote _) ?o = Some _ |- _ => destruct o; [|done]; simpl in E; by eapply aggvote_range end.
Qed.
Lemma walinfo_range j x : de_walinfo hex_decode de_t j = Some x -> wf_walinfo x.
Proof.
  clear. unfold de_walinfo. intros H. list_go H. bind_go H. injection H as <-. split_and!; [by eapply num_range..| |].
  - intros w Hw. simpl in Hw. subst. match goal with E : opt _ ?o = Some (Some w) |- _ => unfold opt in E; destruct o as [v|]; [|done];
      assert (Some <$> de_wallock hex_decode de_t v = Some (Some w)) as E' by (by destruct v); apply fmap_Some in E' as (y & Hy & Ey); injection Ey as ->; by eapply wallock_range end.
  - match goal with E : req (de_upfrom _) ?o = Some _ |- _ => destruct o; [|done]; simpl in E; by eapply upfrom_range end.
Qed.
End P.

(** ** C59 *)
(** A hex coding that gives back what it encoded. *)
Definition hex_ok (enc : bytes -> bytes) (dec : bytes -> option bytes) : Prop := forall x, dec (enc x) = Some x.
(** Every value of the serialisable types is read back from what was written of it. *)
Theorem C59_serde_round_trip : forall (T : Type) he hd (ser_t : T -> json) de_t,
  hex_ok he hd -> (forall t, de_t (ser_t t) = Some t) ->
  (forall x, de_vtype (ser_vtype x) = Some x) /\
  (forall x, de_step (ser_step x) = Some x) /\
  (forall x, de_tsrc (ser_tsrc x) = Some x) /\
  (forall x, wf_vreason x -> de_vreason (ser_vreason x) = Some x) /\
  (forall x, de_aggsig hd (ser_aggsig he x) = Some x) /\
  (forall x, wf_aggvote x -> de_aggvote hd (ser_aggvote he x) = Some x) /\
  (forall x, wf_aggchoke x -> de_aggchoke hd (ser_aggchoke he x) = Some x) /\
  (forall x, wf_upfrom x -> de_upfrom hd (ser_upfrom he x) = Some x) /\
  (forall x, wf_vnode x -> de_node hd (ser_node he x) = Some x) /\
  (forall x, wf_walinfo x -> de_walinfo hd de_t (ser_walinfo he ser_t x) = Some x).
Proof.
  intros T he hd ser_t de_t Hh Ht. split_and!.
  - apply vtype_rt. - apply step_rt. - apply tsrc_rt. - apply vreason_rt. - by apply aggsig_rt. - by apply aggvote_rt'. - by apply aggchoke_rt'.
  - by apply upfrom_rt'. - by apply node_rt. - by apply walinfo_rt'.
Qed.
(** Whatever a document contains, the numbers of the value read from it fit their types. *)
Theorem C59_serde_reads_in_range : forall (T : Type) hd (de_t : json -> option T) j,
  (forall x, de_vreason j = Some x -> wf_vreason x) /\
  (forall x, de_aggvote hd j = Some x -> wf_aggvote x) /\
  (forall x, de_aggchoke hd j = Some x -> wf_aggchoke x) /\
  (forall x, de_upfrom hd j = Some x -> wf_upfrom x) /\
  (forall x, de_node hd j = Some x -> wf_vnode x) /\
  (forall x, de_walinfo hd de_t j = Some x -> wf_walinfo x).
Proof.
  intros T hd de_t j. split_and!.
  - apply vreason_range. - apply aggvote_range. - apply aggchoke_range. - apply upfrom_range. - apply node_range. - apply walinfo_range.
Qed.
(** How objects are read. *)
Lemma bind_none {A B} (o : option A) (f : A -> option B) : (forall a, f a = None) -> o ≫= f = None.
Proof. intros H. destruct o; [apply H|done]. Qed.
Ltac reads_go :=
  let fs := fresh "fs" in let i := fresh "i" in let k := fresh "k" in let Hi := fresh in let Hk := fresh in let Hf := fresh in
  intros fs i k Hi Hk Hf;
  repeat (destruct fs as [|? fs]; try reflexivity);
  repeat (destruct i as [|i]; [simpl in Hf; injection Hf as ->; simpl in Hi; injection Hi as <-;
    first [exfalso; apply Hk; by left|repeat first [reflexivity|apply bind_none; intros ?]]|]; simpl in Hf, Hi; try discriminate Hf).
Theorem C59_serde_objects : forall (T : Type) hd (de_t : json -> option T), unordered de_t ->
  reads_struct [nm "signature"; nm "address_bitmap"] [] (de_aggsig hd) /\
  reads_struct [nm "signature"; nm "vote_type"; nm "height"; nm "round"; nm "block_hash"; nm "leader"] [] (de_aggvote hd) /\
  reads_struct [nm "height"; nm "round"; nm "signature"; nm "voters"] [] (de_aggchoke hd) /\
  reads_struct [nm "address"; nm "propose_weight"; nm "vote_weight"] [] (de_node hd) /\
  reads_struct [nm "height"; nm "round"; nm "step"; nm "lock"; nm "from"] [nm "lock"] (de_walinfo hd de_t) /\
  unordered (de_upfrom hd) /\ unordered de_vreason /\ unordered de_vtype /\ unordered de_step.
Proof.
  intros T hd de_t Ht. split_and!.
  - eapply reads_fields; [intros l; unfold de_aggsig; destruct (fields _ _) as [fs|]; reflexivity|apply aggsig_unordered|reads_go].
  - eapply reads_fields; [intros l; unfold de_aggvote; destruct (fields _ _) as [fs|]; reflexivity|apply aggvote_unordered|reads_go].
  - eapply reads_fields; [intros l; unfold de_aggchoke; destruct (fields _ _) as [fs|]; reflexivity|apply aggchoke_unordered|reads_go].
  - eapply reads_fields; [intros l; unfold de_node; destruct (fields _ _) as [fs|]; reflexivity|apply node_unordered|reads_go].
  - eapply reads_fields; [intros l; unfold de_walinfo; destruct (fields _ _) as [fs|]; reflexivity|by apply walinfo_unordered|reads_go].
  - apply upfrom_unordered. - apply vreason_unordered. - apply vtype_unordered. - apply step_unordered.
Qed.

(** ** A case *)
(** Plain lower-case hex. *)
Definition digit (n : N) : byte := n2b (if n <? 10 then 48 + n else 87 + n).
Definition undigit (b : byte) : option N :=
  let n := b2n b in if (48 <=? n) && (n <? 58) then Some (n - 48) else if (97 <=? n) && (n <? 103) then Some (n - 87) else None.
Definition ex_hex (l : bytes) : bytes := concat ((fun b => [digit (b2n b / 16); digit (b2n b mod 16)]) <$> l).
Fixpoint ex_unhex (l : bytes) : option bytes :=
  match l with
  | [] => Some []
  | [_] => None
  | a :: b :: l => a ← undigit a; b ← undigit b; l ← ex_unhex l; Some (n2b (16 * a + b) :: l)
  end.
Lemma digit_ok n : n < 16 -> undigit (digit n) = Some n.
Proof.
  intros Hn. unfold undigit, digit. rewrite b2n_n2b by (destruct (n <? 10); lia). destruct (n <? 10) eqn:E; apply N.ltb_lt in E || apply N.ltb_ge in E.
  - rewrite (proj2 (N.leb_le _ _)), (proj2 (N.ltb_lt _ _)) by lia. simpl. f_equal. lia.
  - rewrite (proj2 (N.ltb_ge (87 + n) 58)) by lia. rewrite andb_false_r, (proj2 (N.leb_le _ _)), (proj2 (N.ltb_lt _ _)) by lia. simpl. f_equal. lia.
Qed.
Lemma ex_hex_ok : hex_ok ex_hex ex_unhex.
Proof.
  intros l. induction l as [|b l IH]; [done|]. unfold ex_hex in *. rewrite fmap_cons. cbn [concat app ex_unhex].
  pose proof (b2n_lt b). rewrite (digit_ok (b2n b / 16)) by (apply N.div_lt_upper_bound; lia). rewrite (digit_ok (b2n b mod 16)) by (apply N.mod_lt; lia). cbn [mbind option_bind]. rewrite IH. cbn [mbind option_bind].
  transitivity (Some (n2b (b2n b) :: l)); [|by rewrite n2b_b2n]. do 3 f_equal. symmetry. apply N.div_mod. lia.
Qed.
Definition ex_ser (b : byte) : json := JNum (b2n b).
Definition ex_de (j : json) : option byte := n2b <$> de_num 256 j.
Lemma ex_ser_ok t : ex_de (ex_ser t) = Some t.
Proof. unfold ex_de, ex_ser. rewrite num_rt by apply b2n_lt. simpl. by rewrite n2b_b2n. Qed.
(** The record of C01's example, written and read; and read with its fields in another order and an
    unknown one among them; the voters' object knows no unknown fields. *)
Example serde_example :
  hex_ok ex_hex ex_unhex /\ (forall t, ex_de (ex_ser t) = Some t) /\ unordered ex_de /\
  de_walinfo ex_unhex ex_de (ser_walinfo ex_hex ex_ser ex_wal) = Some ex_wal /\
  ser_node ex_hex (mkVNode [x1f; xa0] 1 2) = JObj [(nm "address", JStr (nm "1fa0")); (nm "propose_weight", JNum 1); (nm "vote_weight", JNum 2)] /\
  de_node ex_unhex (JObj [(nm "vote_weight", JNum 2); (nm "x", JNull); (nm "address", JStr (nm "1fa0")); (nm "propose_weight", JNum 1)]) = Some (mkVNode [x1f; xa0] 1 2) /\
  de_node ex_unhex (JArr [JStr (nm "1fa0"); JNum 1; JNum 2]) = Some (mkVNode [x1f; xa0] 1 2) /\
  de_node ex_unhex (JObj [(nm "address", JStr (nm "1fa")); (nm "propose_weight", JNum 1); (nm "vote_weight", JNum 2)]) = None /\
  de_multi ex_unhex (JObj [(nm "inner", JArr []); (nm "x", JNull)]) = None.
Proof.
  split; [exact ex_hex_ok|]. split; [exact ex_ser_ok|]. split; [intros j j' H; unfold ex_de; by rewrite (num_unordered _ _ _ H)|].
  vm_compute. split_and!; reflexivity.
Qed.
