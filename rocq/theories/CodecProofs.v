(** * CodecProofs: lemmas about the RLP model. *)
From Verif Require Export Codec.

Lemma blen_app a b : blen (a ++ b) = blen a + blen b.
Proof. unfold blen. rewrite app_length. lia. Qed.
Lemma blen_cons x b : blen (x :: b) = 1 + blen b.
Proof. unfold blen. simpl. lia. Qed.
Lemma ntake_app a b : ntake (blen a) (a ++ b) = a.
Proof. unfold ntake, blen. rewrite Nat2N.id, take_app. done. Qed.
Lemma ndrop_app a b : ndrop (blen a) (a ++ b) = b.
Proof. unfold ndrop, blen. rewrite Nat2N.id, drop_app. done. Qed.
Lemma ntake_all a : ntake (blen a) a = a.
Proof. unfold ntake, blen. rewrite Nat2N.id, firstn_all. done. Qed.

(** ** big-endian digits *)
Lemma be_val_snoc b x : be_val (b ++ [x]) = be_val b * 256 + b2n x.
Proof. unfold be_val. rewrite foldl_app. done. Qed.
Lemma be_val_digits k n : n < 256 ^ N.of_nat k -> be_val (rev (le_digits k n)) = n.
Proof.
  revert n; induction k as [|k IH]; intros n Hn.
  - simpl in Hn. change (256 ^ 0) with 1 in Hn. simpl. unfold be_val; simpl. lia.
  - simpl. destruct (N.eqb_spec n 0) as [->|Hz]; [done|]. simpl.
    rewrite be_val_snoc, IH.
    + rewrite b2n_n2b by (apply N.mod_lt; lia). pose proof (N.div_mod n 256). lia.
    + rewrite Nat2N.inj_succ, N.pow_succ_r' in Hn. apply N.div_lt_upper_bound; lia.
Qed.
Lemma le_digits_len k n : (length (le_digits k n) <= k)%nat.
Proof.
  revert n; induction k as [|k IH]; intros n; simpl; [lia|].
  destruct (n =? 0); simpl; [lia|]. specialize (IH (n / 256)). lia.
Qed.
Lemma le_digits_last k n x l : n < 256 ^ N.of_nat k -> rev (le_digits k n) = x :: l -> b2n x <> 0.
Proof.
  revert n x l; induction k as [|k IH]; intros n x l Hn; simpl; [done|].
  destruct (N.eqb_spec n 0) as [->|Hz]; [done|]. simpl.
  destruct (rev (le_digits k (n / 256))) as [|y m] eqn:E; simpl; intros H; simplify_eq.
  - rewrite b2n_n2b by (apply N.mod_lt; lia).
    rewrite Nat2N.inj_succ, N.pow_succ_r' in Hn.
    assert (n / 256 < 256 ^ N.of_nat k) as Hd by (apply N.div_lt_upper_bound; lia).
    pose proof (be_val_digits k (n/256) Hd) as Hv. rewrite E in Hv. unfold be_val in Hv; simpl in Hv.
    pose proof (N.div_mod n 256). lia.
  - apply (IH (n / 256) x m); [|done].
    rewrite Nat2N.inj_succ, N.pow_succ_r' in Hn. apply N.div_lt_upper_bound; lia.
Qed.
Lemma be_bytes_val n : n < U64 -> be_val (be_bytes n) = n.
Proof. intros H. apply be_val_digits. exact H. Qed.
Lemma be_bytes_len n : blen (be_bytes n) <= 8.
Proof. unfold blen, be_bytes. rewrite rev_length. pose proof (le_digits_len 8 n). lia. Qed.
Lemma be_val_bound b : be_val b < 256 ^ blen b.
Proof.
  induction b as [|x b IH] using rev_ind; [done|].
  rewrite be_val_snoc, blen_app. change (blen [x]) with 1. rewrite N.pow_add_r.
  change (256 ^ 1) with 256. pose proof (b2n_lt x). nia.
Qed.
Lemma le_digits_max k m n : n < 256 ^ N.of_nat m -> (length (le_digits k n) <= m)%nat.
Proof.
  revert m n; induction k as [|k IH]; intros m n Hn; simpl; [lia|].
  destruct (N.eqb_spec n 0) as [->|Hz]; simpl; [lia|].
  destruct m as [|m]; [change (256 ^ N.of_nat 0) with 1 in Hn; lia|].
  rewrite Nat2N.inj_succ, N.pow_succ_r' in Hn.
  assert (n / 256 < 256 ^ N.of_nat m) by (apply N.div_lt_upper_bound; lia).
  specialize (IH m (n/256)). lia.
Qed.
Lemma be_bytes_max (m : nat) n : n < 256 ^ N.of_nat m -> blen (be_bytes n) <= N.of_nat m.
Proof.
  intros H. unfold blen, be_bytes. rewrite rev_length. pose proof (le_digits_max 8 m n H). lia.
Qed.
Lemma be_bytes_pos n : 0 < n -> n < U64 -> 0 < blen (be_bytes n).
Proof.
  intros Hp Hn. destruct (be_bytes n) as [|x l] eqn:E; [|rewrite blen_cons; lia].
  pose proof (be_bytes_val n Hn) as H. rewrite E in H. unfold be_val in H; simpl in H. lia.
Qed.

Lemma decode_usize_be n rest : 0 < n -> n < U64 ->
  decode_usize (ntake (blen (be_bytes n)) (be_bytes n ++ rest)) = Some n.
Proof.
  intros Hp Hn. rewrite ntake_app. unfold decode_usize.
  pose proof (be_bytes_pos n Hp Hn). pose proof (be_bytes_val n Hn) as Hv.
  pose proof (be_bytes_len n).
  destruct (be_bytes n) as [|x l] eqn:E; [done|].
  assert (b2n x <> 0) by (eapply (le_digits_last 8 n); [exact Hn|exact E]).
  destruct (N.ltb_spec 8 (blen (x :: l))); [lia|].
  destruct (N.eqb_spec (b2n x) 0); [done|]. simpl. congruence.
Qed.

(** ** headers *)
Definition fits (t : rlp) : Prop := blen (enc t) < U64.

Lemma header_len short long n : blen (header short long n) = if n <=? 55 then 1 else 1 + blen (be_bytes n).
Proof. unfold header. destruct (n <=? 55); [done|]. rewrite blen_cons. done. Qed.

(** the header of a payload [p] parses to the lengths of header and payload *)
Lemma header_info (short long : N) p rest :
  blen p < U64 -> (short = 128 /\ long = 183 \/ short = 192 /\ long = 247) ->
  payload_info ((header short long (blen p) ++ p) ++ rest) = Some (blen (header short long (blen p)), blen p).
Proof.
  intros Hp Hsl. rewrite <-app_assoc. rewrite header_len. unfold header.
  destruct (N.leb_spec (blen p) 55) as [Hle|Hgt].
  - cbn [app]. unfold payload_info. rewrite b2n_n2b by (destruct Hsl as [[-> ->]|[-> ->]]; lia).
    assert (blen (n2b (short + blen p) :: p ++ rest) = 1 + blen p + blen rest) as Hl
      by (rewrite blen_cons, blen_app; lia).
    rewrite Hl.
    destruct Hsl as [[-> ->]|[-> ->]];
    repeat match goal with |- context [?a <=? ?b] => destruct (N.leb_spec a b); try lia end;
    f_equal; f_equal; lia.
  - assert (0 < blen p) as Hpos by lia.
    pose proof (be_bytes_len (blen p)). pose proof (be_bytes_pos _ Hpos Hp).
    pose proof (decode_usize_be (blen p) (p ++ rest) Hpos Hp) as Hd.
    set (d := be_bytes (blen p)) in *.
    assert (forall b0, long_info (b0 :: d ++ p ++ rest) (blen d) = Some (1 + blen d, blen p)) as Hlong.
    { intros b0. unfold long_info. destruct d as [|x l] eqn:E; [done|]. cbn [app].
      assert (b2n x <> 0) by (eapply (le_digits_last 8 (blen p)); [exact Hp|exact E]).
      destruct (N.eqb_spec (b2n x) 0); [done|].
      rewrite (blen_cons b0), (blen_cons x), !blen_app.
      destruct (N.ltb_spec (1 + (1 + (blen l + (blen p + blen rest)))) (1 + blen (x :: l))) as [Hb|Hb].
      { rewrite blen_cons in Hb. lia. }
      cbn [orb drop]. unfold ntake in Hd. cbn [app] in Hd. rewrite Hd.
      destruct (N.leb_spec (blen p) 55); [lia|done]. }
    cbn [app]. unfold payload_info. rewrite b2n_n2b by (destruct Hsl as [[-> ->]|[-> ->]]; lia).
    assert (blen (n2b (long + blen d) :: d ++ p ++ rest) = 1 + blen d + blen p + blen rest) as Hl
      by (rewrite blen_cons, !blen_app; lia).
    rewrite Hl.
    destruct Hsl as [[-> ->]|[-> ->]];
    repeat match goal with |- context [?a <=? ?b] =>
      match b with 127 => destruct (N.leb_spec a b) | 183 => destruct (N.leb_spec a b)
      | 191 => destruct (N.leb_spec a b) | 247 => destruct (N.leb_spec a b) end; try lia end.
    + replace (183 + blen d - 183) with (blen d) by lia. rewrite Hlong.
      destruct (N.leb_spec (1 + blen d + blen p) (1 + blen d + blen p + blen rest)); [done|lia].
    + replace (247 + blen d - 247) with (blen d) by lia. rewrite Hlong.
      destruct (N.leb_spec (1 + blen d + blen p) (1 + blen d + blen p + blen rest)); [done|lia].
Qed.

Lemma enc_str_cases b :
  (exists x, b = [x] /\ b2n x < 128 /\ enc_str b = [x]) \/
  (enc_str b = header 128 183 (blen b) ++ b /\ (forall x, b = [x] -> 128 <= b2n x)).
Proof.
  destruct b as [|x [|y b]]; simpl.
  - right. split; [done|]. done.
  - destruct (N.ltb_spec (b2n x) 128).
    + left. exists x. done.
    + right. split; [done|]. intros; simplify_eq. done.
  - right. split; [done|]. done.
Qed.
Lemma enc_str_len b : blen b <= blen (enc_str b).
Proof.
  destruct (enc_str_cases b) as [(x & -> & _ & ->)|[-> _]]; [done|]. rewrite blen_app. lia.
Qed.
Lemma enc_list_eq l : enc (RList l) = header 192 247 (blen (concat (map enc l))) ++ concat (map enc l).
Proof. done. Qed.

Lemma enc_info t rest : fits t -> exists h v,
  payload_info (enc t ++ rest) = Some (h, v) /\ h + v = blen (enc t).
Proof.
  unfold fits. intros Hf. destruct t as [b|l].
  - simpl in *. pose proof (enc_str_len b) as Hl.
    destruct (enc_str_cases b) as [(x & -> & Hx & E)|[E _]]; rewrite E in *.
    + exists 0, 1. cbn [app]. unfold payload_info. rewrite blen_cons.
      destruct (N.leb_spec (b2n x) 127); [|lia].
      destruct (N.leb_spec (0+1) (1 + blen rest)); [done|lia].
    + eexists _, _. split; [apply header_info; [lia|auto]|]. by rewrite blen_app.
  - rewrite enc_list_eq in *. eexists _, _. split.
    + apply header_info; [rewrite blen_app in Hf; lia|auto].
    + by rewrite blen_app.
Qed.
Lemma enc_nonempty t : enc t <> [].
Proof.
  destruct t as [b|l].
  - simpl. destruct (enc_str_cases b) as [(x & _ & _ & ->)|[-> _]]; [done|].
    unfold header. destruct (_ <=? _); done.
  - rewrite enc_list_eq. unfold header. destruct (_ <=? _); done.
Qed.
Lemma enc_pos t : 0 < blen (enc t).
Proof. pose proof (enc_nonempty t). destruct (enc t); [done|]. rewrite blen_cons. lia. Qed.

Lemma fits_sub l : fits (RList l) -> Forall fits l.
Proof.
  unfold fits. rewrite enc_list_eq, blen_app. intros H.
  assert (blen (concat (map enc l)) < U64) as Hp by lia. clear H.
  induction l as [|t l IH]; [constructor|]. simpl in Hp. rewrite blen_app in Hp.
  constructor; [lia|]. apply IH. lia.
Qed.

Lemma items_from_enc l rest fuel :
  Forall fits l -> payload_info rest = None -> (length (concat (map enc l) ++ rest) <= fuel)%nat ->
  items_from fuel (concat (map enc l) ++ rest) = map enc l.
Proof.
  revert fuel; induction l as [|t l IH]; intros fuel Hf Hr Hfu; simpl in *.
  - destruct fuel; simpl; [done|]. by rewrite Hr.
  - inversion Hf as [|? ? Ht Hl]; subst. rewrite <-app_assoc in *.
    destruct (enc_info t (concat (map enc l) ++ rest) Ht) as (h & v & Hi & Hs).
    pose proof (enc_pos t) as Hp. unfold blen in Hp. rewrite app_length in Hfu.
    destruct fuel as [|fuel]; [lia|]. simpl. rewrite Hi, Hs, ntake_app, ndrop_app.
    f_equal. apply IH; [done|done|lia].
Qed.

Lemma is_list_enc l : is_list (enc (RList l)) = true.
Proof.
  rewrite enc_list_eq. unfold header. destruct (N.leb_spec (blen (concat (map enc l))) 55).
  - cbn [app is_list]. rewrite b2n_n2b by lia. apply N.leb_le. lia.
  - cbn [app is_list]. pose proof (be_bytes_len (blen (concat (map enc l)))).
    rewrite b2n_n2b by lia. apply N.leb_le. lia.
Qed.

Lemma items_enc spill l : fits (RList l) -> items spill (enc (RList l)) = map enc l.
Proof.
  intros Hf. pose proof (fits_sub l Hf) as Hs. unfold items. rewrite is_list_enc, enc_list_eq.
  set (p := concat (map enc l)) in *. set (hd := header 192 247 (blen p)).
  assert (blen p < U64) as Hp by (unfold fits in Hf; rewrite enc_list_eq, blen_app in Hf; fold p in Hf; lia).
  pose proof (header_info 192 247 p [] Hp ltac:(auto)) as Hi. rewrite app_nil_r in Hi.
  fold hd in Hi. rewrite Hi. rewrite ndrop_app, ntake_all.
  destruct l as [|t l]; [done|]. inversion Hs as [|? ? Ht Hl]; subst.
  destruct (enc_info t (concat (map enc l)) Ht) as (h1 & v1 & Hi1 & Hs1).
  assert (p = enc t ++ concat (map enc l)) as Hpe by done.
  rewrite Hpe in Hi |- *. rewrite Hi1, Hs1, ntake_app. simpl. f_equal.
  assert ((if spill then ndrop (blen hd + h1 + v1) (hd ++ enc t ++ concat (map enc l))
           else ndrop (blen (enc t)) (enc t ++ concat (map enc l))) = concat (map enc l)) as ->.
  { destruct spill; [|apply ndrop_app].
    replace (blen hd + h1 + v1) with (blen (hd ++ enc t)) by (rewrite blen_app; lia).
    rewrite app_assoc. apply ndrop_app. }
  rewrite <-(app_nil_r (concat (map enc l))) at 2.
  apply items_from_enc; [done|done|]. by rewrite app_nil_r.
Qed.

Lemma guard_list_enc {A} spill l (k : res A) : fits (RList l) ->
  guard_list spill (length l) (enc (RList l)) k = k.
Proof.
  intros Hf. unfold guard_list, list_of. rewrite is_list_enc, items_enc by done.
  rewrite map_length, Nat.eqb_refl. done.
Qed.
Lemma val_at_enc {A} spill l i t (d : bytes -> res A) : fits (RList l) -> l !! i = Some t ->
  val_at spill (enc (RList l)) i d = d (enc t).
Proof. intros Hf Hi. unfold val_at. rewrite items_enc, list_lookup_fmap, Hi by done. done. Qed.

Lemma dec_str_enc b : fits (RStr b) -> dec_str (enc (RStr b)) = Ok b.
Proof.
  unfold fits. simpl. intros Hf. pose proof (enc_str_len b) as Hl.
  destruct (enc_str_cases b) as [(x & -> & Hx & E)|[E Hsing]]; rewrite E in *.
  - simpl. destruct (N.leb_spec (b2n x) 127); [done|lia].
  - rewrite blen_app in Hf. unfold header. destruct (N.leb_spec (blen b) 55) as [Hle|Hgt].
    + cbn [app]. unfold dec_str. rewrite b2n_n2b by lia.
      destruct (N.leb_spec (128 + blen b) 127); [lia|].
      destruct (N.leb_spec (128 + blen b) 183); [|lia].
      replace (128 + blen b - 128) with (blen b) by lia.
      destruct (N.ltb_spec (blen b) (blen b)); [lia|]. rewrite ntake_all.
      destruct b as [|y b]; [done|].
      destruct (N.eqb_spec (128 + blen (y :: b)) 129) as [He|]; [|done]. simpl.
      rewrite blen_cons in He. destruct b as [|z b]; [|rewrite blen_cons in He; lia].
      specialize (Hsing y eq_refl). destruct (N.ltb_spec (b2n y) 128); [lia|done].
    + assert (blen b < U64) as Hb by lia. assert (0 < blen b) as Hpos by lia.
      pose proof (be_bytes_len (blen b)). pose proof (be_bytes_pos _ Hpos Hb).
      pose proof (decode_usize_be (blen b) b Hpos Hb) as Hd.
      set (d := be_bytes (blen b)) in *.
      cbn [app]. unfold dec_str. rewrite b2n_n2b by lia.
      destruct (N.leb_spec (183 + blen d) 127); [lia|].
      destruct (N.leb_spec (183 + blen d) 183); [lia|].
      destruct (N.leb_spec (183 + blen d) 191); [|lia].
      replace (183 + blen d - 183) with (blen d) by lia.
      rewrite !blen_app.
      destruct (N.ltb_spec (blen d + blen b) (blen d)); [lia|]. rewrite Hd.
      destruct (N.ltb_spec (blen d + blen b) (blen d + blen b)); [lia|].
      rewrite ndrop_app, ntake_all. done.
Qed.
Lemma r_uint_fits n : fits (r_uint n).
Proof.
  unfold fits, r_uint. simpl. pose proof (be_bytes_len n).
  destruct (enc_str_cases (be_bytes n)) as [(x & E & _ & ->)|[-> _]]; [done|].
  rewrite blen_app, header_len.
  destruct (N.leb_spec (blen (be_bytes n)) 55); [|lia]. unfold U64. lia.
Qed.
Lemma dec_uint_enc (k : nat) n : (k <= 8)%nat -> n < 256 ^ N.of_nat k ->
  dec_uint (N.of_nat k) (enc (r_uint n)) = Ok n.
Proof.
  intros Hk Hn. unfold dec_uint. unfold r_uint at 1. rewrite dec_str_enc by apply r_uint_fits.
  cbn [rbind].
  assert (n < U64) as Hu.
  { eapply N.lt_le_trans; [exact Hn|]. change U64 with (256 ^ 8). apply N.pow_le_mono_r; lia. }
  pose proof (be_bytes_val n Hu) as Hv. pose proof (be_bytes_max k n Hn) as Hm.
  destruct (be_bytes n) as [|x l] eqn:E.
  - unfold be_val in Hv; simpl in Hv. congruence.
  - assert (b2n x <> 0) by (eapply (le_digits_last 8 n); [exact Hu|exact E]).
    destruct (N.ltb_spec (N.of_nat k) (blen (x :: l))); [lia|].
    destruct (N.eqb_spec (b2n x) 0); [done|]. simpl. congruence.
Qed.
Lemma u64_enc n : n < U64 -> u64 (enc (r_uint n)) = Ok n.
Proof. intros H. apply (dec_uint_enc 8); [lia|done]. Qed.
Lemma u32_enc n : n < U32 -> u32 (enc (r_uint n)) = Ok n.
Proof. intros H. apply (dec_uint_enc 4); [lia|done]. Qed.
Lemma u8_enc n : n < 256 -> u8 (enc (r_uint n)) = Ok n.
Proof. intros H. apply (dec_uint_enc 1); [lia|done]. Qed.

Lemma seq_res_ok {A} (l : list A) : seq_res (map Ok l) = Ok l.
Proof. induction l as [|a l IH]; simpl; [done|]. rewrite IH. done. Qed.
Lemma list_at_enc {A} spill l i (f : A -> rlp) (xs : list A) (d : bytes -> res A) :
  fits (RList l) -> l !! i = Some (RList (map f xs)) ->
  (forall x, x ∈ xs -> fits (f x) -> d (enc (f x)) = Ok x) ->
  list_at spill (enc (RList l)) i d = Ok xs.
Proof.
  intros Hf Hi Hd. unfold list_at. rewrite (val_at_enc spill l i (RList (map f xs))) by done.
  assert (fits (RList (map f xs))) as Hfx.
  { pose proof (fits_sub _ Hf) as Hs. rewrite Forall_lookup in Hs. eauto. }
  rewrite items_enc by done.
  assert (map d (map enc (map f xs)) = map Ok xs) as ->.
  { apply fits_sub in Hfx. clear -Hd Hfx. induction xs as [|x xs IH]; simpl; [done|].
    simpl in Hfx. inversion Hfx; subst. f_equal.
    - apply Hd; [left|done].
    - apply IH; [|done]. intros y Hy. apply Hd. by right. }
  apply seq_res_ok.
Qed.
Lemma dec_opt_enc {A} spill (f : A -> rlp) (d : bytes -> res A) o :
  fits (r_opt f o) -> (forall a, o = Some a -> fits (f a) -> d (enc (f a)) = Ok a) ->
  dec_opt spill d (enc (r_opt f o)) = Ok o.
Proof.
  intros Hf Hd. unfold dec_opt, r_opt in *. destruct o as [a|]; [|done].
  rewrite is_list_enc, items_enc by done. simpl map.
  pose proof (fits_sub _ Hf) as Hs. inversion Hs; subst.
  cbn [map]. cbv beta iota. rewrite Hd by done. done.
Qed.

(** Rewrites the decoding of an encoded list. *)
Ltac fits_in Hs := rewrite ?Forall_cons, ?Forall_nil in Hs.
Ltac rt Hf :=
  match goal with |- context [guard_list ?s _ (enc (RList ?l)) _] =>
    etrans; [exact (guard_list_enc s l _ Hf)|];
    let Hs := fresh "Hs" in pose proof (fits_sub l Hf) as Hs; fits_in Hs;
    repeat match goal with H : _ /\ _ |- _ => destruct H end end.
Ltac rv Hf :=
  match goal with |- context [val_at ?s (enc (RList ?l)) ?i ?d] =>
    rewrite (val_at_enc s l i _ d Hf eq_refl) end.
