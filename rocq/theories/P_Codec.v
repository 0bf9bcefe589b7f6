(** * P_Codec: encoding (C01-C04). [spill] is the model's parameter for the rlp crate's
    treatment of bytes after a list; every theorem holds for both values. *)
From Verif Require Import CodecRound.

(** ** C01 *)
Theorem C01_vote_types_round_trip : forall spill,
  (forall v, wf_vote v -> encodable (vote_rlp v) -> dec_vote spill (enc (vote_rlp v)) = Ok v) /\
  (forall v, wf_svote v -> encodable (svote_rlp v) -> dec_svote spill (enc (svote_rlp v)) = Ok v) /\
  (forall v, encodable (aggsig_rlp v) -> dec_aggsig spill (enc (aggsig_rlp v)) = Ok v) /\
  (forall v, wf_aggvote v -> encodable (aggvote_rlp v) -> dec_aggvote spill (enc (aggvote_rlp v)) = Ok v) /\
  (forall v, wf_polc v -> encodable (polc_rlp v) -> dec_polc spill (enc (polc_rlp v)) = Ok v) /\
  (forall v, wf_proof v -> encodable (proof_rlp v) -> dec_proof spill (enc (proof_rlp v)) = Ok v).
Proof.
  intros spill. repeat split.
  - apply vote_rt. - apply svote_rt. - apply aggsig_rt. - apply aggvote_rt. - apply polc_rt. - apply proof_rt.
Qed.
Theorem C01_choke_types_round_trip : forall spill,
  (forall v, wf_aggchoke v -> encodable (aggchoke_rlp v) -> dec_aggchoke spill (enc (aggchoke_rlp v)) = Ok v) /\
  (forall v, wf_upfrom v -> encodable (upfrom_rlp v) -> dec_upfrom spill (enc (upfrom_rlp v)) = Ok v) /\
  (forall v, wf_choke v -> encodable (choke_rlp v) -> dec_choke spill (enc (choke_rlp v)) = Ok v) /\
  (forall v, wf_schoke v -> encodable (schoke_rlp v) -> dec_schoke spill (enc (schoke_rlp v)) = Ok v) /\
  (forall v, wf_vnode v -> encodable (vnode_rlp v) -> dec_vnode spill (enc (vnode_rlp v)) = Ok v) /\
  (forall v, wf_durcfg v -> encodable (durcfg_rlp v) -> dec_durcfg spill (enc (durcfg_rlp v)) = Ok v).
Proof.
  intros spill. repeat split.
  - apply aggchoke_rt. - apply upfrom_rt. - apply choke_rt. - apply schoke_rt. - apply vnode_rt. - apply durcfg_rt.
Qed.
Theorem C01_block_types_round_trip : forall spill (T : Type) (tenc : T -> bytes) tdec,
  codec_ok tenc tdec ->
  (forall v, wf_proposal v -> encodable (proposal_rlp tenc v) ->
     dec_proposal tdec spill (enc (proposal_rlp tenc v)) = Ok v) /\
  (forall v, wf_sproposal v -> encodable (sproposal_rlp tenc v) ->
     dec_sproposal tdec spill (enc (sproposal_rlp tenc v)) = Ok v) /\
  (forall v, wf_commit v -> encodable (commit_rlp tenc v) ->
     dec_commit tdec spill (enc (commit_rlp tenc v)) = Ok v) /\
  (forall v, wf_wallock v -> encodable (wallock_rlp tenc v) ->
     dec_wallock tdec spill (enc (wallock_rlp tenc v)) = Ok v) /\
  (forall v, wf_walinfo v -> encodable (walinfo_rlp tenc v) ->
     dec_walinfo tdec spill (enc (walinfo_rlp tenc v)) = Ok v).
Proof.
  intros spill T tenc tdec Hc. repeat split.
  - by apply proposal_rt. - by apply sproposal_rt. - by apply commit_rt. - by apply wallock_rt. - by apply walinfo_rt.
Qed.
(** A block is a byte here: codec = one-byte string. *)
Definition ex_tenc (t : byte) : bytes := [t].
Definition ex_tdec (b : bytes) : option byte := match b with [x] => Some x | _ => None end.
Definition ex_qc : aggvote := mkAggVote (mkAggSig (replicate 70 xab) [x80]) Precommit 300 (2^40) [x01; xff] [x7f].
Definition ex_wal : walinfo byte :=
  mkWalInfo 300 7 SBrake (Some (mkWalLock 3 ex_qc x42)) (UFChoke (mkAggChoke 300 6 [x11] [[x01]; [xfe; x02]; []])).
Example C01_example :
  codec_ok ex_tenc ex_tdec /\ wf_walinfo ex_wal /\ encodable (walinfo_rlp ex_tenc ex_wal) /\
  length (enc (walinfo_rlp ex_tenc ex_wal)) = 120%nat /\
  dec_walinfo ex_tdec true (enc (walinfo_rlp ex_tenc ex_wal)) = Ok ex_wal.
Proof.
  split; [done|]. split.
  - unfold wf_walinfo. split_and!; [done|done|intros w Hw; injection Hw as <-; done|done].
  - vm_compute. done.
Qed.

(** ** C02 *)
(** [status_norm] (CodecRound.v) replaces [Some 0] and [Some (all-zero config)] by [None]. *)
Theorem C02_status_round_trip : forall spill s,
  wf_status s -> encodable (status_rlp s) ->
  dec_status spill (enc (status_rlp s)) = Ok (status_norm s) /\
  (dec_status spill (enc (status_rlp s)) = Ok s <->
     st_interval s <> Some 0 /\ st_config s <> Some (mkDurCfg 0 0 0 0)).
Proof.
  intros spill s Hw He. assert (dec_status spill (enc (status_rlp s)) = Ok (status_norm s)) as H
    by (by apply status_rt).
  split; [done|]. rewrite H. unfold status_norm. destruct s as [h i c l]; simpl. split.
  - intros E. simplify_eq. split; intros ->; done.
  - intros [H1 H2]. f_equal. f_equal.
    + destruct i as [[|]|]; done.
    + destruct c as [[[|] [|] [|] [|]]|]; done.
Qed.
Theorem C02_status_identity_refuted : exists s,
  wf_status s /\ encodable (status_rlp s) /\
  forall spill, dec_status spill (enc (status_rlp s)) <> Ok s.
Proof.
  exists (mkStatus 5 (Some 0) None [mkVNode [x01] 1 1]). split.
  - unfold wf_status; simpl. split_and!; [done|intros i Hi; injection Hi as <-; done|done|].
    intros n Hn. apply elem_of_list_singleton in Hn as ->. done.
  - split; [done|]. intros []; vm_compute; done.
Qed.
Example C02_example :
  dec_status true (enc (status_rlp (mkStatus 5 (Some 3000) (Some (mkDurCfg 10 10 10 3)) [mkVNode [x01] 1 2; mkVNode [x02] 3 4])))
  = Ok (mkStatus 5 (Some 3000) (Some (mkDurCfg 10 10 10 3)) [mkVNode [x01] 1 2; mkVNode [x02] 3 4]).
Proof. vm_compute. done. Qed.

(** ** C03 *)
(** What is hashed and signed: [rlp::encode] of the vote, of (height, round) of the choke, of
    the proposal. *)
Definition vote_bytes (v : vote) : bytes := enc (vote_rlp v).
Definition choke_bytes (c : choke) : bytes := enc (hashchoke_rlp (choke_to_hash c)).
Definition proposal_bytes {T} (tenc : T -> bytes) (p : proposal T) : bytes := enc (proposal_rlp tenc p).
Theorem C03_signed_bytes_determine_message :
  forall (T : Type) (tenc : T -> bytes) tdec, codec_ok tenc tdec ->
  (forall v v', wf_vote v -> wf_vote v' -> encodable (vote_rlp v) -> encodable (vote_rlp v') ->
     vote_bytes v = vote_bytes v' -> v = v') /\
  (forall p p', wf_proposal p -> wf_proposal p' ->
     encodable (proposal_rlp tenc p) -> encodable (proposal_rlp tenc p') ->
     proposal_bytes tenc p = proposal_bytes tenc p' -> p = p') /\
  (forall c c', wf_choke c -> wf_choke c' -> choke_bytes c = choke_bytes c' <->
     ck_height c = ck_height c' /\ ck_round c = ck_round c').
Proof.
  intros T tenc tdec Hc. split_and!.
  - intros v v' Hv Hv' He He' E. pose proof (vote_rt true v Hv He) as H1.
    unfold vote_bytes in E. rewrite E, (vote_rt true v' Hv' He') in H1. congruence.
  - intros p p' Hp Hp' He He' E. pose proof (proposal_rt true tenc tdec Hc p Hp He) as H1.
    unfold proposal_bytes in E. rewrite E, (proposal_rt true tenc tdec Hc p' Hp' He') in H1. congruence.
  - intros [h r f] [h' r' f'] (H1 & H2 & _) (H3 & H4 & _). simpl in *. unfold choke_bytes, choke_to_hash; simpl.
    split; [|intros [-> ->]; done]. intros E.
    assert (forall h r, fits (hashchoke_rlp (mkHashChoke h r))) as Hf.
    { intros a b. unfold fits, hashchoke_rlp. rewrite enc_list_eq. simpl.
      rewrite app_nil_r, blen_app, header_len, blen_app.
      assert (forall n, blen (enc_str (be_bytes n)) <= 9) as Hb.
      { intros n. pose proof (be_bytes_len n).
        destruct (enc_str_cases (be_bytes n)) as [(x & _ & _ & ->)|[-> _]].
        - rewrite blen_cons. unfold blen; simpl. lia.
        - rewrite blen_app, header_len. destruct (N.leb_spec (blen (be_bytes n)) 55); lia. }
      pose proof (Hb a). pose proof (Hb b). unfold U64.
      destruct (N.leb_spec (blen (enc_str (be_bytes a)) + blen (enc_str (be_bytes b))) 55); lia. }
    assert (items true (enc (hashchoke_rlp (mkHashChoke h r))) =
            items true (enc (hashchoke_rlp (mkHashChoke h' r')))) as Ei by (f_equal; exact E).
    pose proof (Hf h r) as Hf1. pose proof (Hf h' r') as Hf2. unfold hashchoke_rlp in *. cbn [hc_height hc_round] in *.
    rewrite !items_enc in Ei by done. cbn [map] in Ei. injection Ei as Ea Eb.
    split.
    + assert (enc (r_uint h) = enc (r_uint h')) as Ea' by exact Ea.
      pose proof (u64_enc h H1) as Hh. rewrite Ea', u64_enc in Hh by done. congruence.
    + assert (enc (r_uint r) = enc (r_uint r')) as Eb' by exact Eb.
      pose proof (u64_enc r H2) as Hh. rewrite Eb', u64_enc in Hh by done. congruence.
Qed.
Theorem C03_kinds_are_separated :
  forall (T : Type) (tenc : T -> bytes) v c (p : proposal T),
    encodable (vote_rlp v) -> encodable (hashchoke_rlp (choke_to_hash c)) -> encodable (proposal_rlp tenc p) ->
    vote_bytes v <> choke_bytes c /\ vote_bytes v <> proposal_bytes tenc p /\
    choke_bytes c <> proposal_bytes tenc p.
Proof.
  intros T tenc v c p H1 H2 H3. unfold vote_bytes, choke_bytes, proposal_bytes.
  assert (length (items true (enc (vote_rlp v))) = 4%nat) as E1 by (unfold vote_rlp; by rewrite items_enc).
  assert (length (items true (enc (hashchoke_rlp (choke_to_hash c)))) = 2%nat) as E2
    by (unfold hashchoke_rlp; by rewrite items_enc).
  assert (length (items true (enc (proposal_rlp tenc p))) = 6%nat) as E3 by (unfold proposal_rlp; by rewrite items_enc).
  split_and!; intros E; rewrite E in *; congruence.
Qed.
(** The choke's signature does not cover the certificate it carries. *)
Theorem C03_choke_certificate_unsigned_refuted :
  exists c c' : choke, wf_choke c /\ wf_choke c' /\ ck_from c <> ck_from c' /\ choke_bytes c = choke_bytes c'.
Proof.
  exists (mkChoke 1 2 (UFPrevote ex_qc)), (mkChoke 1 2 (UFPrecommit ex_qc)).
  repeat split; done.
Qed.
Example C03_example :
  wf_vote (mkVote 5 1 Prevote [x01]) /\ encodable (vote_rlp (mkVote 5 1 Prevote [x01])) /\
  vote_bytes (mkVote 5 1 Prevote [x01]) = [xc4; x05; x01; x01; x01] /\
  choke_bytes (mkChoke 5 0 (UFPrevote ex_qc)) = [xc2; x05; x80].
Proof. vm_compute. done. Qed.

(** ** C04 *)
Lemma val_at_np {A} spill b i (d : bytes -> res A) : (forall x, d x <> Panic) -> val_at spill b i d <> Panic.
Proof. intros H. unfold val_at. destruct (items _ _ !! _); [apply H|done]. Qed.
Lemma rbind_np {A B} (x : res A) (f : A -> res B) : x <> Panic -> (forall a, f a <> Panic) -> rbind x f <> Panic.
Proof. intros H1 H2. destruct x; simpl; [apply H2|done|done]. Qed.
Lemma guard_np {A} spill n b (k : res A) : k <> Panic -> guard_list spill n b k <> Panic.
Proof. unfold guard_list. intros H. destruct (list_of _ _ _); done. Qed.
Lemma dec_str_np b : dec_str b <> Panic.
Proof.
  unfold dec_str. destruct b as [|x rest]; [done|].
  destruct (_ <=? _); [done|]. destruct (_ <=? _).
  - destruct (_ <? _); [done|]. destruct (ntake _ _) as [|y d]; [done|]. by destruct (_ && _).
  - destruct (_ <=? _); [|done]. destruct (_ <? _); [done|]. destruct (decode_usize _); [|done].
    by destruct (_ <? _).
Qed.
Lemma dec_uint_np k b : dec_uint k b <> Panic.
Proof.
  unfold dec_uint. apply rbind_np; [apply dec_str_np|]. intros [|x l]; [done|]. by destruct (_ || _).
Qed.
Lemma vtype_np n : vtype_of n <> Panic.
Proof. unfold vtype_of. destruct (n =? 1); [done|]. by destruct (n =? 2). Qed.
Lemma seq_np {A} (l : list (res A)) : (forall x, x ∈ l -> x <> Panic) -> seq_res l <> Panic.
Proof.
  induction l as [|x l IH]; intros H; simpl; [done|].
  apply rbind_np; [apply H; by left|]. intros a. apply rbind_np; [|done]. apply IH. intros y Hy. apply H. by right.
Qed.
Lemma list_at_np {A} spill b i (d : bytes -> res A) : (forall x, d x <> Panic) -> list_at spill b i d <> Panic.
Proof.
  intros H. unfold list_at. apply val_at_np. intros x. apply seq_np. intros y Hy.
  apply elem_of_list_fmap in Hy as (z & -> & _). apply H.
Qed.
Lemma dec_opt_np {A} spill (d : bytes -> res A) b : (forall x, d x <> Panic) -> dec_opt spill d b <> Panic.
Proof.
  intros H. unfold dec_opt. destruct (is_list b); [|done]. destruct (items _ _) as [|x [|y l]]; [done| |done].
  by apply rbind_np.
Qed.
Lemma dec_t_np {T} (tdec : bytes -> option T) b : dec_t tdec b <> Panic.
Proof. unfold dec_t. apply rbind_np; [apply dec_str_np|]. intros a. by destruct (tdec a). Qed.
Ltac np := repeat first [ done | apply dec_str_np | apply dec_uint_np | apply vtype_np | apply dec_t_np
  | match goal with
    | |- guard_list _ _ _ _ <> _ => apply guard_np
    | |- rbind _ _ <> _ => apply rbind_np
    | |- val_at _ _ _ _ <> _ => apply val_at_np
    | |- list_at _ _ _ _ <> _ => apply list_at_np
    | |- dec_opt _ _ _ <> _ => apply dec_opt_np
    | |- forall _, _ <> Panic => intro end ].
Lemma aggsig_np spill b : dec_aggsig spill b <> Panic. Proof. unfold dec_aggsig. np. Qed.
Lemma aggvote_np spill b : dec_aggvote spill b <> Panic.
Proof. unfold dec_aggvote. np; apply aggsig_np. Qed.

(** Full statement (false, see below): no decoder ever panics. Proved: no decoder panics, except
    that UpdateFrom, and what contains one (Choke, SignedChoke, WalInfo), panics exactly when a
    tag byte other than 0, 1, 2 is found, and WalInfo also for a step other than 0..4. *)
Theorem C04_decoders_return_partial : forall spill (T : Type) (tdec : bytes -> option T) b,
  dec_sproposal tdec spill b <> Panic /\ dec_proposal tdec spill b <> Panic /\
  dec_polc spill b <> Panic /\ dec_aggvote spill b <> Panic /\ dec_aggsig spill b <> Panic /\
  dec_svote spill b <> Panic /\ dec_vote spill b <> Panic /\ dec_commit tdec spill b <> Panic /\
  dec_proof spill b <> Panic /\ dec_status spill b <> Panic /\ dec_vnode spill b <> Panic /\
  dec_durcfg spill b <> Panic /\ dec_aggchoke spill b <> Panic /\ dec_wallock tdec spill b <> Panic /\
  (dec_upfrom spill b = Panic <->
     list_of spill 2 b = true /\
     exists x n, items spill b !! 0%nat = Some x /\ u8 x = Ok n /\ 2 < n) /\
  (dec_choke spill b = Panic -> exists x, items spill b !! 2%nat = Some x /\ dec_upfrom spill x = Panic) /\
  (dec_schoke spill b = Panic -> exists x, items spill b !! 1%nat = Some x /\ dec_choke spill x = Panic) /\
  (dec_walinfo tdec spill b = Panic ->
     (exists x, items spill b !! 4%nat = Some x /\ dec_upfrom spill x = Panic) \/
     (exists x n, items spill b !! 2%nat = Some x /\ u8 x = Ok n /\ 4 < n)).
Proof.
  intros spill T tdec b.
  assert (forall b, dec_polc spill b <> Panic) as Hpolc.
  { intros x. unfold dec_polc. np; apply aggvote_np. }
  assert (forall b, dec_proposal tdec spill b <> Panic) as Hprop.
  { intros x. unfold dec_proposal. np; apply Hpolc. }
  assert (forall b, dec_vote spill b <> Panic) as Hvote by (intros x; unfold dec_vote; np).
  assert (forall b, dec_proof spill b <> Panic) as Hproof.
  { intros x. unfold dec_proof. np; apply aggsig_np. }
  assert (forall b, dec_vnode spill b <> Panic) as Hvn by (intros x; unfold dec_vnode; np).
  assert (forall b, dec_durcfg spill b <> Panic) as Hdc by (intros x; unfold dec_durcfg; np).
  assert (forall b, dec_aggchoke spill b <> Panic) as Hac by (intros x; unfold dec_aggchoke; np).
  assert (forall b, dec_wallock tdec spill b <> Panic) as Hwl.
  { intros x. unfold dec_wallock. np; apply aggvote_np. }
  split_and!; auto using aggvote_np, aggsig_np.
  - unfold dec_sproposal. np; apply Hprop.
  - unfold dec_svote. np; apply Hvote.
  - unfold dec_commit. np; apply Hproof.
  - unfold dec_status. apply guard_np, rbind_np; [np|]. intros a. apply rbind_np; [np|]. intros i.
    apply rbind_np; [by apply val_at_np|]. intros c. apply rbind_np; [by apply list_at_np|]. done.
  - unfold dec_upfrom, guard_list. destruct (list_of spill 2 b); [|split; [done|by intros [? _]]].
    unfold val_at. destruct (items spill b !! 0%nat) as [x|]; simpl.
    2:{ split; [done|]. by intros (_ & ? & ? & ? & _). }
    pose proof (dec_uint_np 1 x) as Hu. fold u8 in Hu. fold (u8 x) in Hu.
    destruct (u8 x) as [n|e|] eqn:E; simpl; [|split; [done|intros (_ & ? & ? & ? & ? & _); congruence]|done].
    destruct (N.eqb_spec n 0) as [->|]; [|destruct (N.eqb_spec n 1) as [->|]; [|destruct (N.eqb_spec n 2) as [->|]]].
    1,2,3: split; [intros Hp; exfalso; revert Hp; apply rbind_np; [|done]; destruct (items spill b !! 1%nat); by auto using aggvote_np
                 |intros (_ & x' & n' & Hx & Hn & Hlt); injection Hx as <-; rewrite E in Hn; injection Hn as <-; lia].
    split; [|done]. intros _. split; [done|]. exists x, n. split_and!; [done|done|lia].
  - unfold dec_choke, guard_list. destruct (list_of _ _ _); [|done]. intros Hp.
    destruct (val_at spill b 0 u64) eqn:E0; simpl in Hp; [|done|exfalso; revert E0; apply val_at_np, dec_uint_np].
    destruct (val_at spill b 1 u64) eqn:E1; simpl in Hp; [|done|exfalso; revert E1; apply val_at_np, dec_uint_np].
    unfold val_at in Hp. destruct (items spill b !! 2%nat) as [x|]; [|done].
    exists x. split; [done|]. by destruct (dec_upfrom spill x).
  - unfold dec_schoke, guard_list. destruct (list_of _ _ _); [|done]. intros Hp.
    destruct (val_at spill b 0 dec_str) eqn:E0; simpl in Hp; [|done|exfalso; revert E0; apply val_at_np, dec_str_np].
    unfold val_at at 1 in Hp. destruct (items spill b !! 1%nat) as [x|]; [|done].
    exists x. split; [done|]. destruct (dec_choke spill x); simpl in Hp; [|done|done].
    destruct (val_at spill b 2 dec_str) eqn:E2; simpl in Hp; [done|done|exfalso; revert E2; apply val_at_np, dec_str_np].
  - unfold dec_walinfo, guard_list. destruct (list_of _ _ _); [|done]. intros Hp.
    destruct (val_at spill b 0 u64) eqn:E0; simpl in Hp; [|done|exfalso; revert E0; apply val_at_np, dec_uint_np].
    destruct (val_at spill b 1 u64) eqn:E1; simpl in Hp; [|done|exfalso; revert E1; apply val_at_np, dec_uint_np].
    destruct (val_at spill b 2 u8) as [n| |] eqn:E2; simpl in Hp; [|done|exfalso; revert E2; apply val_at_np, dec_uint_np].
    unfold val_at in E2. destruct (items spill b !! 2%nat) as [x|]; [|done].
    destruct (step_of n) eqn:Es; simpl in Hp; [|done|].
    + left. destruct (val_at spill b 3 (dec_opt spill (dec_wallock tdec spill))) eqn:E3; simpl in Hp;
        [|done|exfalso; revert E3; apply val_at_np; intros y; by apply dec_opt_np].
      unfold val_at in Hp. destruct (items spill b !! 4%nat) as [y|]; [|done].
      exists y. split; [done|]. by destruct (dec_upfrom spill y).
    + right. exists x, n. split_and!; [done|done|]. unfold step_of in Es.
      repeat match goal with H : context [?a =? ?b] |- _ => destruct (N.eqb_spec a b); try done end. lia.
Qed.
(** A signed choke that any peer can send, and a WAL record, on which decoding panics. *)
Theorem C04_never_panics_refuted : forall spill,
  (exists b, dec_schoke spill b = Panic) /\
  (exists b, dec_walinfo ex_tdec spill b = Panic).
Proof.
  intros spill. split.
  - exists (enc (RList [RStr []; RList [r_uint 1; r_uint 2; RList [r_uint 3; RStr []]]; RStr []])).
    by destruct spill.
  - exists (enc (RList [r_uint 1; r_uint 2; r_uint 5; RList []; RStr []])). by destruct spill.
Qed.

Print Assumptions C01_vote_types_round_trip.
Print Assumptions C01_choke_types_round_trip.
Print Assumptions C01_block_types_round_trip.
Print Assumptions C02_status_round_trip.
Print Assumptions C02_status_identity_refuted.
Print Assumptions C03_signed_bytes_determine_message.
Print Assumptions C03_kinds_are_separated.
Print Assumptions C03_choke_certificate_unsigned_refuted.
Print Assumptions C04_decoders_return_partial.
Print Assumptions C04_never_panics_refuted.
