(** * P_Verify: C16-C20, what is verified before it is acted upon. *)
From Verif Require Export NodeHeld P_Round.
Set Default Proof Using "Type".

(** ** Vocabulary *)
(** The validator at position [i] of a bitmap: bit [7 - i mod 8] of byte [i / 8] is set. *)
Definition bit_set (bitmap : bytes) (i : nat) : Prop :=
  exists b, bitmap !! (i / 8)%nat = Some b /\ N.testbit (b2n b) (7 - N.of_nat (i mod 8)) = true.
(** [voters] are the validators of [l] the bitmap selects, positions counted in ascending order of
    addresses. *)
Definition selected (l : list vnode) (bitmap : bytes) (voters : list bytes) : Prop :=
  ascending voters /\
  exists addrs, ascending addrs /\ addrs ≡ₚ n_addr <$> l /\
    forall a, a ∈ voters <-> exists i, addrs !! i = Some a /\ bit_set bitmap i.
(** The certificate's aggregated signature is one of exactly the selected validators over the
    hash of the vote it claims. *)
Definition signed_by_selected (cr : crypto) (l : list vnode) (q : aggvote) : Prop :=
  exists voters, selected l (as_bitmap (av_sig q)) voters /\
    cr_verify_agg cr (as_sig (av_sig q))
      (cr_hash cr (enc (vote_rlp (mkVote (av_height q) (av_round q) (av_type q) (av_hash q))))) voters = true.

Lemma bits_of_lookup bs i : bits_of bs !! i = Some true <-> bit_set bs i.
Proof.
  revert i. induction bs as [|b bs IH]; intros i.
  - unfold bits_of, bit_set. simpl. rewrite lookup_nil. split; [done|]. intros (b & Hb & _). discriminate Hb.
  - change (bits_of (b :: bs)) with (byte_bits b ++ bits_of bs).
    destruct (decide (i < 8)%nat) as [Hi|Hi].
    + rewrite lookup_app_l by done. unfold bit_set. rewrite (Nat.div_small i 8), (Nat.mod_small i 8) by done. simpl.
      do 8 (destruct i as [|i]; [simpl; split; [intros [= ?]; eauto|intros (? & [= <-] & ?); by f_equal]|]). lia.
    + rewrite lookup_app_r by (simpl; lia). simpl length. rewrite IH. unfold bit_set.
      assert (i / 8 = S ((i - 8) / 8))%nat as ->.
      { replace i with ((i - 8) + 1 * 8)%nat at 1 by lia. rewrite Nat.div_add by done. lia. }
      assert (i mod 8 = (i - 8) mod 8)%nat as ->.
      { replace i with ((i - 8) + 1 * 8)%nat at 1 by lia. by rewrite Nat.mod_add. }
      done.
Qed.
Lemma select_elem {A} bs (l : list A) x : x ∈ select bs l <-> exists i, l !! i = Some x /\ bs !! i = Some true.
Proof.
  revert l. induction bs as [|b bs IH]; intros l.
  - unfold select. simpl. rewrite elem_of_nil. split; [done|]. intros (i & _ & Hi). by rewrite lookup_nil in Hi.
  - destruct l as [|y l].
    + assert (select (b :: bs) ([] : list A) = []) as -> by done. rewrite elem_of_nil. split; [done|].
      intros (i & Hi & _). by rewrite lookup_nil in Hi.
    + rewrite select_cons, elem_of_app, IH. split.
      * intros [Hx|(i & H1 & H2)]; [|by exists (S i)]. destruct b; [|by apply elem_of_nil in Hx].
        apply elem_of_list_singleton in Hx as ->. by exists 0%nat.
      * intros ([|i] & H1 & H2); simpl in *; [|right; eauto]. simplify_eq. left. by apply elem_of_list_singleton.
Qed.
Lemma get_voters_selected l bm : distinct l -> selected l bm (get_voters (auth_update l) bm).
Proof.
  intros Hd. pose proof (auth_update_ascending l Hd) as Ha. split.
  - eapply sublist_ascending; [apply select_sublist|exact Ha].
  - exists (a_addr (auth_update l)). split; [exact Ha|]. split.
    + rewrite auth_update_addr. by rewrite ksort_perm.
    + intros a. unfold get_voters. rewrite select_elem. by setoid_rewrite bits_of_lookup.
Qed.
Lemma verify_qc_selected cr l q : distinct l -> verify_qc cr (auth_update l) q = true -> signed_by_selected cr l q.
Proof.
  intros Hd Hv. unfold verify_qc, pv_get_voters in Hv.
  destruct (is_above_threshold _ _); simpl in Hv; [|done..]. eexists. split; [by apply get_voters_selected|]. exact Hv.
Qed.

Section V.
Context {T : Type} `{EqDecision T}.
Context (lc : lcfg) (tenc : T -> bytes) (tdec : bytes -> option T) (spill : bool) (cr : crypto).
Local Notation noderun := (noderun lc tenc tdec spill cr).

(** What a received message must carry: a proposal the proposer's signature over the whole
    proposal, lock included, and in the lock a certificate with the signatures of the validators
    it selects; a vote its voter's signature; a certificate the signatures of the validators it
    selects; a choke its sender's signature over its height and round. *)
Definition proposal_verified (l : list vnode) (sp : sproposal T) : Prop :=
  let p := sp_prop sp in
  cr_verify cr (sp_sig sp) (cr_hash cr (enc (proposal_rlp tenc p))) (p_proposer p) = true /\
  forall lk, p_lock p = Some lk -> distinct l -> signed_by_selected cr l (pl_votes lk).
Definition authentic (l : list vnode) (m : omsg T) : Prop :=
  match m with
  | MProposal sp => proposal_verified l sp
  | MVote v => cr_verify cr (sv_sig v) (cr_hash cr (enc (vote_rlp (sv_vote v)))) (sv_voter v) = true
  | MAgg q => distinct l -> signed_by_selected cr l q
  | MChoke c =>
      cr_verify cr (sc_sig c)
        (cr_hash cr (enc (RList [r_uint (ck_height (sc_choke c)); r_uint (ck_round (sc_choke c))]))) (sc_addr c) = true
  | _ => False
  end.
Lemma verify_msg_authentic l m : verify_msg tenc cr (auth_update l) m = true -> authentic l m.
Proof.
  intros Hv. destruct m as [sp|v|q|stt|c|]; simpl; try exact Hv; try discriminate Hv.
  - unfold verify_msg in Hv. unfold proposal_verified. destruct (cr_verify _ _ _ _); [|done]. split; [done|].
    intros lk Elk Hd. rewrite Elk in Hv. by apply verify_qc_selected.
  - intros Hd. by apply verify_qc_selected.
Qed.

(** [l] is a validator list the instance was given: at creation, in a rich status or by a commit. *)
Definition given (b : boot T) (log : list (nlog T)) (l : list vnode) : Prop :=
  supplied (boot_at b) (inputs log) (actions log) l.

(** A history up to one of its entries is a history. *)
Lemma noderun_split b cfg log n l1 x l2 :
  noderun b cfg log n -> log = l1 ++ x :: l2 -> l1 <> [] ->
  exists n1 l n2, noderun b cfg l1 n1 /\ nstep lc tenc cr l n1 = Some (n2, [x]).
Proof.
  intros Hr. revert l2. induction Hr as [n log Hs|log n l n' log' Hr IH Hs]; intros l2 Hl Hne.
  - unfold nstart in Hs. destruct (on_start _ _ _ _ _ _) as [[s1 o1] r1]. injection Hs as <- <-.
    by destruct l1 as [|? [|]].
  - assert (exists y, log' = [y]) as [y ->].
    { clear -Hs. by apply nstep_inv in Hs as [? ? ->|? ? ? ? ? ? ? ? ? ? ->|? ? ? ? ? ? ? ? ? ->|? ? ? ? ? ->|? ? ? ? ? ? ? ? ->|? ? ? ? ? ->|? ? ? ? ->|? ? ? ? ? ->]; eexists. }
    apply snoc_split in Hl as [(-> & -> & ->)|(l2' & -> & ->)]; [by exists n, l, n'|by eapply IH].
Qed.
Lemma noderun_first b cfg log n : noderun b cfg log n -> exists o r tl, log = NStart o r :: tl.
Proof.
  induction 1 as [n log Hs|log n l n' log' Hr (o & r & tl & ->) Hs].
  - unfold nstart in Hs. destruct (on_start _ _ _ _ _ _) as [[s1 o1] r1]. injection Hs as _ <-. eauto.
  - by exists o, r, (tl ++ log').
Qed.
Lemma noderun_state b cfg log n l1 e i s o r l2 :
  noderun b cfg log n -> log = l1 ++ NState e i s o r :: l2 ->
  exists n1 n2, noderun b cfg l1 n1 /\ noderun b cfg (l1 ++ [NState e i s o r]) n2 /\
    nd_st n1 = s /\ nd_on n1 = true /\ react lc tenc e i s = (nd_st n2, o, r).
Proof.
  intros Hr Hl. assert (l1 <> []) as Hne.
  { destruct (noderun_first _ _ _ _ Hr) as (o0 & r0 & tl & E). intros ->. by rewrite E in Hl. }
  destruct (noderun_split _ _ _ _ _ _ _ Hr Hl Hne) as (n1 & l & n2 & H1 & H2). exists n1, n2. split; [done|].
  split; [by eapply noderun_step|].
  apply nstep_cases in H2 as [(e0 & i0 & s0 & o0 & r0 & Ho & Hrr & <- & _ & E)|(_ & _ & Hi & _)]; [|done].
  injection E as -> -> -> -> ->. done.
Qed.
Lemma asked_given b cfg log n a m : noderun b cfg log n -> asked log a m -> exists l, a = auth_update l /\ given b log l.
Proof.
  intros Hr (e & i & s & o & r & Hin & _ & [(_ & _ & ->)|(stt & Had & _ & _ & ->)]).
  - by eapply logged_auth.
  - exists (st_auth stt). split; [done|]. right. assert ((e, i) ∈ inputs log) as Hi.
    { apply elem_of_list_omap. by exists (NState e i s o r). }
    destruct Had as [->|(hash & h & c & -> & Hc & Hs)].
    + left. exists stt. split; [by exists e|done].
    + right. exists e, h, c, stt. split_and!; try done; [right; by eexists|].
      unfold actions. apply elem_of_list_In, in_concat. exists o. split; [|by apply elem_of_list_In].
      apply elem_of_list_In, elem_of_list_fmap. by exists (NState e (IEvent (EvCommit hash)) s o r).
Qed.
(** What was checked about a message that was not taken early, and against which validators. *)
Lemma treated_given b cfg log n l1 e m s o r l2 :
  noderun b cfg log n -> log = l1 ++ NState e (IMsg m) s o r :: l2 -> is_rich_status m = false ->
  early l1 m \/ exists l, given b l1 l /\ asked l1 (auth_update l) m /\ NVerify (auth_update l) m true ∈ l1 /\
    authentic l m.
Proof.
  intros Hr Hl Hm. destruct (treated_checked _ _ _ _ _ _ _ _ _ Hr _ _ _ _ _ _ _ Hl) as [?|[(a & Hv & Hok & Ha)|?]];
    [congruence|right|by left].
  destruct (noderun_state _ _ _ _ _ _ _ _ _ _ _ Hr Hl) as (n1 & _ & Hr1 & _).
  destruct (asked_given _ _ _ _ _ _ Hr1 Ha) as (l & -> & ?). exists l. split_and!; try done. by apply verify_msg_authentic.
Qed.
(** The message was verified before this point: a verification of exactly this message under
    validators [l] the instance was given was asked for ([asked]: when it was taken at its height,
    with the validators in force, or when the instance moved to its height, with that height's
    validators), it succeeded, and indeed the message is [authentic]. *)
Definition vouched (b : boot T) (log : list (nlog T)) (m : omsg T) : Prop :=
  exists l, given b log l /\ asked log (auth_update l) m /\ NVerify (auth_update l) m true ∈ log /\ authentic l m.
Lemma given_app b log log' l : given b log l -> given b (log ++ log') l.
Proof.
  unfold given. rewrite inputs_app, actions_app.
  intros [?|[(stt & [? ?] & ?)|(e' & h & c & stt & He & ? & ? & ?)]]; [by left|right; left|right; right].
  - exists stt. split; [eexists; apply elem_of_app; left; done|done].
  - exists e', h, c, stt. split_and!; try done; [|apply elem_of_app; by left].
    destruct He as [->|[i' ?]]; [by left|right; exists i'; apply elem_of_app; by left].
Qed.
Lemma vouched_app b log log' m : vouched b log m -> vouched b (log ++ log') m.
Proof.
  intros (l & H1 & H2 & H3 & H4). exists l. split_and!; try done; [by apply given_app|by apply asked_app|].
  apply elem_of_app; by left.
Qed.

(** ** C20 *)
(** Every proposal, vote, certificate or choke treated was successfully verified before, under the
    validators in force at its height - or it was taken while the instance was at a lower height ([early]). *)
Theorem C20_treated_messages_partial :
  forall (b : boot T) cfg log n l1 l2 e m s o r,
    noderun b cfg log n -> log = l1 ++ NState e (IMsg m) s o r :: l2 ->
    is_rich_status m = true \/ vouched b l1 m \/ early l1 m.
Proof.
  intros b cfg log n l1 l2 e m s o r Hr Hl. destruct (is_rich_status m) eqn:Em; [by left|right].
  destruct (treated_given _ _ _ _ _ _ _ _ _ _ _ Hr Hl Em) as [?|?]; [by right|by left].
Qed.
(** A message treated while the instance is below its height only goes to the cache of its height:
    nothing is done, and nothing the instance holds for other heights changes. *)
Theorem C20_early_only_cached_partial :
  forall e m s s' o r h,
    react lc tenc e (IMsg m) s = (s', o, r) -> is_rich_status m = false -> msg_height m = Ok h -> s_height s < h ->
    o = [] /\ s_height s' = s_height s /\ s_round s' = s_round s /\ s_auth s' = s_auth s /\
    s_chokes s' = s_chokes s /\ s_blocks s' = s_blocks s /\ s_full s' = s_full s /\
    forall k, k <> h -> s_votes s' !! k = s_votes s !! k /\ s_props s' !! k = s_props s !! k.
Proof.
  intros e m s s' o r h Hr Hm Hh Hlt. destruct (core lc tenc e (IMsg m)) as [x|] eqn:Ec.
  2: by destruct m.
  pose proof (react_core _ _ _ _ _ _ _ _ _ Ec Hr) as [(_ & -> & -> & _)|(_ & r' & Hx & _)]; [by split_and!|].
  destruct m as [sp|v|q|stt|sc|]; try done; simpl in Ec, Hh; injection Ec as <-; injection Hh as <-.
  - apply hsp_inv in Hx. cbv zeta in Hx. destruct Hx as [(-> & -> & _)|[(_ & _ & _ & -> & -> & _)|(_ & _ & Eh & _)]]; [done| |lia].
    split_and!; try done. simpl. intros k Hk. split; [done|]. unfold pc_insert.
    repeat case_match; simpl; try done; by rewrite lookup_insert_ne.
  - unfold handle_signed_vote, get in Hx. destruct (filter_message _ _ _).
    { unfold ret in Hx. by injection Hx as <- <- <-. }
    apply bind_inv in Hx as [(u & s1 & o1 & o2 & H1 & H2 & ->)|[(y & H1 & ->)|(H1 & ->)]].
    2-3: unfold verify_address, get in H1; destruct (auth_contains _ _); unfold ret, fail in H1; simplify_eq; by split_and!.
    assert (s1 = s /\ o1 = []) as [-> ->].
    { unfold verify_address, get in H1; destruct (auth_contains _ _); unfold ret, fail in H1; by simplify_eq. }
    destruct (is_ok _). { unfold ret in H2. by simplify_eq. }
    assert (s_height s <? v_height (sv_vote v) = true) as Eb by by apply N.ltb_lt.
    rewrite Eb in H2. unfold bind, modify, ret in H2. injection H2 as <- <- <-.
    split_and!; try done. simpl. intros k Hk. split; [|done]. unfold vc_insert_vote. by rewrite lookup_insert_ne.
  - apply agg_inv in Hx as [(_ & -> & -> & _)|[(_ & _ & -> & -> & _)|(Eh & _)]]; [done| |lia].
    split_and!; try done. simpl. intros k Hk. split; [|done]. unfold vc_set_qc. by rewrite lookup_insert_ne.
  - apply choke_inv in Hx as [(_ & -> & -> & _)|[(Eh & _)|(Eh & _)]]; [done|lia..].
Qed.
(** What the instance holds for its current height, and so can count, publish, lock on or commit
    with: its own votes and certificates, the lock of the record it started from, and what it was
    sent - each item of which was verified for this height or taken early. It is assumed that no
    write to the log failed (see C44). *)
Definition verified_item (b : boot T) (log : list (nlog T)) (h : N) (m : omsg T) : Prop :=
  treated_at log h m /\ (vouched b log m \/ early log m).
Lemma treated_verified b cfg log n h m :
  noderun b cfg log n -> is_rich_status m = false -> treated_at log h m -> verified_item b log h m.
Proof.
  intros Hr Hm Ht. split; [done|]. destruct Ht as (e & s0 & o & r & Hin & _).
  apply elem_of_list_split in Hin as (l1 & l2 & ->).
  destruct (treated_given _ _ _ _ _ _ _ _ _ _ _ Hr eq_refl Hm) as [?|?];
    [right; by apply early_app|left; by apply vouched_app].
Qed.
Theorem C20_held_items_partial :
  forall (b : boot T) cfg log n, let s := nd_st n in
    noderun b cfg log n -> s_power s = true -> (forall w, ASave w false ∉ actions log) ->
    (forall r t x l v, vc_get_votes (s_votes s) (s_height s) r t x = Ok l -> v ∈ l ->
       verified_item b log (s_height s) (MVote v) \/ AOwnVote v ∈ actions log) /\
    (forall r sp, pc_get (s_props s) (s_height s) r = Ok sp -> verified_item b log (s_height s) (MProposal sp)) /\
    (forall q, ((exists r t, vc_get_qc_by_id (s_votes s) (s_height s) r t = Ok q) \/
                (exists x t, vc_get_qc_by_hash (s_votes s) (s_height s) x t = Some q)) ->
       verified_item b log (s_height s) (MAgg q) \/ ABroadcast (MAgg q) ∈ actions log \/
       (exists w l, boot_wal tdec spill (boot_at b) w /\ wi_lock w = Some l /\ wl_votes l = q) \/
       (* the gap of C18 *)
       exists sc, verified_item b log (s_height s) (MChoke sc) /\
         (ck_from (sc_choke sc) = UFPrevote q \/ ck_from (sc_choke sc) = UFPrecommit q)).
Proof.
  intros b cfg log n s Hr Hp Hsv. pose proof (noderun_held _ _ _ _ _ _ _ _ _ Hr Hp Hsv) as [H1 H2 H3 _]. fold s in H1, H2, H3.
  assert (forall m, is_rich_status m = false -> treated_at log (s_height s) m -> verified_item b log (s_height s) m) as Hv.
  { intros m Hm Ht. by eapply treated_verified. }
  split_and!.
  - intros r t x l v Hl Hin. destruct (H1 v) as [?|?]; [by exists r, t, x, l|left; by apply Hv|by right].
  - intros r sp Hsp. apply Hv; [done|]. apply H3. by exists r.
  - intros q Hq. destruct (H2 q Hq) as [?|[(sc & ? & ?)|[?|?]]]; [left; by apply Hv| |by right; left|by right; right; left].
    right. right. right. exists sc. split; [by apply Hv|done].
Qed.

(** ** C16 *)
(** A certificate that was not taken early was verified: its aggregated signature is over the
    hash of the vote it claims, for exactly the voters its bitmap selects among the validators
    in force. (That these make up a quorum is not checked: see the counterexample.) *)
Theorem C16_certificate_signature_partial :
  forall (b : boot T) cfg log n l1 l2 e q s o r,
    noderun b cfg log n -> log = l1 ++ NState e (IMsg (MAgg q)) s o r :: l2 ->
    early l1 (MAgg q) \/
    exists l, given b l1 l /\ asked l1 (auth_update l) (MAgg q) /\ (distinct l -> signed_by_selected cr l q).
Proof.
  intros b cfg log n l1 l2 e q s o r Hr Hl.
  destruct (treated_given _ _ _ _ _ _ _ _ _ _ _ Hr Hl eq_refl) as [?|(l & Hg & Ha & _ & Hv)]; [by left|right].
  by exists l.
Qed.

(** ** C17 *)
(** Every proposal handed to the state machine, except the instance's own, was received from the
    leader of the round and, unless taken early, its signature verified over the whole proposal,
    lock included, and the aggregated signature of the certificate in the lock verified. (Nothing
    relates that certificate to the proposal: see the counterexample.) *)
Theorem C17_proposal_verified_partial :
  forall (b : boot T) cfg log n l1 l2 e i s o r t,
    noderun b cfg log n -> log = l1 ++ NState e i s o r :: l2 -> t ∈ prop_triggers o ->
    exists sp, let p := sp_prop sp in
      p_height p = t_height t /\ p_round p = t_round t /\ p_hash p = t_hash t /\ pl_round <$> p_lock p = t_lock_round t /\
      get_proposer lc (s_auth s) (t_height t) (t_round t) = Ok (p_proposer p) /\
      (sent_props o = [sp] \/ early log (MProposal sp) \/ exists l, given b log l /\ proposal_verified l sp).
Proof.
  intros b cfg log n l1 l2 e i s o r t Hr Hl Ht.
  destruct (noderun_state _ _ _ _ _ _ _ _ _ _ _ Hr Hl) as (n1 & n2 & Hr1 & Hr2 & Es & Hon & Hrr).
  pose proof (noderun_run _ _ _ _ _ _ _ _ _ Hr1) as Hrun. rewrite Es, Hon in Hrun.
  destruct (C41_acted_on_proposals _ _ _ _ _ _ _ _ _ _ _ _ _ _ Hrun Hrr Ht)
    as (E1 & _ & E2 & vals & sp & Ea & _ & F1 & F2 & F3 & F4 & _ & F5 & F6).
  exists sp. split_and!; try done; [by rewrite Ea|]. destruct F6 as [[e0 Hin]|[_ ?]]; [|by left]. right.
  assert (exists s0 o0 r0, NState e0 (IMsg (MProposal sp)) s0 o0 r0 ∈ log) as (s0 & o0 & r0 & Hx).
  { rewrite Hl. apply elem_of_app in Hin as [Hin|Hin].
    - apply elem_of_list_omap in Hin as (x & Hx & Hm). destruct x; try done. injection Hm as -> ->.
      do 3 eexists. apply elem_of_app. by left.
    - apply elem_of_list_singleton in Hin. injection Hin as -> <-. do 3 eexists. apply elem_of_app. right. left. }
  apply elem_of_list_split in Hx as (k1 & k2 & Hk).
  destruct (treated_given _ _ _ _ _ _ _ _ _ _ _ Hr Hk eq_refl) as [?|(l & Hg & _ & _ & Hv)].
  - left. rewrite Hk. by apply early_app.
  - right. exists l. split; [rewrite Hk; by apply given_app|exact Hv].
Qed.

(** ** C18 *)
(** A choke of another height, of an earlier round or of the current round brings no certificate
    into the instance: its votes and certificates are as before, and the state machine is at most
    told to go to the next round. A choke of a later round hands over at most the certificate it
    carries. (That certificate is never verified: see the counterexample.) *)
Theorem C18_chokes_partial :
  forall e sc s s' o r,
    react lc tenc e (IMsg (MChoke sc)) s = (s', o, r) ->
    let ck := sc_choke sc in
    (~ (ck_height ck = s_height s /\ s_round s < ck_round ck) ->
       s_votes s' = s_votes s /\ forall t, ATrigger t ∈ o -> t_type t = TContinueRound) /\
    (forall t, ATrigger t ∈ o -> t_type t = TContinueRound \/
       exists q, (ck_from ck = UFPrevote q \/ ck_from ck = UFPrecommit q) /\
         t = mk_trigger (match av_type q with Prevote => TPrevoteQC | Precommit => TPrecommitQC end)
               (av_hash q) None (av_round q) (s_height s)).
Proof.
  intros e sc s s' o r Hr ck. eapply react_core in Hr; [|reflexivity].
  destruct Hr as [(_ & -> & -> & _)|(_ & r' & Hx & _)].
  { split; [intros _; split; [done|]|]; intros t Ht; by apply elem_of_nil in Ht. }
  apply choke_inv in Hx. fold ck in Hx. cbv zeta in Hx. destruct Hx as [(_ & -> & -> & _)|[(Eh & Hlt & Hx)|(Eh & Er & Hx)]].
  - split; [intros _; split; [done|]|]; intros t Ht; by apply elem_of_nil in Ht.
  - split; [by intros []|]. intros t Ht. destruct (ck_from ck) as [q|q|q] eqn:Ef.
    1,2: apply agg_inv in Hx as [(_ & _ & -> & _)|[(_ & _ & _ & -> & _)|(E & _ & _ & [[-> _]|[-> _]])]];
      try (by apply elem_of_nil in Ht); apply elem_of_list_singleton in Ht; injection Ht as ->; right; exists q;
      (split; [auto|]); unfold qc_trigger; rewrite <-E; by destruct (av_type q).
    apply aggchoke_inv in Hx as [(_ & _ & -> & _)|(_ & _ & [[-> _]|[-> _]])]; try (by apply elem_of_nil in Ht).
    apply elem_of_list_singleton in Ht. injection Ht as ->. by left.
  - apply check_choke_inv in Hx as [(-> & -> & _)|(k & l & sig & _ & _ & _ & _ & -> & Hx)].
    { split; [intros _; split; [done|]|]; intros t Ht; by apply elem_of_nil in Ht. }
    assert (forall t, ATrigger t ∈ o -> t_type t = TContinueRound) as Ht.
    { intros t Ht. destruct Hx as [[-> _]|[-> _]]; [by apply elem_of_nil in Ht|].
      apply elem_of_list_singleton in Ht. by injection Ht as ->. }
    split; [by intros _|]. intros t Hin. left. auto.
Qed.

(** ** C19 *)
Definition no_round (s : st T) (o : list (action T)) (s' : st T) : Prop :=
  forall t, ATrigger t ∈ o -> t_type t <> TContinueRound.
Lemma no_round_comp : comp no_round.
Proof.
  clear lc tenc tdec spill cr. split; [intros s t Ht; by apply elem_of_nil in Ht|].
  intros s1 s2 s3 o1 o2 H1 H2 t [?|?]%elem_of_app; eauto.
Qed.
Ltac nr_fin := intros; let y := fresh in let Hy := fresh in intros y Hy;
  first [by apply elem_of_nil in Hy
        |apply elem_of_list_singleton in Hy; first [discriminate Hy|injection Hy as Hy; rewrite Hy; simpl; unfold vtype_trigger; repeat case_match; done]].
Lemma no_round_goto e stt : keeps no_round (goto_new_height (T:=T) e stt).
Proof.
  clear lc tenc tdec spill cr. intros s s' o r Hg t Ht.
  apply goto_inv in Hg as [(_ & _ & -> & _)|[(_ & _ & _ & -> & _)|[(_ & _ & _ & -> & _)|(_ & _ & _ & tr & -> & Hx)]]].
  1,2: by apply elem_of_nil in Ht. { by apply elem_of_list_singleton in Ht. }
  apply elem_of_cons in Ht as [?|[Ht|Ht]%elem_of_app]; [done|by apply elem_of_list_fmap in Ht as (? & ? & _)|].
  destruct Hx as [[-> _]|[-> _]]; [|by apply elem_of_nil in Ht]. apply elem_of_list_singleton in Ht. by injection Ht as ->.
Qed.
Local Hint Resolve no_round_goto : keepsdb.
Lemma max_round_in (c : chokecol) n k :
  cc_max_round c n = Some k -> exists m, cc_chokes c !! k = Some m /\ (2 * n < 3 * size m)%nat.
Proof.
  unfold cc_max_round. intros Hm. apply fmap_Some in Hm as ([k' m] & Hf & ->).
  apply List.find_some in Hf as [Hin Hs]. apply elem_of_list_In in Hin. exists m. split.
  - apply elem_of_map_to_list. by rewrite (merge_sort_Permutation key_desc) in Hin.
  - simpl in Hs. apply Nat.ltb_lt in Hs. lia.
Qed.
Lemma check_round e (s s1 s' : st T) o1 r1 t :
  check_choke_above_threshold e s1 = (s', o1, r1) -> ATrigger t ∈ o1 -> s_round s1 = s_round s ->
  s_auth s1 = s_auth s -> s_height s1 = s_height s ->
  exists k m, cc_chokes (s_chokes s') !! k = Some m /\ s_round s <= k /\
    (2 * auth_len (s_auth s) < 3 * size m)%nat /\ t = round_trigger k (s_height s).
Proof.
  clear lc tenc tdec spill cr.
  intros Hc Hi E1 E2 E3. apply check_choke_inv in Hc as [(_ & -> & _)|(k & l & sig & Hk & Hle & _ & _ & -> & Ho)].
  { by apply elem_of_nil in Hi. }
  destruct Ho as [[-> _]|[-> _]]; [by apply elem_of_nil in Hi|]. apply elem_of_list_singleton in Hi. injection Hi as ->.
  apply max_round_in in Hk as (m & Hm & Hs). exists k, m. rewrite E1, E2, E3 in *. done.
Qed.
Lemma brake_round e rd lock_round s s' o r t :
  handle_brake (T:=T) e rd lock_round s = (s', o, r) -> ATrigger t ∈ o ->
  exists k m, cc_chokes (s_chokes s') !! k = Some m /\ s_round s <= k /\
    (2 * auth_len (s_auth s) < 3 * size m)%nat /\ t = round_trigger k (s_height s).
Proof.
  clear lc tenc tdec spill cr. intros Hx Hin.
  unfold handle_brake, get in Hx. destruct (negb _).
      { unfold fail in Hx. simplify_eq. by apply elem_of_nil in Hin. }
      destruct (cr_sign _ _) as [sig|]; [|unfold fail in Hx; simplify_eq; by apply elem_of_nil in Hin].
      apply bind_inv in Hx as [(u1 & s1 & o1 & o1' & X1 & Hx & ->)|[(y & X1 & ->)|(X1 & ->)]]; unfold emit in X1; try discriminate X1.
      injection X1 as <- <- <-.
      apply bind_inv in Hx as [(u2 & s2 & o2 & o2' & X2 & Hx & ->)|[(y & X2 & ->)|(X2 & ->)]]; unfold modify in X2; try discriminate X2.
      injection X2 as <- <- <-. 
      set (s1 := set_s_chokes _ s) in Hx.
      apply elem_of_app in Hin as [Hin|Hin]; [by apply elem_of_list_singleton in Hin|]. rewrite app_nil_l in Hin.
      assert (forall s0 s3 o3 r3 stp, save_wal_with_lock_round (T:=T) e stp lock_round s0 = (s3, o3, r3) -> s3 = s0 /\ ATrigger t ∉ o3) as Hsv.
      { intros s0 s3 o3 r3 stp Hs3. apply save_lr_inv in Hs3 as [-> Hs3]. split; [done|].
        destruct (lock_to_save _ _); [destruct Hs3 as [-> _]; by intros ?%elem_of_list_singleton|destruct Hs3 as [-> _]; apply not_elem_of_nil]. }
      apply bind_inv in Hx as [(u3 & s3 & o3 & o3' & X3 & Hx & ->)|[(y & X3 & ->)|(X3 & ->)]]; apply Hsv in X3 as [-> X3]; [|done..].
      apply elem_of_app in Hin as [Hin|Hin]; [done|].
      apply bind_inv in Hx as [(u4 & s4 & o4 & o4' & X4 & Hx & ->)|[(y & X4 & ->)|(X4 & ->)]]; unfold broadcast, emit in X4; try discriminate X4.
      injection X4 as <- <- <-.
      apply elem_of_app in Hin as [Hin|Hin]; [by apply elem_of_list_singleton in Hin|].
      by apply (check_round _ s _ _ _ _ _ Hx Hin).
Qed.
Lemma round_change_inv e i s s' o r t :
  react lc tenc e i s = (s', o, r) -> ATrigger t ∈ o -> t_type t = TContinueRound ->
  (exists sc q, i = IMsg (MChoke sc) /\ ck_height (sc_choke sc) = s_height s /\ s_round s < ck_round (sc_choke sc) /\
     ck_from (sc_choke sc) = UFChoke q /\ (2 * auth_len (s_auth s) < 3 * length (ac_voters q))%nat /\
     t = round_trigger (ac_round q) (s_height s)) \/
  (exists k m, (forall stt, i <> IMsg (MStatus stt)) /\ (forall x, i <> IEvent (EvCommit x)) /\
     cc_chokes (s_chokes s') !! k = Some m /\ s_round s <= k /\
     (2 * auth_len (s_auth s) < 3 * size m)%nat /\ t = round_trigger k (s_height s)).
Proof.
  clear tdec spill cr. intros Hr Hin Ht.
  pose proof (fun s1 o1 r1 => check_round e s s1 s' o1 r1 t) as Hck.
  assert (forall x : M T unit, keeps no_round x -> forall s1 s2 o2 r2, x s1 = (s2, o2, r2) -> ATrigger t ∈ o2 -> False) as Hno.
  { intros x Hx s1 s2 o2 r2 H1 H2. by apply (Hx _ _ _ _ H1 _ H2). }
  assert (forall o' : list (action T), (o' = [] \/ exists a, o' = [a] /\ forall t', a <> ATrigger t') -> ATrigger t ∉ o') as Hone.
  { intros o' [->|(a & -> & Ha)]; [apply not_elem_of_nil|]. intros Hx%elem_of_list_singleton. by eapply Ha. }
  destruct (core lc tenc e i) as [x|] eqn:Ec.
  - pose proof (react_core _ _ _ _ _ _ _ _ _ Ec Hr) as [(_ & _ & -> & _)|(_ & r' & Hx & _)]; [by apply elem_of_nil in Hin|].
    assert (keeps no_round x -> False) as Hno'. { intros Hk. eapply Hno; eauto. }
    destruct i as [m|ev|rs|m]; simpl in Ec; [done|..].
    + destruct ev; try discriminate Ec; injection Ec as <-.
      1-4: exfalso; apply Hno'; keeps_go no_round_comp; nr_fin.
      unfold get in Hx. destruct (negb _). { unfold ret in Hx. simplify_eq. by apply elem_of_nil in Hin. }
      right. destruct (brake_round _ _ _ _ _ _ _ _ Hx Hin) as (k & m & ?). by exists k, m.
    + injection Ec as <-. exfalso; apply Hno'; keeps_go no_round_comp; nr_fin.
    + destruct m as [sp|v|q|stt|sc|]; try discriminate Ec; injection Ec as <-.
      1-4: exfalso; apply Hno'; keeps_go no_round_comp; nr_fin.
      apply choke_inv in Hx. cbv zeta in Hx. destruct Hx as [(_ & -> & -> & _)|[(Eh & Hlt & Hx)|(Eh & Er & Hx)]].
      * by apply elem_of_nil in Hin.
      * left. destruct (ck_from (sc_choke sc)) as [q|q|q] eqn:Ef.
        1,2: apply agg_inv in Hx as [(_ & _ & -> & _)|[(_ & _ & _ & -> & _)|(E & _ & _ & [[-> _]|[-> _]])]];
          try (by apply elem_of_nil in Hin); apply elem_of_list_singleton in Hin; injection Hin as ->;
          unfold qc_trigger in Ht; by destruct (av_type q).
        apply aggchoke_inv in Hx as [(_ & _ & -> & _)|(Hn & _ & [[-> _]|[-> _]])]; try (by apply elem_of_nil in Hin).
        apply elem_of_list_singleton in Hin. injection Hin as ->. exists sc, q. split_and!; try done. lia.
      * right. destruct (Hck _ _ _ Hx Hin) as (k & m & ?); [done..|]. by exists k, m.
  - exfalso. destruct i as [m|ev|rs|m]; simpl in Ec; try done.
    + apply react_shape in Hr as [? ? _ [->|[[-> _]|[-> _]]]|Hn _ _|? ? ? ? ? ? ? ? ? ? ? [?|(? & ? & ? & ? & _)]]; try done.
      * by apply elem_of_nil in Hin.
      * by apply elem_of_list_singleton in Hin.
      * by apply elem_of_list_singleton in Hin.
      * by eapply Hn.
    + destruct ev; try done. 
      assert (keeps no_round (on_event lc tenc e EvStop)) as Hk by (keeps_go no_round_comp; nr_fin).
      by apply (Hk _ _ _ _ Hr _ Hin).
    + destruct m; try done. 
      assert (keeps no_round (react lc tenc e (IMsg MStop))) as Hk; [|by apply (Hk _ _ _ _ Hr _ Hin)].
      unfold react. apply (keeps_bind _ no_round_comp); [|intros; apply (keeps_ret _ no_round_comp)].
      apply (keeps_on_msg _ _ no_round_comp); [nr_fin|]. keeps_go no_round_comp; nr_fin.
Qed.
(** The instance tells its state machine to go on to the next round only if it holds, for one round
    not before its own, verified chokes of its height by more than 2/3 as many different senders as
    there are validators (its own choke may be among them) - or a choke of a later round claims an
    aggregated choke naming that many voters. (That the senders are validators is not checked, and
    of the aggregated choke nothing: see the counterexamples.) *)
Theorem C19_round_changes_partial :
  forall (b : boot T) cfg log n l1 l2 e i s o r t, let now := l1 ++ [NState e i s o r] in
    noderun b cfg log n -> log = now ++ l2 -> (forall w, ASave w false ∉ actions now) ->
    ATrigger t ∈ o -> t_type t = TContinueRound ->
    exists k vals, t = mk_trigger TContinueRound [] None (w64 (k + 1)) (s_height s) /\
      s_auth s = auth_update vals /\ given b l1 vals /\
      ((exists who, NoDup who /\ s_round s <= k /\ (2 * length vals < 3 * length who)%nat /\
          forall a, a ∈ who -> exists sc, let ck := sc_choke sc in
            sc_addr sc = a /\ ck_round ck = k /\ ck_height ck = s_height s /\
            (verified_item b now (s_height s) (MChoke sc) \/ AOwnChoke sc ∈ actions now)) \/
       (exists sc q, i = IMsg (MChoke sc) /\ ck_height (sc_choke sc) = s_height s /\ s_round s < ck_round (sc_choke sc) /\
          ck_from (sc_choke sc) = UFChoke q /\ ac_round q = k /\ (2 * length vals < 3 * length (ac_voters q))%nat)).
Proof.
  intros b cfg log n l1 l2 e i s o r t now Hr Hl Hsv Hin Ht.
  assert (log = l1 ++ NState e i s o r :: l2) as Hl' by (rewrite Hl; unfold now; by rewrite <-app_assoc).
  destruct (noderun_state _ _ _ _ _ _ _ _ _ _ _ Hr Hl') as (n1 & n2 & Hr1 & Hr2 & Es & Hon & Hrr). fold now in Hr2.
  pose proof (noderun_run _ _ _ _ _ _ _ _ _ Hr1) as Hrun. apply run_auth in Hrun as (vals & Ea & Hg). rewrite Es in Ea.
  assert (auth_len (s_auth s) = length vals) as Elen.
  { rewrite Ea. unfold auth_len. rewrite auth_update_addr. rewrite fmap_length. by rewrite ksort_perm. }
  pose proof (round_change_inv _ _ _ _ _ _ _ Hrr Hin Ht) as [(sc & q & -> & E1 & E2 & E3 & E4 & ->)|(k & m & N1 & N2 & Hm & Hk & Hs & ->)].
  - exists (ac_round q), vals. split_and!; try done. right. exists sc, q. rewrite Elen in E4. done.
  - exists k, vals. split_and!; try done. left. exists (map_to_list m).*1. split; [apply NoDup_fst_map_to_list|].
    split; [done|]. split. { rewrite fmap_length. change (length (map_to_list m)) with (size m). by rewrite <-Elen. }
    pose proof (hcR_react lc tenc e i N1 N2 _ _ _ _ Hrr) as (Hh & Hp & _).
    assert (s_power s = true) as Hpw.
    { destruct (s_power s) eqn:Ep; [done|]. destruct (C43_silent_unless_validator _ _ _ _ _ _ _ _ Ep N1 Hrr) as [_ [->|Hps]].
      - by apply elem_of_nil in Hin.
      - destruct Hps as (m0 & _ & [->|(a0 & ->)]); by apply elem_of_list_singleton in Hin. }
    pose proof (noderun_held _ _ _ _ _ _ _ _ _ Hr2) as Hheld. destruct Hheld as [_ _ _ Hc]; [congruence|done|].
    intros a Hain. apply elem_of_list_fmap in Hain as ([a' sc] & -> & Hain). apply elem_of_map_to_list in Hain.
    destruct (Hc k a' sc) as (F1 & F2 & F3 & F4); [by exists m|]. exists sc. rewrite Hh in F3, F4. split_and!; try done.
    destruct F4 as [F4|?]; [left|by right]. by apply (treated_verified _ _ _ _ _ _ Hr2).
Qed.
Lemma brake_only_own e rd lr (s s' : st T) o r :
  s_chokes s = chokecol_new -> handle_brake e rd lr s = (s', o, r) ->
  forall k a sc, held_choke s' k a sc -> a = s_addr s.
Proof.
  clear lc tenc tdec spill cr. intros Ec Hb k a sc Hk.
  assert (forall s1 s2 o2 r2, check_choke_above_threshold (T:=T) e s1 = (s2, o2, r2) ->
            held_choke s2 k a sc -> held_choke s1 k a sc) as Hck.
  { intros s1 s2 o2 r2 Hc. by apply check_choke_inv in Hc as [(-> & _)|(k' & l & sig & _ & _ & _ & _ & -> & _)]. }
  unfold handle_brake in Hb. minv; ro_subst.
  all: try (by apply no_choke_new in Hk).
  all: try match goal with Hc : check_choke_above_threshold _ _ = _ |- _ => apply (Hck _ _ _ _ Hc) in Hk end.
  all: apply held_insert in Hk as [Hk|(_ & -> & _)]; [by apply no_choke_new in Hk|done].
Qed.
(** At a restart, the instance asks for the next round only if it is the only validator. *)
Theorem C19_at_start_partial :
  forall (b : boot T) cfg log n o r t,
    noderun b cfg log n -> NStart o r ∈ log -> ATrigger t ∈ o -> t_type t = TContinueRound ->
    (length (b_vals b) <= 1)%nat.
Proof.
  intros b cfg log n o r t Hr Hs Hin Ht.
  assert (exists n0, nstart lc tdec spill b cfg = (n0, [NStart o r])) as [n0 Hn].
  { induction Hr as [n log Hx|log n l n' log' Hr IH Hx].
    - assert (exists o1 r1, log = [NStart o1 r1]) as (o1 & r1 & ->).
      { unfold nstart in Hx. destruct (on_start _ _ _ _ _ _) as [[s1 o1] r1]. injection Hx as _ <-. eauto. }
      apply elem_of_list_singleton in Hs. injection Hs as -> ->. eauto.
    - apply elem_of_app in Hs as [Hs|Hs]; [auto|]. exfalso.
      apply nstep_inv in Hx as [? ? ->|? ? ? ? ? ? ? ? ? ? ->|? ? ? ? ? ? ? ? ? ->|? ? ? ? ? ->|? ? ? ? ? ? ? ? ->|? ? ? ? ? ->|? ? ? ? ->|? ? ? ? ? ->];
        by apply elem_of_list_singleton in Hs. }
  unfold nstart in Hn. destruct (on_start _ _ _ _ _ _) as [[s1 o1] r1] eqn:E. injection Hn as _ -> ->.
  set (s0 := st_new _ _ _ _) in E.
  unfold on_start in E. apply logged_inv in E as (r' & E & _).
  apply start_inv in E as [(_ & [->|(t0 & -> & E & _)])|(w & bs & _ & _ & _ & [[_ ->]|(p & _ & E)])].
  { by apply elem_of_nil in Hin. }
  { apply elem_of_list_singleton in Hin. congruence. }
  { by apply elem_of_nil in Hin. }
  set (s2 := loaded_state w _ p s0) in E.
  assert (s_auth s2 = auth_update (b_vals b)) as Ea by (unfold s2, loaded_state; by destruct (wi_lock w)).
  assert (s_chokes s2 = chokecol_new) as Ec2 by (unfold s2, loaded_state; by destruct (wi_lock w)).
  clearbody s2. unfold start_tail in E. destruct (bool_decide (wi_step w = SCommit)).
  { exfalso. destruct (wi_lock w) as [lk|]; [|unfold fail in E; simplify_eq; by apply elem_of_nil in Hin].
    assert (keeps no_round (handle_commit lc (mkEnv (e_crypto (b_env b)) (e_get_block (b_env b)) (e_commit (b_env b)) (e_save (b_env b)) (fun _ => true)) (av_hash (wl_votes lk)))) as Hk by (keeps_go no_round_comp; nr_fin).
    by apply (Hk _ _ _ _ E _ Hin). }
  assert (exists s3 o3 r3 lr, handle_brake (mkEnv (e_crypto (b_env b)) (e_get_block (b_env b)) (e_commit (b_env b)) (e_save (b_env b)) (fun _ => true)) (wi_round w) lr s2 = (s3, o3, r3) /\ ATrigger t ∈ o3) as (s3 & o3 & r3 & lr & Hb & Ho).
  { assert (forall e s s' o r, get (fun s => trigger_smr (T:=T) e (mkTrigger TWalInfo SrcState [] None (s_round s) (s_height s)
            (Some (into_smr_base w)))) s = (s', o, r) -> ATrigger t ∉ o /\ s_chokes s' = s_chokes s) as Hg.
    { intros e' s' s'' o' r'' Hg. unfold get in Hg. apply trigger_inv in Hg as [-> [[-> _]|[-> _]]]; (split; [|done]).
      - intros Hx%elem_of_list_singleton. injection Hx as ->. done.
      - apply not_elem_of_nil. }
    apply bind_inv in E as [(u & s3 & o3 & o4 & H1 & H2 & ->)|[(x & H1 & ->)|(H1 & ->)]];
      destruct (bool_decide (wi_step w = SBrake)).
    2,4,6: unfold ret in H1; simplify_eq; by apply Hg in H2 as [? _].
    - apply Hg in H2 as [H2 H3]. apply elem_of_app in Hin as [Hin|Hin]; [|done]. by exists s3, o3, (Ok u), (wl_round <$> wi_lock w).
    - do 4 eexists. split; [exact H1|done].
    - do 4 eexists. split; [exact H1|done]. }
  destruct (brake_round _ _ _ _ _ _ _ _ Hb Ho) as (k & m & Hm & _ & Hsz & _).
  assert (forall a sc, m !! a = Some sc -> a = s_addr s2) as Hone.
  { intros a sc Ha. eapply brake_only_own; [|exact Hb|]; [done|]. by exists m. }
  rewrite Ea in Hsz. unfold auth_len in Hsz. rewrite auth_update_addr, fmap_length in Hsz. rewrite (ksort_perm n_addr) in Hsz.
  assert (size m <= 1)%nat; [|lia]. rewrite <-size_dom.
  transitivity (size ({[s_addr s2]} : gset bytes)); [|by rewrite size_singleton].
  apply subseteq_size. intros a (sc & Ha)%elem_of_dom. apply elem_of_singleton. by eapply Hone.
Qed.
End V.

(** ** Examples and counterexamples *)
(** The messages an instance treated, in order. *)
Definition treated_list {T} (log : list (nlog T)) : list (omsg T) :=
  omap (fun x => match x with NState _ (IMsg m) _ _ _ => Some m | _ => None end) log.
Lemma treated_list_split {T} (log : list (nlog T)) m :
  m ∈ treated_list log -> exists l1 l2 e s o r, log = l1 ++ NState e (IMsg m) s o r :: l2.
Proof.
  intros Hm. apply elem_of_list_omap in Hm as (x & Hx & Hm). destruct x as [| |e i s o r| | | | | |]; try done.
  destruct i; simpl in Hm; try done. injection Hm as ->. apply elem_of_list_split in Hx as (l1 & l2 & ->). eauto 10.
Qed.
Lemma run_labels_app {T} `{EqDecision T} lc (tenc : T -> bytes) cr ls1 ls2 x :
  run_labels lc tenc cr (ls1 ++ ls2) x = match run_labels lc tenc cr ls1 x with Some y => run_labels lc tenc cr ls2 y | None => None end.
Proof. revert x. induction ls1 as [|l ls1 IH]; intros [n log]; [done|]. simpl. by destruct (nstep _ _ _ _ _) as [[? ?]|]. Qed.
Lemma run_labels_log {T} `{EqDecision T} lc (tenc : T -> bytes) cr ls n log n' log' :
  run_labels lc tenc cr ls (n, log) = Some (n', log') -> exists tl, log' = log ++ tl.
Proof.
  revert n log. induction ls as [|l ls IH]; intros n log; simpl; [intros [= <- <-]; exists []; by rewrite app_nil_r|].
  destruct (nstep _ _ _ _ _) as [[n1 l1]|]; [|done]. intros Hx. apply IH in Hx as [tl ->]. exists (l1 ++ tl). by rewrite app_assoc.
Qed.
Lemma ndlog_app me ls1 ls2 :
  ndok me (ls1 ++ ls2) = true -> ndok me ls1 = true /\ exists tl, ndlog me (ls1 ++ ls2) = ndlog me ls1 ++ tl.
Proof.
  unfold ndok, ndlog, ndexec. rewrite run_labels_app. destruct (run_labels _ _ _ ls1 _) as [[n1 l1]|]; [|done].
  destruct (run_labels _ _ _ ls2 _) as [[n2 l2]|] eqn:E; [|done]. intros _. split; [done|]. by eapply run_labels_log.
Qed.
Definition triggered (log : list (nlog bytes)) : list (ttype * N * N) :=
  omap (fun a => match a with ATrigger t => Some (t_type t, t_height t, t_round t) | _ => None end) (actions log).
Definition verifications {T} (log : list (nlog T)) : list (omsg T * bool) :=
  omap (fun x => match x with NVerify _ m ok => Some (m, ok) | _ => None end) log.
Definition saves_ok (log : list (nlog bytes)) : bool :=
  forallb (fun a => match a with ASave _ false => false | _ => true end) (actions log).
Lemma saves_ok_spec log : saves_ok log = true -> forall w, ASave w false ∉ actions log.
Proof.
  unfold saves_ok. rewrite forallb_forall. intros Hf w Hw. apply elem_of_list_In in Hw. by apply Hf in Hw.
Qed.
(** A in the middle of height 1: B's proposal and a prevote certificate treated, both verified. *)
Definition upto_block : list (label bytes) :=
  let e := nenv nA true in
  status_through nA (nstatus 1) ++ [LSmr; LEvent e] ++
  through nA (MProposal (nprop nB 1 0 blk None)) ++ [LSmr; LEvent e; LCheck 0 true; LResp e].
Definition sched_ok : list (label bytes) := upto_block ++ through nA (MAgg pvqc) ++ [LSmr; LEvent (nenv nA true)].
Example C16_C20_example :
  ndrun nA (ndlog nA sched_ok) (ndnode nA sched_ok) /\
  treated_list (ndlog nA sched_ok) = [MStatus (nstatus 1); MProposal (nprop nB 1 0 blk None); MAgg pvqc] /\
  verifications (ndlog nA sched_ok) = [(MProposal (nprop nB 1 0 blk None), true); (MAgg pvqc, true)] /\
  (forall w, ASave w false ∉ actions (ndlog nA sched_ok)) /\
  (let s := nd_st (ndnode nA sched_ok) in
   s_power s = true /\ vc_get_qc_by_id (s_votes s) (s_height s) 0 Prevote = Ok pvqc /\
   pc_get (s_props s) (s_height s) 0 = Ok (nprop nB 1 0 blk None)) /\
  distinct nvals.
Proof.
  split; [apply ndok_run; vm_compute; reflexivity|]. split; [vm_compute; reflexivity|]. split; [vm_compute; reflexivity|].
  split; [apply saves_ok_spec; vm_compute; reflexivity|]. split; [vm_compute; done|].
  unfold distinct. apply (bool_decide_eq_true _). vm_compute. reflexivity.
Qed.
(** C16: a certificate selecting one validator of four is verified, acted upon, and commits the block. *)
Definition dqc : aggvote := nqc x10 [nD] nD 1 0 Precommit hsh.
Definition sched16 : list (label bytes) := upto_block ++ through nA (MAgg dqc) ++ [LSmr; LEvent (nenv nA true)].
Theorem C16_quorum_refuted :
  exists log n q voters, ndrun nA log n /\ MAgg q ∈ treated_list log /\ verifications log !! 1%nat = Some (MAgg q, true) /\
    selected nvals (as_bitmap (av_sig q)) voters /\ 3 * weight_of voters nvals <= 2 * total_weight nvals /\
    (fun x => (x.1, c_content x.2, pf_sig (c_proof x.2))) <$> committed log = [(1, blk, av_sig q)].
Proof.
  exists (ndlog nA sched16), (ndnode nA sched16), dqc, (get_voters (auth_update nvals) (as_bitmap (av_sig dqc))).
  split; [apply ndok_run; vm_compute; reflexivity|]. split; [apply elem_of_list_In; vm_compute; tauto|].
  split; [vm_compute; reflexivity|]. split; [apply get_voters_selected, C16_C20_example|]. split; [vm_compute; done|vm_compute; reflexivity].
Qed.
(** C17: A is locked on [hsh] since round 0. In round 1 the leader C proposes another block, with a
    "proof of lock" for round 5 that is the prevote certificate for [hsh] of round 0: it is
    accepted, A gives up its lock and prevotes the other block. *)
Definition nilqc : aggvote := nqc x70 [nB; nC; nD] nB 1 0 Precommit [].
Definition badpolc : polc := mkPoLC 5 pvqc.
Definition sched17 : list (label bytes) :=
  let e := nenv nA true in
  upto_block ++ through nA (MAgg pvqc) ++ [LSmr; LEvent e] ++ through nA (MAgg nilqc) ++ [LSmr; LEvent e] ++
  through nA (MProposal (nprop nC 1 1 (nblock 2) (Some badpolc))).
Theorem C17_lock_proof_refuted :
  exists log1 n1 log2 n2 sp lk, let p := sp_prop sp in
    ndrun nA log1 n1 /\ ndrun nA (log1 ++ log2) n2 /\ MProposal sp ∈ treated_list log1 /\
    p_lock p = Some lk /\ av_round (pl_votes lk) <> pl_round lk /\ av_hash (pl_votes lk) <> p_hash p /\
    m_lock (nd_smr n1) = Some (mkLock 0 (av_hash (pl_votes lk))) /\ m_lock (nd_smr n2) = None /\
    last (omap (fun x => match x with (_, MVote v) => Some (sv_vote v) | _ => None end) (sent_to (log1 ++ log2))) =
      Some (mkVote 1 1 Prevote (p_hash p)).
Proof.
  set (sched := sched17 ++ [LSmr; LEvent (nenv nA true)]).
  assert (ndok nA sched = true) as Hok by (vm_compute; reflexivity).
  destruct (ndlog_app nA sched17 [LSmr; LEvent (nenv nA true)] Hok) as [Hok1 [log2 E]]. fold sched in E.
  exists (ndlog nA sched17), (ndnode nA sched17), log2, (ndnode nA sched), (nprop nC 1 1 (nblock 2) (Some badpolc)), badpolc.
  cbv zeta. pose proof (ndok_run _ _ Hok1) as R1. pose proof (ndok_run _ _ Hok) as R2. rewrite <-E.
  split; [exact R1|]. split; [exact R2|]. clear.
  split; [apply elem_of_list_In; vm_compute; tauto|]. split; [reflexivity|]. split; [discriminate|]. split; [vm_compute; discriminate|].
  split; [vm_compute; reflexivity|]. split; vm_compute; reflexivity.
Qed.
(** C18: an outsider's choke of a later round carries a certificate with a made-up signature; it commits. *)
Definition outsider : bytes := [xee].
Definition forged : aggvote := mkAggVote (mkAggSig [x00] [x70]) Precommit 1 0 hsh [].
Definition sched18 : list (label bytes) :=
  upto_block ++ through nA (MChoke (nchoke outsider 1 3 (UFPrecommit forged))) ++ [LSmr; LEvent (nenv nA true)].
Theorem C18_certificate_in_choke_refuted :
  exists log n sc q, ndrun nA log n /\ MChoke sc ∈ treated_list log /\ ck_from (sc_choke sc) = UFPrecommit q /\
    sc_addr sc ∉ n_addr <$> nvals /\
    verify_msg ntenc (ncr nA) (auth_update nvals) (MAgg q) = false /\
    (fun x => (x.1, c_content x.2, pf_sig (c_proof x.2))) <$> committed log = [(1, blk, av_sig q)].
Proof.
  exists (ndlog nA sched18), (ndnode nA sched18), (nchoke outsider 1 3 (UFPrecommit forged)), forged.
  split; [apply ndok_run; vm_compute; reflexivity|]. split; [apply elem_of_list_In; vm_compute; tauto|].
  split; [done|]. split. { apply (bool_decide_eq_false _). vm_compute. reflexivity. }
  split; vm_compute; reflexivity.
Qed.
(** C19: three outsiders' chokes make A leave round 0; three validators' do so as well. *)
Definition choked_by (who : list bytes) : list (label bytes) :=
  status_through nA (nstatus 1) ++ [LSmr; LEvent (nenv nA true)] ++
  (who ≫= fun a => through nA (MChoke (nchoke a 1 0 (UFPrecommit mock_init_qc)))) ++ [LSmr; LEvent (nenv nA true)].
Theorem C19_outsiders_refuted :
  exists log n, ndrun nA log n /\
    (forall sc, MChoke sc ∈ treated_list log -> sc_addr sc ∉ n_addr <$> nvals) /\
    (forall sc, AOwnChoke sc ∉ actions log) /\ s_height (nd_st n) = 1 /\ s_round (nd_st n) = 1.
Proof.
  set (sched := choked_by [[xe1]; [xe2]; [xe3]]). exists (ndlog nA sched), (ndnode nA sched).
  split; [apply ndok_run; vm_compute; reflexivity|]. split; [|split].
  - intros sc Hin.
    assert (sc_addr sc ∈ [[xe1]; [xe2]; [xe3]]) as Hx.
    { assert (omap (fun m => match m with MChoke c => Some (sc_addr c) | _ => None end) (treated_list (ndlog nA sched)) = [[xe1]; [xe2]; [xe3]]) as <- by (vm_compute; reflexivity).
      apply elem_of_list_omap. by exists (MChoke sc). }
    assert (Forall (fun a => a ∉ n_addr <$> nvals) [[xe1]; [xe2]; [xe3]]) as Hf.
    { repeat constructor; apply (bool_decide_eq_false _); vm_compute; reflexivity. }
    by apply (proj1 (Forall_forall _ _) Hf) in Hx.
  - intros sc Hin.
    assert (sc ∈ omap (fun a => match a with AOwnChoke c => Some c | _ => None end) (actions (ndlog nA sched))) as Hx
      by (apply elem_of_list_omap; by exists (AOwnChoke sc)).
    assert (omap (fun a => match a with AOwnChoke c => Some c | _ => None end) (actions (ndlog nA sched)) = []) as E by (vm_compute; reflexivity).
    rewrite E in Hx. by apply elem_of_nil in Hx.
  - vm_compute. done.
Qed.
(** A single choke of an outsider naming one address three times does so too, to any round it likes. *)
Definition forged_ac : aggchoke := mkAggChoke 1 6 [x00] [outsider; outsider; outsider].
Definition sched19 : list (label bytes) :=
  status_through nA (nstatus 1) ++ [LSmr; LEvent (nenv nA true)] ++
  through nA (MChoke (nchoke outsider 1 3 (UFChoke forged_ac))) ++ [LSmr; LEvent (nenv nA true)].
Theorem C19_claimed_aggregate_refuted :
  exists log n sc, ndrun nA log n /\ omap (fun m => match m with MChoke c => Some c | _ => None end) (treated_list log) = [sc] /\
    sc_addr sc ∉ n_addr <$> nvals /\ s_height (nd_st n) = 1 /\ s_round (nd_st n) = 7.
Proof.
  exists (ndlog nA sched19), (ndnode nA sched19), (nchoke outsider 1 3 (UFChoke forged_ac)).
  split; [apply ndok_run; vm_compute; reflexivity|]. split; [vm_compute; reflexivity|].
  split. { apply (bool_decide_eq_false _). vm_compute. reflexivity. }
  split; vm_compute; reflexivity.
Qed.
Example C19_example :
  let sched := choked_by [nB; nC; nD] in
  ndrun nA (ndlog nA sched) (ndnode nA sched) /\ (forall w, ASave w false ∉ actions (ndlog nA sched)) /\
  (TContinueRound, 1, 1) ∈ triggered (ndlog nA sched) /\ s_round (nd_st (ndnode nA sched)) = 1 /\
  (let two := choked_by [nB; nC; nC] in ndok nA (take 16 two) = true /\ s_round (nd_st (ndnode nA (take 16 two))) = 0).
Proof.
  split; [apply ndok_run; vm_compute; reflexivity|]. split; [apply saves_ok_spec; vm_compute; reflexivity|].
  split; [apply elem_of_list_In; vm_compute; tauto|]. split; vm_compute; done.
Qed.
(** C20: a certificate for height 2 with a made-up signature is taken at height 1 right behind the status
    of height 2, and so treated at height 2: no verification at all took place, and A leaves round 0. *)
Definition forged20 : aggvote := mkAggVote (mkAggSig [x00] [x70]) Precommit 2 0 [] [].
Definition sched20 : list (label bytes) :=
  let e := nenv nA true in
  status_through nA (nstatus 1) ++
  [LSmr; LEvent e; LSend (MStatus (nstatus 2)); LSend (MAgg forged20); LRaw e; LRaw e; LMsg e; LMsg e; LSmr; LSmr; LEvent e; LEvent e].
Theorem C20_unverified_message_refuted :
  exists log n q, ndrun nA log n /\ MAgg q ∈ treated_list log /\ verifications log = [] /\
    verify_msg ntenc (ncr nA) (auth_update nvals) (MAgg q) = false /\
    s_height (nd_st n) = av_height q /\ s_round (nd_st n) = 1 /\
    (TPrecommitQC, av_height q, av_round q) ∈ triggered log.
Proof.
  exists (ndlog nA sched20), (ndnode nA sched20), forged20.
  split; [apply ndok_run; vm_compute; reflexivity|]. split; [apply elem_of_list_In; vm_compute; tauto|].
  split; [vm_compute; reflexivity|]. split; [vm_compute; reflexivity|]. split; [vm_compute; reflexivity|].
  split; [vm_compute; reflexivity|]. apply elem_of_list_In. vm_compute. tauto.
Qed.
Print Assumptions C16_certificate_signature_partial.
Print Assumptions C16_quorum_refuted.
Print Assumptions C17_proposal_verified_partial.
Print Assumptions C17_lock_proof_refuted.
Print Assumptions C18_chokes_partial.
Print Assumptions C18_certificate_in_choke_refuted.
Print Assumptions C19_round_changes_partial.
Print Assumptions C19_at_start_partial.
Print Assumptions C19_outsiders_refuted.
Print Assumptions C19_claimed_aggregate_refuted.
Print Assumptions C20_treated_messages_partial.
Print Assumptions C20_early_only_cached_partial.
Print Assumptions C20_held_items_partial.
Print Assumptions C20_unverified_message_refuted.
