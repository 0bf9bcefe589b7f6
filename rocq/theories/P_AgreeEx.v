(** * P_AgreeEx: networks that meet the hypotheses of C28, and networks in which the nodes disagree
    because one of the three conditions fails. *)
From Verif Require Export NetEx.
Set Default Proof Using "Type".

(** ** A network that agrees *)
(** D is Byzantine and votes like the others. B leads; C follows; A crashes right after its
    prevote, starts again, and follows too. *)
Definition lead (me : bytes) : list (label bytes) :=
  let e := nenv me true in
  status_through me (nstatus 1) ++ [LSmr; LEvent e; LSmr; LEvent e; LCheck 0 true; LResp e] ++
  through me (MVote (nvote nC 1 0 Prevote hsh)) ++ through me (MVote (nvote nD 1 0 Prevote hsh)) ++ [LSmr; LEvent e] ++
  through me (MVote (nvote nC 1 0 Precommit hsh)) ++ through me (MVote (nvote nD 1 0 Precommit hsh)) ++ [LSmr; LEvent e].
Definition prevotes_block (me : bytes) : list (label bytes) :=
  let e := nenv me true in
  status_through me (nstatus 1) ++ [LSmr; LEvent e] ++
  through me (MProposal (nprop nB 1 0 blk None)) ++ [LSmr; LEvent e].
Definition commits_block (me : bytes) : list (label bytes) :=
  let e := nenv me true in
  through me (MAgg pvqc) ++ [LSmr; LEvent e] ++ through me (MAgg pcqc) ++ [LSmr; LEvent e].
Definition good_nodes : list (bytes * list start) :=
  let e := nenv nA true in
  [ (nA, [mkStartEx None (prevotes_block nA) 9;
          mkStartEx (Some prevote_record)
            ([LSmr] ++ through nA (MProposal (nprop nB 1 0 blk None)) ++ [LSmr; LCheck 0 true; LResp e] ++ commits_block nA) 100]);
    (nB, [mkStartEx None (lead nB) 100]);
    (nC, [mkStartEx None (prevotes_block nC ++ [LCheck 0 true; LResp e] ++ commits_block nC) 100]) ].

Lemma good_network : networkb nD good_nodes = true.
Proof. vm_compute. reflexivity. Qed.
Lemma good_certs : certsb nD good_nodes = true.
Proof. vm_compute. reflexivity. Qed.
Lemma good_fresh : freshb nD good_nodes = true.
Proof. vm_compute. reflexivity. Qed.
Lemma good_unlock : no_unlockb nD good_nodes = true.
Proof. vm_compute. reflexivity. Qed.
Definition good_commit : commit bytes := mkCommit 1 blk (mkProof 1 0 hsh (av_sig pcqc)).
Lemma good_commits_A : commits_of good_nodes nA = [(1, good_commit)].
Proof. vm_compute. reflexivity. Qed.
Lemma good_commits_B : commits_of good_nodes nB = [(1, good_commit)].
Proof. vm_compute. reflexivity. Qed.
Lemma good_commits_C : commits_of good_nodes nC = [(1, good_commit)].
Proof. vm_compute. reflexivity. Qed.
Lemma commits_one nodes a x : commits_of nodes a = [x] -> has_committed (ex_net nodes a) x.1 x.2.
Proof. intros E. apply commits_of_ok. rewrite E. destruct x. by left. Qed.
Lemma honest_of byz a : bool_decide (a ∈ n_addr <$> nvals) && negb (isbyz byz a) = true -> honest nvals (isbyz byz) a.
Proof. intros [H1 H2]%andb_true_iff. apply bool_decide_eq_true in H1. by apply negb_true_iff in H2. Qed.
(** The hypotheses of C28 hold of this network, and its three honest nodes all commit. *)
Example agreeing_network :
  network nlc ntenc ntdec true nvals (isbyz nD) ncr (ex_net good_nodes) /\
  certs_genuine nvals (isbyz nD) (ex_net good_nodes) /\ votes_fresh nvals (isbyz nD) (ex_net good_nodes) /\
  unlocks_justified nvals (isbyz nD) (ex_net good_nodes) /\
  forall a, a ∈ [nA; nB; nC] -> honest nvals (isbyz nD) a /\ has_committed (ex_net good_nodes a) 1 good_commit.
Proof.
  split_and!.
  - apply networkb_ok, good_network.
  - apply certsb_ok, good_certs.
  - apply freshb_ok, good_fresh.
  - apply no_unlockb_ok, good_unlock.
  - intros a [->|[->|[->|[]%elem_of_nil]%elem_of_cons]%elem_of_cons]%elem_of_cons; (split; [by apply honest_of|]).
    + exact (commits_one _ _ _ good_commits_A).
    + exact (commits_one _ _ _ good_commits_B).
    + exact (commits_one _ _ _ good_commits_C).
Qed.

Definition disagreement (l : list vnode) (byz : bytes -> bool) (net : bytes -> list (epoch (T:=bytes))) : Prop :=
  exists a a' h c c', honest l byz a /\ honest l byz a' /\ has_committed (net a) h c /\ has_committed (net a') h c' /\
    pf_hash (c_proof c) <> pf_hash (c_proof c').
Definition hashes_of (nodes : list (bytes * list start)) (a : bytes) : list (N * bytes) :=
  (fun x => (x.1, pf_hash (c_proof x.2))) <$> commits_of nodes a.
Lemma hashes_of_ok nodes a h x : (h, x) ∈ hashes_of nodes a -> exists c, has_committed (ex_net nodes a) h c /\ pf_hash (c_proof c) = x.
Proof. unfold hashes_of. intros ([h' c] & [= -> ->] & Hin)%elem_of_list_fmap. exists c. split; [by apply commits_of_ok|done]. Qed.

(** ** Forged certificates *)
(** B is Byzantine, leads, and sends A and C different blocks with certificates only B signed. *)
Definition forged (me : bytes) (b : bytes) : list (label bytes) :=
  let e := nenv me true in
  status_through me (nstatus 1) ++ [LSmr; LEvent e] ++
  through me (MProposal (nprop nB 1 0 b None)) ++ [LSmr; LEvent e; LCheck 0 true; LResp e] ++
  through me (MAgg (nqc x40 [nB] nB 1 0 Prevote (nhash b))) ++ [LSmr; LEvent e] ++
  through me (MAgg (nqc x40 [nB] nB 1 0 Precommit (nhash b))) ++ [LSmr; LEvent e].
Definition forged_nodes : list (bytes * list start) :=
  [(nA, [mkStartEx None (forged nA blk) 100]); (nC, [mkStartEx None (forged nC (nblock 2)) 100])].
Lemma forged_network : networkb nB forged_nodes = true.
Proof. vm_compute. reflexivity. Qed.
Lemma forged_fresh : freshb nB forged_nodes = true.
Proof. vm_compute. reflexivity. Qed.
Lemma forged_unlock : no_unlockb nB forged_nodes = true.
Proof. vm_compute. reflexivity. Qed.
Lemma forged_commits : (hashes_of forged_nodes nA, hashes_of forged_nodes nC) = ([(1, hsh)], [(1, nhash (nblock 2))]).
Proof. vm_compute. reflexivity. Qed.
Lemma disagreement_of nodes byz a a' h x y l1 l2 :
  honest nvals (isbyz byz) a -> honest nvals (isbyz byz) a' -> (hashes_of nodes a, hashes_of nodes a') = (l1, l2) ->
  (h, x) ∈ l1 -> (h, y) ∈ l2 -> x <> y -> disagreement nvals (isbyz byz) (ex_net nodes).
Proof.
  intros Ha Ha' E Hx Hy Hne. injection E as <- <-. apply hashes_of_ok in Hx as (c & Hc & <-). apply hashes_of_ok in Hy as (c' & Hc' & <-).
  by exists a, a', h, c, c'.
Qed.
(** Because a single validator's signature makes a certificate the code accepts, one Byzantine
    validator makes two honest ones commit different blocks. *)
Theorem C28_forged_certificates_refuted :
  exists l byz cr net,
    network (T:=bytes) nlc ntenc ntdec true l byz cr net /\ votes_fresh l byz net /\ unlocks_justified l byz net /\
    disagreement l byz net.
Proof.
  exists nvals, (isbyz nB), ncr, (ex_net forged_nodes). split_and!.
  - apply networkb_ok, forged_network.
  - apply freshb_ok, forged_fresh.
  - apply no_unlockb_ok, forged_unlock.
  - eapply (disagreement_of forged_nodes nB nA nC 1); [by apply honest_of..|exact forged_commits|by left|by left|done].
Qed.

(** ** Stale votes *)
(** C is Byzantine and leads height 2. A was told that height 1 is decided when its events of
    height 1 were not treated yet: it votes for the block of height 1 at height 2, without locking on it. *)
(* a round passes without a proposal; [k] other timeouts are running *)
Definition expiring (k : nat) : list (label bytes) := [LArm; LExpire k; LFire; LSmr].
Definition passing (me : bytes) (k : nat) : list (label bytes) :=
  let e := nenv me true in
  [LEvent e] ++ expiring k ++ [LEvent e] ++ expiring k ++ [LEvent e] ++ expiring k ++ [LEvent e].
Definition brakes (me : bytes) (h r : N) (others : list bytes) : list (label bytes) :=
  concat ((fun o => through me (MChoke (nchoke o h r (UFPrecommit mock_init_qc)))) <$> others) ++ [LSmr].
Definition qc2 (t : vtype) (who : list bytes) (bm : byte) : aggvote := nqc bm who nC 2 0 t hsh.
Definition stale_A : list (label bytes) :=
  let e := nenv nA true in
  status_through nA (nstatus 1) ++ [LSmr; LEvent e] ++
  through nA (MProposal (nprop nB 1 0 blk None)) ++ [LSmr; LEvent e; LCheck 0 true; LResp e] ++
  through nA (MAgg pvqc) ++ [LSmr; LArm; LArm; LArm] ++
  (* height 1 is decided; the precommit of height 1 still waits; two timeouts pass *)
  status_through nA (nstatus 2) ++ [LSmr] ++ expiring 3 ++ expiring 3 ++
  through nA (MProposal (nprop nC 2 0 blk None)) ++ through nA (MAgg (qc2 Prevote [nB; nC; nD] x70)) ++ [LSmr; LSmr] ++
  [LEvent e; LEvent e; LEvent e; LEvent e; LSmr; LSmr] ++ expiring 3 ++ [LEvent e] ++ brakes nA 2 0 [nB; nC] ++
  [LArm] ++ passing nA 4 ++ brakes nA 2 1 [nB; nC] ++
  [LEvent e; LSmr; LEvent e; LCheck 2 true; LResp e] ++
  through nA (MVote (nvote nB 2 2 Prevote (nhash (nblock 2)))) ++ through nA (MVote (nvote nC 2 2 Prevote (nhash (nblock 2)))) ++
  [LSmr; LEvent e] ++
  through nA (MVote (nvote nB 2 2 Precommit (nhash (nblock 2)))) ++ through nA (MVote (nvote nC 2 2 Precommit (nhash (nblock 2)))) ++
  [LSmr; LEvent e].
Definition h2hash : bytes := nhash (nblock 2).
Definition stale_B : list (label bytes) :=
  let e := nenv nB true in
  status_through nB (nstatus 1) ++ [LSmr; LEvent e; LSmr; LEvent e; LArm; LArm] ++
  status_through nB (nstatus 2) ++ [LSmr; LEvent e; LArm] ++
  through nB (MProposal (nprop nC 2 0 blk None)) ++ [LSmr; LEvent e] ++ expiring 3 ++ [LEvent e] ++ expiring 3 ++ [LEvent e] ++
  brakes nB 2 0 [nA; nC] ++ [LArm] ++ passing nB 4 ++ brakes nB 2 1 [nA; nC] ++
  [LEvent e] ++ through nB (MProposal (nprop nA 2 2 (nblock 2) None)) ++ [LSmr; LEvent e; LCheck 2 true; LResp e] ++
  through nB (MAgg (nqc xe0 [nA; nB; nC] nA 2 2 Prevote h2hash)) ++ [LSmr; LEvent e].
Definition stale_D : list (label bytes) :=
  let e := nenv nD true in
  status_through nD (nstatus 1) ++ [LSmr; LEvent e] ++ through nD (MProposal (nprop nB 1 0 blk None)) ++ [LSmr; LEvent e] ++
  status_through nD (nstatus 2) ++ [LSmr; LEvent e] ++
  through nD (MProposal (nprop nC 2 0 blk None)) ++ [LSmr; LEvent e; LCheck 1 true; LResp e] ++
  through nD (MAgg (qc2 Prevote [nB; nC; nD] x70)) ++ [LSmr; LEvent e] ++
  through nD (MAgg (qc2 Precommit [nA; nC; nD] xb0)) ++ [LSmr; LEvent e].
Definition stale_nodes : list (bytes * list start) :=
  [(nA, [mkStartEx None stale_A 1000]); (nB, [mkStartEx None stale_B 1000]); (nD, [mkStartEx None stale_D 1000])].
Lemma stale_network : networkb nC stale_nodes = true.
Proof. vm_compute. reflexivity. Qed.
Lemma stale_certs : certsb nC stale_nodes = true.
Proof. vm_compute. reflexivity. Qed.
Lemma stale_unlock : no_unlockb nC stale_nodes = true.
Proof. vm_compute. reflexivity. Qed.
Lemma stale_commits : (hashes_of stale_nodes nA, hashes_of stale_nodes nD) = ([(2, h2hash)], [(2, hsh)]).
Proof. vm_compute. reflexivity. Qed.
(** Even if every certificate is genuine and no lock is ever taken away. *)
Theorem C28_stale_votes_refuted :
  exists l byz cr net,
    network (T:=bytes) nlc ntenc ntdec true l byz cr net /\ certs_genuine l byz net /\ unlocks_justified l byz net /\
    disagreement l byz net.
Proof.
  exists nvals, (isbyz nC), ncr, (ex_net stale_nodes). split_and!.
  - apply networkb_ok, stale_network.
  - apply certsb_ok, stale_certs.
  - apply no_unlockb_ok, stale_unlock.
  - eapply (disagreement_of stale_nodes nC nA nD 2); [by apply honest_of..|exact stale_commits|by left|by left|done].
Qed.

(** ** Locks taken away *)
(** C is Byzantine. B proposes a block at round 0; A, B and D lock on it and precommit it; B
    commits it. C gets a prevote certificate for the same block in round 1 and keeps it. In round
    5 it proposes the block with this certificate, which is newer than the locks of A and D: they
    take their locks away, and are free to commit another block in round 6. *)
Definition lock_qc0 : aggvote := nqc xd0 [nA; nB; nD] nB 1 0 Prevote hsh.
Definition lock_qc1 : aggvote := nqc xb0 [nA; nC; nD] nC 1 1 Prevote hsh.
Definition voted (me : bytes) (k : nat) : list (label bytes) :=   (* two timeouts after the prevote *)
  let e := nenv me true in expiring k ++ [LEvent e] ++ expiring k ++ [LEvent e].
Definition follow (me : bytes) (k : nat) (sp : sproposal bytes) : list (label bytes) :=
  let e := nenv me true in [LEvent e] ++ through me (MProposal sp) ++ [LSmr; LEvent e; LArm] ++ voted me (S k).
Definition propose (me : bytes) (k : nat) : list (label bytes) :=
  let e := nenv me true in [LEvent e; LSmr; LEvent e; LArm] ++ voted me (S k).
Definition locked_prefix (me other : bytes) : list (label bytes) :=
  let e := nenv me true in
  status_through me (nstatus 1) ++ [LSmr; LEvent e] ++ through me (MProposal (nprop nB 1 0 blk None)) ++
  [LSmr; LEvent e; LCheck 0 true; LResp e] ++ through me (MAgg lock_qc0) ++
  [LSmr; LEvent e; LArm; LArm] ++ expiring 2 ++ [LEvent e] ++ brakes me 1 0 [nC; other] ++ [LArm] ++
  (* round 1: C proposes the block again, and keeps the certificate *)
  follow me 3 (nprop nC 1 1 blk (Some (mkPoLC 0 lock_qc0))) ++ brakes me 1 1 [nC; other] ++ [LArm].
Definition over (me other : bytes) (r : N) : list (label bytes) := brakes me 1 r [nC; other] ++ [LArm].
Definition unlocked (me other : bytes) : list (label bytes) :=   (* rounds 4 and 5 *)
  passing me 8 ++ over me other 4 ++ follow me 9 (nprop nC 1 5 blk (Some (mkPoLC 1 lock_qc1))) ++ over me other 5.
Definition blk' : bytes := nblock 2.
Definition hsh' : bytes := nhash blk'.
Definition unlock_A : list (label bytes) :=
  let e := nenv nA true in
  locked_prefix nA nD ++ passing nA 5 ++ over nA nD 2 ++ propose nA 6 ++ over nA nD 3 ++ unlocked nA nD ++
  [LEvent e] ++ through nA (MProposal (nprop nD 1 6 blk' None)) ++ [LSmr; LEvent e; LCheck 3 true; LResp e] ++
  through nA (MAgg (nqc xb0 [nA; nC; nD] nD 1 6 Prevote hsh')) ++ [LSmr; LEvent e].
Definition unlock_D : list (label bytes) :=
  let e := nenv nD true in
  let e' := nenv_with nD (fun _ => Some (blk', hsh')) in
  locked_prefix nD nA ++ propose nD 5 ++ over nD nA 2 ++ passing nD 7 ++ over nD nA 3 ++ unlocked nD nA ++
  [LEvent e'; LSmr; LEvent e; LCheck 3 true; LResp e] ++
  through nD (MVote (nvote nA 1 6 Prevote hsh')) ++ through nD (MVote (nvote nC 1 6 Prevote hsh')) ++ [LSmr; LEvent e] ++
  through nD (MVote (nvote nA 1 6 Precommit hsh')) ++ through nD (MVote (nvote nC 1 6 Precommit hsh')) ++ [LSmr; LEvent e].
Definition unlock_B : list (label bytes) :=
  let e := nenv nB true in
  status_through nB (nstatus 1) ++ [LSmr; LEvent e; LSmr; LEvent e; LCheck 0 true; LResp e] ++
  through nB (MVote (nvote nA 1 0 Prevote hsh)) ++ through nB (MVote (nvote nD 1 0 Prevote hsh)) ++ [LSmr; LEvent e] ++
  through nB (MVote (nvote nA 1 0 Precommit hsh)) ++ through nB (MVote (nvote nD 1 0 Precommit hsh)) ++ [LSmr; LEvent e].
Definition unlock_nodes : list (bytes * list start) :=
  [(nA, [mkStartEx None unlock_A 1000]); (nB, [mkStartEx None unlock_B 1000]); (nD, [mkStartEx None unlock_D 1000])].
(** Every proposal that is processed and has a proof of lock has a genuine one: a prevote
    certificate of its height, for its own block, of the round it names, before its own round. *)
Definition polc_good (genuine : aggvote -> Prop) (p : proposal bytes) : Prop :=
  forall k, p_lock p = Some k ->
    genuine (pl_votes k) /\ av_type (pl_votes k) = Prevote /\ av_height (pl_votes k) = p_height p /\
    av_round (pl_votes k) = pl_round k /\ av_hash (pl_votes k) = p_hash p /\ pl_round k < p_round p.
Definition proofs_of_lock_genuine (l : list vnode) (byz : bytes -> bool) (net : bytes -> list (epoch (T:=bytes))) : Prop :=
  forall a x sp, honest l byz a -> x ∈ net a -> received (inputs (ep_log x)) (IMsg (MProposal sp)) ->
    polc_good (genuine l byz net) (sp_prop sp).
Definition recv_props (log : list (nlog bytes)) : list (proposal bytes) :=
  omap (fun x => match x.2 with IMsg (MProposal sp) => Some (sp_prop sp) | _ => None end) (inputs log).
Definition polcsb (byz : bytes) (nodes : list (bytes * list start)) : bool :=
  let tab := casts_table nodes in
  nodeb byz nodes (fun _ log => forallb (fun p => match p_lock p with
    | Some k => genuineb byz tab (pl_votes k) && bool_decide (av_type (pl_votes k) = Prevote) &&
        (av_height (pl_votes k) =? p_height p) && (av_round (pl_votes k) =? pl_round k) &&
        bool_decide (av_hash (pl_votes k) = p_hash p) && (pl_round k <? p_round p)
    | None => true end) (recv_props log)).
Lemma polcsb_ok byz nodes : polcsb byz nodes = true -> proofs_of_lock_genuine nvals (isbyz byz) (ex_net nodes).
Proof.
  unfold polcsb. intros Hp a x sp Ha Hx [e He] k Ek. pose proof (nodeb_ok _ _ _ a x Hp Ha Hx) as Hr. simpl in Hr. rewrite forallb_forall in Hr.
  assert (sp_prop sp ∈ recv_props (ep_log x)) as Hin.
  { unfold recv_props. apply elem_of_list_omap. by exists (e, IMsg (MProposal sp)). }
  apply elem_of_list_In, Hr in Hin. rewrite Ek in Hin. rewrite !andb_true_iff, !bool_decide_eq_true, !N.eqb_eq, N.ltb_lt in Hin.
  destruct Hin as (((((H1 & ?) & ?) & ?) & ?) & ?). split_and!; try done. by apply genuineb_ok.
Qed.
Lemma unlock_network : networkb nC unlock_nodes = true.
Proof. vm_compute. reflexivity. Qed.
Lemma unlock_certs : certsb nC unlock_nodes = true.
Proof. vm_compute. reflexivity. Qed.
Lemma unlock_fresh : freshb nC unlock_nodes = true.
Proof. vm_compute. reflexivity. Qed.
Lemma unlock_polcs : polcsb nC unlock_nodes = true.
Proof. vm_compute. reflexivity. Qed.
Lemma unlock_commits : (hashes_of unlock_nodes nB, hashes_of unlock_nodes nD) = ([(1, hsh)], [(1, hsh')]).
Proof. vm_compute. reflexivity. Qed.
(** Even if every certificate and every proof of lock is genuine, and every node votes once. *)
Theorem C28_lock_removal_refuted :
  exists l byz cr net,
    network (T:=bytes) nlc ntenc ntdec true l byz cr net /\ certs_genuine l byz net /\ votes_fresh l byz net /\
    proofs_of_lock_genuine l byz net /\ disagreement l byz net.
Proof.
  exists nvals, (isbyz nC), ncr, (ex_net unlock_nodes). split_and!.
  - apply networkb_ok, unlock_network.
  - apply certsb_ok, unlock_certs.
  - apply freshb_ok, unlock_fresh.
  - apply polcsb_ok, unlock_polcs.
  - eapply (disagreement_of unlock_nodes nC nB nD 1); [by apply honest_of..|exact unlock_commits|by left|by left|done].
Qed.
Print Assumptions C28_forged_certificates_refuted.
Print Assumptions C28_stale_votes_refuted.
Print Assumptions C28_lock_removal_refuted.
