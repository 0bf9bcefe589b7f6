(** * StateEx: concrete instances, used to show that the theorems about runs are not vacuous and
    to refute the claims that the code does not meet. *)
From Verif Require Export StateRun CodecSpec.
Set Default Proof Using "Type".

(** ** Running an instance *)
Section X.
Context {T : Type} `{EqDecision T}.
Context (lc : lcfg) (tenc : T -> bytes) (tdec : bytes -> option T) (spill : bool).
Definition start_of (b : boot T) : st T * list (action T) * bool :=
  let '(s, o, r) := on_start lc tdec spill (b_env b) (b_wal b)
      (st_new (b_addr b) (b_height b) (b_interval b) (b_vals b)) in (s, o, goes_on r).
Fixpoint exec_from (is : list (env T * input T)) (x : st T * list (action T) * bool)
    : option (st T * list (action T) * bool) :=
  match is with
  | [] => Some x
  | (e, i) :: is =>
      let '(s, o, alive) := x in
      if alive then
        let '(s', o', r) := react lc tenc e i s in
        exec_from is (s', o ++ o', match r with Ok true => true | _ => false end)
      else None
  end.
(** The outcome of a history; [None] if an input follows the end of the instance. *)
Definition exec (b : boot T) (is : list (env T * input T)) : option (st T * list (action T) * bool) :=
  exec_from is (start_of b).
Lemma exec_run b is s o alive :
  exec b is = Some (s, o, alive) -> run lc tenc tdec spill b is o s alive.
Proof.
  unfold exec. intros Hx.
  assert (exists s0 o0 a0, start_of b = (s0, o0, a0) /\ run lc tenc tdec spill b [] o0 s0 a0) as (s0 & o0 & a0 & E & Hr).
  { unfold start_of. destruct (on_start _ _ _ _ _ _) as [[s0 o0] r0] eqn:E. eexists _, _, _. split; [done|]. by constructor. }
  rewrite E in Hx. clear E.
  change is with ([] ++ is). generalize dependent (@nil (env T * input T)). revert s0 o0 a0 Hx.
  induction is as [|[e i] is IH]; intros s0 o0 a0 Hx pre Hr; simpl in Hx.
  - rewrite app_nil_r. by simplify_eq.
  - destruct a0; [|done]. destruct (react lc tenc e i s0) as [[s' o'] r] eqn:Er.
    replace (pre ++ (e, i) :: is) with ((pre ++ [(e, i)]) ++ is) by (by rewrite <-app_assoc).
    eapply IH; [exact Hx|]. by eapply run_step.
Qed.
End X.

(** ** A toy instance: blocks are byte strings, four validators of weight 1 *)
Definition ntenc : bytes -> bytes := id.
Definition ntdec (b : bytes) : option bytes := Some b.
Lemma ncodec : codec_ok ntenc ntdec.
Proof. done. Qed.
Definition nA : bytes := [x0a].
Definition nB : bytes := [x0b].
Definition nC : bytes := [x0c].
Definition nD : bytes := [x0d].
Definition nvals : list vnode := (fun a => mkVNode a 1 1) <$> [nA; nB; nC; nD].
(** Leader of (h, r): with multiplier 1, the node at position (h + r) mod 4. *)
Definition nlc : lcfg := mkLcfg false (fun _ => 1) 10.
(** Signatures: signer followed by what is signed; aggregates: concatenation. *)
Definition ncr (me : bytes) : crypto :=
  mkCrypto id (fun h => Some (me ++ h)) (fun sig h who => bool_decide (sig = who ++ h))
    (fun sigs _ => Some (concat sigs))
    (fun sig h voters => bool_decide (sig = concat ((fun a => a ++ h) <$> voters))).
Definition nstatus (h : N) : status := mkStatus h None None nvals.
Definition nblock (h : N) : bytes := [xee; match h with 1 => x01 | 2 => x02 | _ => x03 end].
Definition nhash (b : bytes) : bytes := xff :: b.
Definition nenv (me : bytes) (ok : bool) : env bytes :=
  mkEnv (ncr me) (fun h => Some (nblock h, nhash (nblock h))) (fun h _ => Some (nstatus (h + 1)))
    (fun _ => ok) (fun _ => true).
Definition nboot (me : bytes) (wal : option bytes) : boot bytes :=
  mkBoot me 0 3000 nvals (nenv me true) (Some wal).
Definition nvote (who : bytes) (h r : N) (t : vtype) (x : bytes) : svote :=
  mkSVote (who ++ enc (vote_rlp (mkVote h r t x))) (mkVote h r t x) who.
Definition nqc (bm : byte) (who : list bytes) (leader : bytes) (h r : N) (t : vtype) (x : bytes) : aggvote :=
  mkAggVote (mkAggSig (concat ((fun a => a ++ enc (vote_rlp (mkVote h r t x))) <$> who)) [bm]) t h r x leader.
Definition nprop (who : bytes) (h r : N) (b : bytes) (lk : option polc) : sproposal bytes :=
  let p := mkProposal h r b (nhash b) lk who in
  mkSProposal (who ++ enc (proposal_rlp ntenc p)) p.
Definition nchoke (who : bytes) (h r : N) (f : upfrom) : schoke :=
  mkSChoke (who ++ enc (hashchoke_rlp (choke_to_hash (mkChoke h r f)))) (mkChoke h r f) who.
Definition ok_env (me : bytes) (i : input bytes) : env bytes * input bytes := (nenv me true, i).
Definition nexec (me : bytes) (wal : option bytes) (is : list (env bytes * input bytes)) :=
  exec nlc ntenc ntdec true (nboot me wal) is.
Definition nouts (me : bytes) (wal : option bytes) (is : list (env bytes * input bytes)) : list (action bytes) :=
  match nexec me wal is with Some (_, o, _) => o | None => [] end.
Definition nrun (me : bytes) (wal : option bytes) is o s alive : Prop :=
  run nlc ntenc ntdec true (nboot me wal) is o s alive.

(** B leads height 1, round 0 (position 1): it proposes, votes, collects votes, and commits. *)
Definition blk : bytes := nblock 1.
Definition hsh : bytes := nhash blk.
Definition ev_new (h r : N) : smr_event := EvNewRound h r None None (FWPrecommit u64_max) None None.
Definition leader_history : list (env bytes * input bytes) :=
  ok_env nB <$> [
    IMsg (MStatus (nstatus 1)); IEvent (ev_new 1 0);
    IEvent (EvPrevote 1 0 hsh None); IResp (mkVResp 1 0 hsh true);
    IMsg (MVote (nvote nA 1 0 Prevote hsh)); IMsg (MVote (nvote nC 1 0 Prevote hsh));
    IEvent (EvPrecommit 1 0 hsh (Some 0));
    IMsg (MVote (nvote nD 1 0 Precommit hsh)); IMsg (MVote (nvote nC 1 0 Precommit hsh));
    IEvent (EvCommit hsh)].
(** A follows B. *)
Definition pvqc := nqc x70 [nB; nC; nD] nB 1 0 Prevote hsh.
Definition pcqc := nqc x70 [nB; nC; nD] nB 1 0 Precommit hsh.
Definition follower_history : list (env bytes * input bytes) :=
  ok_env nA <$> [
    IMsg (MStatus (nstatus 1)); IEvent (ev_new 1 0); IMsg (MProposal (nprop nB 1 0 blk None));
    IEvent (EvPrevote 1 0 hsh None); IResp (mkVResp 1 0 hsh true); IMsg (MAgg pvqc);
    IEvent (EvPrecommit 1 0 hsh (Some 0)); IMsg (MAgg pcqc); IEvent (EvCommit hsh)].
(** What an instance did, provided it is still alive afterwards. *)
Definition nalive (me : bytes) (wal : option bytes) (is : list (env bytes * input bytes)) : bool :=
  match nexec me wal is with Some (_, _, a) => a | None => false end.
Definition nstate (me : bytes) (wal : option bytes) (is : list (env bytes * input bytes)) : st bytes :=
  match nexec me wal is with Some (s, _, _) => s | None => st_new [] 0 0 [] end.
Lemma nstate_run me wal is : nalive me wal is = true -> nrun me wal is (nouts me wal is) (nstate me wal is) true.
Proof.
  unfold nalive, nouts, nrun, nstate. destruct (nexec me wal is) as [[[s o] a]|] eqn:E; [|done]. intros ->.
  by apply exec_run.
Qed.
Lemma nouts_run me wal is : nalive me wal is = true -> exists s, nrun me wal is (nouts me wal is) s true.
Proof. intros H. eexists. by apply nstate_run. Qed.
Example leader_run : exists s, nrun nB None leader_history (nouts nB None leader_history) s true.
Proof. apply nouts_run. by vm_compute. Qed.
Example follower_run : exists s, nrun nA None follower_history (nouts nA None follower_history) s true.
Proof. apply nouts_run. by vm_compute. Qed.

Lemma forallb_holds {A} (f : A -> bool) (l : list A) : forallb f l = true -> Forall (fun a => f a = true) l.
Proof. intros H. apply Forall_forall. intros x Hx. apply elem_of_list_In in Hx. by apply (proj1 (forallb_forall f l) H). Qed.
(** A message is correctly signed (rich status messages are not signed). *)
Definition signed_ok (me : bytes) (x : env bytes * input bytes) : bool :=
  match x.2 with
  | IMsg (MStatus _) => true
  | IMsg m => verify_msg ntenc (ncr me) (auth_update nvals) m
  | _ => true
  end.
