(** * State: src/state/process.rs.

    A handler is a computation [M]: it updates the fields of [State], appends the calls it makes
    to the outside world in program order ([action]) and returns [Ok], [Err] or [Panic].
    [Context], logging, tracing, [height_start] and the sleep in [handle_commit] (timing only)
    are not modelled. Arithmetic on heights and rounds wraps (release build). What the outside
    world answers during one handler call is given by [env], which the theorems quantify over
    separately for every call. *)
From Verif Require Export Verify Collection Smr.

(** process.rs:30-31 *)
Definition FUTURE_HEIGHT_GAP : N := 5.
Definition FUTURE_ROUND_GAP : N := 10.

Section State.
Context {T : Type} `{EqDecision T}.

(** process.rs:39 [State] *)
Record st := mkSt {
  s_height : N; s_round : N; s_addr : bytes;
  s_props : propcol T; s_votes : votecol; s_chokes : chokecol; s_auth : auth;
  s_blocks : gmap bytes T;        (* hash_with_block *)
  s_full : gmap bytes bool;       (* is_full_transaction *)
  s_leader : bool; s_laddr : bytes; s_from : upfrom;
  s_interval : N; s_power : bool; s_stopped : bool }.

Definition set_s_height v s := mkSt v (s_round s) (s_addr s) (s_props s) (s_votes s) (s_chokes s)
  (s_auth s) (s_blocks s) (s_full s) (s_leader s) (s_laddr s) (s_from s) (s_interval s) (s_power s) (s_stopped s).
Definition set_s_round v s := mkSt (s_height s) v (s_addr s) (s_props s) (s_votes s) (s_chokes s)
  (s_auth s) (s_blocks s) (s_full s) (s_leader s) (s_laddr s) (s_from s) (s_interval s) (s_power s) (s_stopped s).
Definition set_s_props v s := mkSt (s_height s) (s_round s) (s_addr s) v (s_votes s) (s_chokes s)
  (s_auth s) (s_blocks s) (s_full s) (s_leader s) (s_laddr s) (s_from s) (s_interval s) (s_power s) (s_stopped s).
Definition set_s_votes v s := mkSt (s_height s) (s_round s) (s_addr s) (s_props s) v (s_chokes s)
  (s_auth s) (s_blocks s) (s_full s) (s_leader s) (s_laddr s) (s_from s) (s_interval s) (s_power s) (s_stopped s).
Definition set_s_chokes v s := mkSt (s_height s) (s_round s) (s_addr s) (s_props s) (s_votes s) v
  (s_auth s) (s_blocks s) (s_full s) (s_leader s) (s_laddr s) (s_from s) (s_interval s) (s_power s) (s_stopped s).
Definition set_s_auth v s := mkSt (s_height s) (s_round s) (s_addr s) (s_props s) (s_votes s) (s_chokes s)
  v (s_blocks s) (s_full s) (s_leader s) (s_laddr s) (s_from s) (s_interval s) (s_power s) (s_stopped s).
Definition set_s_blocks v s := mkSt (s_height s) (s_round s) (s_addr s) (s_props s) (s_votes s) (s_chokes s)
  (s_auth s) v (s_full s) (s_leader s) (s_laddr s) (s_from s) (s_interval s) (s_power s) (s_stopped s).
Definition set_s_full v s := mkSt (s_height s) (s_round s) (s_addr s) (s_props s) (s_votes s) (s_chokes s)
  (s_auth s) (s_blocks s) v (s_leader s) (s_laddr s) (s_from s) (s_interval s) (s_power s) (s_stopped s).
Definition set_s_leader v s := mkSt (s_height s) (s_round s) (s_addr s) (s_props s) (s_votes s) (s_chokes s)
  (s_auth s) (s_blocks s) (s_full s) v (s_laddr s) (s_from s) (s_interval s) (s_power s) (s_stopped s).
Definition set_s_laddr v s := mkSt (s_height s) (s_round s) (s_addr s) (s_props s) (s_votes s) (s_chokes s)
  (s_auth s) (s_blocks s) (s_full s) (s_leader s) v (s_from s) (s_interval s) (s_power s) (s_stopped s).
Definition set_s_from v s := mkSt (s_height s) (s_round s) (s_addr s) (s_props s) (s_votes s) (s_chokes s)
  (s_auth s) (s_blocks s) (s_full s) (s_leader s) (s_laddr s) v (s_interval s) (s_power s) (s_stopped s).
Definition set_s_interval v s := mkSt (s_height s) (s_round s) (s_addr s) (s_props s) (s_votes s) (s_chokes s)
  (s_auth s) (s_blocks s) (s_full s) (s_leader s) (s_laddr s) (s_from s) v (s_power s) (s_stopped s).
Definition set_s_power v s := mkSt (s_height s) (s_round s) (s_addr s) (s_props s) (s_votes s) (s_chokes s)
  (s_auth s) (s_blocks s) (s_full s) (s_leader s) (s_laddr s) (s_from s) (s_interval s) v (s_stopped s).
Definition set_s_stopped v s := mkSt (s_height s) (s_round s) (s_addr s) (s_props s) (s_votes s) (s_chokes s)
  (s_auth s) (s_blocks s) (s_full s) (s_leader s) (s_laddr s) (s_from s) (s_interval s) (s_power s) v.

(** Calls to the outside: the user's callbacks (lib.rs:57 [Consensus], lib.rs:123 [Wal]), the
    trigger channel of the state machine, the queue of verified messages, spawned tasks. *)
Inductive action :=
| ASave (w : walinfo T) (ok : bool)             (* Wal::save and whether it succeeded *)
| ABroadcast (m : omsg T)                       (* Consensus::broadcast_to_other *)
| ATransmit (to : bytes) (m : omsg T)           (* Consensus::transmit_to_relayer *)
| ATrigger (t : trigger)                        (* a trigger put into the SMR's channel *)
| AVerify (a : auth) (m : omsg T)               (* parallel_verify spawned *)
| AQueue (m : omsg T)                           (* verify_sig_tx.unbounded_send *)
| AGetBlock (height : N)                        (* Consensus::get_block *)
| ACheck (height round : N) (hash : bytes) (block : T) (* check_block task spawned *)
| ACommit (height : N) (c : commit T)           (* Consensus::commit *)
| AViewChange (height round : N) (why : vreason)(* Consensus::report_view_change *)
| AReportErr (e : cerr)                         (* Consensus::report_error *)
| AOwnVote (v : svote)                          (* own vote put into the own vote collector *)
| AOwnChoke (sc : schoke).                      (* own choke put into the own choke collector *)

(** What the outside answers. Broadcast/transmit results are ignored by the code. *)
Record env := mkEnv {
  e_crypto : crypto;
  e_get_block : N -> option (T * bytes);
  e_commit : N -> commit T -> option status;
  e_save : walinfo T -> bool;
  e_trigger : trigger -> bool      (* is the SMR's channel still open? *) }.

Definition M (A : Type) := st -> st * list action * res A.
Definition ret {A} (a : A) : M A := fun s => (s, [], Ok a).
Definition lift {A} (r : res A) : M A := fun s => (s, [], r).
Definition fail {A} (e : cerr) : M A := fun s => (s, [], Err e).
Definition bind {A B} (x : M A) (k : A -> M B) : M B := fun s =>
  match x s with
  | (s1, o1, Ok a) => let '(s2, o2, r) := k a s1 in (s2, o1 ++ o2, r)
  | (s1, o1, Err e) => (s1, o1, Err e)
  | (s1, o1, Panic) => (s1, o1, Panic)
  end.
Definition get {A} (f : st -> M A) : M A := fun s => f s s.
Definition modify (f : st -> st) : M unit := fun s => (f s, [], Ok tt).
Definition emit (a : action) : M unit := fun s => (s, [a], Ok tt).
(** [if let Err(e) = x { log }; Ok(())]: errors are logged, panics are not caught *)
Definition logged (x : M unit) : M unit := fun s =>
  match x s with
  | (s1, o1, Panic) => (s1, o1, Panic)
  | (s1, o1, _) => (s1, o1, Ok tt)
  end.
Notation "'do' x <- e ; k" := (bind e (fun x => k)) (at level 200, x pattern, e at level 100, k at level 200).
Notation "e ;; k" := (bind e (fun _ => k)) (at level 100, k at level 200, right associativity).

Context (lc : lcfg) (tenc : T -> bytes) (tdec : bytes -> option T) (spill : bool) (e : env).

(** smr/mod.rs:73 [SMRHandler::trigger] (and 82 [new_height_status]) *)
Definition trigger_smr (t : trigger) : M unit :=
  if e_trigger e t then emit (ATrigger t) else fail ETriggerSMR.
Definition mk_trigger (ty : ttype) (hash : bytes) (lr : option N) (round height : N) : trigger :=
  mkTrigger ty SrcState hash lr round height None.

(** process.rs:1613 [save_wal] *)
Definition save_wal (step : step) (lock : option (wallock T)) : M unit := get (fun s =>
  let w := mkWalInfo (s_height s) (s_round s) step lock (s_from s) in
  emit (ASave w (e_save e w)) ;;
  if e_save e w then ret tt else fail (ESaveWal (s_height s) (s_round s))).

(** process.rs:1636 [save_wal_with_lock_round] *)
Definition save_wal_with_lock_round (step : step) (lock_round : option N) : M unit := get (fun s =>
  match lock_round with
  | Some round =>
      match vc_get_qc_by_id (s_votes s) (s_height s) round Prevote with
      | Ok qc =>
          match s_blocks s !! av_hash qc with
          | Some block => save_wal step (Some (mkWalLock round qc block))
          | None => fail EOther
          end
      | _ => fail EOther
      end
  | None => save_wal step None
  end).

(** process.rs:1759 [try_get_full_txs] *)
Definition try_get_full_txs (s : st) (hash : bytes) : bool :=
  match hash with
  | [] => true
  | _ => default false (s_full s !! hash)
  end.

(** process.rs:1833 [filter_message] *)
Definition filter_message (s : st) (height round : N) : bool :=
  if (height <? s_height s) || ((height =? s_height s) && (round <? s_round s)) then true
  else if w64 (s_height s + FUTURE_HEIGHT_GAP) <? height then true
  else if ((height =? s_height s) && (w64 (s_round s + FUTURE_ROUND_GAP) <? round))
          || ((s_height s <? height) && (FUTURE_ROUND_GAP <? round)) then true
  else false.

(** collection.rs:28 on the state *)
Definition props_insert (height round : N) (sp : sproposal T) : M unit := get (fun s =>
  let '(pc, r) := pc_insert (s_props s) height round sp in
  modify (set_s_props pc) ;; lift r).

(** process.rs:1806 [filter_signed_proposal] *)
Definition filter_signed_proposal (height round : N) (sp : sproposal T) : M bool := get (fun s =>
  if filter_message s height round then ret true
  else if ((height =? s_height s) && negb (round =? s_round s)) || (s_height s <? height) then
    props_insert height round sp ;; ret true
  else ret false).

(** process.rs:1597 [check_block]: spawns the task of 1860 [check_current_block] *)
Definition check_block (hash : bytes) (block : T) : M unit := get (fun s =>
  emit (ACheck (s_height s) (s_round s) hash block)).

(** process.rs:1444 [verify_address] *)
Definition verify_address (a : bytes) : M unit := get (fun s =>
  if auth_contains (s_auth s) a then ret tt else fail EInvalidAddress).
(** process.rs:1434 [verify_proposer] *)
Definition verify_proposer (height round : N) (a : bytes) : M unit :=
  verify_address a ;;
  get (fun s => do p <- lift (get_proposer lc (s_auth s) height round);
    if decide (a = p) then ret tt else fail EProposal).

(** process.rs:582 [handle_signed_proposal] *)
Definition handle_signed_proposal (sp : sproposal T) : M unit :=
  let p := sp_prop sp in
  verify_proposer (p_height p) (p_round p) (p_proposer p) ;;
  do filtered <- filter_signed_proposal (p_height p) (p_round p) sp;
  if (filtered : bool) then ret tt
  else
    let lock_round := pl_round <$> p_lock p in
    modify (fun s => set_s_blocks (<[p_hash p := p_content p]> (s_blocks s)) s) ;;
    get (fun s => props_insert (s_height s) (s_round s) sp) ;;
    trigger_smr (mk_trigger TProposal (p_hash p) lock_round (p_round p) (p_height p)) ;;
    check_block (p_hash p) (p_content p).

(** process.rs:1769 [set_update_from] *)
Definition set_update_from (f : fromwhere) : M unit := get (fun s =>
  match f with
  | FWPrevote round =>
      do qc <- lift (vc_get_qc_by_id (s_votes s) (s_height s) round Prevote);
      modify (set_s_from (UFPrevote qc))
  | FWPrecommit round =>
      do qc <- (if round =? u64_max then ret mock_init_qc
                else lift (vc_get_qc_by_id (s_votes s) (s_height s) round Precommit));
      modify (set_s_from (UFPrecommit qc))
  | FWChoke round =>
      match cc_get_qc (s_chokes s) round with
      | Some qc => modify (set_s_from (UFChoke qc))
      | None => fail EBrake
      end
  end).

(** process.rs:1353 [is_proposer] *)
Definition is_proposer : M bool := get (fun s =>
  do p <- lift (get_proposer lc (s_auth s) (s_height s) (s_round s));
  if decide (p = s_addr s) then
    modify (fun s => set_s_laddr (s_addr s) (set_s_leader true s)) ;; ret true
  else
    modify (fun s => set_s_leader false (set_s_laddr p s)) ;; ret false).

(** process.rs:1495 [view_change_reason] *)
Definition view_change_reason (s : st) (round : N) (from : fromwhere) : vreason :=
  if negb (round =? fw_round from) then fw_reason from round
  else if s_leader s then
    match vc_get_qc_by_id (s_votes s) (s_height s) round Prevote with
    | Ok qc => match av_hash qc with [] => RLeaderBelow Prevote | _ => RLeaderBelow Precommit end
    | _ => RLeaderBelow Prevote
    end
  else
    match pc_get (s_props s) (s_height s) round with
    | Ok sp =>
        match s_full s !! p_hash (sp_prop sp) with
        | None => RCheckBlock
        | Some _ =>
            if negb (is_ok (vc_get_qc_by_id (s_votes s) (s_height s) round Prevote)) then RNoPrevoteQC
            else if negb (is_ok (vc_get_qc_by_id (s_votes s) (s_height s) round Precommit)) then RNoPrecommitQC
            else ROthers
        end
    | _ => RNoProposal
    end.

(** process.rs:1383 [sign_proposal] *)
Definition sign_proposal (p : proposal T) : M (sproposal T) :=
  match cr_sign (e_crypto e) (cr_hash (e_crypto e) (enc (proposal_rlp tenc p))) with
  | Some sig => ret (mkSProposal sig p)
  | None => fail ECrypto
  end.
(** process.rs:1396 [sign_vote] *)
Definition sign_vote (v : vote) : M svote := get (fun s =>
  match cr_sign (e_crypto e) (cr_hash (e_crypto e) (enc (vote_rlp v))) with
  | Some sig => ret (mkSVote sig v (s_addr s))
  | None => fail ECrypto
  end).
(** process.rs:1410 [aggregate_signatures] *)
Definition aggregate_signatures (sigs voters : list bytes) : M bytes :=
  match cr_aggregate (e_crypto e) sigs voters with
  | Some sig => ret sig
  | None => fail ECrypto
  end.

(** process.rs:1470 [broadcast], 1451 [transmit] *)
Definition broadcast (m : omsg T) : M unit := emit (ABroadcast m).
Definition transmit (m : omsg T) : M unit := get (fun s => emit (ATransmit (s_laddr s) m)).

(** process.rs:498-519 the block, hash and proof of lock of a new proposal *)
Definition make_proposal (lock_round : option N) (lock_prop : option bytes)
    : M (T * bytes * option polc) := get (fun s =>
  match lock_round with
  | None =>
      emit (AGetBlock (s_height s)) ;;
      match e_get_block e (s_height s) with
      | Some (block, hash) => ret (block, hash, None)
      | None => fail EOther
      end
  | Some round =>
      match lock_prop with
      | None => lift Panic   (* [unwrap] on line 506; unreachable, see the check above it *)
      | Some hash =>
          match s_blocks s !! hash with
          | None => fail EProposal
          | Some block =>
              match vc_get_qc_by_id (s_votes s) (s_height s) round Prevote with
              | Ok qc => ret (block, hash, Some (mkPoLC round qc))
              | _ => fail EProposal
              end
          end
      end
  end).

(** process.rs:452 [handle_new_round] *)
Definition handle_new_round (new_round : N) (lock_round : option N) (lock_prop : option bytes)
    (from : fromwhere) : M unit :=
  get (fun s =>
    if negb (new_round =? INIT_ROUND) then
      emit (AViewChange (s_height s) (s_round s) (view_change_reason s (s_round s) from))
    else ret tt) ;;
  modify (fun s => set_s_leader false (set_s_round new_round s)) ;;
  if negb (Bool.eqb (bool_decide (is_Some lock_round)) (bool_decide (is_Some lock_prop)))
  then fail EProposal
  else
    set_update_from from ;;
    save_wal_with_lock_round SPropose lock_round ;;
    do leader <- is_proposer;
    if negb leader then
      get (fun s =>
        match pc_get (s_props s) (s_height s) (s_round s) with
        | Ok sp => handle_signed_proposal sp
        | _ => ret tt
        end)
    else
      modify (set_s_leader true) ;;
      do bhp <- make_proposal lock_round lock_prop;
      let '(block, hash, polc) := bhp in
      modify (fun s => match s_blocks s !! hash with
                       | Some _ => s
                       | None => set_s_blocks (<[hash := block]> (s_blocks s)) s end) ;;
      get (fun s =>
        do sp <- sign_proposal (mkProposal (s_height s) (s_round s) block hash polc (s_addr s));
        broadcast (MProposal sp) ;;
        trigger_smr (mk_trigger TProposal hash lock_round (s_round s) (s_height s)) ;;
        check_block hash block).

(** process.rs:1248 [generate_qc] *)
Definition generate_qc (hash : bytes) (t : vtype) : M aggvote := get (fun s =>
  do l <- lift (vc_get_votes (s_votes s) (s_height s) (s_round s) t hash);
  let l := ksort sv_voter l in
  let voters := sv_voter <$> l in
  do sig <- aggregate_signatures (sv_sig <$> l) voters;
  ret (mkAggVote (mkAggSig sig (voters_bitmap (s_auth s) voters)) t (s_height s) (s_round s)
         hash (s_addr s))).

(** process.rs:1144 [counting_vote] on the state *)
Definition count_now (t : vtype) : M (option bytes) := get (fun s =>
  lift (counting_vote (s_auth s) (s_votes s) (s_height s) (s_round s) t)).

(** process.rs:1103-1140 and 912-958: a hash reached the threshold *)
Definition publish_qc (hash : bytes) (t : vtype) : M unit :=
  do qc <- generate_qc hash t;
  modify (fun s => set_s_votes (vc_set_qc (s_votes s) qc) s) ;;
  broadcast (MAgg qc) ;;
  get (fun s =>
    if try_get_full_txs s hash then
      trigger_smr (mk_trigger (vtype_trigger t) hash None (av_round qc) (av_height qc))
    else ret tt).

(** process.rs:1074 [vote_process]. On the leader's branch the trigger carries the node's round
    and height, which are those of the certificate just generated. *)
Definition vote_process (t : vtype) : M unit := get (fun s =>
  if negb (s_leader s) then
    match vc_get_qc_by_id (s_votes s) (s_height s) (s_round s) t with
    | Ok qc =>
        if try_get_full_txs s (av_hash qc) then
          trigger_smr (mk_trigger (vtype_trigger (av_type qc)) (av_hash qc) None (s_round s) (s_height s))
        else ret tt
    | _ => ret tt
    end
  else
    do h <- count_now t;
    match h with
    | Some hash => publish_qc hash t
    | None => ret tt
    end).

(** process.rs:660 [handle_vote_event] *)
Definition handle_vote_event (hash : bytes) (t : vtype) (lock_round : option N) : M unit :=
  get (fun s =>
    do sv <- sign_vote (mkVote (s_height s) (s_round s) t hash);
    save_wal_with_lock_round (vtype_step t) lock_round ;;
    get (fun s =>
      if s_leader s then
        emit (AOwnVote sv) ;;
        modify (fun s => set_s_votes (vc_insert_vote (s_votes s) (v_hash (sv_vote sv)) sv (s_addr s)) s)
      else transmit (MVote sv)) ;;
    vote_process t).

(** process.rs:1546 [check_choke_above_threshold] *)
Definition check_choke_above_threshold : M unit := get (fun s =>
  match cc_max_round (s_chokes s) (auth_len (s_auth s)) with
  | Some round =>
      if round <? s_round s then ret tt
      else
        match cc_get_chokes (s_chokes s) round with
        | None => lift Panic  (* [unwrap], line 1557 *)
        | Some l =>
            let voters := sc_addr <$> l in
            do sig <- aggregate_signatures (sc_sig <$> l) voters;
            modify (fun s => set_s_chokes
              (cc_set_qc (s_chokes s) round (mkAggChoke (s_height s) round sig voters)) s) ;;
            trigger_smr (mk_trigger TContinueRound [] None (w64 (round + 1)) (s_height s))
        end
  | None => ret tt
  end).

(** process.rs:707 [handle_brake] *)
Definition handle_brake (round : N) (lock_round : option N) : M unit := get (fun s =>
  if negb (round =? s_round s) then fail ECorrectness
  else
    let ck := mkChoke (s_height s) (s_round s) (s_from s) in
    match cr_sign (e_crypto e) (cr_hash (e_crypto e) (enc (hashchoke_rlp (choke_to_hash ck)))) with
    | None => fail ECrypto
    | Some sig =>
        let sc := mkSChoke sig ck (s_addr s) in
        emit (AOwnChoke sc) ;;
        modify (fun s => set_s_chokes (cc_insert (s_chokes s) (s_round s) sc) s) ;;
        save_wal_with_lock_round SBrake lock_round ;;
        broadcast (MChoke sc) ;;
        check_choke_above_threshold
    end).

(** process.rs:1294-1350 [re_check_proposals], [re_check_votes], [re_check_qcs] *)
Definition re_check (l : list (omsg T)) : M unit := get (fun s =>
  fun s' => (s', AVerify (s_auth s) <$> l, Ok tt)).

(** process.rs:390 [goto_new_height] *)
Definition goto_new_height (stt : status) : M unit := get (fun s0 =>
  if st_height stt <=? s_height s0 then ret tt
  else
    let new_height := st_height stt in
    modify (fun s => set_s_power (is_consensus_node stt (s_addr s))
                       (set_s_round INIT_ROUND (set_s_height new_height s))) ;;
    get (fun s =>
      if negb (s_power s) then ret tt
      else
        save_wal SPropose None ;;
        modify (fun s =>
          let s := set_s_auth (auth_update (st_auth stt)) s in
          let s := match st_interval stt with Some i => set_s_interval i s | None => s end in
          let s := set_s_props (pc_flush (s_props s) (new_height - 1)) s in
          let s := set_s_votes (vc_flush (s_votes s) (new_height - 1)) s in
          set_s_chokes chokecol_new (set_s_blocks ∅ s)) ;;
        get (fun s =>
          let '(pc, ps) := pc_take_height (s_props s) new_height in
          modify (set_s_props pc) ;;
          re_check (MProposal <$> default [] ps)) ;;
        get (fun s =>
          let '(vc, vq) := vc_take_height (s_votes s) new_height in
          modify (set_s_votes vc) ;;
          match vq with
          | Some (vs, qs) => re_check (MVote <$> vs) ;; re_check (MAgg <$> qs)
          | None => ret tt
          end) ;;
        trigger_smr (new_height_trigger (status_smr stt)))).

(** process.rs:746 [handle_commit] *)
Definition handle_commit (hash : bytes) : M unit := get (fun s =>
  match s_blocks s !! hash with
  | None => fail EOther
  | Some content =>
      match vc_get_qc_by_hash (s_votes s) (s_height s) hash Precommit with
      | None => fail EStorage
      | Some qc =>
          save_wal SCommit (Some (mkWalLock (s_round s) qc content)) ;;
          let c := mkCommit (s_height s) content
                     (mkProof (s_height s) (av_round qc) hash (av_sig qc)) in
          emit (ACommit (s_height s) c) ;;
          match e_commit e (s_height s) c with
          | None => fail EOther
          | Some stt =>
              modify (set_s_auth (auth_update (st_auth stt))) ;;
              get (fun s =>
                do p <- lift (get_proposer lc (s_auth s) (st_height stt) INIT_ROUND); (* next_proposer *)
                goto_new_height stt)
          end
      end
  end).

(** process.rs:842 [handle_signed_vote] *)
Definition handle_signed_vote (sv : svote) : M unit := get (fun s =>
  let height := v_height (sv_vote sv) in
  let round := v_round (sv_vote sv) in
  let t := v_type (sv_vote sv) in
  if filter_message s height round then ret tt
  else
    verify_address (sv_voter sv) ;;
    if is_ok (vc_get_qc_by_id (s_votes s) height round t) then ret tt
    else
      modify (fun s => set_s_votes (vc_insert_vote (s_votes s) (v_hash (sv_vote sv)) sv (sv_voter sv)) s) ;;
      if s_height s <? height then ret tt
      else
        do h <- count_now t;
        match h with
        | None => ret tt
        | Some hash => publish_qc hash t
        end).

(** process.rs:978 [handle_aggregated_vote] *)
Definition handle_aggregated_vote (q : aggvote) : M unit := get (fun s =>
  if av_height q <? s_height s then ret tt
  else if s_height s <? av_height q then
    if (av_height q <? w64 (s_height s + FUTURE_HEIGHT_GAP)) && (av_round q <? FUTURE_ROUND_GAP) then
      modify (fun s => set_s_votes (vc_set_qc (s_votes s) q) s)
    else ret tt
  else if bool_decide (av_type q = Prevote) && (av_round q <? s_round s) then ret tt
  else if bool_decide (av_type q = Precommit) && bool_decide (av_hash q = []) && (av_round q <? s_round s)
  then ret tt
  else
    modify (fun s => set_s_votes (vc_set_qc (s_votes s) q) s) ;;
    get (fun s =>
      if negb (bool_decide (av_hash q = [])) && negb (try_get_full_txs s (av_hash q)) then ret tt
      else trigger_smr (mk_trigger (vtype_trigger (av_type q)) (av_hash q) None (av_round q) (av_height q)))).

(** process.rs:1222 [handle_aggregated_choke] *)
Definition handle_aggregated_choke (q : aggchoke) : M unit := get (fun s =>
  if (length (ac_voters q) * 3 <=? auth_len (s_auth s) * 2)%nat then fail EBrake
  else
    modify (fun s => set_s_chokes (cc_set_qc (s_chokes s) (ac_round q) q) s) ;;
    trigger_smr (mk_trigger TContinueRound [] None (w64 (ac_round q + 1)) (s_height s))).

(** process.rs:1180 [handle_signed_choke] *)
Definition handle_signed_choke (sc : schoke) : M unit := get (fun s =>
  let ck := sc_choke sc in
  if negb (ck_height ck =? s_height s) then ret tt
  else if ck_round ck <? s_round s then ret tt
  else if s_round s <? ck_round ck then
    match ck_from ck with
    | UFPrevote qc | UFPrecommit qc => handle_aggregated_vote qc
    | UFChoke qc => handle_aggregated_choke qc
    end
  else
    modify (fun s => set_s_chokes (cc_insert (s_chokes s) (ck_round ck) sc) s) ;;
    check_choke_above_threshold).

(** process.rs:194 [handle_msg] *)
Definition handle_msg (m : omsg T) : M unit := get (fun s =>
  if negb (s_power s) && negb (is_rich_status m) then ret tt
  else
    match m with
    | MProposal sp => logged (handle_signed_proposal sp)
    | MAgg q => logged (handle_aggregated_vote q)
    | MVote sv => logged (handle_signed_vote sv)
    | MChoke sc => logged (handle_signed_choke sc)
    | MStatus stt => logged (goto_new_height stt)
    | MStop =>
        trigger_smr (mk_trigger TStop [] None (s_round s) (s_height s)) ;;
        modify (set_s_stopped true)
    end).

(** process.rs:260 [handle_event] (the event stream itself ending is not modelled) *)
Definition handle_event (ev : smr_event) : M unit :=
  match ev with
  | EvNewRound _ round lr lp from _ _ => logged (handle_new_round round lr lp from)
  | EvPrevote _ _ hash lr => logged (handle_vote_event hash Prevote lr)
  | EvPrecommit _ _ hash lr => logged (handle_vote_event hash Precommit lr)
  | EvCommit hash => logged (handle_commit hash)
  | EvBrake height round lr => get (fun s =>
      if negb (height =? s_height s) then ret tt else logged (handle_brake round lr))
  | EvStop => lift Panic
  end.

(** process.rs:332 [handle_resp] *)
Definition handle_resp (r : vresp) : M unit := get (fun s =>
  if negb (vr_height r =? s_height s) then ret tt
  else
    modify (fun s => set_s_full (<[vr_hash r := vr_pass r]> (s_full s)) s) ;;
    match vc_get_qc_by_hash (s_votes s) (s_height s) (vr_hash r) Precommit with
    | Some qc => trigger_smr (mk_trigger TPrecommitQC (av_hash qc) None (av_round qc) (av_height qc))
    | None =>
        match vc_get_qc_by_hash (s_votes s) (s_height s) (vr_hash r) Prevote with
        | Some qc =>
            if av_round qc =? s_round s then
              trigger_smr (mk_trigger TPrevoteQC (av_hash qc) None (av_round qc) (av_height qc))
            else ret tt
        | None => ret tt
        end
    end).

(** process.rs:1742 [load_wal] on what [Wal::load] returned ([None]: its error) *)
Definition load_wal (loaded : option (option bytes)) : res (option (walinfo T)) :=
  match loaded with
  | None => Err ELoadWal
  | Some None => Ok None
  | Some (Some b) =>
      match dec_walinfo tdec spill b with
      | Ok w => Ok (Some w)
      | Err _ => Err ELoadWal
      | Panic => Panic
      end
  end.

(** process.rs:1667 [wal_lost] *)
Definition wal_lost : M unit := get (fun s =>
  trigger_smr (mkTrigger TWalInfo SrcState [] None (s_round s) (s_height s)
    (Some (mkSmrBase (s_height s) (s_round s) SPropose None)))).

(** process.rs:1686 [start_with_wal] *)
Definition start_with_wal (loaded : option (option bytes)) : M unit := get (fun s0 =>
  if negb (s_power s0) then ret tt
  else
    do w <- lift (load_wal loaded);
    match w with
    | None => if negb (s_height s0 =? INIT_HEIGHT) then wal_lost else ret tt
    | Some w =>
        modify (fun s => set_s_round (wi_round w) (set_s_height (wi_height w) s)) ;;
        do leader <- is_proposer;
        modify (fun s => set_s_from (wi_from w) (set_s_leader leader s)) ;;
        match wi_lock w with
        | Some l =>
            modify (fun s => set_s_blocks (<[av_hash (wl_votes l) := wl_content l]> (s_blocks s))
                               (set_s_votes (vc_set_qc (s_votes s) (wl_votes l)) s))
        | None => ret tt
        end ;;
        if bool_decide (wi_step w = SCommit) then
          match wi_lock w with
          | None => fail ELoadWal
          | Some l => handle_commit (av_hash (wl_votes l))
          end
        else
          (if bool_decide (wi_step w = SBrake) then
             handle_brake (wi_round w) (wl_round <$> wi_lock w)
           else ret tt) ;;
          get (fun s =>
            trigger_smr (mkTrigger TWalInfo SrcState [] None (s_round s) (s_height s)
              (Some (into_smr_base w))))
    end).

(** ** The branches of the event loop, process.rs:118 [run] *)
(** process.rs:133-158: a message from the handler *)
Definition on_raw (m : omsg T) : M unit :=
  if is_rich_status m then emit (AQueue m)
  else
    do h <- lift (msg_height m);
    get (fun s =>
      if s_height s <? h then emit (AQueue m)
      else if s_height s =? h then emit (AVerify (s_auth s) m)
      else ret tt).
(** process.rs:160-172: an event of the state machine; [Ok false] ends the loop *)
Definition on_event (ev : smr_event) : M bool := get (fun s =>
  if s_stopped s then ret false
  else if negb (s_power s) then ret true
  else logged (handle_event ev) ;; ret true).
(** process.rs:174-182: a block was checked *)
Definition on_resp (r : vresp) : M unit := get (fun s =>
  if negb (s_power s) then ret tt else logged (handle_resp r)).
(** process.rs:184-190: a verified message; an error is reported to the user *)
Definition on_msg (m : omsg T) : M unit := fun s =>
  match handle_msg m s with
  | (s1, o, Err x) => (s1, o ++ [AReportErr x], Ok tt)
  | r => r
  end.
(** process.rs:124 before the loop: errors are logged *)
Definition on_start (loaded : option (option bytes)) : M unit := logged (start_with_wal loaded).

(** process.rs:73 [State::new] *)
Definition st_new (addr : bytes) (init_height interval : N) (l : list vnode) : st :=
  let a := auth_update l in
  mkSt init_height INIT_ROUND addr ∅ ∅ chokecol_new a ∅ ∅ false [] (UFPrecommit mock_init_qc)
    interval (auth_contains a addr) false.
End State.
Arguments st : clear implicits.
Arguments action : clear implicits.
Arguments env : clear implicits.
Arguments M : clear implicits.
