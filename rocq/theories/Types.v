(** * Types: the data types of overlord.

    Models src/types.rs, src/smr/smr_types.rs, src/wal/wal_type.rs and [DurationConfig] of
    src/lib.rs. [Bytes], [Hash], [Address] and [Signature] are [bytes]; integers are [N]
    (range conditions, where they matter, are stated by the well-formedness predicates of
    Codec.v). Everything carrying a block is parametric in the block type [T] (the type
    parameter [T: Codec] of the crate). Log/Display derivations are not modelled. *)
From Verif Require Export Base.

(** types.rs:22 [VoteType] *)
Inductive vtype := Prevote | Precommit.
Global Instance vtype_eq_dec : EqDecision vtype.
Proof. solve_decision. Defined.

(** types.rs:251 [AggregatedSignature] *)
Record aggsig := mkAggSig { as_sig : bytes; as_bitmap : bytes }.
Global Instance aggsig_eq_dec : EqDecision aggsig.
Proof. solve_decision. Defined.

(** types.rs:264 [AggregatedVote] *)
Record aggvote := mkAggVote {
  av_sig : aggsig; av_type : vtype; av_height : N; av_round : N;
  av_hash : bytes; av_leader : bytes }.
Global Instance aggvote_eq_dec : EqDecision aggvote.
Proof. solve_decision. Defined.

(** types.rs:311 [Vote] *)
Record vote := mkVote { v_height : N; v_round : N; v_type : vtype; v_hash : bytes }.
Global Instance vote_eq_dec : EqDecision vote.
Proof. solve_decision. Defined.

(** types.rs:298 [AggregatedVote::to_vote] *)
Definition to_vote (q : aggvote) : vote :=
  mkVote (av_height q) (av_round q) (av_type q) (av_hash q).

(** types.rs:206 [SignedVote] *)
Record svote := mkSVote { sv_sig : bytes; sv_vote : vote; sv_voter : bytes }.
Global Instance svote_eq_dec : EqDecision svote.
Proof. solve_decision. Defined.

(** types.rs:196 [PoLC] *)
Record polc := mkPoLC { pl_round : N; pl_votes : aggvote }.
Global Instance polc_eq_dec : EqDecision polc.
Proof. solve_decision. Defined.

(** types.rs:179 [Proposal] *)
Record proposal (T : Type) := mkProposal {
  p_height : N; p_round : N; p_content : T; p_hash : bytes;
  p_lock : option polc; p_proposer : bytes }.
Arguments mkProposal {T}.
Arguments p_height {T}.
Arguments p_round {T}.
Arguments p_content {T}.
Arguments p_hash {T}.
Arguments p_lock {T}.
Arguments p_proposer {T}.
Global Instance proposal_eq_dec `{EqDecision T} : EqDecision (proposal T).
Proof. solve_decision. Defined.

(** types.rs:169 [SignedProposal] *)
Record sproposal (T : Type) := mkSProposal { sp_sig : bytes; sp_prop : proposal T }.
Arguments mkSProposal {T}.
Arguments sp_sig {T}.
Arguments sp_prop {T}.
Global Instance sproposal_eq_dec `{EqDecision T} : EqDecision (sproposal T).
Proof. solve_decision. Defined.

(** types.rs:336 [Proof] *)
Record proof := mkProof {
  pf_height : N; pf_round : N; pf_hash : bytes; pf_sig : aggsig }.
Global Instance proof_eq_dec : EqDecision proof.
Proof. solve_decision. Defined.

(** types.rs:325 [Commit] *)
Record commit (T : Type) := mkCommit { c_height : N; c_content : T; c_proof : proof }.
Arguments mkCommit {T}.
Arguments c_height {T}.
Arguments c_content {T}.
Arguments c_proof {T}.
Global Instance commit_eq_dec `{EqDecision T} : EqDecision (commit T).
Proof. solve_decision. Defined.

(** lib.rs:165 [DurationConfig] *)
Record durcfg := mkDurCfg {
  dc_propose : N; dc_prevote : N; dc_precommit : N; dc_brake : N }.
Global Instance durcfg_eq_dec : EqDecision durcfg.
Proof. solve_decision. Defined.
(** [#[derive(Default)]] of lib.rs:164 *)
Definition durcfg_default : durcfg := mkDurCfg 0 0 0 0.

(** types.rs:381 [Node] *)
Record vnode := mkVNode { n_addr : bytes; n_pw : N; n_vw : N }.
Global Instance vnode_eq_dec : EqDecision vnode.
Proof. solve_decision. Defined.

(** types.rs:406 [Node::new] *)
Definition vnode_new (a : bytes) : vnode := mkVNode a 1 1.

(** types.rs:350 [Status] *)
Record status := mkStatus {
  st_height : N; st_interval : option N; st_config : option durcfg;
  st_auth : list vnode }.
Global Instance status_eq_dec : EqDecision status.
Proof. solve_decision. Defined.

(** types.rs:372 [Status::is_consensus_node] *)
Definition is_consensus_node (s : status) (a : bytes) : bool :=
  existsb (fun n => bool_decide (n_addr n = a)) (st_auth s).

(** types.rs:428 [VerifyResp] *)
Record vresp := mkVResp { vr_height : N; vr_round : N; vr_hash : bytes; vr_pass : bool }.

(** types.rs:441 [AggregatedChoke] *)
Record aggchoke := mkAggChoke {
  ac_height : N; ac_round : N; ac_sig : bytes; ac_voters : list bytes }.
Global Instance aggchoke_eq_dec : EqDecision aggchoke.
Proof. solve_decision. Defined.

(** types.rs:117 [UpdateFrom] *)
Inductive upfrom :=
| UFPrevote (q : aggvote) | UFPrecommit (q : aggvote) | UFChoke (q : aggchoke).
Global Instance upfrom_eq_dec : EqDecision upfrom.
Proof. solve_decision. Defined.

(** types.rs:481 [Choke] *)
Record choke := mkChoke { ck_height : N; ck_round : N; ck_from : upfrom }.
Global Instance choke_eq_dec : EqDecision choke.
Proof. solve_decision. Defined.

(** types.rs:470 [SignedChoke] *)
Record schoke := mkSChoke { sc_sig : bytes; sc_choke : choke; sc_addr : bytes }.
Global Instance schoke_eq_dec : EqDecision schoke.
Proof. solve_decision. Defined.

(** types.rs:500 [HashChoke] *)
Record hashchoke := mkHashChoke { hc_height : N; hc_round : N }.
(** types.rs:491 [Choke::to_hash] *)
Definition choke_to_hash (c : choke) : hashchoke := mkHashChoke (ck_height c) (ck_round c).

(** types.rs:73 [OverlordMsg] (the [#[cfg(test)]] variant is not modelled) *)
Inductive omsg (T : Type) :=
| MProposal (p : sproposal T)
| MVote (v : svote)
| MAgg (q : aggvote)
| MStatus (s : status)
| MChoke (c : schoke)
| MStop.
Arguments MProposal {T}.
Arguments MVote {T}.
Arguments MAgg {T}.
Arguments MStatus {T}.
Arguments MChoke {T}.
Arguments MStop {T}.
Global Instance omsg_eq_dec `{EqDecision T} : EqDecision (omsg T).
Proof. solve_decision. Defined.

(** types.rs:99 [OverlordMsg::is_rich_status] *)
Definition is_rich_status {T} (m : omsg T) : bool :=
  match m with MStatus _ => true | _ => false end.

(** types.rs:103 [OverlordMsg::get_height]; [unreachable!()] is [Panic] *)
Definition msg_height {T} (m : omsg T) : res N :=
  match m with
  | MProposal sp => Ok (p_height (sp_prop sp))
  | MVote sv => Ok (v_height (sv_vote sv))
  | MAgg q => Ok (av_height q)
  | MStatus s => Ok (st_height s)
  | MChoke c => Ok (ck_height (sc_choke c))
  | MStop => Panic
  end.

(** types.rs:128 [ViewChangeReason] *)
Inductive vreason :=
| RNoProposal | RNoPrevoteQC | RNoPrecommitQC | RCheckBlock
| RHigherPrevoteQC (old new : N) | RHigherPrecommitQC (old new : N)
| RHigherChokeQC (old new : N) | RLeaderBelow (t : vtype) | ROthers.
Global Instance vreason_eq_dec : EqDecision vreason.
Proof. solve_decision. Defined.

(** smr_types.rs:11 [Step]; the derived order is the order of the variants *)
Inductive step := SPropose | SPrevote | SPrecommit | SBrake | SCommit.
Global Instance step_eq_dec : EqDecision step.
Proof. solve_decision. Defined.

(** smr_types.rs:66 [From<Step> for u8] (also the derived [Ord]) *)
Definition step_u8 (s : step) : N :=
  match s with SPropose => 0 | SPrevote => 1 | SPrecommit => 2 | SBrake => 3 | SCommit => 4 end.
(** derived [Ord]: [a > b] *)
Definition step_gt (a b : step) : bool := step_u8 b <? step_u8 a.

(** types.rs:49 [From<VoteType> for Step] *)
Definition vtype_step (v : vtype) : step :=
  match v with Prevote => SPrevote | Precommit => SPrecommit end.

(** smr_types.rs:93 [FromWhere] *)
Inductive fromwhere := FWPrevote (r : N) | FWPrecommit (r : N) | FWChoke (r : N).
Global Instance fromwhere_eq_dec : EqDecision fromwhere.
Proof. solve_decision. Defined.
(** smr_types.rs:103 [FromWhere::get_round] *)
Definition fw_round (f : fromwhere) : N :=
  match f with FWPrevote r | FWPrecommit r | FWChoke r => r end.
(** smr_types.rs:111 [FromWhere::to_reason] *)
Definition fw_reason (f : fromwhere) (old : N) : vreason :=
  match f with
  | FWPrevote r => RHigherPrevoteQC old r
  | FWPrecommit r => RHigherPrecommitQC old r
  | FWChoke r => RHigherChokeQC old r
  end.

(** smr_types.rs:130 [SMREvent] *)
Inductive smr_event :=
| EvNewRound (height round : N) (lock_round : option N) (lock_prop : option bytes)
             (from : fromwhere) (interval : option N) (config : option durcfg)
| EvPrevote (height round : N) (hash : bytes) (lock_round : option N)
| EvPrecommit (height round : N) (hash : bytes) (lock_round : option N)
| EvCommit (hash : bytes)
| EvBrake (height round : N) (lock_round : option N)
| EvStop.
Global Instance smr_event_eq_dec : EqDecision smr_event.
Proof. solve_decision. Defined.

(** smr_types.rs:324 [SMRStatus] *)
Record smrstatus := mkSmrStatus {
  ss_height : N; ss_interval : option N; ss_config : option durcfg }.
Global Instance smrstatus_eq_dec : EqDecision smrstatus.
Proof. solve_decision. Defined.
(** types.rs:361 [From<Status> for SMRStatus] *)
Definition status_smr (s : status) : smrstatus :=
  mkSmrStatus (st_height s) (st_interval s) (st_config s).

(** smr_types.rs:213 [TriggerType] *)
Inductive ttype :=
| TProposal | TPrevoteQC | TPrecommitQC | TNewHeight (s : smrstatus)
| TWalInfo | TBrakeTimeout | TContinueRound | TStop.
Global Instance ttype_eq_dec : EqDecision ttype.
Proof. solve_decision. Defined.
(** types.rs:40 [From<VoteType> for TriggerType] *)
Definition vtype_trigger (v : vtype) : ttype :=
  match v with Prevote => TPrevoteQC | Precommit => TPrecommitQC end.

(** smr_types.rs:242 [TriggerSource] *)
Inductive tsource := SrcState | SrcTimer.
Global Instance tsource_eq_dec : EqDecision tsource.
Proof. solve_decision. Defined.

(** smr_types.rs:315 [Lock] *)
Record lock := mkLock { l_round : N; l_hash : bytes }.
Global Instance lock_eq_dec : EqDecision lock.
Proof. solve_decision. Defined.

(** wal_type.rs:58 [SMRBase] *)
Record smrbase := mkSmrBase {
  sb_height : N; sb_round : N; sb_step : step; sb_polc : option lock }.
Global Instance smrbase_eq_dec : EqDecision smrbase.
Proof. solve_decision. Defined.

(** smr_types.rs:295 [SMRTrigger] *)
Record trigger := mkTrigger {
  t_type : ttype; t_src : tsource; t_hash : bytes; t_lock_round : option N;
  t_round : N; t_height : N; t_wal : option smrbase }.
Global Instance trigger_eq_dec : EqDecision trigger.
Proof. solve_decision. Defined.

(** wal_type.rs:42 [WalLock] *)
Record wallock (T : Type) := mkWalLock { wl_round : N; wl_votes : aggvote; wl_content : T }.
Arguments mkWalLock {T}.
Arguments wl_round {T}.
Arguments wl_votes {T}.
Arguments wl_content {T}.
Global Instance wallock_eq_dec `{EqDecision T} : EqDecision (wallock T).
Proof. solve_decision. Defined.
(** wal_type.rs:49 [WalLock::to_lock] *)
Definition wal_to_lock {T} (w : wallock T) : lock := mkLock (wl_round w) (av_hash (wl_votes w)).

(** wal_type.rs:15 [WalInfo] *)
Record walinfo (T : Type) := mkWalInfo {
  wi_height : N; wi_round : N; wi_step : step; wi_lock : option (wallock T);
  wi_from : upfrom }.
Arguments mkWalInfo {T}.
Arguments wi_height {T}.
Arguments wi_round {T}.
Arguments wi_step {T}.
Arguments wi_lock {T}.
Arguments wi_from {T}.
Global Instance walinfo_eq_dec `{EqDecision T} : EqDecision (walinfo T).
Proof. solve_decision. Defined.
(** wal_type.rs:30 [WalInfo::into_smr_base] *)
Definition into_smr_base {T} (w : walinfo T) : smrbase :=
  mkSmrBase (wi_height w) (wi_round w) (wi_step w) (wal_to_lock <$> wi_lock w).

(** lib.rs:52-53 *)
Definition INIT_HEIGHT : N := 0.
Definition INIT_ROUND : N := 0.

(** process.rs:1884 [mock_init_qc] *)
Definition mock_init_qc : aggvote := mkAggVote (mkAggSig [] []) Precommit 0 0 [] [].
