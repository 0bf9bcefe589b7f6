(** * Serde: the serde form of the crate's public types (types.rs, smr_types.rs, wal_type.rs,
    serde_hex.rs, serde_multi_hex.rs).

    The documents are those of a self-describing format, as serde_json writes and reads them: a
    struct is an object, a unit variant a string, a variant with contents an object with one key,
    [None] is null.  The derived implementations are modelled by what they accept (which error they
    report is not): a known key must occur once, unknown keys are skipped, a struct may also be given
    as a sequence of exactly its fields.  [hex_encode] and [hex_decode] (crate hummer) are parameters. *)
From Coq Require Export Strings.String.
From Verif Require Export CodecSpec.
Set Default Proof Using "Type".

Inductive json := JNull | JNum (n : N) | JOther | JStr (s : bytes) | JArr (l : list json) | JObj (l : list (bytes * json)).
(** The UTF-8 of a field or variant name. *)
Definition nm (s : string) : bytes := list_byte_of_string s.

(** ** The derived implementations *)
(** The value of key [k], if it occurs once. *)
Definition key (k : bytes) (l : list (bytes * json)) : option (option json) :=
  match filter (fun x => x.1 = k) l with [] => Some None | [x] => Some (Some x.2) | _ => None end.
(** [visit_map] and [visit_seq] of a derived [Deserialize] of a struct. *)
Definition fields (names : list bytes) (j : json) : option (list (option json)) :=
  match j with
  | JObj l => mapM (fun k => key k l) names
  | JArr l => if decide (length l = length names) then Some (Some <$> l) else None
  | _ => None
  end.
Definition req {A} (d : json -> option A) (x : option json) : option A := x ≫= d.
(** A field of type [Option]: may be missing or null. *)
Definition opt {A} (d : json -> option A) (x : option json) : option (option A) :=
  match x with None | Some JNull => Some None | Some v => Some <$> d v end.
(** [deserialize_enum]: the variant's name and contents. *)
Definition variant (j : json) : option (bytes * option json) :=
  match j with JStr s => Some (s, None) | JObj [(s, v)] => Some (s, Some v) | _ => None end.
Definition unit_of (x : option json) : bool := match x with None | Some JNull => true | _ => false end.
(** A derived [Deserialize] of an enum without contents. *)
Fixpoint units {A} (names : list (bytes * A)) (j : json) : option A :=
  match names with
  | [] => None
  | (k, a) :: names =>
      match variant j with
      | Some (s, x) => if decide (s = k) then (if unit_of x then Some a else None) else units names j
      | None => None
      end
  end.
Definition de_num (max : N) (j : json) : option N := match j with JNum n => if n <? max then Some n else None | _ => None end.
Definition de_u64 : json -> option N := de_num U64.
Definition de_u32 : json -> option N := de_num U32.

Section S.
Context (hex_encode : bytes -> bytes) (hex_decode : bytes -> option bytes).

(** serde_hex.rs:8 [serialize] *)
Definition ser_hex (b : bytes) : json := JStr (hex_encode b).
(** serde_hex.rs:18 [deserialize], serde_hex.rs:33 [visit_str] *)
Definition de_hex (j : json) : option bytes := match j with JStr s => hex_decode s | _ => None end.

(** serde_multi_hex.rs:8 [TWrapper] (derived) *)
Definition ser_wrap (b : bytes) : json := JObj [(nm "inner", ser_hex b)].
Definition de_wrap (j : json) : option bytes :=
  match fields [nm "inner"] j with Some [x] => req de_hex x | _ => None end.
(** serde_multi_hex.rs:18 [serialize] *)
Definition ser_multi (l : list bytes) : json := JObj [(nm "inner", JArr (ser_wrap <$> l))].
(** serde_multi_hex.rs:36 [deserialize]: its [Field] (line 40) knows no other key, so that an unknown
    key is an error; [visit_seq] (line 54), [visit_map] (line 65). *)
Definition de_multi (j : json) : option (list bytes) :=
  match (match j with
         | JObj [(k, v)] => if decide (k = nm "inner") then Some v else None
         | JArr [v] => Some v
         | _ => None
         end) with
  | Some (JArr l) => mapM de_wrap l
  | _ => None
  end.

(** types.rs:21 [VoteType] *)
Definition ser_vtype (t : vtype) : json := JStr (nm match t with Prevote => "Prevote" | Precommit => "Precommit" end).
Definition de_vtype : json -> option vtype := units [(nm "Prevote", Prevote); (nm "Precommit", Precommit)].
(** smr_types.rs:10 [Step] *)
Definition ser_step (s : step) : json :=
  JStr (nm match s with SPropose => "Propose" | SPrevote => "Prevote" | SPrecommit => "Precommit" | SBrake => "Brake" | SCommit => "Commit" end).
Definition de_step : json -> option step :=
  units [(nm "Propose", SPropose); (nm "Prevote", SPrevote); (nm "Precommit", SPrecommit); (nm "Brake", SBrake); (nm "Commit", SCommit)].
(** smr_types.rs:241 [TriggerSource] *)
Definition ser_tsrc (s : tsource) : json := JStr (nm match s with SrcState => "State" | SrcTimer => "Timer" end).
Definition de_tsrc : json -> option tsource := units [(nm "State", SrcState); (nm "Timer", SrcTimer)].

(** types.rs:250 [AggregatedSignature] *)
Definition ser_aggsig (x : aggsig) : json := JObj [(nm "signature", ser_hex (as_sig x)); (nm "address_bitmap", ser_hex (as_bitmap x))].
Definition de_aggsig (j : json) : option aggsig :=
  match fields [nm "signature"; nm "address_bitmap"] j with
  | Some [a; b] => a ← req de_hex a; b ← req de_hex b; Some (mkAggSig a b)
  | _ => None
  end.
(** types.rs:261 [AggregatedVote] *)
Definition aggvote_names : list bytes := [nm "signature"; nm "vote_type"; nm "height"; nm "round"; nm "block_hash"; nm "leader"].
Definition ser_aggvote (x : aggvote) : json :=
  JObj [(nm "signature", ser_aggsig (av_sig x)); (nm "vote_type", ser_vtype (av_type x)); (nm "height", JNum (av_height x));
        (nm "round", JNum (av_round x)); (nm "block_hash", ser_hex (av_hash x)); (nm "leader", ser_hex (av_leader x))].
Definition de_aggvote (j : json) : option aggvote :=
  match fields aggvote_names j with
  | Some [a; b; c; d; e; f] =>
      a ← req de_aggsig a; b ← req de_vtype b; c ← req de_u64 c; d ← req de_u64 d; e ← req de_hex e; f ← req de_hex f;
      Some (mkAggVote a b c d e f)
  | _ => None
  end.
(** types.rs:380 [Node] *)
Definition node_names : list bytes := [nm "address"; nm "propose_weight"; nm "vote_weight"].
Definition ser_node (x : vnode) : json :=
  JObj [(nm "address", ser_hex (n_addr x)); (nm "propose_weight", JNum (n_pw x)); (nm "vote_weight", JNum (n_vw x))].
Definition de_node (j : json) : option vnode :=
  match fields node_names j with
  | Some [a; b; c] => a ← req de_hex a; b ← req de_u32 b; c ← req de_u32 c; Some (mkVNode a b c)
  | _ => None
  end.
(** types.rs:440 [AggregatedChoke] *)
Definition aggchoke_names : list bytes := [nm "height"; nm "round"; nm "signature"; nm "voters"].
Definition ser_aggchoke (x : aggchoke) : json :=
  JObj [(nm "height", JNum (ac_height x)); (nm "round", JNum (ac_round x)); (nm "signature", ser_hex (ac_sig x));
        (nm "voters", ser_multi (ac_voters x))].
Definition de_aggchoke (j : json) : option aggchoke :=
  match fields aggchoke_names j with
  | Some [a; b; c; d] => a ← req de_u64 a; b ← req de_u64 b; c ← req de_hex c; d ← req de_multi d; Some (mkAggChoke a b c d)
  | _ => None
  end.
(** types.rs:116 [UpdateFrom] *)
Definition ser_upfrom (x : upfrom) : json :=
  match x with
  | UFPrevote q => JObj [(nm "PrevoteQC", ser_aggvote q)]
  | UFPrecommit q => JObj [(nm "PrecommitQC", ser_aggvote q)]
  | UFChoke q => JObj [(nm "ChokeQC", ser_aggchoke q)]
  end.
Definition de_upfrom (j : json) : option upfrom :=
  match variant j with
  | Some (s, Some v) =>
      if decide (s = nm "PrevoteQC") then UFPrevote <$> de_aggvote v
      else if decide (s = nm "PrecommitQC") then UFPrecommit <$> de_aggvote v
      else if decide (s = nm "ChokeQC") then UFChoke <$> de_aggchoke v
      else None
  | _ => None
  end.

(** types.rs:127 [ViewChangeReason] *)
Definition ser_pair (a b : N) : json := JArr [JNum a; JNum b].
Definition ser_vreason (x : vreason) : json :=
  match x with
  | RNoProposal => JStr (nm "NoProposalFromNetwork")
  | RNoPrevoteQC => JStr (nm "NoPrevoteQCFromNetwork")
  | RNoPrecommitQC => JStr (nm "NoPrecommitQCFromNetwork")
  | RCheckBlock => JStr (nm "CheckBlockNotPass")
  | RHigherPrevoteQC a b => JObj [(nm "UpdateFromHigherPrevoteQC", ser_pair a b)]
  | RHigherPrecommitQC a b => JObj [(nm "UpdateFromHigherPrecommitQC", ser_pair a b)]
  | RHigherChokeQC a b => JObj [(nm "UpdateFromHigherChokeQC", ser_pair a b)]
  | RLeaderBelow t => JObj [(nm "LeaderReceivedVoteBelowThreshold", ser_vtype t)]
  | ROthers => JStr (nm "Others")
  end.
Definition de_pair (f : N -> N -> vreason) (j : json) : option vreason :=
  match j with JArr [a; b] => a ← de_u64 a; b ← de_u64 b; Some (f a b) | _ => None end.
Definition de_vreason (j : json) : option vreason :=
  match variant j with
  | Some (s, x) =>
      if decide (s = nm "UpdateFromHigherPrevoteQC") then x ≫= de_pair RHigherPrevoteQC
      else if decide (s = nm "UpdateFromHigherPrecommitQC") then x ≫= de_pair RHigherPrecommitQC
      else if decide (s = nm "UpdateFromHigherChokeQC") then x ≫= de_pair RHigherChokeQC
      else if decide (s = nm "LeaderReceivedVoteBelowThreshold") then x ≫= fun v => RLeaderBelow <$> de_vtype v
      else units [(nm "NoProposalFromNetwork", RNoProposal); (nm "NoPrevoteQCFromNetwork", RNoPrevoteQC);
                  (nm "NoPrecommitQCFromNetwork", RNoPrecommitQC); (nm "CheckBlockNotPass", RCheckBlock); (nm "Others", ROthers)] j
  | None => None
  end.

Context {T : Type} (ser_t : T -> json) (de_t : json -> option T).
(** wal_type.rs:41 [WalLock] (the block type brings its own implementation; it is not an [Option]) *)
Definition wallock_names : list bytes := [nm "lock_round"; nm "lock_votes"; nm "content"].
Definition ser_wallock (x : wallock T) : json :=
  JObj [(nm "lock_round", JNum (wl_round x)); (nm "lock_votes", ser_aggvote (wl_votes x)); (nm "content", ser_t (wl_content x))].
Definition de_wallock (j : json) : option (wallock T) :=
  match fields wallock_names j with
  | Some [a; b; c] => a ← req de_u64 a; b ← req de_aggvote b; c ← req de_t c; Some (mkWalLock a b c)
  | _ => None
  end.
(** wal_type.rs:8 [WalInfo] *)
Definition walinfo_names : list bytes := [nm "height"; nm "round"; nm "step"; nm "lock"; nm "from"].
Definition ser_walinfo (x : walinfo T) : json :=
  JObj [(nm "height", JNum (wi_height x)); (nm "round", JNum (wi_round x)); (nm "step", ser_step (wi_step x));
        (nm "lock", match wi_lock x with Some l => ser_wallock l | None => JNull end); (nm "from", ser_upfrom (wi_from x))].
Definition de_walinfo (j : json) : option (walinfo T) :=
  match fields walinfo_names j with
  | Some [a; b; c; d; e] =>
      a ← req de_u64 a; b ← req de_u64 b; c ← req de_step c; d ← opt de_wallock d; e ← req de_upfrom e; Some (mkWalInfo a b c d e)
  | _ => None
  end.
End S.
