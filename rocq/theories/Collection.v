(** * Collection: caches of proposals, votes, certificates and chokes (src/state/collection.rs).

    [HashMap]/[BTreeMap] are [gmap]; iteration over a [HashMap] visits the entries in the order
    of [map_to_list] (the real order is unspecified; where an iteration order could matter the
    theorems show that it does not). [Context] values are dropped. *)
From Verif Require Export Auth.

(** [BTreeMap::split_off(&till)]: the part with keys at or above [till] *)
Definition split_off {V} (till : N) (m : gmap N V) : gmap N V :=
  filter (fun kv => till <= kv.1) m.
(** [map.values()] *)
Definition values {K V} `{Countable K} (m : gmap K V) : list V := (map_to_list m).*2.

(** ** Proposals *)
(** collection.rs:15 [ProposalCollector], 83 [ProposalRoundCollector] *)
Notation propcol T := (gmap N (gmap N (sproposal T))).
Section Proposals.
Context {T : Type} `{EqDecision T}.
(** collection.rs:93 [ProposalRoundCollector::insert]; [None] is its [Err] *)
Definition prc_insert (rc : gmap N (sproposal T)) (round : N) (sp : sproposal T)
    : option (gmap N (sproposal T)) :=
  match rc !! round with
  | Some sp' => if decide (sp' = sp) then Some rc else None
  | None => Some (<[round := sp]> rc)
  end.
(** collection.rs:28 [insert]: the new map and the result. The [entry().or_insert_with()]
    creates the height even when the insertion fails (it cannot then: the round exists). *)
Definition pc_insert (pc : propcol T) (height round : N) (sp : sproposal T) : propcol T * res unit :=
  let rc := default ∅ (pc !! height) in
  match prc_insert rc round sp with
  | Some rc' => (<[height := rc']> pc, Ok tt)
  | None => (<[height := rc]> pc, Err (EMultiProposal height round))
  end.
(** collection.rs:44 [get] *)
Definition pc_get (pc : propcol T) (height round : N) : res (sproposal T) :=
  match pc !! height with
  | Some rc => match rc !! round with Some sp => Ok sp | None => Err EStorage end
  | None => Err EStorage
  end.
(** collection.rs:64 [get_height_proposals]: takes the height out *)
Definition pc_take_height (pc : propcol T) (height : N) : propcol T * option (list (sproposal T)) :=
  (delete height pc, values <$> pc !! height).
(** collection.rs:75 [flush] *)
Definition pc_flush (pc : propcol T) (till : N) : propcol T := split_off till pc.
End Proposals.

(** ** Votes *)
(** collection.rs:431 [Votes] *)
Record votes := mkVotes {
  vs_by_hash : gmap bytes (gset bytes); vs_by_addr : gmap bytes svote }.
Definition votes_new : votes := mkVotes ∅ ∅.
(** collection.rs:444 [Votes::insert] *)
Definition votes_insert (vs : votes) (hash addr : bytes) (v : svote) : votes :=
  match vs_by_addr vs !! addr with
  | Some _ => vs
  | None =>
      mkVotes (<[hash := {[addr]} ∪ default ∅ (vs_by_hash vs !! hash)]> (vs_by_hash vs))
        (<[addr := v]> (vs_by_addr vs))
  end.
(** collection.rs:468 [Votes::get_votes]; [collect::<Option<_>>] is [mapM] *)
Definition votes_get (vs : votes) (hash : bytes) : option (list svote) :=
  match vs_by_hash vs !! hash with
  | Some addrs => mapM (fun a => vs_by_addr vs !! a) (elements addrs)
  | None => None
  end.
(** collection.rs:477 [get_all_votes] *)
Definition votes_all (vs : votes) : list svote := values (vs_by_addr vs).
(** collection.rs:481 [vote_count] *)
Definition votes_count (vs : votes) : nat := size (vs_by_addr vs).

(** collection.rs:387 [QuorumCertificate] *)
Record qcpair := mkQcPair { qp_prevote : option aggvote; qp_precommit : option aggvote }.
Definition qcpair_new : qcpair := mkQcPair None None.
(** collection.rs:400 [set_quorum_certificate] *)
Definition qcpair_set (p : qcpair) (q : aggvote) : qcpair :=
  match av_type q with
  | Prevote => mkQcPair (Some q) (qp_precommit p)
  | Precommit => mkQcPair (qp_prevote p) (Some q)
  end.
(** collection.rs:408 [get_quorum_certificate] *)
Definition qcpair_get (p : qcpair) (t : vtype) : option aggvote :=
  match t with Prevote => qp_prevote p | Precommit => qp_precommit p end.
(** collection.rs:415 [get_all_qcs] *)
Definition qcpair_all (p : qcpair) : list aggvote :=
  option_list (qp_prevote p) ++ option_list (qp_precommit p).

(** collection.rs:328 [RoundCollector] *)
Record roundcol := mkRoundCol { rc_qc : qcpair; rc_prevote : votes; rc_precommit : votes }.
Definition roundcol_new : roundcol := mkRoundCol qcpair_new votes_new votes_new.
(** collection.rs:355, 362, 377: the votes of a type *)
Definition rc_votes (rc : roundcol) (t : vtype) : votes :=
  match t with Prevote => rc_prevote rc | Precommit => rc_precommit rc end.
(** collection.rs:343 [RoundCollector::insert_vote] *)
Definition rc_insert_vote (rc : roundcol) (hash : bytes) (v : svote) (addr : bytes) : roundcol :=
  match v_type (sv_vote v) with
  | Prevote => mkRoundCol (rc_qc rc) (votes_insert (rc_prevote rc) hash addr v) (rc_precommit rc)
  | Precommit => mkRoundCol (rc_qc rc) (rc_prevote rc) (votes_insert (rc_precommit rc) hash addr v)
  end.
(** collection.rs:351 [RoundCollector::set_qc] *)
Definition rc_set_qc (rc : roundcol) (q : aggvote) : roundcol :=
  mkRoundCol (qcpair_set (rc_qc rc) q) (rc_prevote rc) (rc_precommit rc).

(** collection.rs:248 [VoteRoundCollector] *)
Record vrcol := mkVrCol { vc_general : gmap N roundcol; vc_by_hash : gmap bytes qcpair }.
Definition vrcol_new : vrcol := mkVrCol ∅ ∅.
(** collection.rs:261 *)
Definition vrc_insert_vote (c : vrcol) (hash : bytes) (v : svote) (addr : bytes) : vrcol :=
  let r := v_round (sv_vote v) in
  mkVrCol (<[r := rc_insert_vote (default roundcol_new (vc_general c !! r)) hash v addr]>
             (vc_general c)) (vc_by_hash c).
(** collection.rs:268 *)
Definition vrc_set_qc (c : vrcol) (q : aggvote) : vrcol :=
  mkVrCol
    (<[av_round q := rc_set_qc (default roundcol_new (vc_general c !! av_round q)) q]> (vc_general c))
    (<[av_hash q := qcpair_set (default qcpair_new (vc_by_hash c !! av_hash q)) q]> (vc_by_hash c)).

(** collection.rs:119 [VoteCollector] *)
Notation votecol := (gmap N vrcol).
(** collection.rs:128 [insert_vote] *)
Definition vc_insert_vote (c : votecol) (hash : bytes) (v : svote) (addr : bytes) : votecol :=
  let h := v_height (sv_vote v) in
  <[h := vrc_insert_vote (default vrcol_new (c !! h)) hash v addr]> c.
(** collection.rs:136 [set_qc] *)
Definition vc_set_qc (c : votecol) (q : aggvote) : votecol :=
  <[av_height q := vrc_set_qc (default vrcol_new (c !! av_height q)) q]> c.
(** The round collector of a height and round, if any. *)
Definition vc_round (c : votecol) (height round : N) : option roundcol :=
  c !! height ≫= fun vrc => vc_general vrc !! round.
(** collection.rs:145 [get_vote_map] (with 280): an empty map is an error *)
Definition vc_get_vote_map (c : votecol) (height round : N) (t : vtype)
    : res (gmap bytes (gset bytes)) :=
  match vc_round c height round with
  | Some rc =>
      let m := vs_by_hash (rc_votes rc t) in
      if decide (m = ∅) then Err EStorage else Ok m
  | None => Err EStorage
  end.
(** collection.rs:163 [get_votes] *)
Definition vc_get_votes (c : votecol) (height round : N) (t : vtype) (hash : bytes)
    : res (list svote) :=
  match vc_round c height round ≫= fun rc => votes_get (rc_votes rc t) hash with
  | Some l => Ok l
  | None => Err EStorage
  end.
(** collection.rs:182 [get_qc_by_id] *)
Definition vc_get_qc_by_id (c : votecol) (height round : N) (t : vtype) : res aggvote :=
  match vc_round c height round ≫= fun rc => qcpair_get (rc_qc rc) t with
  | Some q => Ok q
  | None => Err EStorage
  end.
(** collection.rs:199 [get_qc_by_hash] *)
Definition vc_get_qc_by_hash (c : votecol) (height : N) (hash : bytes) (t : vtype) : option aggvote :=
  c !! height ≫= fun vrc => vc_by_hash vrc !! hash ≫= fun p => qcpair_get p t.
(** collection.rs:212 [get_height_votes]: takes the height out *)
Definition vc_take_height (c : votecol) (height : N)
    : votecol * option (list svote * list aggvote) :=
  (delete height c,
   (fun vrc =>
      let rcs := values (vc_general vrc) in
      (rcs ≫= fun rc => votes_all (rc_prevote rc) ++ votes_all (rc_precommit rc),
       rcs ≫= fun rc => qcpair_all (rc_qc rc))) <$> c !! height).
(** collection.rs:232 [vote_count] *)
Definition vc_vote_count (c : votecol) (height round : N) (t : vtype) : nat :=
  match vc_round c height round with Some rc => votes_count (rc_votes rc t) | None => 0%nat end.
(** collection.rs:240 [flush] *)
Definition vc_flush (c : votecol) (till : N) : votecol := split_off till c.

(** ** Chokes *)
(** collection.rs:487 [ChokeCollector] *)
Record chokecol := mkChokeCol { cc_chokes : gmap N (gmap bytes schoke); cc_qcs : gmap N aggchoke }.
(** collection.rs:493 [new] and 544 [clear] *)
Definition chokecol_new : chokecol := mkChokeCol ∅ ∅.
(** collection.rs:500 [insert] *)
Definition cc_insert (c : chokecol) (round : N) (sc : schoke) : chokecol :=
  mkChokeCol (<[round := <[sc_addr sc := sc]> (default ∅ (cc_chokes c !! round))]> (cc_chokes c))
    (cc_qcs c).
(** collection.rs:507 [set_qc] *)
Definition cc_set_qc (c : chokecol) (round : N) (q : aggchoke) : chokecol :=
  mkChokeCol (cc_chokes c) (<[round := q]> (cc_qcs c)).
(** collection.rs:511 [get_chokes] *)
Definition cc_get_chokes (c : chokecol) (round : N) : option (list schoke) :=
  values <$> cc_chokes c !! round.
(** collection.rs:517 [get_qc] *)
Definition cc_get_qc (c : chokecol) (round : N) : option aggchoke := cc_qcs c !! round.
Definition key_desc (a b : N * gmap bytes schoke) : Prop := b.1 <= a.1.
Global Instance key_desc_dec a b : Decision (key_desc a b).
Proof. unfold key_desc. apply _. Defined.
(** collection.rs:521 [max_round_above_threshold]: rounds in descending order, first one with
    enough chokes ([usize] products cannot overflow for sizes below 2^62) *)
Definition cc_max_round (c : chokecol) (nodes_num : nat) : option N :=
  let l := merge_sort key_desc (map_to_list (cc_chokes c)) in
  fst <$> List.find (fun kv => (nodes_num * 2 <? size kv.2 * 3)%nat) l.

(** ** Counting (process.rs:1144 [counting_vote], on the map returned by [get_vote_map]) *)
(** process.rs:1161-1164: the u32 accumulator wraps *)
Fixpoint count_addrs (a : auth) (l : list bytes) (acc : N) : res N :=
  match l with
  | [] => Ok acc
  | x :: l' => let? w := get_vote_weight a x in count_addrs a l' (w32 (acc + w))
  end.
(** process.rs:1160-1168; the order of [l] is the HashMap's, and each set is listed in the
    HashSet's order: both are arguments *)
Fixpoint count_hashes (a : auth) (threshold : N) (l : list (bytes * list bytes))
    : res (option bytes) :=
  match l with
  | [] => Ok None
  | (hash, addrs) :: l' =>
      let? acc := count_addrs a addrs 0 in
      if threshold <? acc * 3 then Ok (Some hash) else count_hashes a threshold l'
  end.
Definition counting_vote (a : auth) (c : votecol) (height round : N) (t : vtype) : res (option bytes) :=
  let? m := vc_get_vote_map c height round t in
  count_hashes a (w64 (get_vote_weight_sum a * 2)) (prod_map id elements <$> map_to_list m).
