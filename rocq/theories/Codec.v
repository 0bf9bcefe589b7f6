(** * Codec: src/codec.rs.

    [X_rlp] is the tree that [Encodable for X] appends, [dec_X] is [Decodable for X]. The block
    type [T: Codec] is an abstract type with [tenc] (lib.rs Codec::encode; the code unwraps its
    result, a failing encode is not modelled) and [tdec] (Codec::decode, [None] = Err). *)
From Verif Require Export Rlp.

(** types.rs:31 From<VoteType> for u8, types.rs:58 TryFrom<u8> *)
Definition vtype_u8 (t : vtype) : N := match t with Prevote => 1 | Precommit => 2 end.
Definition vtype_of (n : N) : res vtype :=
  if n =? 1 then Ok Prevote else if n =? 2 then Ok Precommit else Err EDecode.
(** smr_types.rs:78 From<u8> for Step *)
Definition step_of (n : N) : res step :=
  if n =? 0 then Ok SPropose else if n =? 1 then Ok SPrevote else if n =? 2 then Ok SPrecommit
  else if n =? 3 then Ok SBrake else if n =? 4 then Ok SCommit else Panic.

(** ** Encoders *)
(** codec.rs:109 *)
Definition aggsig_rlp (s : aggsig) : rlp := RList [RStr (as_sig s); RStr (as_bitmap s)].
(** codec.rs:136 *)
Definition aggvote_rlp (q : aggvote) : rlp :=
  RList [aggsig_rlp (av_sig q); r_uint (vtype_u8 (av_type q)); r_uint (av_height q);
         r_uint (av_round q); RStr (av_hash q); RStr (av_leader q)].
(** codec.rs:84 *)
Definition polc_rlp (p : polc) : rlp := RList [r_uint (pl_round p); aggvote_rlp (pl_votes p)].
(** codec.rs:208 *)
Definition vote_rlp (v : vote) : rlp :=
  RList [r_uint (v_height v); r_uint (v_round v); r_uint (vtype_u8 (v_type v)); RStr (v_hash v)].
(** codec.rs:178 *)
Definition svote_rlp (v : svote) : rlp :=
  RList [RStr (sv_sig v); vote_rlp (sv_vote v); RStr (sv_voter v)].
(** codec.rs:274 *)
Definition proof_rlp (p : proof) : rlp :=
  RList [r_uint (pf_height p); r_uint (pf_round p); RStr (pf_hash p); aggsig_rlp (pf_sig p)].
(** codec.rs:305 *)
Definition durcfg_rlp (c : durcfg) : rlp :=
  RList [r_uint (dc_propose c); r_uint (dc_prevote c); r_uint (dc_precommit c); r_uint (dc_brake c)].
(** codec.rs:385 *)
Definition vnode_rlp (n : vnode) : rlp := RList [RStr (n_addr n); r_uint (n_pw n); r_uint (n_vw n)].
(** codec.rs:336 *)
Definition status_rlp (s : status) : rlp :=
  RList [r_uint (st_height s); r_uint (default 0 (st_interval s));
         durcfg_rlp (default durcfg_default (st_config s)); RList (map vnode_rlp (st_auth s))].
(** codec.rs:577 *)
Definition aggchoke_rlp (q : aggchoke) : rlp :=
  RList [r_uint (ac_height q); r_uint (ac_round q); RStr (ac_sig q); RList (map RStr (ac_voters q))].
(** codec.rs:413 *)
Definition upfrom_rlp (u : upfrom) : rlp :=
  match u with
  | UFPrevote q => RList [r_uint 0; aggvote_rlp q]
  | UFPrecommit q => RList [r_uint 1; aggvote_rlp q]
  | UFChoke q => RList [r_uint 2; aggchoke_rlp q]
  end.
(** codec.rs:521 *)
Definition choke_rlp (c : choke) : rlp :=
  RList [r_uint (ck_height c); r_uint (ck_round c); upfrom_rlp (ck_from c)].
(** codec.rs:548 *)
Definition schoke_rlp (c : schoke) : rlp :=
  RList [RStr (sc_sig c); choke_rlp (sc_choke c); RStr (sc_addr c)].
(** codec.rs:614 *)
Definition hashchoke_rlp (c : hashchoke) : rlp := RList [r_uint (hc_height c); r_uint (hc_round c)].

Section Block.
Context {T : Type} (tenc : T -> bytes) (tdec : bytes -> option T).
(** codec.rs:42 *)
Definition proposal_rlp (p : proposal T) : rlp :=
  RList [r_uint (p_height p); r_uint (p_round p); RStr (p_hash p); r_opt polc_rlp (p_lock p);
         RStr (p_proposer p); RStr (tenc (p_content p))].
(** codec.rs:16 *)
Definition sproposal_rlp (p : sproposal T) : rlp :=
  RList [RStr (sp_sig p); proposal_rlp (sp_prop p)].
(** codec.rs:243 *)
Definition commit_rlp (c : commit T) : rlp :=
  RList [r_uint (c_height c); proof_rlp (c_proof c); RStr (tenc (c_content c))].
(** codec.rs:457 *)
Definition wallock_rlp (w : wallock T) : rlp :=
  RList [r_uint (wl_round w); aggvote_rlp (wl_votes w); RStr (tenc (wl_content w))].
(** codec.rs:487 *)
Definition walinfo_rlp (w : walinfo T) : rlp :=
  RList [r_uint (wi_height w); r_uint (wi_round w); r_uint (step_u8 (wi_step w));
         r_opt wallock_rlp (wi_lock w); upfrom_rlp (wi_from w)].

(** ** Decoders *)
Context (spill : bool).
Local Notation "'at' b i d" := (val_at spill b i d) (at level 10, b at level 9, i at level 9, d at level 9).
Definition u64 := dec_uint 8.
Definition u32 := dec_uint 4.
Definition u8 := dec_uint 1.
Definition guard_list {A} (n : nat) (b : bytes) (k : res A) : res A :=
  if list_of spill n b then k else Err EDecode.
Definition dec_t (b : bytes) : res T :=
  let? d := dec_str b in match tdec d with Some t => Ok t | None => Err EDecode end.

(** codec.rs:117 *)
Definition dec_aggsig (b : bytes) : res aggsig :=
  guard_list 2 b
    (let? s := at b 0 dec_str in let? m := at b 1 dec_str in Ok (mkAggSig s m)).
(** codec.rs:149 *)
Definition dec_aggvote (b : bytes) : res aggvote :=
  guard_list 6 b
    (let? s := at b 0 dec_aggsig in let? tmp := at b 1 u8 in let? t := vtype_of tmp in
     let? h := at b 2 u64 in let? r := at b 3 u64 in let? x := at b 4 dec_str in
     let? l := at b 5 dec_str in Ok (mkAggVote s t h r x l)).
(** codec.rs:92 *)
Definition dec_polc (b : bytes) : res polc :=
  guard_list 2 b
    (let? r := at b 0 u64 in let? q := at b 1 dec_aggvote in Ok (mkPoLC r q)).
(** codec.rs:219 *)
Definition dec_vote (b : bytes) : res vote :=
  guard_list 4 b
    (let? h := at b 0 u64 in let? r := at b 1 u64 in let? tmp := at b 2 u8 in
     let? t := vtype_of tmp in let? x := at b 3 dec_str in Ok (mkVote h r t x)).
(** codec.rs:187 *)
Definition dec_svote (b : bytes) : res svote :=
  guard_list 3 b
    (let? s := at b 0 dec_str in let? v := at b 1 dec_vote in let? a := at b 2 dec_str in
     Ok (mkSVote s v a)).
(** codec.rs:284 *)
Definition dec_proof (b : bytes) : res proof :=
  guard_list 4 b
    (let? h := at b 0 u64 in let? r := at b 1 u64 in let? x := at b 2 dec_str in
     let? s := at b 3 dec_aggsig in Ok (mkProof h r x s)).
(** codec.rs:315 *)
Definition dec_durcfg (b : bytes) : res durcfg :=
  guard_list 4 b
    (let? p := at b 0 u64 in let? v := at b 1 u64 in let? c := at b 2 u64 in
     let? k := at b 3 u64 in Ok (mkDurCfg p v c k)).
(** codec.rs:394 *)
Definition dec_vnode (b : bytes) : res vnode :=
  guard_list 3 b
    (let? a := at b 0 dec_str in let? p := at b 1 u32 in let? v := at b 2 u32 in
     Ok (mkVNode a p v)).
(** codec.rs:357 *)
Definition dec_status (b : bytes) : res status :=
  guard_list 4 b
    (let? h := at b 0 u64 in
     let? tmp := at b 1 u64 in
     let interval := if tmp =? 0 then None else Some tmp in
     let? c := at b 2 dec_durcfg in
     let config := if decide (c = durcfg_default) then None else Some c in
     let? l := list_at spill b 3 dec_vnode in
     Ok (mkStatus h interval config l)).
(** codec.rs:592 *)
Definition dec_aggchoke (b : bytes) : res aggchoke :=
  guard_list 4 b
    (let? h := at b 0 u64 in let? r := at b 1 u64 in let? s := at b 2 dec_str in
     let? l := list_at spill b 3 dec_str in Ok (mkAggChoke h r s l)).
(** codec.rs:430; [unreachable!()] is [Panic] *)
Definition dec_upfrom (b : bytes) : res upfrom :=
  guard_list 2 b
    (let? tmp := at b 0 u8 in
     if tmp =? 0 then let? q := at b 1 dec_aggvote in Ok (UFPrevote q)
     else if tmp =? 1 then let? q := at b 1 dec_aggvote in Ok (UFPrecommit q)
     else if tmp =? 2 then let? q := at b 1 dec_aggchoke in Ok (UFChoke q)
     else Panic).
(** codec.rs:530 *)
Definition dec_choke (b : bytes) : res choke :=
  guard_list 3 b
    (let? h := at b 0 u64 in let? r := at b 1 u64 in let? f := at b 2 dec_upfrom in
     Ok (mkChoke h r f)).
(** codec.rs:557 *)
Definition dec_schoke (b : bytes) : res schoke :=
  guard_list 3 b
    (let? s := at b 0 dec_str in let? c := at b 1 dec_choke in let? a := at b 2 dec_str in
     Ok (mkSChoke s c a)).
(** codec.rs:55 *)
Definition dec_proposal (b : bytes) : res (proposal T) :=
  guard_list 6 b
    (let? h := at b 0 u64 in let? r := at b 1 u64 in let? x := at b 2 dec_str in
     let? l := at b 3 (dec_opt spill dec_polc) in let? p := at b 4 dec_str in
     let? c := at b 5 dec_t in Ok (mkProposal h r c x l p)).
(** codec.rs:24 *)
Definition dec_sproposal (b : bytes) : res (sproposal T) :=
  guard_list 2 b
    (let? s := at b 0 dec_str in let? p := at b 1 dec_proposal in Ok (mkSProposal s p)).
(** codec.rs:253 *)
Definition dec_commit (b : bytes) : res (commit T) :=
  guard_list 3 b
    (let? h := at b 0 u64 in let? p := at b 1 dec_proof in let? c := at b 2 dec_t in
     Ok (mkCommit h c p)).
(** codec.rs:467 *)
Definition dec_wallock (b : bytes) : res (wallock T) :=
  guard_list 3 b
    (let? r := at b 0 u64 in let? q := at b 1 dec_aggvote in let? c := at b 2 dec_t in
     Ok (mkWalLock r q c)).
(** codec.rs:498 *)
Definition dec_walinfo (b : bytes) : res (walinfo T) :=
  guard_list 5 b
    (let? h := at b 0 u64 in let? r := at b 1 u64 in let? tmp := at b 2 u8 in
     let? s := step_of tmp in let? l := at b 3 (dec_opt spill dec_wallock) in
     let? f := at b 4 dec_upfrom in Ok (mkWalInfo h r s l f)).
End Block.
