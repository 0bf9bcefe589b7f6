(** * Verify: src/state/parallel.rs.

    [parallel_verify] spawns a task that, if the checks succeed, puts the message into the
    queue of verified messages; here: a predicate telling whether it does. *)
From Verif Require Export Auth Codec.

(** lib.rs:132 [Crypto]: the user's cryptography. A result [false]/[None] is [Err]. *)
Record crypto := mkCrypto {
  cr_hash : bytes -> bytes;
  cr_sign : bytes -> option bytes;
  cr_verify : bytes -> bytes -> bytes -> bool;            (* signature, hash, voter *)
  cr_aggregate : list bytes -> list bytes -> option bytes; (* signatures, voters *)
  cr_verify_agg : bytes -> bytes -> list bytes -> bool     (* signature, hash, voters *) }.

(** parallel.rs:97 [get_voters]: the threshold's result is dropped, only its error counts *)
Definition pv_get_voters (bitmap : bytes) (a : auth) : res (list bytes) :=
  let? _ := is_above_threshold a bitmap in Ok (get_voters a bitmap).

(** parallel.rs:105 [verify_qc] *)
Definition verify_qc (cr : crypto) (a : auth) (q : aggvote) : bool :=
  match pv_get_voters (as_bitmap (av_sig q)) a with
  | Ok voters => cr_verify_agg cr (as_sig (av_sig q)) (cr_hash cr (enc (vote_rlp (to_vote q)))) voters
  | _ => false
  end.

(** parallel.rs:13 [parallel_verify] *)
Definition verify_msg {T} (tenc : T -> bytes) (cr : crypto) (a : auth) (m : omsg T) : bool :=
  match m with
  | MProposal sp =>
      if cr_verify cr (sp_sig sp) (cr_hash cr (enc (proposal_rlp tenc (sp_prop sp))))
           (p_proposer (sp_prop sp))
      then match p_lock (sp_prop sp) with
           | Some l => verify_qc cr a (pl_votes l)
           | None => true
           end
      else false
  | MVote sv => cr_verify cr (sv_sig sv) (cr_hash cr (enc (vote_rlp (sv_vote sv)))) (sv_voter sv)
  | MAgg q => verify_qc cr a q
  | MChoke sc =>
      cr_verify cr (sc_sig sc) (cr_hash cr (enc (hashchoke_rlp (choke_to_hash (sc_choke sc)))))
        (sc_addr sc)
  | _ => false
  end.
