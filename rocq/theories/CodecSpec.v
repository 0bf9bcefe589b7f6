(** * CodecSpec: which values are values of the Rust types (integer ranges). *)
From Verif Require Export Codec.

Definition wf_aggvote (q : aggvote) : Prop := av_height q < U64 /\ av_round q < U64.
Definition wf_polc (p : polc) : Prop := pl_round p < U64 /\ wf_aggvote (pl_votes p).
Definition wf_vote (v : vote) : Prop := v_height v < U64 /\ v_round v < U64.
Definition wf_svote (v : svote) : Prop := wf_vote (sv_vote v).
Definition wf_proof (p : proof) : Prop := pf_height p < U64 /\ pf_round p < U64.
Definition wf_durcfg (c : durcfg) : Prop :=
  dc_propose c < U64 /\ dc_prevote c < U64 /\ dc_precommit c < U64 /\ dc_brake c < U64.
Definition wf_vnode (n : vnode) : Prop := n_pw n < U32 /\ n_vw n < U32.
Definition wf_opt {A} (P : A -> Prop) (o : option A) : Prop := forall a, o = Some a -> P a.
Definition wf_status (s : status) : Prop :=
  st_height s < U64 /\ wf_opt (fun i => i < U64) (st_interval s) /\ wf_opt wf_durcfg (st_config s) /\
  forall n, n ∈ st_auth s -> wf_vnode n.
Definition wf_aggchoke (q : aggchoke) : Prop := ac_height q < U64 /\ ac_round q < U64.
Definition wf_upfrom (u : upfrom) : Prop :=
  match u with UFPrevote q | UFPrecommit q => wf_aggvote q | UFChoke q => wf_aggchoke q end.
Definition wf_choke (c : choke) : Prop := ck_height c < U64 /\ ck_round c < U64 /\ wf_upfrom (ck_from c).
Definition wf_hashchoke (c : hashchoke) : Prop := hc_height c < U64 /\ hc_round c < U64.
Definition wf_schoke (c : schoke) : Prop := wf_choke (sc_choke c).
Section T.
Context {T : Type}.
Definition wf_proposal (p : proposal T) : Prop :=
  p_height p < U64 /\ p_round p < U64 /\ wf_opt wf_polc (p_lock p).
Definition wf_sproposal (p : sproposal T) : Prop := wf_proposal (sp_prop p).
Definition wf_commit (c : commit T) : Prop := c_height c < U64 /\ wf_proof (c_proof c).
Definition wf_wallock (w : wallock T) : Prop := wl_round w < U64 /\ wf_aggvote (wl_votes w).
Definition wf_walinfo (w : walinfo T) : Prop :=
  wi_height w < U64 /\ wi_round w < U64 /\ wf_opt wf_wallock (wi_lock w) /\ wf_upfrom (wi_from w).
End T.

(** [rlp::encode]; a value is encodable if its encoding is shorter than 2^64 bytes. *)
Definition encodable (t : rlp) : Prop := N.of_nat (length (enc t)) < 2 ^ 64.
(** The block's codec gives back what was encoded. *)
Definition codec_ok {T} (tenc : T -> bytes) (tdec : bytes -> option T) : Prop :=
  forall t, tdec (tenc t) = Some t.
