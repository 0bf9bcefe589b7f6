(** * CodecRound: round trips of every type. *)
From Verif Require Export CodecProofs CodecSpec.

Section R.
Context (spill : bool).
Lemma aggsig_rt q : fits (aggsig_rlp q) -> dec_aggsig spill (enc (aggsig_rlp q)) = Ok q.
Proof.
  intros Hf. unfold dec_aggsig, aggsig_rlp in *. rt Hf. rv Hf. rewrite dec_str_enc by done. cbn [rbind].
  rv Hf. rewrite dec_str_enc by done. by destruct q.
Qed.
Lemma vtype_rt t : vtype_of (vtype_u8 t) = Ok t.
Proof. by destruct t. Qed.
Lemma vtype_u8_lt t : vtype_u8 t < 256.
Proof. by destruct t. Qed.
Lemma step_rt s : step_of (step_u8 s) = Ok s.
Proof. by destruct s. Qed.
Lemma step_u8_lt s : step_u8 s < 256.
Proof. by destruct s. Qed.

Ltac rtgo Hf := rt Hf;
  repeat (rv Hf; rewrite ?dec_str_enc, ?u64_enc, ?u32_enc, ?u8_enc, ?vtype_rt, ?step_rt
            by first [done | apply vtype_u8_lt | apply step_u8_lt]; cbn [rbind]).
Lemma aggvote_rt q : wf_aggvote q -> fits (aggvote_rlp q) -> dec_aggvote spill (enc (aggvote_rlp q)) = Ok q.
Proof.
  intros [? ?] Hf. unfold dec_aggvote, aggvote_rlp in *. rt Hf.
  rv Hf. rewrite aggsig_rt by done. cbn [rbind].
  rv Hf. rewrite u8_enc by apply vtype_u8_lt. cbn [rbind]. rewrite vtype_rt. cbn [rbind].
  repeat (rv Hf; rewrite ?dec_str_enc, ?u64_enc by done; cbn [rbind]). by destruct q.
Qed.
Lemma polc_rt q : wf_polc q -> fits (polc_rlp q) -> dec_polc spill (enc (polc_rlp q)) = Ok q.
Proof.
  intros [? ?] Hf. unfold dec_polc, polc_rlp in *. rt Hf.
  rv Hf. rewrite u64_enc by done. cbn [rbind]. rv Hf. rewrite aggvote_rt by done. by destruct q.
Qed.
Lemma vote_rt q : wf_vote q -> fits (vote_rlp q) -> dec_vote spill (enc (vote_rlp q)) = Ok q.
Proof.
  intros [? ?] Hf. unfold dec_vote, vote_rlp in *. rt Hf.
  do 2 (rv Hf; rewrite u64_enc by done; cbn [rbind]).
  rv Hf. rewrite u8_enc by apply vtype_u8_lt. cbn [rbind]. rewrite vtype_rt. cbn [rbind].
  rv Hf. rewrite dec_str_enc by done. by destruct q.
Qed.
Lemma svote_rt q : wf_svote q -> fits (svote_rlp q) -> dec_svote spill (enc (svote_rlp q)) = Ok q.
Proof.
  intros ? Hf. unfold dec_svote, svote_rlp in *. rt Hf.
  rv Hf. rewrite dec_str_enc by done; cbn [rbind]. rv Hf. rewrite vote_rt by done; cbn [rbind].
  rv Hf. rewrite dec_str_enc by done; cbn [rbind]. by destruct q.
Qed.
Lemma proof_rt q : wf_proof q -> fits (proof_rlp q) -> dec_proof spill (enc (proof_rlp q)) = Ok q.
Proof.
  intros [? ?] Hf. unfold dec_proof, proof_rlp in *. rt Hf.
  do 2 (rv Hf; rewrite u64_enc by done; cbn [rbind]). rv Hf. rewrite dec_str_enc by done; cbn [rbind].
  rv Hf. rewrite aggsig_rt by done. by destruct q.
Qed.
Lemma durcfg_rt q : wf_durcfg q -> fits (durcfg_rlp q) -> dec_durcfg spill (enc (durcfg_rlp q)) = Ok q.
Proof.
  intros (? & ? & ? & ?) Hf. unfold dec_durcfg, durcfg_rlp in *. rt Hf.
  do 4 (rv Hf; rewrite u64_enc by done; cbn [rbind]). by destruct q.
Qed.
Lemma vnode_rt q : wf_vnode q -> fits (vnode_rlp q) -> dec_vnode spill (enc (vnode_rlp q)) = Ok q.
Proof.
  intros [? ?] Hf. unfold dec_vnode, vnode_rlp in *. rt Hf.
  rv Hf. rewrite dec_str_enc by done; cbn [rbind].
  do 2 (rv Hf; rewrite u32_enc by done; cbn [rbind]). by destruct q.
Qed.
(** What the status becomes. *)
Definition status_norm (s : status) : status :=
  mkStatus (st_height s)
    (match st_interval s with Some 0 => None | i => i end)
    (match st_config s with Some (mkDurCfg 0 0 0 0) => None | c => c end)
    (st_auth s).
Lemma wf_durcfg_default : wf_durcfg durcfg_default.
Proof. repeat split. Qed.
Lemma status_rt q : wf_status q -> fits (status_rlp q) ->
  dec_status spill (enc (status_rlp q)) = Ok (status_norm q).
Proof.
  intros (H1 & H2 & H3 & H4) Hf. unfold dec_status, status_rlp in *. rt Hf.
  rv Hf. rewrite u64_enc by done; cbn [rbind].
  rv Hf. rewrite u64_enc; cbn [rbind].
  2:{ destruct (st_interval q) as [i|] eqn:E; [by apply H2|done]. }
  rv Hf. rewrite durcfg_rt; cbn [rbind]; [|destruct (st_config q) as [c|] eqn:E; [by apply H3|apply wf_durcfg_default]|done].
  erewrite (list_at_enc spill _ 3 vnode_rlp (st_auth q)); [|done|done|intros x Hx Hfx; by apply vnode_rt; auto].
  cbn [rbind]. unfold status_norm. f_equal. f_equal.
  - destruct (st_interval q) as [i|]; simpl; [|done]. destruct (N.eqb_spec i 0) as [->|]; [done|]. by destruct i.
  - destruct (st_config q) as [c|]; simpl; [|done].
    destruct (decide (c = durcfg_default)) as [->|Hn]; [done|].
    destruct c as [a b c d]. unfold durcfg_default in Hn.
    destruct a; [|done]. destruct b; [|done]. destruct c; [|done]. destruct d; [congruence|done].
Qed.
Lemma aggchoke_rt q : wf_aggchoke q -> fits (aggchoke_rlp q) -> dec_aggchoke spill (enc (aggchoke_rlp q)) = Ok q.
Proof.
  intros [? ?] Hf. unfold dec_aggchoke, aggchoke_rlp in *. rt Hf.
  do 2 (rv Hf; rewrite u64_enc by done; cbn [rbind]). rv Hf. rewrite dec_str_enc by done; cbn [rbind].
  erewrite (list_at_enc spill _ 3 RStr (ac_voters q)); [|done|done|intros x Hx Hfx; by apply dec_str_enc].
  by destruct q.
Qed.
Lemma upfrom_rt q : wf_upfrom q -> fits (upfrom_rlp q) -> dec_upfrom spill (enc (upfrom_rlp q)) = Ok q.
Proof.
  intros H Hf. unfold dec_upfrom, upfrom_rlp in *. destruct q as [q|q|q]; simpl in H.
  all: rt Hf; rv Hf; rewrite u8_enc by done; cbn [rbind].
  all: cbn [N.eqb Pos.eqb]; rv Hf; rewrite ?aggvote_rt, ?aggchoke_rt by done; done.
Qed.
Lemma choke_rt q : wf_choke q -> fits (choke_rlp q) -> dec_choke spill (enc (choke_rlp q)) = Ok q.
Proof.
  intros (? & ? & ?) Hf. unfold dec_choke, choke_rlp in *. rt Hf.
  do 2 (rv Hf; rewrite u64_enc by done; cbn [rbind]). rv Hf. rewrite upfrom_rt by done. by destruct q.
Qed.
Lemma schoke_rt q : wf_schoke q -> fits (schoke_rlp q) -> dec_schoke spill (enc (schoke_rlp q)) = Ok q.
Proof.
  intros ? Hf. unfold dec_schoke, schoke_rlp in *. rt Hf.
  rv Hf. rewrite dec_str_enc by done; cbn [rbind]. rv Hf. rewrite choke_rt by done; cbn [rbind].
  rv Hf. rewrite dec_str_enc by done; cbn [rbind]. by destruct q.
Qed.

Context {T : Type} (tenc : T -> bytes) (tdec : bytes -> option T) (Hc : codec_ok tenc tdec).
Lemma dec_t_enc t : fits (RStr (tenc t)) -> dec_t tdec (enc (RStr (tenc t))) = Ok t.
Proof. intros Hf. unfold dec_t. rewrite dec_str_enc by done. cbn [rbind]. by rewrite Hc. Qed.
Lemma proposal_rt q : wf_proposal q -> fits (proposal_rlp tenc q) ->
  dec_proposal tdec spill (enc (proposal_rlp tenc q)) = Ok q.
Proof.
  intros (H1 & H2 & H3) Hf. unfold dec_proposal, proposal_rlp in *. rt Hf.
  do 2 (rv Hf; rewrite u64_enc by done; cbn [rbind]). rv Hf. rewrite dec_str_enc by done; cbn [rbind].
  rv Hf. rewrite dec_opt_enc; [|done|intros a Ha Hfa; apply polc_rt; [by apply H3|done]]. cbn [rbind].
  rv Hf. rewrite dec_str_enc by done; cbn [rbind].
  rv Hf. rewrite dec_t_enc by done; cbn [rbind]. by destruct q.
Qed.
Lemma sproposal_rt q : wf_sproposal q -> fits (sproposal_rlp tenc q) ->
  dec_sproposal tdec spill (enc (sproposal_rlp tenc q)) = Ok q.
Proof.
  intros H Hf. unfold dec_sproposal, sproposal_rlp in *. rt Hf.
  rv Hf. rewrite dec_str_enc by done; cbn [rbind]. rv Hf. rewrite proposal_rt by done. by destruct q.
Qed.
Lemma commit_rt q : wf_commit q -> fits (commit_rlp tenc q) ->
  dec_commit tdec spill (enc (commit_rlp tenc q)) = Ok q.
Proof.
  intros [? ?] Hf. unfold dec_commit, commit_rlp in *. rt Hf.
  rv Hf; rewrite u64_enc by done; cbn [rbind]. rv Hf. rewrite proof_rt by done; cbn [rbind].
  rv Hf. rewrite dec_t_enc by done; cbn [rbind]. by destruct q.
Qed.
Lemma wallock_rt q : wf_wallock q -> fits (wallock_rlp tenc q) ->
  dec_wallock tdec spill (enc (wallock_rlp tenc q)) = Ok q.
Proof.
  intros [? ?] Hf. unfold dec_wallock, wallock_rlp in *. rt Hf.
  rv Hf; rewrite u64_enc by done; cbn [rbind]. rv Hf. rewrite aggvote_rt by done; cbn [rbind].
  rv Hf. rewrite dec_t_enc by done; cbn [rbind]. by destruct q.
Qed.
Lemma walinfo_rt q : wf_walinfo q -> fits (walinfo_rlp tenc q) ->
  dec_walinfo tdec spill (enc (walinfo_rlp tenc q)) = Ok q.
Proof.
  intros (H1 & H2 & H3 & H4) Hf. unfold dec_walinfo, walinfo_rlp in *. rt Hf.
  do 2 (rv Hf; rewrite u64_enc by done; cbn [rbind]).
  rv Hf. rewrite u8_enc by apply step_u8_lt. cbn [rbind]. rewrite step_rt. cbn [rbind].
  rv Hf. rewrite dec_opt_enc; [|done|intros a Ha Hfa; apply wallock_rt; [by apply H3|done]]. cbn [rbind].
  rv Hf. rewrite upfrom_rt by done. by destruct q.
Qed.
End R.
