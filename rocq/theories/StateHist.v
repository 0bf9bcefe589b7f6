(** * StateHist: histories of the state module.

    A run is the start (with what the WAL returned) followed by any sequence of inputs, each
    handled with any answers of the outside world. A crash point is a prefix of the action list. *)
From Verif Require Export StateTac.
Set Default Proof Using "Type".

(** What the event loop can receive (process.rs:131-190). *)
Inductive input (T : Type) :=
| IRaw (m : omsg T)       (* a message handed over by the user *)
| IEvent (ev : smr_event) (* an event of the state machine *)
| IResp (r : vresp)       (* a block was checked *)
| IMsg (m : omsg T).      (* a message from the queue of verified messages *)
Arguments IRaw {T}. Arguments IEvent {T}. Arguments IResp {T}. Arguments IMsg {T}.

Section Hist.
Context {T : Type} `{EqDecision T}.
Context (lc : lcfg) (tenc : T -> bytes) (tdec : bytes -> option T) (spill : bool).

(** process.rs:131-190: one iteration of the loop; [Ok false] ends it *)
Definition react (e : env T) (i : input T) : M T bool :=
  match i with
  | IRaw m => bind (on_raw m) (fun _ => ret true)
  | IEvent ev => on_event lc tenc e ev
  | IResp r => bind (on_resp e r) (fun _ => ret true)
  | IMsg m => bind (on_msg lc e m) (fun _ => ret true)
  end.

(** The parameters of an instance: address, initial height, interval, validators
    (process.rs:73), the environment during start and what [Wal::load] returns. *)
Record boot := mkBoot {
  b_addr : bytes; b_height : N; b_interval : N; b_vals : list vnode;
  b_env : env T; b_wal : option (option bytes) }.
Definition goes_on {A} (r : res A) : bool := match r with Ok _ => true | _ => false end.

(** [run b is o s alive]: the instance started with [b] received [is], performed [o] and is in
    [s]; [alive] unless it panicked or its loop ended. *)
Inductive run (b : boot) : list (env T * input T) -> list (action T) -> st T -> bool -> Prop :=
| run_start s o r :
    on_start lc tdec spill (b_env b) (b_wal b)
      (st_new (b_addr b) (b_height b) (b_interval b) (b_vals b)) = (s, o, r) ->
    run b [] o s (goes_on r)
| run_step is o s e i s' o' r :
    run b is o s true -> react e i s = (s', o', r) ->
    run b (is ++ [(e, i)]) (o ++ o') s' (match r with Ok true => true | _ => false end).
End Hist.
Arguments boot : clear implicits.
Arguments run {T _} lc tenc tdec spill b.

(** ** goto_new_height, unfolded *)
Section Goto.
Context {T : Type} `{EqDecision T} (e : env T) (stt : status).
(** after process.rs:398-402 *)
Definition moved (s : st T) : st T :=
  set_s_power (is_consensus_node stt (s_addr s))
    (set_s_round INIT_ROUND (set_s_height (st_height stt) s)).
Definition kept_props (s : st T) := pc_flush (s_props s) (st_height stt - 1).
Definition kept_votes (s : st T) := vc_flush (s_votes s) (st_height stt - 1).
Definition moved_full (s : st T) : st T :=
  let s := moved s in
  let s1 := set_s_auth (auth_update (st_auth stt)) s in
  let s2 := match st_interval stt with Some i => set_s_interval i s1 | None => s1 end in
  let s3 := set_s_props (pc_take_height (kept_props s) (st_height stt)).1 s2 in
  let s4 := set_s_votes (vc_take_height (kept_votes s) (st_height stt)).1 s3 in
  set_s_chokes chokecol_new (set_s_blocks ∅ s4).
Definition goto_record (s : st T) : walinfo T :=
  mkWalInfo (st_height stt) INIT_ROUND SPropose None (s_from s).
Definition goto_reverify (s : st T) : list (omsg T) :=
  (MProposal <$> default [] (pc_take_height (kept_props s) (st_height stt)).2) ++
  match (vc_take_height (kept_votes s) (st_height stt)).2 with
  | Some (vs, qs) => (MVote <$> vs) ++ (MAgg <$> qs)
  | None => []
  end.

Lemma goto_spec s :
  goto_new_height e stt s =
  if st_height stt <=? s_height s then (s, [], Ok tt)
  else if negb (is_consensus_node stt (s_addr s)) then (moved s, [], Ok tt)
  else if negb (e_save e (goto_record s)) then
    (moved s, [ASave (goto_record s) false], Err (ESaveWal (st_height stt) INIT_ROUND))
  else
    let t := new_height_trigger (status_smr stt) in
    if e_trigger e t then
      (moved_full s, ASave (goto_record s) true
         :: (AVerify (auth_update (st_auth stt)) <$> goto_reverify s) ++ [ATrigger t], Ok tt)
    else
      (moved_full s, ASave (goto_record s) true
         :: (AVerify (auth_update (st_auth stt)) <$> goto_reverify s), Err ETriggerSMR).
Proof.
  unfold goto_new_height, get. destruct (st_height stt <=? s_height s); [done|].
  unfold bind at 1, modify at 1. unfold save_wal, re_check, trigger_smr, get, ret, fail, emit, lift, modify.
  cbv beta.
  change (set_s_power _ _) with (moved s).
  change (s_power (moved s)) with (is_consensus_node stt (s_addr s)).
  destruct (is_consensus_node stt (s_addr s)) eqn:Ep; [|done]. cbn [negb].
  change (s_height (moved s)) with (st_height stt). change (s_round (moved s)) with INIT_ROUND.
  unfold bind at 2. unfold bind at 1. cbv beta.
  change (mkWalInfo _ _ _ _ _) with (goto_record s). destruct (e_save e (goto_record s)) eqn:Es; [|done]. cbn [negb].
  unfold goto_reverify, moved_full, bind.
  change (s_props (moved s)) with (s_props s). change (s_votes (moved s)) with (s_votes s).
  replace (kept_props (moved s)) with (kept_props s) by done.
  replace (kept_votes (moved s)) with (kept_votes s) by done.
  unfold kept_props, kept_votes.
  destruct (st_interval stt) as [i|];
    cbn [s_height s_round s_addr s_props s_votes s_chokes s_auth s_blocks s_full s_leader s_laddr s_from
         s_interval s_power s_stopped set_s_height set_s_round set_s_props set_s_votes set_s_chokes
         set_s_auth set_s_blocks set_s_full set_s_leader set_s_laddr set_s_from set_s_interval set_s_power moved];
    destruct (pc_take_height (pc_flush (s_props s) (st_height stt - 1)) (st_height stt)) as [pc ps] eqn:E1;
    cbn [fst snd s_votes set_s_props app];
    destruct (vc_take_height (vc_flush (s_votes s) (st_height stt - 1)) (st_height stt)) as [vc vq] eqn:E2;
    cbn [fst snd s_votes set_s_chokes set_s_blocks set_s_votes set_s_props set_s_interval set_s_auth];
    rewrite E2; destruct vq as [[vs qs]|];
    (destruct (e_trigger e (new_height_trigger (status_smr stt)));
     cbn [fst snd app]; rewrite ?fmap_app, ?app_nil_r, <-?app_assoc; reflexivity).
Qed.

Lemma goto_inv s s' o r :
  goto_new_height e stt s = (s', o, r) ->
  (st_height stt <= s_height s /\ s' = s /\ o = [] /\ r = Ok tt) \/
  (s_height s < st_height stt /\ is_consensus_node stt (s_addr s) = false /\
     s' = moved s /\ o = [] /\ r = Ok tt) \/
  (s_height s < st_height stt /\ is_consensus_node stt (s_addr s) = true /\
     s' = moved s /\ o = [ASave (goto_record s) false] /\
     r = Err (ESaveWal (st_height stt) INIT_ROUND)) \/
  (s_height s < st_height stt /\ is_consensus_node stt (s_addr s) = true /\
     s' = moved_full s /\ exists tr,
     o = ASave (goto_record s) true :: (AVerify (auth_update (st_auth stt)) <$> goto_reverify s) ++ tr /\
     ((tr = [ATrigger (new_height_trigger (status_smr stt))] /\ r = Ok tt) \/ (tr = [] /\ r = Err ETriggerSMR))).
Proof.
  rewrite goto_spec. cbv zeta. intros Hg. destruct (N.leb_spec (st_height stt) (s_height s)); simplify_eq; [by left|].
  right. destruct (is_consensus_node stt (s_addr s)); cbn [negb] in Hg; simplify_eq; [right|by left].
  destruct (e_save e (goto_record s)); cbn [negb] in Hg; simplify_eq; [right|by left].
  destruct (e_trigger e (new_height_trigger (status_smr stt))); simplify_eq; split_and!; try done.
  - eexists; split; [done|by left].
  - exists []. rewrite app_nil_r. split; [done|by right].
Qed.
End Goto.
