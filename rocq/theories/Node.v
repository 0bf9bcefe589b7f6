(** * Node: one overlord instance (src/overlord.rs:55 [run]): the state module, the state
    machine and the timer as concurrent tasks connected by unbounded FIFO channels, together
    with the tasks they spawn (signature verification, block check, sleeping timeouts).

    The scheduler is arbitrary: a label says which task moves next. One move of the state
    module is one iteration of its [select!] loop (the branch taken is the label's choice, as
    [select!] takes any ready branch), one move of the state machine or of the timer is the
    treatment of one queued item. Moves are atomic: a task interacts with the others only
    through the channels, and what it sends in the middle of a move can be received only by
    other moves, which commute to after it. Lengths of time are not modelled: an armed timeout
    may expire at any moment, in any order. *)
From Verif Require Export StateQc Timer.
Set Default Proof Using "Type".

Section Node.
Context {T : Type} `{EqDecision T}.
Context (lc : lcfg) (tenc : T -> bytes) (tdec : bytes -> option T) (spill : bool).
(** lib.rs:132: the crypto used by the verification tasks *)
Context (cr : crypto).

Record node := mkNode {
  nd_st : st T; nd_on : bool;              (* process.rs:39; is its loop still running? *)
  nd_smr : smr; nd_smr_on : bool;          (* state_machine.rs:20; is its task still running? *)
  nd_tm : timer; nd_tm_on : bool;          (* timer.rs:22; is its task still running? *)
  nd_raw : list (omsg T);                  (* overlord.rs:35: user to state *)
  nd_trig : list trigger;                  (* smr/mod.rs:28: state and timer to SMR *)
  nd_evs : list smr_event;                 (* state_machine.rs:88: SMR to state *)
  nd_tevs : list smr_event;                (* state_machine.rs:89: SMR to timer *)
  nd_fired : list smr_event;               (* timer.rs:90: expired timeouts to timer *)
  nd_queue : list (omsg T);                (* overlord.rs:65: verified messages to state *)
  nd_resp : list vresp;                    (* process.rs:84: checked blocks to state *)
  nd_verifs : list (auth * omsg T);        (* parallel.rs:21: spawned verifications *)
  nd_checks : list (N * N * bytes * T);    (* process.rs:1597: spawned block checks *)
  nd_sleeps : list smr_event               (* timer.rs:154: armed timeouts *) }.

(** What happened, in order. *)
Inductive nlog :=
| NStart (o : list (action T)) (r : res unit)                       (* start_with_wal *)
| NSend (m : omsg T)                                                (* send_msg *)
| NState (e : env T) (i : input T) (s : st T) (o : list (action T)) (r : res bool)
    (* the state module, being in [s], treated [i], did [o] *)
| NSmr (t : trigger) (m : smr) (o : list sout) (r : res bool)       (* the SMR in [m] treated [t] *)
| NVerify (a : auth) (m : omsg T) (ok : bool)                       (* a verification ended *)
| NCheck (h r : N) (hash : bytes) (b : T) (ok : bool)               (* a block check ended *)
| NArm (e : smr_event)                                              (* the timer got an event *)
| NExpire (e : smr_event)                                           (* a timeout expired *)
| NFire (e : smr_event).                                            (* the timer treated it *)

(** The scheduler's choice, with the answers of the outside world. *)
Inductive label :=
| LSend (m : omsg T)
| LRaw (e : env T) | LEvent (e : env T) | LResp (e : env T) | LMsg (e : env T)
| LSmr
| LVerify (k : nat) | LCheck (k : nat) (ok : bool)
| LArm | LExpire (k : nat) | LFire.

Definition trigs_of (o : list (action T)) : list trigger :=
  omap (fun a => match a with ATrigger t => Some t | _ => None end) o.
Definition queued_of (o : list (action T)) : list (omsg T) :=
  omap (fun a => match a with AQueue m => Some m | _ => None end) o.
Definition verifs_of (o : list (action T)) : list (auth * omsg T) :=
  omap (fun a => match a with AVerify a m => Some (a, m) | _ => None end) o.
Definition checks_of (o : list (action T)) : list (N * N * bytes * T) :=
  omap (fun a => match a with ACheck h r x b => Some (h, r, x, b) | _ => None end) o.

(** The answers of the outside, with the state of the trigger channel. *)
Definition env_at (n : node) (e : env T) : env T :=
  mkEnv (e_crypto e) (e_get_block e) (e_commit e) (e_save e) (fun _ => nd_smr_on n).

(** After a move of the state module: new state, and what it sent and spawned. *)
Definition absorb (s : st T) (on : bool) (o : list (action T)) (n : node) : node :=
  mkNode s on (nd_smr n) (nd_smr_on n) (nd_tm n) (nd_tm_on n) (nd_raw n)
    (nd_trig n ++ trigs_of o) (nd_evs n) (nd_tevs n) (nd_fired n)
    (nd_queue n ++ queued_of o) (nd_resp n) (nd_verifs n ++ verifs_of o)
    (nd_checks n ++ checks_of o) (nd_sleeps n).
Definition set_raw v (n : node) := mkNode (nd_st n) (nd_on n) (nd_smr n) (nd_smr_on n) (nd_tm n) (nd_tm_on n)
  v (nd_trig n) (nd_evs n) (nd_tevs n) (nd_fired n) (nd_queue n) (nd_resp n) (nd_verifs n) (nd_checks n) (nd_sleeps n).
Definition set_evs v (n : node) := mkNode (nd_st n) (nd_on n) (nd_smr n) (nd_smr_on n) (nd_tm n) (nd_tm_on n)
  (nd_raw n) (nd_trig n) v (nd_tevs n) (nd_fired n) (nd_queue n) (nd_resp n) (nd_verifs n) (nd_checks n) (nd_sleeps n).
Definition set_resp v (n : node) := mkNode (nd_st n) (nd_on n) (nd_smr n) (nd_smr_on n) (nd_tm n) (nd_tm_on n)
  (nd_raw n) (nd_trig n) (nd_evs n) (nd_tevs n) (nd_fired n) (nd_queue n) v (nd_verifs n) (nd_checks n) (nd_sleeps n).
Definition set_queue v (n : node) := mkNode (nd_st n) (nd_on n) (nd_smr n) (nd_smr_on n) (nd_tm n) (nd_tm_on n)
  (nd_raw n) (nd_trig n) (nd_evs n) (nd_tevs n) (nd_fired n) v (nd_resp n) (nd_verifs n) (nd_checks n) (nd_sleeps n).

(** process.rs:131-188: one iteration of the loop *)
Definition state_move (e : env T) (i : input T) (n : node) : node * list nlog :=
  let e := env_at n e in
  let '(s, o, r) := react lc tenc e i (nd_st n) in
  (absorb s (match r with Ok true => true | _ => false end) o n, [NState e i (nd_st n) o r]).

(** smr/mod.rs:47-58: one trigger; [None] or a panic ends the task *)
Definition smr_move (t : trigger) (n : node) : node * list nlog :=
  let '(m, o, r) := smr_step (mkChans (nd_on n) (nd_tm_on n)) t (nd_smr n) in
  (mkNode (nd_st n) (nd_on n) m (match r with Ok true | Err _ => true | _ => false end)
     (nd_tm n) (nd_tm_on n) (nd_raw n) (nd_trig n) (nd_evs n ++ to_state o)
     (nd_tevs n ++ to_timer o) (nd_fired n) (nd_queue n) (nd_resp n) (nd_verifs n) (nd_checks n)
     (nd_sleeps n), [NSmr t (nd_smr n) o r]).

Definition set_trig v (n : node) := mkNode (nd_st n) (nd_on n) (nd_smr n) (nd_smr_on n) (nd_tm n) (nd_tm_on n)
  (nd_raw n) v (nd_evs n) (nd_tevs n) (nd_fired n) (nd_queue n) (nd_resp n) (nd_verifs n) (nd_checks n) (nd_sleeps n).
Definition set_verifs v (n : node) := mkNode (nd_st n) (nd_on n) (nd_smr n) (nd_smr_on n) (nd_tm n) (nd_tm_on n)
  (nd_raw n) (nd_trig n) (nd_evs n) (nd_tevs n) (nd_fired n) (nd_queue n) (nd_resp n) v (nd_checks n) (nd_sleeps n).
Definition set_checks v (n : node) := mkNode (nd_st n) (nd_on n) (nd_smr n) (nd_smr_on n) (nd_tm n) (nd_tm_on n)
  (nd_raw n) (nd_trig n) (nd_evs n) (nd_tevs n) (nd_fired n) (nd_queue n) (nd_resp n) (nd_verifs n) v (nd_sleeps n).
Definition set_tevs v (n : node) := mkNode (nd_st n) (nd_on n) (nd_smr n) (nd_smr_on n) (nd_tm n) (nd_tm_on n)
  (nd_raw n) (nd_trig n) (nd_evs n) v (nd_fired n) (nd_queue n) (nd_resp n) (nd_verifs n) (nd_checks n) (nd_sleeps n).
Definition set_fired v (n : node) := mkNode (nd_st n) (nd_on n) (nd_smr n) (nd_smr_on n) (nd_tm n) (nd_tm_on n)
  (nd_raw n) (nd_trig n) (nd_evs n) (nd_tevs n) v (nd_queue n) (nd_resp n) (nd_verifs n) (nd_checks n) (nd_sleeps n).
Definition set_sleeps v (n : node) := mkNode (nd_st n) (nd_on n) (nd_smr n) (nd_smr_on n) (nd_tm n) (nd_tm_on n)
  (nd_raw n) (nd_trig n) (nd_evs n) (nd_tevs n) (nd_fired n) (nd_queue n) (nd_resp n) (nd_verifs n) (nd_checks n) v.
Definition set_tm t on (n : node) := mkNode (nd_st n) (nd_on n) (nd_smr n) (nd_smr_on n) t on
  (nd_raw n) (nd_trig n) (nd_evs n) (nd_tevs n) (nd_fired n) (nd_queue n) (nd_resp n) (nd_verifs n) (nd_checks n) (nd_sleeps n).

(** timer.rs:41-56 and 115: an event of the SMR reaches the timer *)
Definition arm_move (ev : smr_event) (n : node) : node :=
  match ev with
  | EvStop => set_tm (nd_tm n) false n
  | _ =>
      let '(t, r) := set_timer (nd_tm n) ev in
      let n := set_tm t true n in
      match r with
      | Ok (Some (_, e)) => set_sleeps (nd_sleeps n ++ [e]) n
      | _ => n
      end
  end.
(** timer.rs:69-73 and 161: an expired timeout reaches the timer *)
Definition fire_move (ev : smr_event) (n : node) : node :=
  match timer_trigger (nd_tm n) ev with
  | Ok (Some t) => if nd_smr_on n then set_trig (nd_trig n ++ [t]) n else n
  | _ => n
  end.

(** One move; [None] if the chosen task cannot move. *)
Definition nstep (l : label) (n : node) : option (node * list nlog) :=
  match l with
  | LSend m => Some (set_raw (nd_raw n ++ [m]) n, [NSend m])
  | LRaw e =>
      match nd_on n, nd_raw n with
      | true, m :: q => Some (state_move e (IRaw m) (set_raw q n))
      | _, _ => None
      end
  | LEvent e =>
      match nd_on n, nd_evs n with
      | true, ev :: q => Some (state_move e (IEvent ev) (set_evs q n))
      | _, _ => None
      end
  | LResp e =>
      match nd_on n, nd_resp n with
      | true, r :: q => Some (state_move e (IResp r) (set_resp q n))
      | _, _ => None
      end
  | LMsg e =>
      match nd_on n, nd_queue n with
      | true, m :: q => Some (state_move e (IMsg m) (set_queue q n))
      | _, _ => None
      end
  | LSmr =>
      match nd_smr_on n, nd_trig n with
      | true, t :: q => Some (smr_move t (set_trig q n))
      | _, _ => None
      end
  | LVerify k =>
      match nd_verifs n !! k with
      | Some (a, m) =>
          let n := set_verifs (delete k (nd_verifs n)) n in
          let ok := verify_msg tenc cr a m in
          Some (if ok then set_queue (nd_queue n ++ [m]) n else n, [NVerify a m ok])
      | None => None
      end
  | LCheck k ok =>
      match nd_checks n !! k with
      | Some (h, r, x, b) =>
          let n := set_checks (delete k (nd_checks n)) n in
          Some (if ok : bool then set_resp (nd_resp n ++ [mkVResp h r x true]) n else n, [NCheck h r x b ok])
      | None => None
      end
  | LArm =>
      match nd_tm_on n, nd_tevs n with
      | true, ev :: q => Some (arm_move ev (set_tevs q n), [NArm ev])
      | _, _ => None
      end
  | LExpire k =>
      match nd_sleeps n !! k with
      | Some ev => Some (set_fired (nd_fired n ++ [ev]) (set_sleeps (delete k (nd_sleeps n)) n), [NExpire ev])
      | None => None
      end
  | LFire =>
      match nd_tm_on n, nd_fired n with
      | true, ev :: q => Some (fire_move ev (set_fired q n), [NFire ev])
      | _, _ => None
      end
  end.

(** overlord.rs:62-107: the instance is created and [start_with_wal] runs. *)
Definition nstart (b : boot T) (cfg : option durcfg) : node * list nlog :=
  let e := b_env b in
  let e := mkEnv (e_crypto e) (e_get_block e) (e_commit e) (e_save e) (fun _ => true) in
  let '(s, o, r) := on_start lc tdec spill e (b_wal b)
      (st_new (b_addr b) (b_height b) (b_interval b) (b_vals b)) in
  (absorb s (goes_on r) o
     (mkNode s true smr_init true (timer_new (b_interval b) cfg) true [] [] [] [] [] [] [] [] [] []),
   [NStart o r]).

(** [noderun b cfg log n]: the instance started with [b], [cfg] can have history [log] and be in [n]. *)
Inductive noderun (b : boot T) (cfg : option durcfg) : list nlog -> node -> Prop :=
| noderun_start n log : nstart b cfg = (n, log) -> noderun b cfg log n
| noderun_step log n l n' log' :
    noderun b cfg log n -> nstep l n = Some (n', log') -> noderun b cfg (log ++ log') n'.

(** The same as a function of the scheduler's choices; [None] if some choice is not possible. *)
Fixpoint run_labels (ls : list label) (x : node * list nlog) : option (node * list nlog) :=
  match ls with
  | [] => Some x
  | l :: ls => match nstep l x.1 with
               | Some (n', log') => run_labels ls (n', x.2 ++ log')
               | None => None
               end
  end.
Lemma run_labels_run b cfg ls n log :
  run_labels ls (nstart b cfg) = Some (n, log) -> noderun b cfg log n.
Proof.
  assert (noderun b cfg (nstart b cfg).2 (nstart b cfg).1) as Hr.
  { destruct (nstart b cfg) as [n0 l0] eqn:E. by constructor. }
  revert Hr. generalize (nstart b cfg) as x. induction ls as [|l ls IH]; intros [n0 l0] Hr; simpl.
  - by intros [= -> ->].
  - destruct (nstep l n0) as [[n1 l1]|] eqn:E; [|done]. apply IH. simpl. by eapply noderun_step.
Qed.

(** What the state module received and did in a history. *)
Definition inputs (log : list nlog) : list (env T * input T) :=
  omap (fun x => match x with NState e i _ _ _ => Some (e, i) | _ => None end) log.
Definition actions (log : list nlog) : list (action T) :=
  concat ((fun x => match x with NState _ _ _ o _ => o | NStart o _ => o | _ => [] end) <$> log).
(** The instance's parameters as the state module sees them: the trigger channel is open. *)
Definition boot_at (b : boot T) : boot T :=
  let e := b_env b in
  mkBoot (b_addr b) (b_height b) (b_interval b) (b_vals b)
    (mkEnv (e_crypto e) (e_get_block e) (e_commit e) (e_save e) (fun _ => true)) (b_wal b).

Lemma inputs_app l1 l2 : inputs (l1 ++ l2) = inputs l1 ++ inputs l2.
Proof. apply omap_app. Qed.
Lemma actions_app l1 l2 : actions (l1 ++ l2) = actions l1 ++ actions l2.
Proof. unfold actions. by rewrite fmap_app, concat_app. Qed.

(** [i] is at the head of its channel in [n]; [n0] is [n] without it. *)
Definition popped (i : input T) (n n0 : node) : Prop :=
  match i with
  | IRaw m => exists q, nd_raw n = m :: q /\ n0 = set_raw q n
  | IEvent ev => exists q, nd_evs n = ev :: q /\ n0 = set_evs q n
  | IResp r => exists q, nd_resp n = r :: q /\ n0 = set_resp q n
  | IMsg m => exists q, nd_queue n = m :: q /\ n0 = set_queue q n
  end.
(** What a move can be. *)
Inductive nshape (n n' : node) (log : list nlog) : Prop :=
| sh_send m : n' = set_raw (nd_raw n ++ [m]) n -> log = [NSend m] -> nshape n n' log
| sh_state e i n0 s o r : nd_on n = true -> popped i n n0 ->
    react lc tenc (env_at n e) i (nd_st n) = (s, o, r) ->
    n' = absorb s (match r with Ok true => true | _ => false end) o n0 ->
    log = [NState (env_at n e) i (nd_st n) o r] -> nshape n n' log
| sh_smr t q m o r : nd_smr_on n = true -> nd_trig n = t :: q ->
    smr_step (mkChans (nd_on n) (nd_tm_on n)) t (nd_smr n) = (m, o, r) ->
    n' = mkNode (nd_st n) (nd_on n) m (match r with Ok true | Err _ => true | _ => false end)
       (nd_tm n) (nd_tm_on n) (nd_raw n) q (nd_evs n ++ to_state o)
       (nd_tevs n ++ to_timer o) (nd_fired n) (nd_queue n) (nd_resp n) (nd_verifs n) (nd_checks n)
       (nd_sleeps n) ->
    log = [NSmr t (nd_smr n) o r] -> nshape n n' log
| sh_verify k a m : nd_verifs n !! k = Some (a, m) ->
    n' = (if verify_msg tenc cr a m then set_queue (nd_queue n ++ [m]) else id)
           (set_verifs (delete k (nd_verifs n)) n) ->
    log = [NVerify a m (verify_msg tenc cr a m)] -> nshape n n' log
| sh_check k h r x b (ok : bool) : nd_checks n !! k = Some (h, r, x, b) ->
    n' = (if ok then set_resp (nd_resp n ++ [mkVResp h r x true]) else id)
           (set_checks (delete k (nd_checks n)) n) ->
    log = [NCheck h r x b ok] -> nshape n n' log
| sh_arm ev q : nd_tm_on n = true -> nd_tevs n = ev :: q -> n' = arm_move ev (set_tevs q n) ->
    log = [NArm ev] -> nshape n n' log
| sh_expire k ev : nd_sleeps n !! k = Some ev ->
    n' = set_fired (nd_fired n ++ [ev]) (set_sleeps (delete k (nd_sleeps n)) n) ->
    log = [NExpire ev] -> nshape n n' log
| sh_fire ev q : nd_tm_on n = true -> nd_fired n = ev :: q -> n' = fire_move ev (set_fired q n) ->
    log = [NFire ev] -> nshape n n' log.
Lemma nstep_inv l n n' log : nstep l n = Some (n', log) -> nshape n n' log.
Proof.
  intros Hs. destruct l; simpl in Hs.
  - injection Hs as <- <-. by eapply sh_send.
  - destruct (nd_on n) eqn:Eo; [|done]. destruct (nd_raw n) as [|m q] eqn:Eq; [done|]. injection Hs as Hs.
    unfold state_move in Hs. destruct (react _ _ _ _ _) as [[s o] r] eqn:E. injection Hs as <- <-.
    eapply (sh_state _ _ _ e (IRaw m)); [done|by exists q|exact E|done|done].
  - destruct (nd_on n) eqn:Eo; [|done]. destruct (nd_evs n) as [|m q] eqn:Eq; [done|]. injection Hs as Hs.
    unfold state_move in Hs. destruct (react _ _ _ _ _) as [[s o] r] eqn:E. injection Hs as <- <-.
    eapply (sh_state _ _ _ e (IEvent m)); [done|by exists q|exact E|done|done].
  - destruct (nd_on n) eqn:Eo; [|done]. destruct (nd_resp n) as [|m q] eqn:Eq; [done|]. injection Hs as Hs.
    unfold state_move in Hs. destruct (react _ _ _ _ _) as [[s o] r] eqn:E. injection Hs as <- <-.
    eapply (sh_state _ _ _ e (IResp m)); [done|by exists q|exact E|done|done].
  - destruct (nd_on n) eqn:Eo; [|done]. destruct (nd_queue n) as [|m q] eqn:Eq; [done|]. injection Hs as Hs.
    unfold state_move in Hs. destruct (react _ _ _ _ _) as [[s o] r] eqn:E. injection Hs as <- <-.
    eapply (sh_state _ _ _ e (IMsg m)); [done|by exists q|exact E|done|done].
  - destruct (nd_smr_on n) eqn:Eo; [|done]. destruct (nd_trig n) as [|t q] eqn:Eq; [done|]. unfold smr_move in Hs.
    destruct (smr_step _ _ _) as [[m o] r] eqn:E. injection Hs as <- <-. by eapply sh_smr.
  - destruct (nd_verifs n !! k) as [[a m]|] eqn:Ek; [|done]. injection Hs as <- <-. eapply sh_verify; [exact Ek| |done].
    by destruct (verify_msg tenc cr a m).
  - destruct (nd_checks n !! k) as [[[[h r] x] b]|] eqn:Ek; [|done]. injection Hs as <- <-.
    eapply (sh_check _ _ _ k h r x b ok); [exact Ek| |done]. by destruct ok.
  - destruct (nd_tm_on n) eqn:Eo; [|done]. destruct (nd_tevs n) as [|ev q] eqn:Eq; [done|]. injection Hs as <- <-.
    by eapply sh_arm.
  - destruct (nd_sleeps n !! k) eqn:Ek; [|done]. injection Hs as <- <-. by eapply sh_expire.
  - destruct (nd_tm_on n) eqn:Eo; [|done]. destruct (nd_fired n) as [|ev q] eqn:Eq; [done|]. injection Hs as <- <-.
    by eapply sh_fire.
Qed.
(** What the state module's move leaves alone. *)
Lemma popped_same i n n0 : popped i n n0 ->
  nd_st n0 = nd_st n /\ nd_on n0 = nd_on n /\ nd_smr n0 = nd_smr n /\ nd_smr_on n0 = nd_smr_on n /\
  nd_tm n0 = nd_tm n /\ nd_tm_on n0 = nd_tm_on n /\ nd_trig n0 = nd_trig n /\ nd_tevs n0 = nd_tevs n /\
  nd_fired n0 = nd_fired n /\ nd_verifs n0 = nd_verifs n /\ nd_checks n0 = nd_checks n /\
  nd_sleeps n0 = nd_sleeps n.
Proof. destruct i; simpl; intros (q & _ & ->); done. Qed.
(** What the timer's moves leave alone. *)
Lemma arm_same ev n : let n' := arm_move ev n in
  nd_st n' = nd_st n /\ nd_on n' = nd_on n /\ nd_smr n' = nd_smr n /\ nd_smr_on n' = nd_smr_on n /\
  nd_raw n' = nd_raw n /\ nd_trig n' = nd_trig n /\ nd_evs n' = nd_evs n /\ nd_tevs n' = nd_tevs n /\
  nd_fired n' = nd_fired n /\ nd_queue n' = nd_queue n /\ nd_resp n' = nd_resp n /\
  nd_verifs n' = nd_verifs n /\ nd_checks n' = nd_checks n.
Proof. unfold arm_move. destruct ev; try done; destruct (set_timer _ _) as [t [[[ms e]|]| |]]; done. Qed.
Lemma fire_same ev n : let n' := fire_move ev n in
  nd_st n' = nd_st n /\ nd_on n' = nd_on n /\ nd_smr n' = nd_smr n /\ nd_smr_on n' = nd_smr_on n /\
  nd_tm n' = nd_tm n /\ nd_tm_on n' = nd_tm_on n /\
  nd_raw n' = nd_raw n /\ nd_evs n' = nd_evs n /\ nd_tevs n' = nd_tevs n /\
  nd_fired n' = nd_fired n /\ nd_queue n' = nd_queue n /\ nd_resp n' = nd_resp n /\
  nd_verifs n' = nd_verifs n /\ nd_checks n' = nd_checks n /\ nd_sleeps n' = nd_sleeps n /\
  (nd_trig n' = nd_trig n \/ exists t, timer_trigger (nd_tm n) ev = Ok (Some t) /\ nd_trig n' = nd_trig n ++ [t]).
Proof.
  unfold fire_move. destruct (timer_trigger _ _) as [[t|]| |]; [|cbv zeta; split_and!; auto..].
  destruct (nd_smr_on n) eqn:E; cbv zeta; split_and!; eauto.
Qed.

(** The moves of the state module are the only ones that touch its state. *)
Lemma nstep_cases l n n' log :
  nstep l n = Some (n', log) ->
  (exists e i s o r, nd_on n = true /\ react lc tenc (env_at n e) i (nd_st n) = (s, o, r) /\
     nd_st n' = s /\ nd_on n' = (match r with Ok true => true | _ => false end) /\
     log = [NState (env_at n e) i (nd_st n) o r]) \/
  (nd_st n' = nd_st n /\ nd_on n' = nd_on n /\ inputs log = [] /\ actions log = []).
Proof.
  intros [m -> ->|e i n0 s o r Ho Hp Hr -> ->|t q m o r ? ? ? -> ->|k a m ? -> ->|k h r x b ok ? -> ->|ev q ? ? -> ->|k ev ? -> ->|ev q ? ? -> ->]%nstep_inv.
  2: left; by eauto 10.
  all: right; try done.
  - by destruct (verify_msg tenc cr a m).
  - by destruct ok.
  - destruct (arm_same ev (set_tevs q n)) as (-> & -> & _). done.
  - destruct (fire_same ev (set_fired q n)) as (-> & -> & _). done.
Qed.

(** So every theorem about runs of the state module applies to an instance in every schedule. *)
Theorem noderun_run b cfg log n :
  noderun b cfg log n ->
  run lc tenc tdec spill (boot_at b) (inputs log) (actions log) (nd_st n) (nd_on n).
Proof.
  induction 1 as [n log H|log n l n' log' Hr IH H].
  - unfold nstart in H. destruct (on_start _ _ _ _ _ _) as [[s o] r] eqn:E. injection H as <- <-.
    unfold actions. simpl. rewrite app_nil_r. by apply run_start.
  - rewrite inputs_app, actions_app. apply nstep_cases in H as [(e & i & s & o & r & H1 & E & H2 & H3 & ->)|(H1 & H2 & H3 & H4)].
    + unfold actions at 2. simpl. rewrite app_nil_r, H2, H3. rewrite H1 in IH. by eapply run_step.
    + by rewrite H3, H4, !app_nil_r, H1, H2.
Qed.
End Node.
Arguments node : clear implicits.
Arguments nlog : clear implicits.
Arguments label : clear implicits.
