(** * Smr: the state machine (src/smr/state_machine.rs, src/smr/mod.rs).

    A handler is a state/output/result computation [SM]: it updates the fields of
    [StateMachine], appends the events it sends (in program order) and returns
    [Ok], [Err] or [Panic]. The two event channels may be closed (receiver dropped); whether
    they are open during the step is given by [chans]. *)
From Verif Require Export Types.

(** state_machine.rs:20 [StateMachine] (the channel ends are in [chans] and the outputs) *)
Record smr := mkSmr {
  m_height : N; m_round : N; m_step : step; m_hash : bytes; m_lock : option lock }.
Global Instance smr_eq_dec : EqDecision smr.
Proof. solve_decision. Defined.

(** state_machine.rs:91-99 initial value *)
Definition smr_init : smr := mkSmr INIT_HEIGHT INIT_ROUND SCommit [] None.

(** What the machine sends: on the channel to the state module ([event.0]) or on the channel
    to the timer ([event.1]). *)
Inductive sout := ToState (e : smr_event) | ToTimer (e : smr_event).
Global Instance sout_eq_dec : EqDecision sout.
Proof. solve_decision. Defined.

(** Are the receivers of [event.0] / [event.1] still alive? *)
Record chans := mkChans { ch_state : bool; ch_timer : bool }.
Definition open_chans : chans := mkChans true true.

Definition SM (A : Type) := smr -> smr * list sout * res A.
Definition sret {A} (a : A) : SM A := fun m => (m, [], Ok a).
Definition serr {A} (e : cerr) : SM A := fun m => (m, [], Err e).
Definition spanic {A} : SM A := fun m => (m, [], Panic).
Definition smod (f : smr -> smr) : SM unit := fun m => (f m, [], Ok tt).
Definition sget {A} (f : smr -> SM A) : SM A := fun m => f m m.
Definition sbind {A B} (x : SM A) (k : A -> SM B) : SM B := fun m =>
  match x m with
  | (m1, o1, Ok a) => let '(m2, o2, r) := k a m1 in (m2, o1 ++ o2, r)
  | (m1, o1, Err e) => (m1, o1, Err e)
  | (m1, o1, Panic) => (m1, o1, Panic)
  end.
Notation "x ;;s y" := (sbind x (fun _ => y)) (at level 100, y at level 200, right associativity).

Definition set_m_height (h : N) (m : smr) : smr :=
  mkSmr h (m_round m) (m_step m) (m_hash m) (m_lock m).
Definition set_m_round (r : N) (m : smr) : smr :=
  mkSmr (m_height m) r (m_step m) (m_hash m) (m_lock m).
(** state_machine.rs:514 [goto_step] *)
Definition goto_step (s : step) (m : smr) : smr :=
  mkSmr (m_height m) (m_round m) s (m_hash m) (m_lock m).
(** state_machine.rs:540 [set_proposal] *)
Definition set_proposal (h : bytes) (m : smr) : smr :=
  mkSmr (m_height m) (m_round m) (m_step m) h (m_lock m).
Definition set_m_lock (l : option lock) (m : smr) : smr :=
  mkSmr (m_height m) (m_round m) (m_step m) (m_hash m) l.
(** state_machine.rs:534 [remove_polc] *)
Definition remove_polc (m : smr) : smr := set_m_lock None m.
(** state_machine.rs:522 [update_polc] *)
Definition update_polc (hash : bytes) (round : N) (m : smr) : smr :=
  let m := set_proposal hash m in
  match hash with
  | [] => remove_polc m
  | _ => set_m_lock (Some (mkLock round hash)) m
  end.
(** state_machine.rs:467 [goto_next_round] *)
Definition goto_next_round (m : smr) : smr :=
  goto_step SPropose (set_m_round (w64 (m_round m + 1)) m).
(** state_machine.rs:457 [goto_new_height] *)
Definition smr_goto_new_height (h : N) (m : smr) : smr :=
  set_m_lock None (set_proposal [] (goto_step SPropose (set_m_round INIT_ROUND
    (set_m_height h m)))).

(** [lock.map(round)] / [lock.map(hash)], as used throughout *)
Definition lock_rnd (m : smr) : option N := l_round <$> m_lock m.
Definition lock_hsh (m : smr) : option bytes := l_hash <$> m_lock m.

Section Handlers.
Context (ch : chans).

(** state_machine.rs:438 [throw_event]: first the state's channel, then the timer's *)
Definition throw_event (e : smr_event) : SM unit := fun m =>
  if ch_state ch then
    if ch_timer ch then (m, [ToState e; ToTimer e], Ok tt)
    else (m, [ToState e], Err EThrowEvent)
  else (m, [], Err EThrowEvent).

(** state_machine.rs:449 [throw_timer_event] *)
Definition throw_timer_event (e : smr_event) : SM unit := fun m =>
  if ch_timer ch then (m, [ToTimer e], Ok tt) else (m, [], Err EThrowEvent).

(** state_machine.rs:104 [handle_brake_timeout] *)
Definition handle_brake_timeout (height round : N) : SM unit := sget (fun m =>
  if negb (height =? m_height m) || negb (round =? m_round m) then sret tt
  else throw_event (EvBrake height round (lock_rnd m))).

(** state_machine.rs:121 [handle_continue_round] *)
Definition handle_continue_round (height round : N) : SM unit := sget (fun m =>
  if negb (height =? m_height m) || (round <=? m_round m) then sret tt
  else
    smod (set_m_round (round - 1)) ;;s
    sget (fun m =>
      throw_event (EvNewRound (m_height m) (w64 (m_round m + 1)) (lock_rnd m) (lock_hsh m)
                     (FWChoke (round - 1)) None None)) ;;s
    smod goto_next_round).

(** state_machine.rs:473 [set_timer_after_wal] *)
Definition set_timer_after_wal : SM unit := sget (fun m =>
  match m_step m with
  | SPropose => throw_timer_event
      (EvNewRound (m_height m) (m_round m) (lock_rnd m) (lock_hsh m) (FWPrecommit u64_max)
         None None)
  | SPrevote => throw_timer_event (EvPrevote (m_height m) (m_round m) [] (lock_rnd m))
  | SPrecommit => throw_timer_event (EvPrecommit (m_height m) (m_round m) [] (lock_rnd m))
  | SBrake => throw_timer_event (EvBrake (m_height m) (m_round m) (lock_rnd m))
  | SCommit => spanic
  end).

(** state_machine.rs:146 [handle_wal] *)
Definition handle_wal (i : smrbase) : SM unit :=
  smod (fun m =>
    let m := goto_step (sb_step i) (set_m_round (sb_round i) (set_m_height (sb_height i) m)) in
    let m := match sb_polc i with Some l => set_proposal (l_hash l) m | None => m end in
    set_m_lock (sb_polc i) m) ;;s
  set_timer_after_wal.

(** state_machine.rs:159 [handle_new_height] *)
Definition handle_new_height (s : smrstatus) (src : tsource) : SM unit := sget (fun m =>
  match src with
  | SrcTimer => serr EOther
  | SrcState =>
      if ss_height s <=? m_height m then serr EOther
      else
        smod (smr_goto_new_height (ss_height s)) ;;s
        sget (fun m =>
          throw_event (EvNewRound (m_height m) INIT_ROUND None None (FWPrecommit u64_max)
                         (ss_interval s) (ss_config s)))
  end).

(** state_machine.rs:256-266 the common tail of [handle_proposal] *)
Definition proposal_tail : SM unit :=
  sget (fun m => throw_event (EvPrevote (m_height m) (m_round m) (m_hash m) (lock_rnd m))) ;;s
  smod (goto_step SPrevote).

(** state_machine.rs:192 [handle_proposal] ([check()] at 238 is [Ok] always: its body is
    commented out in the source) *)
Definition handle_proposal (hash : bytes) (round : N) (lr : option N) (src : tsource)
    (height : N) : SM unit := sget (fun m =>
  if negb (m_height m =? height) || negb (m_round m =? round) then sret tt
  else if step_gt (m_step m) SPropose then sret tt
  else match src with
  | SrcTimer =>
      let '(lrnd, h) := match m_lock m with
                        | Some l => (Some (l_round l), l_hash l)
                        | None => (None, []) end in
      throw_event (EvPrevote (m_height m) (m_round m) h lrnd) ;;s
      smod (goto_step SPrevote)
  | SrcState =>
      match hash with
      | [] => serr EProposal
      | _ =>
        match lr with
        | Some lockr =>
            match m_lock m with
            | Some l =>
                if l_round l <? lockr then
                  smod remove_polc ;;s smod (set_proposal hash) ;;s proposal_tail
                else if (lockr =? l_round l) && negb (bool_decide (hash = m_hash m)) then
                  serr ECorrectness
                else proposal_tail
            | None => smod (set_proposal hash) ;;s proposal_tail
            end
        | None =>
            match m_lock m with
            | None => smod (set_proposal hash) ;;s proposal_tail
            | Some _ => proposal_tail
            end
        end
      end
  end).

(** state_machine.rs:350-359 the common tail of [handle_prevote] *)
Definition prevote_tail : SM unit :=
  sget (fun m => throw_event (EvPrecommit (m_height m) (m_round m) (m_hash m) (lock_rnd m))) ;;s
  smod (goto_step SPrecommit).

(** state_machine.rs:273 [handle_prevote] *)
Definition handle_prevote (hash : bytes) (round : N) (src : tsource) (height : N) : SM unit :=
  sget (fun m =>
  if negb (m_height m =? height) then sret tt
  else if (round =? m_round m) && step_gt (m_step m) SPrevote then sret tt
  else match src with
  | SrcTimer =>
      if negb (round =? m_round m) then sret tt
      else
        (match m_lock m with Some _ => sret tt | None => smod (set_proposal []) end) ;;s
        throw_event (EvPrecommit (m_height m) (m_round m) [] (lock_rnd m)) ;;s
        smod (goto_step SPrecommit)
  | SrcState =>
      if round <? m_round m then sret tt
      else
        smod (update_polc hash round) ;;s
        (if m_round m <? round then
           smod (set_m_round round) ;;s
           sget (fun m => throw_event (EvNewRound (m_height m) (w64 (m_round m + 1))
              (lock_rnd m) (lock_hsh m) (FWPrevote round) None None)) ;;s
           smod goto_next_round
         else sret tt) ;;s
        prevote_tail
  end).

(** state_machine.rs:366 [handle_precommit] *)
Definition handle_precommit (hash : bytes) (round : N) (src : tsource) (height : N) : SM unit :=
  sget (fun m =>
  if negb (m_height m =? height) then sret tt
  else if bool_decide (m_step m = SCommit) then sret tt
  else match src with
  | SrcTimer =>
      if negb (round =? m_round m) then sret tt
      else
        smod (goto_step SBrake) ;;s
        throw_event (EvBrake (m_height m) (m_round m) (lock_rnd m))
  | SrcState =>
      match hash with
      | [] =>
          if round <? m_round m then sret tt
          else
            smod (set_m_round round) ;;s
            sget (fun m' => throw_event (EvNewRound (m_height m') (w64 (m_round m' + 1))
              (lock_rnd m) (lock_hsh m) (FWPrecommit round) None None)) ;;s
            smod goto_next_round
      | _ =>
          throw_event (EvCommit hash) ;;s
          smod (goto_step SCommit)
      end
  end).

(** state_machine.rs:45-79, one trigger. [Ok true]: the stream yields [Some(Ok)], [Ok false]:
    it yields [None], which ends the task (smr/mod.rs:54); [Err]: logged, the loop goes on
    (smr/mod.rs:52); [Panic]: an [assert!]/[unwrap]/[unreachable!] fires. *)
Definition smr_step (t : trigger) : SM bool :=
  match t_type t with
  | TNewHeight s => handle_new_height s (t_src t) ;;s sret true
  | TProposal =>
      handle_proposal (t_hash t) (t_round t) (t_lock_round t) (t_src t) (t_height t) ;;s sret true
  | TPrevoteQC => handle_prevote (t_hash t) (t_round t) (t_src t) (t_height t) ;;s sret true
  | TPrecommitQC => handle_precommit (t_hash t) (t_round t) (t_src t) (t_height t) ;;s sret true
  | TBrakeTimeout =>
      match t_src t with
      | SrcTimer => handle_brake_timeout (t_height t) (t_round t) ;;s sret true
      | SrcState => spanic
      end
  | TContinueRound =>
      match t_src t with
      | SrcState => handle_continue_round (t_height t) (t_round t) ;;s sret true
      | SrcTimer => spanic
      end
  | TWalInfo =>
      match t_wal t with Some i => handle_wal i ;;s sret true | None => spanic end
  | TStop => fun m => let '(m', o, _) := throw_event EvStop m in (m', o, Ok false)
  end.

(** The machine's reaction to a list of triggers (smr/mod.rs:47 [run]): an error is logged and
    the loop goes on; [None] or a panic ends the task. *)
Fixpoint smr_run (m : smr) (ts : list trigger) : smr * list sout :=
  match ts with
  | [] => (m, [])
  | t :: ts =>
      match smr_step t m with
      | (m', o, Ok true) | (m', o, Err _) =>
          let '(m'', o') := smr_run m' ts in (m'', o ++ o')
      | (m', o, Ok false) | (m', o, Panic) => (m', o)
      end
  end.
End Handlers.

(** smr/mod.rs:82 [SMRHandler::new_height_status] *)
Definition new_height_trigger (s : smrstatus) : trigger :=
  mkTrigger (TNewHeight s) SrcState [] None INIT_ROUND (ss_height s) None.

(** Events received by the state module / the timer, in order. *)
Definition to_state (o : list sout) : list smr_event :=
  omap (fun x => match x with ToState e => Some e | _ => None end) o.
Definition to_timer (o : list sout) : list smr_event :=
  omap (fun x => match x with ToTimer e => Some e | _ => None end) o.
