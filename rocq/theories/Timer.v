(** * Timer: src/timer.rs and src/utils/timer_config.rs.

    Durations are in milliseconds. [Duration * u32] panics on overflow of the seconds (u64);
    with at most [u64::MAX] milliseconds times 32 that cannot happen, so durations are exact
    naturals here; the u64 product [interval * ratio] wraps (release build). *)
From Verif Require Export Smr.

(** timer_config.rs:9 [TimerConfig] and timer.rs:22 [Timer] (without the channel ends) *)
Record tconfig := mkTConfig {
  tc_interval : N; tc_propose : N * N; tc_prevote : N * N; tc_precommit : N * N;
  tc_brake : N * N }.
Record timer := mkTimer { tm_config : tconfig; tm_height : N; tm_round : N }.

(** timer.rs:17 *)
Definition MAX_TIMEOUT_COEF : N := 5.

(** timer_config.rs:19 [TimerConfig::new] *)
Definition tconfig_new (interval : N) : tconfig :=
  mkTConfig interval (24, 10) (10, 10) (5, 10) (3, 10).
(** timer_config.rs:29 [set_interval] *)
Definition tc_set_interval (i : N) (c : tconfig) : tconfig :=
  mkTConfig i (tc_propose c) (tc_prevote c) (tc_precommit c) (tc_brake c).
(** timer_config.rs:33 [update] and lib.rs:190-205 (the denominators are all 10) *)
Definition tc_update (d : durcfg) (c : tconfig) : tconfig :=
  mkTConfig (tc_interval c) (dc_propose d, 10) (dc_prevote d, 10) (dc_precommit d, 10)
    (dc_brake d, 10).

(** timer_config.rs:50-64: [interval * ratio.0 / ratio.1] *)
Definition ratio_ms (interval : N) (ratio : N * N) : N := w64 (interval * fst ratio) / snd ratio.
Arguments ratio_ms : simpl never.

(** timer_config.rs:40 [get_timeout] *)
Definition get_timeout (c : tconfig) (e : smr_event) : res N :=
  match e with
  | EvNewRound _ _ _ _ _ _ _ => Ok (ratio_ms (tc_interval c) (tc_propose c))
  | EvPrevote _ _ _ _ => Ok (ratio_ms (tc_interval c) (tc_prevote c))
  | EvPrecommit _ _ _ _ => Ok (ratio_ms (tc_interval c) (tc_precommit c))
  | EvBrake _ _ _ => Ok (ratio_ms (tc_interval c) (tc_brake c))
  | _ => Err ETimer
  end.

(** timer.rs:84 [Timer::new] *)
Definition timer_new (interval : N) (cfg : option durcfg) : timer :=
  let c := tconfig_new interval in
  mkTimer (match cfg with Some d => tc_update d c | None => c end) INIT_HEIGHT INIT_ROUND.

(** timer.rs:118-136 the bookkeeping on a new-round event *)
Definition timer_note (t : timer) (e : smr_event) : timer :=
  match e with
  | EvNewRound h r _ _ _ ni nc =>
      let c := tm_config t in
      let c := match ni with Some i => tc_set_interval i c | None => c end in
      let c := match nc with Some d => tc_update d c | None => c end in
      mkTimer c (if tm_height t <? h then h else tm_height t) r
  | _ => t
  end.

(** timer.rs:115 [set_timer]: [Ok (Some (ms, e))] spawns a timeout of [ms] milliseconds for
    event [e]. *)
Definition set_timer (t : timer) (e : smr_event) : timer * res (option (N * smr_event)) :=
  let t := timer_note t e in
  match e with
  | EvCommit _ => (t, Ok None)
  | _ =>
      match get_timeout (tm_config t) e with
      | Ok ms =>
          let coef := N.min (w32 (tm_round t)) MAX_TIMEOUT_COEF in
          let ms := match e with EvBrake _ _ _ => ms | _ => ms * 2 ^ coef end in
          (t, Ok (Some (ms, e)))
      | Err x => (t, Err x)
      | Panic => (t, Panic)
      end
  end.

(** timer.rs:161 [trigger]: the trigger sent when the timeout of event [e] expires *)
Definition timer_trigger (t : timer) (e : smr_event) : res (option trigger) :=
  let mk ty r h := Ok (Some (mkTrigger ty SrcTimer [] None r h None)) in
  match e with
  | EvNewRound h r _ _ _ _ _ =>
      if (h <? tm_height t) || (r <? tm_round t) then Ok None else mk TProposal r h
  | EvPrevote h r _ _ => if h <? tm_height t then Ok None else mk TPrevoteQC r h
  | EvPrecommit h r _ _ => if h <? tm_height t then Ok None else mk TPrecommitQC r h
  | EvBrake h r _ => if h <? tm_height t then Ok None else mk TBrakeTimeout r h
  | _ => Err ETimer
  end.
