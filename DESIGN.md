# A Rocq model of nervosnetwork/overlord

Source under study: `/repo/src` (Rust, overlord 0.4.2). Nothing is run; the model is a
hand translation, function by function, with file/line citations on every definition.

## 1. Layers of the model (rocq/theories)

Model files (definitions only carry citations of `/repo`):

| file | models | style |
|---|---|---|
| `Base.v` | bytes (`list byte`), u64/u32 wrap-around, `res` = Ok / Err / Panic, byte-lexicographic order | total functions |
| `Types.v` | `types.rs`, `smr_types.rs`, `wal_type.rs`, `error.rs`, `DurationConfig` | records, parametric in the block content `T` |
| `Rlp.v` | the `rlp` 0.5 crate (encoder, `Rlp::prototype/val_at/list_at`) | bytes to bytes |
| `Codec.v` | `codec.rs`, every Encodable/Decodable impl | functions, panics explicit |
| `Auth.v` | `auth_manage.rs`, `rand_proposer.rs`, `bit-vec` packing, the PCG generator | functions |
| `Collection.v` | `collection.rs` (proposal, vote, choke collectors) | gmap operations |
| `Smr.v` | `state_machine.rs` + `smr/mod.rs` | `smr_step : trigger -> smr -> smr * events * result` |
| `Timer.v` | `timer.rs`, `timer_config.rs` | `set_timer`, `timer_trigger` |
| `Verify.v` | `parallel.rs` | function of a crypto oracle record |
| `State.v` | `process.rs` | state/output/error monad; outputs are a list of actions in program order |
| `Node.v` | `overlord.rs::run`: State + SMR + Timer + their channels and spawned tasks | `nstep : label -> node -> option (node * log)`, labels = schedule |
| `StateHist.v` (defs) | the event loop seen from the state module: `react`, `run` | inductive runs |
| `P_Agree.v` (specification part) | many instances, crashes, restarts, Byzantine validators | `network` over complete node runs |

Specification vocabulary independent of the model: `Spec.v`, `CollSpec.v`, `CodecSpec.v` and the
`Specification` section at the head of each `P_*.v`.

Proof files: `SmrProofs SmrSteps TimerProofs` (state machine, timer), `AuthProofs`, `CollProofs`,
`CodecProofs CodecRound`, `StateTac StateProofs StateRun StateSteps StateQc` (state module:
inversion of each handler, invariants over runs), `NodeSafe NodeVerify NodeHeld NodeVotes VoteOrder
NodeLock NodeLive` (invariants over schedules and endless executions of a whole instance), `LockEv LockRules Agree` (votes, locks
and the quorum argument), `StateEx NodeEx NetEx` (executable examples and checkers that lift a
boolean computation to the inductive definitions). Final theorems are in `P_*.v`, each followed by
`Print Assumptions` and an `Example` meeting its hypotheses.

External behaviour is an *oracle*: the `Consensus`, `Crypto` and `Wal` trait objects become
an `env` record passed to each handler invocation and universally quantified in every
theorem. Crash points are prefixes of action lists. HashMap iteration order is the order of
`map_to_list`; theorems show where it cannot matter.

u64 arithmetic that can overflow is modelled as the release build does it (wrap modulo
2^64, `w64`); theorems carry the no-overflow guard only where it is needed. u32 likewise.

## 1b. Trusted base

* **Coq 8.16.1's kernel** (and its `vm_compute`, used for closed boolean computations in examples
  and refutations). No plugin, no functor, no module type, no axiom, no `Admitted`.
* **`Print Assumptions`** under every theorem prints `Closed under the global context`: no theorem
  rests on an axiom, not even one of the standard library. (`coqchk`-style listings of the loaded
  *libraries* show the axioms of `Coq.ssr.ssrunder`, loaded through std++'s ssreflect; no
  theorem depends on them.)
* **The reading of the code.** What ties the theorems to `/repo` is that each model definition
  says what the cited lines say.

Modelled: all of `codec.rs`, `types.rs`, `error.rs` (as constants), `state/collection.rs`,
`state/parallel.rs`, `state/process.rs`, `smr/*`, `timer.rs`, `utils/auth_manage.rs`,
`utils/rand_proposer.rs`, `utils/timer_config.rs`, `wal.rs`/`wal_type`, `overlord.rs::run`, the
message path of `OverlordHandler`.

Modelled from knowledge of other crates, not from `/repo`:
* `rlp` 0.5 (`Rlp.v`): only what `codec.rs` uses. One detail that differs between patch releases
  (whether an item's declared length may reach past the slice it was cut from) is the parameter
  `spill : bool`; every theorem holds for both values.
* `bit-vec` packing; the `rand_pcg`/`rand_core` stream used by `rand_proposer.rs`.
* `prime_tools::get_primes_less_than_x` is an oracle (`lcfg`), arbitrary in all theorems.
* `HashMap`: `gmap`; where Rust iterates over a HashMap the model uses `map_to_list`'s order, and
  C11 shows that the order is irrelevant for counting.

Oracles (universally quantified, may answer differently at every call): `Crypto::{hash, sign,
verify_signature, aggregate_signatures, verify_aggregated_signature}`, `Consensus::{get_block,
check_block, commit, broadcast_to_other, transmit_to_relayer, get_authority_list}`, `Wal::{save,
load}`. A node's verification functions are a fixed `crypto` per instance in `Node.v` (signature
verification is deterministic), while signing may fail at any call.

Atomicity in `Node.v`: one iteration of `State::run`'s `select!` loop is one move although it
`await`s callbacks. This loses no behaviour: the state module is the only task reading or writing
`State`, its queues are unbounded FIFO channels which other tasks only append to, and what others
append during an iteration is read in a later one, so every real interleaving is equivalent to one
in which those appends happen after the iteration. Within a move the actions are logged in program
order and a crash can happen after any prefix (C32, C34, C35, C28). Two details of this argument:
whether the state machine's receiver is still alive when a trigger is sent is sampled once per
iteration, and the panics of spawned tasks (verification, block check) end only those tasks.

Not modelled: tracing/log output, `Context` values, `Instant`/`sleep` durations inside
`handle_commit` (a pure delay), `Arc`/`RwLock` plumbing, tokio's executor (replaced by an
arbitrary scheduler: no fairness, a `Delay` fires at an arbitrary time after it was armed), memory
exhaustion, JSON text (documents are trees, `Serde.v`), debug-build overflow checks (the model wraps as the
release build does).

Found while modelling (each is a theorem `..._refuted` or part of a property's text): sub-quorum
certificates accepted (C16), proof of lock not tied to the proposal (C17), certificates inside
chokes unverified (C18), outsiders' chokes counted (C19), unverified early messages (C20), votes
after a commit (C27), agreement broken in three ways (C28), double vote after a height change
(C35), panics while decoding (C04), panic on Stop (C46), stuck height after a failed WAL write
(C44), content replaced under a checked hash (C38), u32 weight overflow (C11), lossy `Status`
codec (C02), round wrap-around at 2^64-1 (C21), a leader left without address after a failed record
write (C58), early messages checked against the list in force on arrival (C61), validators deadlocked
in different rounds (C64).

## 2. Plan per property

C01 Rlp+Codec; prove per type `decode (encode v) = Ok v` from item-splitting lemmas.
C02 same; characterise by a normalisation function; `_refuted` witness for identity.
C03 from C01 (injectivity) and list-arity argument for disjointness.
C04 `_refuted` by witness bytes; plus exact theorem: panics only through those two tags.
C05 sort uniqueness under permutation (StronglySorted + NoDup), `get_leader` = `get_proposer`.
C06 arithmetic mod n, for an arbitrary value of the prime multiplier (prime_tools is an oracle).
C07 counting lemma over intervals of digits; PCG included and checked on the repo's vector.
C08 weights of bit-selected addresses; inclusion-exclusion over NoDup lists.
C09 pack/unpack of bits, MSB first, padding.
C10-C15 invariants over operation sequences; refinement to "first vote per address" spec.
C16-C19 `_refuted` witnesses on Verify/State; partial theorems for what is checked.
C20 `_refuted` on Node (a schedule); partial: for schedules in which the height does not change between queueing and dequeuing.
C21-C27 invariants of `smr_step` over all trigger lists.
C28 P_Agree: a network = for each honest validator a list of complete instance runs (Node), each cut by a crash at any action and restarted from the last stored record. Rules for votes (LockRules) are proved of every such life (NodeLock), then the quorum argument (Agree). Three hypotheses the code does not ensure (certs_genuine, votes_fresh, unlocks_justified) make it `_partial`; P_AgreeEx refutes agreement without each of them by concrete four-node networks in which everything else holds.
C29-C31 Smr/Timer case analysis, stated over all states.
C32 prefix statement over the action list of every State step.
C33-C34 State/Smr restart functions.
C35 `_refuted` on Node; partial: a `life` = any sequence of (boot, schedule prefix, crash, restart from the last stored record); votes cast for events of the node's own height have strictly increasing (height, round, step) positions (VoteOrder.v: position of the SMR, of the events in flight, of the stored record).
C36-C44, C48 State invariants over all input histories / single-step specifications.
C45, C47 Node invariants over all schedules.
C49 State invariant over all runs (P_Record.v), from the sources of certificates and blocks (StateRun.v).
C50 Node invariant: no task ends (P_Safe.v), for every schedule and every received content.
C51 Infinite executions of Node (P_Live.v): invariant `live` (NodeLive.v: a timeout for the current step is always in the timer's queue, asleep, expired or reported), then a draining argument per queue under fairness. P_LiveEx: an endless fair execution.
C52 Node (P_Cause.v): invariant `cinv` (every queued trigger, event and check result has its cause earlier in the log; the lock has a certificate trigger or the record behind it), joined with C38, C41 and the position invariant of VoteOrder. P_CauseEx: a follower that prevotes, locks, precommits and commits.
C53 Infinite executions of Node (P_Decide.v): what one height keeps (blocks and certificates), what is made of a certificate (P_Decide `pubR`), then draining the state machine's queue. P_DecideEx: a schedule followed by silence is a fair execution; a follower that meets the hypotheses.
C54 Finite runs of Node (P_Quorum.v): what a height keeps of votes and certificates (`fwdR`), every timely vote of a validator is stored or its certificate is there, counting finds the quorum (from C10, C11). P_QuorumEx: the leader B collects A's and C's prevotes.
C55 StateRun (P_Accept.v): everything sent is signed by the instance (`signedR`, over every handler), certificates are built as in C39; composed with the model of parallel.rs (Verify.v).
C56 Endless fair executions of Node (P_Answer.v): a block to be checked is a proposal for the state machine (`chkR`), the state machine comes to it (`reached`, by draining its channel), the order to vote is treated in its round (`vote_treated`) and obeyed (`obey_vote`). P_AnswerEx: A follows B through height 1.
C57 As C56: a certificate that meets the finished check is a trigger (`polka_trigger`), the certificate stays retrievable by round (`idR`) and the block by hash, so the lock can be recorded and the precommit is cast.
C58 Invariant over `noderun` (`linv`): the round of the last NewRound event the state took (or the one it started in) is where the chain of queued events begins (`evs_run`), and the address votes go to (`dest`) is the leader computed then; only a NewRound event changes it (`ld_react`).
C59 `Serde.v`: documents are trees (null, number, string, array, object); the derived implementations and the two hand-written ones (serde_hex, serde_multi_hex) are functions from and to them. Round trip per type by one lemma on objects with distinct keys (`fields_zip`); order, unknown, double and missing entries by lemmas on `fields`.
C60 `P_Choke.v`: who choked a round only grows within a height (a relation kept by every handler, `chkR`, start included), so the quorum is in the collector when the last choke is counted; `max_round_spec` finds a round at least the current one. Liveness by draining the trigger queue as in C53, then the order by C51.
C61 `P_Early.v`: a relation kept by every handler (`earlyR`: what is stored for later heights and rounds stays, the height only grows), so what was stored when it came is there when the height is entered; `goto_new_height` sends everything it finds for the new height to verification (`goto_reverify`). For rounds: every stored proposal of the height is by the leader of its round (`noderun_props`), and a new round replays the one stored for it.
C62 `P_Stall.v`: inside a round every order of the state machine is a choke order or raises the rank of its step (`stays_ranks`, `rank_run`), the rank is bounded, and an instance never waits for ever (C51's `never_waits`), so a choke order comes (`brake_ordered`). It reaches the state module (C51's queues) while the chain of events (VoteOrder) says the module is in the round of the order, and is obeyed (`brake_obeyed`).
C63 `P_Together.v`: a family of executions on one clock. By C62 each validator chokes the round again and again; the treated choke order pins its state module to the round (`pinned`: the chain of events VoteOrder keeps it there as long as the state machine stays, `pinned_step`). So each hears every other's choke while in the round, and its own next choke is one too many: C60 orders the next round and it is entered, which a pinned module contradicts. No classical reasoning: at each step either somebody is seen to be out or the argument goes on.
C64 `P_Deadlock.v`: `_refuted` by a concrete lasso (a prefix of 252 moves and a cycle of 41 of three instances on one clock): the nodes after the cycle equal the nodes before it (decidable equality of nodes), so going round for ever is an execution; fairness, delivery, authenticity and the stall are checked once over the prefix and two turns and carried over by periodicity (`lasso_step`, `lasso_later`, `family`). `P_Lag.v`: which reasons of a later choke do lead on (`pushes`: read before round k, the trigger orders round k or later; `push_ordered`: what waits in the trigger channel is read; then the order is treated as in C60).
C65 `P_Commit.v`: the last vote of the quorum to be taken is found (`last_gathered`); C54 at that moment gives the certificate, or one came before, which was either foreign or the instance's own; for the latter C39 and the intersection of two quorums show that it says the same (`made_for`). C57 and C53 then apply to everybody the certificate gets to. The third theorem chains the two.
C66 `P_Commit.v`: the quorum is walked through member by member: C56 (without a lock) or C67 (locked on the block) makes each of them answer the proposal with a prevote or names what hindered it; the prevotes and precommits that are cast reach the collector by hypothesis, and C65 does the rest. `P_CommitEx.v` shows the hypotheses met by three of four validators, who all commit.
C67 `P_Locked.v`: as C56, with the lemma that however a locked state machine leaves the propose step by a proposal or its timer, it orders a prevote for its own block or is unlocked for another (`smr_locked`); that a locked machine works on the locked block is an invariant of every run (`noderun_lock_ok`); the record of the vote needs the certificate of the lock, which the instance keeps for the height. `P_LockedEx.v` shows a validator locked in round 0 that votes in round 1.
C68 `P_Waiting.v`: inside the propose step the state machine orders nothing but chokes (`stays_quiet`), and by C51 it orders something, so it leaves the step (`comes_to_an_end`); leaving by a proposal or its timer is ordering a prevote (`leaves_voting`, for locked ones `smr_locked`), and the order is obeyed (`prevote_obeyed`). `P_WaitingEx.v`: a locked validator that gets no proposal. A timeout of the choke step changes nothing in the propose step (`brake_quiet`), because it can not come before the choke step has been reached (`noderun_brk`, see C69).
C69 `NodeBrake.v`, `P_Timely.v`: invariant `brk`: the events in the channel to the timer, the running timeouts, the ones that ran out and the timeouts in the channel to the state machine are all of positions the state machine has reached; kept because its position never goes back (`smr_step_pos`), because it asks for the timeout of a step when entering it (`brk_emitted`), and because the state module sends no timeouts (`nobrk_react`, `nobrk_start`). Invariant `tinv`: each of them was asked for, started, ran out. `P_TimelyEx.v`: a history in which the timeouts of all four steps are treated.
C46 `_refuted` on Node; what does hold after `handle_msg(Stop)`.
