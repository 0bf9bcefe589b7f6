{"id": "C01", "title": "Wire and WAL types round-trip through RLP", "statement": "For every value of SignedProposal, Proposal, PoLC, SignedVote, Vote, AggregatedVote, AggregatedSignature, Commit, Proof, SignedChoke, Choke, AggregatedChoke, UpdateFrom, Node, DurationConfig, WalInfo and WalLock, rlp::decode(rlp::encode(v)) returns exactly v.", "quantifier": "every value of every listed type whose encoding fits in memory (< 2^64 bytes) and every content type whose own Codec round-trips", "why_tests_cant": "the unit tests round-trip one random value per type; boundary lengths (0, 1, 55, 56, 255, 256 ... bytes), leading zeros and empty lists are only covered by a universal statement", "anchors": ["src/codec.rs: every Encodable/Decodable impl", "src/wal/wal_type.rs: WalInfo, WalLock"]}
{"id": "C02", "title": "Status round-trip loses information for zero interval / zero timer config", "statement": "decode(encode(status)) equals the status in which interval Some(0) and timer_config Some(all-zero) have become None; so the round trip is the identity exactly when neither of the two occurs.", "quantifier": "every Status value", "why_tests_cant": "the test only draws None/Some(3000) and random configs, so it can never hit the lossy values", "anchors": ["src/codec.rs: impl Encodable/Decodable for Status"]}
{"id": "C03", "title": "What is signed determines the message: domain separation of signing bytes", "statement": "The byte strings that are hashed and signed for a vote, a choke and a proposal never coincide across the three kinds, and two votes (or two proposals) with the same signing bytes are the same vote (proposal). A choke's signing bytes determine its height and round but not the quorum certificate it carries.", "quantifier": "every pair of votes, chokes, proposals", "why_tests_cant": "an injectivity claim over all pairs of messages", "anchors": ["src/codec.rs: Vote, Proposal, HashChoke encoders", "src/types.rs: Choke::to_hash", "src/state/parallel.rs: parallel_verify"]}
{"id": "C04", "title": "Decoding arbitrary bytes returns a value or an error, never aborts the process", "statement": "For arbitrary input bytes, decoding a network or WAL type returns Ok or Err. (The code violates this: an UpdateFrom tag other than 0,1,2 reaches unreachable!(), a WalInfo step other than 0..4 reaches panic!().)", "quantifier": "every byte string", "why_tests_cant": "the input space is all byte strings; fuzzing samples it", "anchors": ["src/codec.rs: impl Decodable for UpdateFrom, WalInfo", "src/smr/smr_types.rs: impl From<u8> for Step"]}
{"id": "C05", "title": "All nodes agree on the leader and on validator positions", "statement": "Given the same set of validators (distinct addresses) in any order, every node computes the same leader for every height and round, and reads every address bitmap as the same list of voters; the public get_leader and the internal proposer selection coincide.", "quantifier": "every validator list, every permutation of it, every height and round, every bitmap", "why_tests_cant": "ranges over all permutations and all heights/rounds", "anchors": ["src/utils/auth_manage.rs: AuthorityManage::update, get_proposer, get_voters, get_leader, extract_voters"]}
{"id": "C06", "title": "Round-robin leadership is fair within a height", "statement": "With the default leader rotation, in any window of n consecutive rounds of a height (n validators, no u64 overflow) each validator is leader exactly once, so a faulty leader cannot keep the role.", "quantifier": "every height, every starting round, every validator count", "why_tests_cant": "an unbounded number of heights, rounds and list sizes", "anchors": ["src/utils/auth_manage.rs: rotation_leader_index, get_proposer"]}
{"id": "C07", "title": "Weighted random leadership is exactly proportional to propose weight", "statement": "With feature random_leader, for every weight vector with positive sum the selected index is in range, a validator of weight 0 is never selected, and among the accepted 64-bit digits exactly weight(i) * floor(u64::MAX / sum) select validator i.", "quantifier": "every weight vector with sum in 1..2^64-1 and every random digit", "why_tests_cant": "counting over the 2^64 digits cannot be tested", "anchors": ["src/utils/rand_proposer.rs: get_random_proposer_index"]}
{"id": "C08", "title": "A certificate's voters carry more than two thirds of the weight; two quorums share an honest validator", "statement": "is_above_threshold(bitmap) is true exactly when the validators selected by the bitmap hold strictly more than 2/3 of the total vote weight; hence for any two bitmaps above threshold and any set of faulty validators holding less than 1/3 of the weight there is a validator in both that is not faulty. (Requires distinct addresses; with a duplicated address the check can be fooled.)", "quantifier": "every validator list with distinct addresses, every pair of bitmaps, every faulty set below one third", "why_tests_cant": "quantifies over all validator sets, weights and subsets", "anchors": ["src/utils/auth_manage.rs: AuthorityManage::is_above_threshold, update"]}
{"id": "C09", "title": "Bitmap of a produced certificate names exactly its voters", "statement": "When a node aggregates votes into a quorum certificate, extracting voters from the certificate's bitmap (by get_voters or the public extract_voters) yields exactly the validators whose votes were aggregated, in ascending address order, the same order in which their signatures were handed to aggregate_signatures.", "quantifier": "every validator list with distinct addresses and every set of voters among them", "why_tests_cant": "all subsets of all validator lists, including lengths not divisible by 8", "anchors": ["src/state/process.rs: generate_qc", "src/utils/auth_manage.rs: get_voters, extract_voters"]}
{"id": "C10", "title": "One vote per validator per height, round and type", "statement": "Whatever the sequence of received votes, each (height, round, type) counts at most one vote per validator address, the first one received; duplicates and conflicting later votes change nothing, so no validator's weight is counted twice or for two hashes.", "quantifier": "every sequence of vote insertions", "why_tests_cant": "all insertion sequences", "anchors": ["src/state/collection.rs: VoteCollector::insert_vote, Votes::insert, get_vote_map, get_votes"]}
{"id": "C11", "title": "Vote counting is exact and independent of hash-map iteration order", "statement": "Counting returns a hash iff the validators recorded for that hash hold more than 2/3 of the total weight; at most one hash can qualify, so the result does not depend on HashMap iteration order. (Requires total vote weight < 2^32: the accumulator is u32 and wraps, so with larger weights a real quorum is missed.)", "quantifier": "every vote history, every iteration order, every weight assignment", "why_tests_cant": "iteration order and weights are unbounded", "anchors": ["src/state/process.rs: counting_vote", "src/state/collection.rs: Votes"]}
{"id": "C12", "title": "First proposal wins", "statement": "For each height and round the proposal cache returns the first signed proposal stored for it until the height is flushed or taken; storing a different one reports an error and changes nothing; storing the same one again succeeds and changes nothing.", "quantifier": "every sequence of insert/flush/take operations", "why_tests_cant": "all operation sequences", "anchors": ["src/state/collection.rs: ProposalCollector"]}
{"id": "C13", "title": "Old heights are forgotten, newer ones kept", "statement": "flush(h) removes exactly the proposals, votes and certificates of heights below h and nothing else.", "quantifier": "every cache content and height", "why_tests_cant": "all cache contents", "anchors": ["src/state/collection.rs: ProposalCollector::flush, VoteCollector::flush", "src/state/process.rs: goto_new_height"]}
{"id": "C14", "title": "Choke counting", "statement": "The choke collector reports the highest round for which chokes of more than 2/3 of the validator count (distinct addresses) were stored, or none; a repeated choke by the same address is not counted twice.", "quantifier": "every sequence of choke insertions", "why_tests_cant": "all insertion sequences", "anchors": ["src/state/collection.rs: ChokeCollector"]}
{"id": "C15", "title": "Certificates are stored under their own coordinates", "statement": "A certificate returned by get_qc_by_id(h, r, t) has height h, round r and type t, and one returned by get_qc_by_hash(h, x, t) has height h, block hash x and type t; it is the last one stored for that key.", "quantifier": "every sequence of set_qc/insert_vote/flush operations", "why_tests_cant": "all operation sequences", "anchors": ["src/state/collection.rs: VoteCollector::set_qc, get_qc_by_id, get_qc_by_hash"]}
{"id": "C16", "title": "An accepted quorum certificate carries more than two thirds of the weight", "statement": "A certificate received from the network is only acted upon if its voters hold more than 2/3 of the vote weight and the aggregated signature verifies for exactly those voters. (The code violates the first half: the threshold result is computed and discarded.)", "quantifier": "every received certificate, validator list and crypto implementation", "why_tests_cant": "all bitmaps and validator sets", "anchors": ["src/state/parallel.rs: get_voters, verify_qc"]}
{"id": "C17", "title": "A proposal's proof of lock is a prevote certificate for that block", "statement": "A proposal carrying a lock is only accepted if lock_votes is a verified prevote certificate of the same height, with round = lock_round and block hash = the proposed hash. (The code violates this: only the aggregated signature is verified.)", "quantifier": "every received proposal", "why_tests_cant": "all combinations of lock fields", "anchors": ["src/state/parallel.rs: parallel_verify", "src/state/process.rs: handle_signed_proposal"]}
{"id": "C18", "title": "No unverified certificate reaches the state machine through a choke", "statement": "The quorum certificate carried inside a received choke is verified before it is acted upon. (The code violates this: the choke signature does not cover it and handle_signed_choke forwards it unverified; a forged aggregated choke needs only enough voter entries, repeated or foreign ones included.)", "quantifier": "every received choke", "why_tests_cant": "all adversarial certificates", "anchors": ["src/state/process.rs: handle_signed_choke, handle_aggregated_choke", "src/types.rs: Choke::to_hash"]}
{"id": "C19", "title": "Only validators' chokes count towards a round change", "statement": "The round advances by chokes only if validators making up more than 2/3 of the validator count choked. (The code violates this: choke senders are not checked against the authority list.)", "quantifier": "every sequence of received chokes", "why_tests_cant": "all senders and sequences", "anchors": ["src/state/process.rs: handle_signed_choke, check_choke_above_threshold"]}
{"id": "C20", "title": "Every message acted upon had its signature verified under the validator set of its height", "statement": "A proposal, vote or certificate changes the consensus state only if its signature was verified for its height. (The code violates this under one schedule: a message for a future height is queued unverified, and if the height advances before it is dequeued it is processed as a current message without verification.)", "quantifier": "every schedule of the event loop and every message sequence", "why_tests_cant": "depends on the interleaving of channels", "anchors": ["src/state/process.rs: run, handle_msg", "src/state/parallel.rs: parallel_verify"]}
{"id": "C21", "title": "Height and round never go back", "statement": "Processing triggers never decreases (height, round) lexicographically, other than by a WAL reload, provided certificate rounds are below u64::MAX (at u64::MAX the round wraps to 0).", "quantifier": "every trigger sequence", "why_tests_cant": "all trigger histories", "anchors": ["src/smr/state_machine.rs: all handlers"]}
{"id": "C22", "title": "A node emits at most one prevote and at most one precommit per height and round", "statement": "For any sequence of triggers (proposals, certificates, timeouts, chokes, new heights) the state machine emits at most one prevote event and at most one precommit event for each (height, round).", "quantifier": "every trigger sequence without WAL reload and without u64 overflow", "why_tests_cant": "all trigger histories", "anchors": ["src/smr/state_machine.rs: handle_proposal, handle_prevote"]}
{"id": "C23", "title": "A locked node prevotes only its lock", "statement": "While locked on a block, a node prevotes exactly that block, on proposals and on timeouts alike, unless the proposal proves a lock of a strictly higher round; a proposal proving a different block at the same lock round yields an error and no vote.", "quantifier": "every reachable state and every proposal or timeout", "why_tests_cant": "all reachable states", "anchors": ["src/smr/state_machine.rs: handle_proposal"]}
{"id": "C24", "title": "Locks are created and removed only by certificates of the current or a later round, newer proofs of lock, or a new height", "statement": "A node becomes locked on (r, H) only by a non-empty prevote certificate of its height with round r not below its round; it loses its lock only by an empty such certificate, by a proposal with a strictly newer proof of lock, by entering a new height, or by WAL reload. Timeouts and chokes never change the lock. Each of these (a certificate only while the round's prevote phase is not over) does lock or unlock.", "quantifier": "every state and trigger", "why_tests_cant": "all states and triggers", "anchors": ["src/smr/state_machine.rs: update_polc, remove_polc, handle_prevote, handle_proposal, goto_new_height"]}
{"id": "C25", "title": "A non-empty precommit is justified by a prevote certificate", "statement": "A precommit for a non-empty hash is emitted only while processing a prevote certificate for that hash of the same height, whose round is the precommit's round or the round just before it (in which case the node did not prevote in the precommit's round); timeouts only ever lead to empty precommits.", "quantifier": "every trigger sequence", "why_tests_cant": "all trigger histories", "anchors": ["src/smr/state_machine.rs: handle_prevote"]}
{"id": "C26", "title": "A commit decision is justified by a precommit certificate", "statement": "The state machine decides to commit hash H at height h only when triggered with a precommit certificate for the non-empty hash H at height h, whatever its round, and then stays in the commit step on further proposals, precommit certificates and timeouts of proposals/precommits.", "quantifier": "every trigger sequence", "why_tests_cant": "all trigger histories", "anchors": ["src/smr/state_machine.rs: handle_precommit"]}
{"id": "C27", "title": "After deciding a height the node neither votes nor decides again at that height", "statement": "Once commit has been decided at a height, no further vote or commit event for that height is produced. (The code violates this: a higher-round prevote certificate or a choke certificate takes the machine out of the commit step.)", "quantifier": "every trigger sequence", "why_tests_cant": "all trigger histories", "anchors": ["src/smr/state_machine.rs: handle_prevote, handle_continue_round"]}
{"id": "C28", "title": "Agreement", "statement": "No two honest nodes commit different blocks at the same height while validators holding less than 1/3 of the weight are Byzantine, under any message schedule and crash/restart pattern. (The code violates this in three ways, each with a forking execution: an aggregated certificate is accepted although its voters do not reach two thirds; a vote decided at one height is signed for the next if the height changes in between; a proposal proving a newer lock removes the lock instead of raising it. It holds for every execution free of these three.)", "quantifier": "every validator set, Byzantine set below one third, schedule, loss, duplication, reordering and crash pattern", "why_tests_cant": "a property of all distributed executions", "anchors": ["src/smr/state_machine.rs: handle_proposal, handle_prevote, handle_precommit"]}
{"id": "C29", "title": "Stale timeouts have no effect", "statement": "A timeout armed for a height/round other than the current one changes nothing and emits nothing; a propose, prevote or precommit timeout of the current round has no effect once the step it guards has been left (a precommit timeout only once the node committed).", "quantifier": "every state and timeout", "why_tests_cant": "all states and timeouts", "anchors": ["src/smr/state_machine.rs: handle_proposal, handle_prevote, handle_precommit, handle_brake_timeout", "src/timer.rs: trigger"]}
{"id": "C30", "title": "Every waiting step has a timeout that moves the node on", "statement": "Each event that brings the machine into the propose, prevote, precommit or brake step of a round arms a timer whose expiry, if nothing else happened, takes the machine to the next step (propose to prevote to precommit to brake; brake re-sends the choke and re-arms), so a node never waits forever without re-sending.", "quantifier": "every state before commit", "why_tests_cant": "all reachable states", "anchors": ["src/smr/state_machine.rs", "src/timer.rs: set_timer, trigger"]}
{"id": "C31", "title": "Timeout lengths", "statement": "The timeout armed for a propose/prevote/precommit event is interval*ratio/10 ms of the configuration in force, times 2^min(round,5); a brake timeout is never scaled; a new interval or configuration takes effect with the new-height event that carries it.", "quantifier": "every event sequence with rounds below 2^32 and no u64 overflow", "why_tests_cant": "all histories and configurations", "anchors": ["src/timer.rs: set_timer", "src/utils/timer_config.rs"]}
{"id": "C32", "title": "Vote only after the WAL is written", "statement": "At every crash point, any vote of the node that left it or was counted by itself, and any choke or proposal that left it, was preceded by a successful WAL write of the same height, round and step, and that record is the last one written. (The node's own choke is counted by itself before it is written, so with a failing write it is counted unrecorded.)", "quantifier": "every input, every crash point inside a handler, every WAL failure pattern", "why_tests_cant": "crash points and failure patterns are unbounded", "anchors": ["src/state/process.rs: handle_vote_event, handle_brake, handle_new_round, save_wal"]}
{"id": "C33", "title": "Restart resumes at the recorded height, round, step and lock, and does not vote again in that step", "statement": "After a crash and restart, the node's height, round and lock are those of the last WAL record, the state machine is in the recorded step, and it emits no prevote (precommit) for the recorded round if the record says the prevote (precommit) step was reached.", "quantifier": "every WAL record and every later trigger sequence", "why_tests_cant": "all records and continuations", "anchors": ["src/state/process.rs: start_with_wal, load_wal", "src/smr/state_machine.rs: handle_wal"]}
{"id": "C34", "title": "Commit is redone after a crash", "statement": "If a node crashes after recording a commit decision, restarting it calls commit again with the same height, block and proof.", "quantifier": "every state at the commit decision", "why_tests_cant": "all crash points in commit", "anchors": ["src/state/process.rs: handle_commit, start_with_wal"]}
{"id": "C35", "title": "An honest node never signs two different votes of the same type for one height and round", "statement": "Over a node's whole life, across its concurrent tasks and through any number of crashes and restarts from the write-ahead log, the votes a node signs for a (height, round, type) all carry the same hash. (The code violates this: vote events carry a height that the state module ignores, so an event of the previous height handled after a synchronised new height is signed for the new height.)", "quantifier": "every schedule of the node's tasks, every crash point, every sequence of restarts", "why_tests_cant": "interleavings of three tasks and their queues", "anchors": ["src/state/process.rs: handle_event, handle_vote_event, goto_new_height, start_with_wal, save_wal", "src/smr/state_machine.rs: handle_wal"]}
{"id": "C36", "title": "The commit callback gets a block with a matching proof", "statement": "Every call of commit(height, commit) passes the node's height, content stored for the committed hash, and a proof whose height, round, hash and signature are those of one precommit certificate stored for that height and hash; the WAL recorded the commit step before.", "quantifier": "every input history", "why_tests_cant": "all histories", "anchors": ["src/state/process.rs: handle_commit"]}
{"id": "C37", "title": "Commit is called at most once per height per run", "statement": "If commit always returns a status of a higher height, the heights of the commit calls of one run are strictly increasing.", "quantifier": "every input history", "why_tests_cant": "all histories", "anchors": ["src/state/process.rs: handle_commit, goto_new_height"]}
{"id": "C38", "title": "Only checked blocks are precommitted or committed", "statement": "The node passes a non-empty certificate to the state machine only if check_block succeeded for that hash. (It is not required to have succeeded at this height, nor for the content later committed: results are kept by hash only and for ever, and a second proposal with the same hash replaces the content.)", "quantifier": "every input history", "why_tests_cant": "all histories", "anchors": ["src/state/process.rs: handle_resp, try_get_full_txs, handle_signed_vote, handle_aggregated_vote, vote_process, handle_signed_proposal"]}
{"id": "C39", "title": "A certificate broadcast by the node is backed by a quorum of votes it holds", "statement": "Every certificate the node builds and broadcasts is for its current height and round and is backed by stored votes of the same height, round, type and hash by distinct validators holding more than 2/3 of the weight.", "quantifier": "every input history with total weight < 2^32", "why_tests_cant": "all histories", "anchors": ["src/state/process.rs: handle_signed_vote, vote_process, generate_qc, counting_vote"]}
{"id": "C40", "title": "A locked leader re-proposes its locked block with its proof of lock; an unlocked leader proposes a fresh block", "statement": "On entering a round as leader, the node broadcasts at most one proposal, for the current height and round: the locked block with lock_round and the stored prevote certificate of that round if locked, otherwise the block returned by get_block without a lock. A non-leader broadcasts none.", "quantifier": "every state and new-round event", "why_tests_cant": "all states", "anchors": ["src/state/process.rs: handle_new_round"]}
{"id": "C41", "title": "Proposals are accepted only from the leader of their height and round", "statement": "A received proposal is cached or acted upon only if its proposer is in the authority list and is the leader of the proposal's height and round.", "quantifier": "every state and proposal", "why_tests_cant": "all states and proposals", "anchors": ["src/state/process.rs: verify_proposer, handle_signed_proposal"]}
{"id": "C42", "title": "Outdated and far-future messages are dropped", "statement": "Proposals and votes of a lower height, or a lower round of the current height, and those further than 5 heights or 10 rounds ahead leave the node unchanged and produce no output; cached items therefore never lie more than 5 heights ahead.", "quantifier": "every state, message and history", "why_tests_cant": "all histories", "anchors": ["src/state/process.rs: filter_message, filter_signed_proposal, handle_aggregated_vote"]}
{"id": "C43", "title": "A node outside the validator set is silent", "statement": "While the node's address is not in the authority list it handles nothing but rich status messages: no vote, proposal, choke, certificate or commit is produced.", "quantifier": "every input history", "why_tests_cant": "all histories", "anchors": ["src/state/process.rs: run, handle_msg, goto_new_height"]}
{"id": "C44", "title": "Height follows rich status", "statement": "A rich status of a higher height moves the node to exactly that height, round 0, with its authority list and interval, saves a WAL record and moves the state machine to the same height; a status of the same or a lower height changes nothing. (This supposes that the WAL write succeeds: if it fails the node is at the new height while the state machine and the validator list stay behind, and repeating the status does not help.)", "quantifier": "every state and status", "why_tests_cant": "all states", "anchors": ["src/state/process.rs: goto_new_height"]}
{"id": "C45", "title": "The state machine is never asked to do what would abort it", "statement": "In every schedule of the node's tasks, every trigger queued for the state machine is well formed (brake timeouts come from the timer, round continuations from the state, WAL triggers carry a record whose step is not commit), so none of the state machine's assertions or unwraps can fail.", "quantifier": "every schedule of the node", "why_tests_cant": "interleavings", "anchors": ["src/smr/state_machine.rs: poll_next, set_timer_after_wal", "src/state/process.rs", "src/timer.rs"]}
{"id": "C46", "title": "Stopping through the handler ends the instance in an orderly way", "statement": "After OverlordHandler::send_msg(Stop) the instance stops without a panic. (The code violates this: the event loop asks every non-status message for its height, which is unreachable!() for Stop.)", "quantifier": "every state", "why_tests_cant": "state dependent", "anchors": ["src/state/process.rs: run", "src/types.rs: OverlordMsg::get_height"]}
{"id": "C47", "title": "The state machine never runs ahead of the state module", "statement": "In every schedule the state machine's height never exceeds the state module's height.", "quantifier": "every schedule of the node", "why_tests_cant": "interleavings of tasks", "anchors": ["src/state/process.rs: goto_new_height", "src/smr/mod.rs: new_height_status"]}
{"id": "C48", "title": "View-change reports name the right cause", "statement": "When a round other than 0 is entered, exactly one view change is reported, for the height and the round being left: a jump from another round is reported as the certificate kind and rounds that caused it; otherwise the leader reports the vote type it lacked, and a replica reports missing proposal, unchecked block, missing prevote certificate, missing precommit certificate, in this order of precedence.", "quantifier": "every state and new-round event", "why_tests_cant": "all combinations of cached items", "anchors": ["src/state/process.rs: view_change_reason, handle_new_round", "src/smr/smr_types.rs: FromWhere::to_reason"]}
{"id": "C49", "title": "Every record written to the log is self-consistent", "statement": "Whenever a record with a lock is handed to Wal::save, the lock's certificate is of the record's height; it is a prevote certificate of the lock's round or, in a commit-step record, a precommit certificate with lock round = record round; the certificate was received, self-made or loaded at start, and the stored block content is one the node proposed, received or loaded for exactly the certificate's hash.", "quantifier": "every run of the state module: every start, log content, input history and callback answers", "why_tests_cant": "a record combines five collections that are updated by different handlers; consistency must hold for every history and every save point", "anchors": ["src/state/process.rs: save_wal_with_lock_round, handle_commit, goto_new_height, handle_vote_event, handle_brake", "src/wal.rs"]}
{"id": "C50", "title": "Nothing a peer sends ends the instance", "statement": "As long as the user does not send Stop and every validator list the user supplies (at start, by a rich status, or as the answer of commit) selects a leader, no message from any peer, no callback answer and no schedule of the tasks makes the event loop, the state machine or the timer end or panic; at start only a write-ahead-log record whose decoding panics can. (With the default leader selection every list of 1 to 2^32-1 validators selects a leader; the empty list makes the first leader selection panic.)", "quantifier": "every schedule of the node's tasks, every sequence of received messages and every answer of the callbacks", "why_tests_cant": "Unwraps, unreachable!s and index operations are scattered over all handlers; a test drives a handful of message sequences, not all contents in all orders.", "anchors": ["src/state/process.rs: run, handle_msg, check_choke_above_threshold, handle_commit", "src/smr/state_machine.rs: poll_next", "src/timer.rs: run", "src/utils/auth_manage.rs: get_proposer"]}
{"id": "C51", "title": "An instance never waits for ever", "statement": "Once an instance has entered a height, and as long as it runs and is not waiting for the outcome of a commit, it acts again: whatever messages it receives or fails to receive, whatever its callbacks answer, and however its tasks are interleaved, if the tasks are scheduled fairly and sleeping timeouts expire, its state machine gives another order (vote, choke, enter a round, commit), and every order given is treated by the event loop.", "quantifier": "every endless fair execution of an instance, from every reachable state, with every input and callback answer", "why_tests_cant": "An infinite execution cannot be run, and a timeout lost in one interleaving of state machine, timer and event loop (a guard on an outdated height or round, a timeout armed before the round it belongs to) would stop the node only there.", "anchors": ["src/timer.rs: run, poll, set_timer, trigger", "src/smr/state_machine.rs: poll_next and all handlers", "src/state/process.rs: run, handle_event"]}
{"id": "C52", "title": "What a running instance votes for, locks on and commits can be traced back", "statement": "In every execution of a whole instance (message handling, block checks, signature checks, state machine, timer and the queues between them): a precommit for a block is preceded by a prevote certificate for that block that the instance received, made, or found in its record, and by a check of that block that the application ended well; the certificate is of the round of the precommit or the round before, unless the instance has gone to a later height in between. A prevote for a block is preceded by the proposal of the leader of that height and round for that block, or the instance is locked on it. Whenever the instance is locked, it had got hold of a prevote certificate for the locked block at that height and lock round and the block's check had ended well, or the lock comes from the record found at start. A block committed during operation was checked before.", "quantifier": "every execution, every interleaving of its parts, every input", "why_tests_cant": "all interleavings of four concurrent parts and all histories", "anchors": ["src/state/process.rs: run, handle_event, handle_vote_event, handle_commit, check_block, handle_resp", "src/smr/state_machine.rs: handle_proposal, handle_prevote, handle_precommit, handle_wal"]}
{"id": "C53", "title": "A decided block is committed", "statement": "In every endless fair execution of an instance whose state machine is at the same height and not yet committing: once a precommit certificate for a block whose proposal is at hand meets a finished check of that block (the certificate is received or made when the check is done, or the check ends when the certificate is there), the instance calls the application's commit with a proof for that block at that height, unless it first goes to a later height, the record of the decision cannot be written, or it is ordered to commit another block of that height for which a certificate came first.", "quantifier": "every endless fair execution, every input and every interleaving of the parts of an instance", "why_tests_cant": "a statement about infinite schedules: a test can only watch a finite prefix of some of them", "anchors": ["src/state/process.rs: handle_aggregated_vote, try_aggregate_votes, handle_resp, handle_commit", "src/smr/state_machine.rs: handle_precommit"]}
{"id": "C54", "title": "A quorum of votes becomes a certificate", "statement": "When an instance counts a vote of its current height and round, and validators holding more than two thirds of the weight of the list in force have sent it votes of that type for one hash in time (or it cast one itself) and no other votes of that height, round and type, then it broadcasts a quorum certificate for that hash and, if the check of the block is done, hands it to its state machine in the same step; or it already had a certificate of that height, round and type. Votes for other hashes, late, early, duplicate and foreign votes before that do not prevent it.", "quantifier": "every run of an instance: every interleaving of its parts and every sequence of messages before the vote", "why_tests_cant": "the votes may come in any order, from before the round began, mixed with any other messages and events", "anchors": ["src/state/process.rs: handle_signed_vote, try_aggregate_votes, handle_vote_for", "src/state/collection.rs: VoteCollector", "src/utils/auth_manage.rs: is_above_threshold"]}
{"id": "C55", "title": "What an instance sends, its peers accept", "statement": "With a signature scheme whose signatures and aggregates verify, every vote, choke and proposal an instance sends passes the signature verification of every peer; a proposal comes from the address that the sender's validator list makes leader of its height and round; and a quorum certificate passes verification under the sender's validator list if the votes it knew for it were genuine. At a restart it sends nothing but possibly a choke, which passes too. It sends nothing else.", "quantifier": "every run of an instance, every message it sends, every peer cryptography that understands its own", "why_tests_cant": "the certificate's bitmap, voter order and signing bytes must fit the verifier's for every set of voters and every validator list", "anchors": ["src/state/process.rs: sign_vote, sign_proposal, handle_brake, generate_qc, broadcast, transmit", "src/state/parallel.rs: parallel_verify, verify_qc, get_voters"]}
{"id": "C56", "title": "A proposal in time is answered with a prevote", "statement": "When an instance hands the block of a proposal for its current height to check_block while its state machine waits, unlocked, for the proposal of that round, then it is going to cast its prevote for that block in that height and round (to the leader, or into its own collection when it leads), unless it is told of a later height first, another trigger (timeout, certificate, choke, another proposal) takes the state machine out of the waiting step first, or the record of the vote cannot be written.", "quantifier": "every endless fair execution of an instance and every proposal in it", "why_tests_cant": "a liveness claim over every schedule of the tasks and every sequence of other messages and timeouts in between", "anchors": ["src/state/process.rs: handle_signed_proposal, handle_new_round, handle_vote_event", "src/smr/state_machine.rs: handle_proposal"]}
{"id": "C57", "title": "A prevote certificate in time is answered with a precommit", "statement": "When a prevote certificate of the current height and of the state machine's round meets the finished check of its block (the certificate arrives or is made by the leader after the check, or the check ends when the certificate is there) and the instance has not precommitted in that round, then it is going to cast its precommit for that block in that height and round, unless it is told of a later height first, another trigger moves the state machine out of the round's first two steps first, the record of the vote cannot be written, or it holds a prevote certificate of the same round for another block.", "quantifier": "every endless fair execution of an instance and every certificate in it", "why_tests_cant": "a liveness claim over every schedule of the tasks, and over what else is stored, replaced or flushed until the order to vote is treated", "anchors": ["src/state/process.rs: handle_aggregated_vote, try_aggregate_votes, handle_resp, handle_vote_event, save_wal_with_lock_round", "src/smr/state_machine.rs: handle_prevote_qc"]}
{"id": "C58", "title": "Votes go to the leader of their round", "statement": "A vote cast for a height the instance is at is sent to (or, by the leader itself, counted for) the leader of its height and round: the one the leader schedule gives for that height and round under the validator list in force when the instance entered the round with its record written, or, in the round an instance resumed from its record, under the validator list of its start. The qualifications are needed: an instance that starts at a height other than 0 without a record sends the votes of its first round to the empty address.", "quantifier": "every execution of an instance and every vote in it", "why_tests_cant": "the address votes go to is a leftover of the last round entered, so the claim depends on the whole history of rounds, heights, validator updates and restarts", "anchors": ["src/state/process.rs: is_proposer, handle_new_round, start_with_wal, transmit_vote, handle_vote_event", "src/smr/state_machine.rs: handle_wal, goto_next_round"]}
{"id": "C59", "title": "Values survive serde", "statement": "Every value of the serialisable types (vote and trigger kinds, steps, view change reasons, aggregated signatures, votes and chokes, round origins, validators, log records) is read back unchanged from the document serde writes of it, given that the hex coding and the block's own implementation do. A document is read the same whatever the order of its objects' entries; unknown entries are ignored, a field that is given twice or is missing makes the document an error (only the lock of a record may be missing), and no number that exceeds its type is ever read.", "quantifier": "every value of every serialisable type and every document", "why_tests_cant": "ranges over all values and all documents, including nested ones, in every order of entries", "anchors": ["src/serde_hex.rs: serialize, deserialize", "src/serde_multi_hex.rs: serialize, deserialize", "src/types.rs: VoteType, UpdateFrom, ViewChangeReason, AggregatedSignature, AggregatedVote, Node, AggregatedChoke", "src/smr/smr_types.rs: Step, TriggerSource", "src/wal/wal_type.rs: WalInfo, WalLock"]}
{"id": "C60", "title": "Enough chokes end a round", "statement": "When the instance counts a choke of its current height and round (a received one, or its own, once recorded and broadcast), and more than two thirds of the validators in number choked this height and round, each by a choke that arrived while the instance was there or by its own, then it orders its state machine to go on to a later round of the height. Once this order is given, and the state machine has not gone there already, the instance enters that round or a later one of the height, unless it is told of a later height first, whatever else arrives and whatever its records and its application do.", "quantifier": "every run of an instance and every choke counted in it; every endless fair execution and every such order given in it", "why_tests_cant": "ranges over every history before the choke and every schedule after it", "anchors": ["src/state/process.rs: handle_signed_choke, handle_brake, check_choke_above_threshold, handle_new_round", "src/state/collection.rs: ChokeCollector", "src/smr/state_machine.rs: handle_continue_round"]}
{"id": "C61", "title": "Messages that arrive early are not lost", "statement": "A proposal, vote or certificate that arrives while the instance is still at an earlier height (inside the window it accepts; the proposal by the leader of its round, the vote by a validator, as the list in force when it arrives says) is sent to verification under the new height's list in the very step in which the instance enters the message's height as a validator and records it; unless another message about the same thing (a proposal of the same height and round, a vote of the same voter and kind for the same height and round, a certificate of the same kind, height and round) that the instance also has takes its place. A proposal that arrives for the current height before its round, by that round's leader who sends no other, is taken up when the round is entered: its block is given to check_block and the state machine is told of it (C56 then answers it).", "quantifier": "every run of an instance and every message received early in it", "why_tests_cant": "ranges over every history between the arrival of a message and the entry of its height or round", "anchors": ["src/state/process.rs: handle_signed_proposal, filter_signed_proposal, handle_signed_vote, handle_aggregated_vote, goto_new_height, re_check_proposals, re_check_votes, re_check_qcs, handle_new_round", "src/state/collection.rs: ProposalCollector, VoteCollector"]}
{"id": "C62", "title": "A stalled validator keeps asking for the next round", "statement": "From any moment on, for any round of any height: the instance's state machine gets out of the round (to another round or height, or by a decision), or the instance is told of another height or is no validator any more, or it later broadcasts its signed choke of exactly this round under its own address; except that the write of its record fails, or the certificate and block of the lock it would have to record are not at hand. So an instance that stays in a round chokes it infinitely often: no schedule leaves it waiting without asking the others to move on.", "quantifier": "every endless fair execution of an instance, every round of every height, every moment", "why_tests_cant": "a liveness claim over infinite executions: every interleaving of messages, timers and application answers, with no bound on time", "anchors": ["src/smr/state_machine.rs: handle_proposal, handle_prevote, handle_precommit, handle_brake_timeout", "src/timer.rs: set_timer, trigger", "src/state/process.rs: handle_brake, save_wal_with_lock_round"]}
{"id": "C63", "title": "The validators cannot all stay in one round", "statement": "Take more than two thirds (in number) of the validators of a height, running for ever on one common clock with fair schedulers, whose signed chokes of some round of that height reach each other's state modules after a finite, arbitrary delay. Then after any moment at least one of them is out of that round: its state machine is in another round, at another height, or has decided the height, or the instance was told of another height or that it is no validator. No combination of message orders, timer expiries, silent leaders, lost proposals or withheld votes keeps all of them in the round for ever.", "quantifier": "every family of endless fair executions of instances with any delivery delays and any other messages (from Byzantine validators too), every height and round, every moment", "why_tests_cant": "a liveness claim over infinite joint executions of many instances, with unbounded delays and arbitrary other traffic", "anchors": ["src/smr/state_machine.rs: handle_brake_timeout, handle_continue_round", "src/state/process.rs: handle_brake, handle_signed_choke, check_choke_above_threshold, handle_new_round", "src/state/collection.rs: ChokeCollector", "src/timer.rs"]}
{"id": "C64", "title": "Validators that stall in different rounds come together", "statement": "Take more than two thirds of the validators of a height, correct, connected and running for ever with fair schedulers, with every message between them arriving: they do not stall for ever in different rounds of the height. What it needs of each single one: when it gets a choke of a later round of its height, it gets to the round before that one or later. (The code violates the first: a validator that entered round r+1 by a prevote certificate of round r, before the others saw that certificate in time, brings only that certificate along with its chokes; the others, past the prevote step of round r, ignore it, and it drops their chokes of round r. All three correct validators of four then choke for ever, two in round r, one in round r+1. The second holds, except for a prevote certificate of the very round the lagging validator is in: more than two thirds of chokes, or a precommit certificate for no block, or a prevote certificate of a later round, given as the reason of the choke, takes it along.)", "quantifier": "every family of endless fair executions with all messages delivered; every instance, every choke of a later round it gets", "why_tests_cant": "a liveness claim over infinite joint executions; the bad case needs one certificate to overtake the chokes, a crash right after it, and then never ends", "anchors": ["src/state/process.rs: handle_signed_choke, handle_aggregated_vote, handle_aggregated_choke, handle_brake", "src/smr/state_machine.rs: handle_prevote, handle_precommit, handle_continue_round, handle_brake_timeout"]}
{"id": "C65", "title": "Quorums whose votes reach the collecting validator decide the height", "statement": "When more than two thirds of the weight of the validators prevote in a round for one block and for nothing else, and these votes reach the validator who collects them while it is in that round, then it broadcasts a certificate for this block (unless it got one from outside), and every validator the certificate gets to, who checked the block and is not past the prevote step of the round, casts its precommit for the block. When the same happens with precommits, every validator the certificate gets to, who checked the block and did not decide before, commits the block. Chained: if the precommits of the members of the quorum also reach the collector in the round, the block is decided by everybody who checked it. The ways out are: being told of a later height, a timeout or a later certificate taking the state machine out of the step first, a failed record write, an order to commit another block.", "quantifier": "every family of endless fair executions of any number of validators with any other traffic; every height, round, block, list and quorum", "why_tests_cant": "it composes the state modules, state machines and schedulers of all validators over infinite executions; a test sees one schedule", "anchors": ["src/state/process.rs: handle_signed_vote, handle_aggregated_vote, vote_process, counting_vote, generate_qc, handle_commit", "src/smr/state_machine.rs: handle_prevote, handle_precommit", "src/state/collection.rs: VoteCollector"]}
{"id": "C66", "title": "Rounds in which proposal and votes get through decide the height", "statement": "When validators with more than two thirds of the weight take up the block proposed for a round (treat the proposal, or propose it themselves), vote for nothing else in that round, and their prevotes and precommits, when they cast them, reach the validator who collects them while it is in the round, and its certificates reach a set of validators that contains them, then the block is decided: a precommit certificate for it is made, and every validator of the set who checked the block and did not decide before commits it when it gets the certificate. The ways out are: the collector got a certificate of the round from outside; a member of the quorum was locked on another block or not waiting for a proposal when it took the block up (or locked on this block without having it or the certificate of its lock at hand), was told of a later height, was taken out of the propose or prevote step by a timeout or another certificate first, or could not write a record; a validator is told of a later height or ordered to commit another block before it commits.", "quantifier": "every family of endless fair executions of any number of validators with any other traffic; every height, round, block, list, quorum and audience", "why_tests_cant": "it composes the state modules, state machines and schedulers of all validators over infinite executions, from the proposal to the commit; a test sees one schedule", "anchors": ["src/state/process.rs: handle_signed_proposal, handle_signed_vote, handle_aggregated_vote, handle_vote_event, vote_process, handle_commit", "src/smr/state_machine.rs: handle_proposal, handle_prevote, handle_precommit", "src/state/collection.rs: VoteCollector"]}
{"id": "C67", "title": "Locked validators prevote the block they are locked on", "statement": "A validator that is locked on a block, has the block and the certificate of its lock, and takes up a proposal for this block while it waits for the proposal of the round, is going to prevote the block in this round, whether or not the proposal shows a certificate. Neither the timeout of the propose step nor proposals for other blocks keep it from this, unless such a proposal claims a lock of a later round. The other ways out are: it is told of a later height, something else than a proposal or its timeout takes it out of the propose step first, the record cannot be written, or the certificate it has of its lock's round is for another block.", "quantifier": "every endless fair execution of a validator, with any traffic; every height, round, round of the lock and block", "why_tests_cant": "it is about all schedules of the three tasks between the proposal and the vote and all other proposals, timeouts and certificates in between; a test sees one", "anchors": ["src/smr/state_machine.rs: handle_proposal", "src/state/process.rs: handle_signed_proposal, handle_vote_event, save_wal_with_lock_round"]}
{"id": "C68", "title": "Whoever waits for a proposal votes in the round, with or without one", "statement": "A validator whose state machine is in the propose step of a round is going to cast a prevote in this round, whether or not a proposal comes. If it is locked on a block, the prevote is for this block, unless a proposal for another block claims a lock of a later round. The ways out are: it is told of another height or is no validator any more; something that is neither a proposal nor the timeout of the step takes it out of the step first (a certificate, a later height, enough chokes); the record of the vote cannot be made or written.", "quantifier": "every endless fair execution of a validator, with any traffic or none; every height, round, lock and block", "why_tests_cant": "it is about all schedules of the state machine, the timer and the event loop from the propose step to the vote; a test sees one", "anchors": ["src/smr/state_machine.rs: handle_proposal", "src/timer.rs: set_timer, trigger", "src/state/process.rs: handle_vote_event"]}
{"id": "C69", "title": "No timeout comes early", "statement": "A timeout that the state machine treats was asked for by the state machine itself, then started by the timer, then ran out, then was handed on by the timer, in this order, before. And as long as the instance runs, whenever the state machine treats the timeout of a step of a round of a height, it has reached this step of this round of this height, or is beyond it.", "quantifier": "every history of a validator under every schedule of its tasks, with any traffic, any record found at start, every height, round and step", "why_tests_cant": "it is about all interleavings of the state machine, the timer and the expiries; a test waits for one timeout", "anchors": ["src/timer.rs: next, set_timer, trigger", "src/smr/state_machine.rs: throw_event, handle_brake_timeout, set_timer_after_wal"]}
