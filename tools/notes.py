NOTES = {
 "C21": ("proved", "Smr model. The u64::MAX guard is part of the property; C21_unguarded_refuted shows it is needed."),
 "C22": ("proved", "Smr model. If only the timer task is dead the claim fails (C22_without_timer_refuted); the theorem excludes exactly that."),
 "C23": ("proved", "Smr model, all runs from start-up incl. WAL reloads."),
 "C24": ("proved", "Smr model, one-step statements over all states and triggers."),
 "C25": ("proved", "Smr model, all runs."),
 "C26": ("proved", "Smr model, all runs."),
 "C27": ("partial", "Refuted for the code as it is (witness schedule); the partial theorem covers runs without a later-round prevote certificate or choke continuation."),
 "C29": ("proved", "Smr model, all states."),
 "C30": ("proved", "Smr+Timer models; that an armed tokio Delay eventually fires is runtime behaviour outside the model."),
 "C31": ("proved", "Timer model, all event histories."),
 "C33": ("proved", "Smr model; see also the State half."),
 "C05": ("proved", "Auth model. Prime-number helper and PCG generator are executable model functions; prime_tools is an oracle."),
 "C06": ("proved", "Auth model, default rotation (features random_leader off)."),
 "C07": ("proved", "Auth model with random_leader; the PCG stream is modelled bit for bit, the claim is about its accepted outputs."),
 "C08": ("proved", "Auth model; quorum intersection is by weight. Duplicate addresses in the authority list break it (refuted variant)."),
 "C09": ("proved", "Auth model; bitmap packing and extraction."),
 "C10": ("proved", "Vote collector, all operation histories."),
 "C11": ("proved", "counting_vote for every iteration order; C11_u32_overflow_refuted shows the 2^32 guard is needed."),
 "C12": ("proved", "Proposal collector, all operation histories."),
 "C13": ("proved", "All cache contents."),
 "C14": ("proved", "Choke collector, all histories."),
 "C15": ("proved", "Vote collector, all histories."),
 "C01": ("proved", "Rlp+Codec models; every value whose integers fit their Rust types and whose encoding is shorter than 2^64 bytes. The rlp crate is modelled from its published behaviour."),
 "C02": ("proved", "The exact loss is characterised; the identity claim is refuted by a witness."),
 "C03": ("proved", "Injectivity of the byte strings that are hashed; collision resistance of the hash is not modelled. The choke's certificate is not covered (refuted variant)."),
 "C04": ("partial", "Refuted for the code as it is; the partial theorem proves panic freedom of every other decoder and characterises exactly when the remaining four panic."),
 "C32": ("proved", "State model, every run (start, WAL contents, inputs, callback answers arbitrary) and every prefix of its actions. C32_own_choke_counted_unrecorded_refuted shows the one gap named in the property."),
 "C34": ("proved", "State model: every commit record written in any run, every restart from it. Conditions: the node is in the restart's validator set, a leader exists, the record can be written again."),
 "C36": ("proved", "State model, every run."),
 "C37": ("proved", "State model, every run in which commit answers with a higher height."),
 "C38": ("proved", "State model, every run; C38_checked_means_passed (P_Tight.v) for a whole instance, where the answer of the check is tied to the application's result. The parenthesis of the statement (content that is committed need not be checked) is witnessed by C38_committed_content_checked_refuted."),
 "C39": ("proved", "State model, every run; weights below 2^32 and distinct addresses for the two-thirds part (see C11)."),
 "C40": ("proved", "State model, every run; C40_leader_proposes gives the converse when nothing fails; C40_proposals_follow_the_lock (P_Tight.v) ties the proposal to the lock of the state machine in a whole instance."),
 "C41": ("proved", "State model, every run; validators in force are those last supplied."),
 "C48": ("proved", "State model, all states; the causes are a separate inductive specification, shown exclusive."),
 "C42": ("proved", "State model. The cache bound is for every run; it supposes the record loaded at start carries a certificate of at most 5 heights ahead (every record the node writes does, see C49)."),
 "C43": ("proved", "State model, every run."),
 "C44": ("proved", "State+Smr models. The failing-save case of the statement is witnessed by C44_failed_save_refuted."),
 "C45": ("proved", "Node model (state, SMR, timer, spawned tasks, all schedules)."),
 "C46": ("partial", "Refuted: in every reachable state taking a Stop panics the event loop. The partial theorem says exactly how far a Stop gets: SMR and timer go on, the loop never ends in an orderly way."),
 "C47": ("proved", "Node model, every schedule."),
 "C50": ("proved", "Node model, every schedule. Decoding of received bytes (C04) happens in the user's code before send_msg and is not part of the instance; a verification task that panics would only lose its message."),
 "C16": ("partial", "Refuted: one validator of four suffices (C16_quorum_refuted, a full schedule that commits). Proved for every schedule: the aggregated signature is verified over the claimed vote for exactly the selected validators of a list in force, unless the message was taken early (C20)."),
 "C17": ("partial", "Refuted: C17_lock_proof_refuted makes a locked node give up its lock with a certificate for another block. Proved for every schedule: leader, proposer signature over the whole proposal, and the aggregated signature of the lock's certificate."),
 "C18": ("partial", "Refuted: an outsider's choke commits a block with a made-up certificate. Proved: which chokes can bring a certificate in, and that nothing else comes in that way."),
 "C19": ("partial", "Refuted: three outsiders, or one outsider claiming an aggregated choke, end a round. Proved for every schedule: otherwise more than 2/3 as many distinct verified senders as there are validators choked for one round."),
 "C20": ("partial", "Refuted by a schedule without any verification. Proved for every schedule: messages are verified under the validators in force for their height or were taken early; early ones below their height are only cached; everything held for the current height has such an origin if no log write failed."),
 "C35": ("partial", "Refuted for the code as it is (C35_two_votes_in_one_round_refuted, a schedule without any fault). Proved for a whole life with any number of crashes (at every crash point) and restarts from the stored record: votes cast for an event of the node's own height are never repeated for the same height, round and type, and the stored record is never behind them. Missing: votes cast for an event of another height (the refuted case). Conditions in `life`: the node is a validator at boot or its record is not ahead of the boot height, record height > 0, trigger rounds below 2^64-1 (C21)."),
 "C49": ("proved", "State model, every run; the last theorem discharges the condition of C42."),
 "C28": ("partial", "Whole network: every honest node's life is a sequence of complete node runs (broker, state, state machine, timer, verification, WAL) with crashes; any weights, any Byzantine set below one third. Agreement is proved for every such network in which every certificate a node accepts carries genuine votes above two thirds (certs_genuine), no vote event is handled after the height it was raised in (votes_fresh), and a proposal takes a lock away only with a genuine proof of lock for another block, of a round between the lock's and the proposal's (unlocks_justified). Each of the three is broken by the code as it is: the three _refuted theorems exhibit a network that meets the other two and forks."),
 "C51": ("proved", "Node model, every endless fair execution. Fairness of the runtime's scheduler and the clock are hypotheses (record `fair`); certificates' rounds below 2^64-1; the instance is not stopped (C50). stuck_execution (P_LiveEx) exhibits an endless fair execution."),
 "C52": ("proved", "Node model (P_Cause.v), every execution of an instance. The round relation and the origin of votes assume a readable record or none (boots) and rounds below u64::MAX."),
 "C53": ("proved", "Node model (P_Decide.v), every endless fair execution (fairness and the clock as in C51). decided_execution (P_DecideEx) exhibits such an execution."),
 "C54": ("proved", "Node model (P_Quorum.v), every run up to the moment a vote is counted. Conditions: no record write failed, one validator list in force for the whole height with the instance in it, heights and rounds at least 10 below 2^64, the signature scheme aggregates. quorum_run (P_QuorumEx) meets them."),
 "C55": ("proved", "State model (P_Accept.v), every run and every message sent; the signature scheme's completeness is a hypothesis (record `understands`), shown to hold of the scheme of the examples. A certificate is accepted if the votes the sender knew for it are genuine (it may hold unverified ones: C20), a proposal with a lock if the lock's certificate is."),
 "C56": ("proved", "Node model (P_Answer.v), every endless fair execution (fairness as in C51), Crypto::sign never failing. answering_execution (P_AnswerEx) meets the hypotheses. C56_timely_proposals_are_taken: a proposal of the leader that comes in its round does go to check_block (P_Early.v, timely_applies). A locked state machine is not covered: it votes for its lock or unlocks (C28)."),
 "C57": ("proved", "Node model (P_Answer.v), every endless fair execution (fairness as in C51), Crypto::sign never failing. answering_execution (P_AnswerEx) meets the hypotheses."),
 "C58": ("proved", "Node model (P_Leader.v), every execution of an instance that boots from a readable record or none, trigger rounds below 2^64-1 (C21), votes for an event of the node's own height (C35). Exceptions are visible in the statement: a round entered with a failed record write, and a start without a record, for which C58_lost_record_refuted exhibits a vote sent to the empty address."),
 "C59": ("proved", "Serde model (Serde.v, P_Serde.v): documents as serde_json reads and writes them (trusted: what serde's derive generates, serde_json's mapping); hummer's hex functions are parameters that invert each other. Error values are not modelled, only that reading fails."),
 "C60": ("proved", "Node model (P_Choke.v): every run up to the moment a choke is counted, no matter what the chokes contain (their senders and signatures are a separate matter, C18, C19), chokes of rounds below 2^64-1, the signature scheme aggregates; then every endless fair execution (fairness as in C51). choked_run and choked_execution (P_ChokeEx) meet the hypotheses."),
 "C61": ("proved", "Node model (P_Early.v), every run. When the message arrives it is judged by the list in force then (a validator that is only in the next height's list is dropped): the hypotheses say so. After the entry: C20 treats what verification lets through. waiting_applies, taking_applies (P_EarlyEx) meet the hypotheses; waiting_verified and taking_happens show the outcome."),
 "C62": ("proved", "Node model (P_Stall.v), every fair endless execution. The two exceptions in the theorem are visible: an action ASave _ false, and `recordable` (the lock's certificate and block are at hand; process.rs clears the block pool but not the is_full map when a height is entered, so it can be false). stalled_execution (P_StallEx) is an endless execution that meets every hypothesis and in which none of the ways out ever happens; stalled_chokes applies the theorem to it."),
 "C63": ("proved", "Node model (P_Together.v): a family of instances on one clock; only the chokes of the round in question have to be delivered, anything else may be lost, delayed or forged. Assumed and visible in the statement: signing, aggregating and record writes succeed, a lock to be recorded has its certificate and block at hand (`served`), and no choke is for round 2^64-1. three_together (P_TogetherEx) meets every hypothesis with three of four validators, all stuck in round 0 at the start; three_moved shows the outcome."),
 "C64": ("partial", "Refuted (P_Deadlock.v, code finding 28): a family of three executions on one clock, a prefix and then a cycle for ever, in which three of four validators are correct, every message between them is treated, nothing is forged, nothing stays unread, and yet none ever leaves its round again. The partial theorem (P_Lag.v) says which chokes of a later round do take a lagging instance along, in every fair endless execution; lag_applies (P_LagEx) meets its hypotheses for each of the three reasons, lag_follows shows the outcome. Missing: the same for a prevote certificate of the instance's own round, which is false."),
 "C65": ("proved", "Node model (P_Commit.v): a family of instances on one clock; composes C39, C53, C54 and C57. Assumed of the collecting validator (`collects`): the list in force at the height is the one the weights are taken from, it is in it, its records are written, aggregation succeeds, and it made no certificate of the position before the observed time. Votes count when they are treated in their round (`gathers`); only the certificates have to be delivered (`certs_arrive`). Ways out are in the statements (`foreign`, `precommit_hindered`, `commit_hindered`, `drops_out`). trio_meets (P_CommitEx) meets the hypotheses of all three theorems with three of four validators; trio_commit shows that all three commit."),
 "C66": ("proved", "Node model (P_Commit.v): C56 or C67 for every member of the quorum, then C65. `takes_up`: the instance of the height treats a proposal and orders the check of the block (for a follower and for the leader alike). The way out misses_proposal says: the state machine was not free to vote for the block then (free_for: in the propose step without a lock, or locked on this block with block and certificate at hand), or prevote_hindered. Delivery is assumed only of votes that are cast and of certificates. trio_meets and trio_takes_up (P_CommitEx) meet all hypotheses with three of four validators who wait for the proposal without a lock; trio_commit shows that all three commit."),
 "C67": ("proved", "Node model (P_Locked.v). That the instance has the block and a certificate of the lock is a hypothesis about the moment of the proposal (both are kept until the height changes); that a locked state machine works on the locked block is proved for every run. locking_execution (P_LockedEx) meets the hypotheses with a validator locked in round 0 that gets a proposal of round 1; locking_votes shows the vote."),
 "C68": ("proved", "Node model (P_Waiting.v), every endless fair execution, Crypto::sign never failing. recordable: the certificate and the block of the lock that the vote claims are at hand. waiting_execution (P_WaitingEx) meets the hypotheses of both theorems: a locked validator that gets no proposal in round 1; waiting_votes shows that it prevotes its block."),
 "C69": ("proved", "Node model (NodeBrake.v, P_Timely.v), every schedule. The exclusion of TWalInfo in the first theorem: the trigger that hands the record to the state machine is no timeout. The second theorem assumes that the instance still runs (nd_on), that the record found at start is as the instance writes them (boots, with any round), and rounds below 2^64 - 1 (smr_in_range), as in C21. C69_example_hypotheses and C69_example_timeouts (P_TimelyEx): a history in which the timeouts of all four steps are treated."),
}
