{
 "claims": [
  {
   "property": "C01",
   "status": "proved",
   "theorems": [
    "C01_vote_types_round_trip",
    "C01_choke_types_round_trip",
    "C01_block_types_round_trip"
   ],
   "note": "Rlp+Codec models; every value whose integers fit their Rust types and whose encoding is shorter than 2^64 bytes. The rlp crate is modelled from its published behaviour."
  },
  {
   "property": "C02",
   "status": "proved",
   "theorems": [
    "C02_status_round_trip",
    "C02_status_identity_refuted"
   ],
   "note": "The exact loss is characterised; the identity claim is refuted by a witness."
  },
  {
   "property": "C03",
   "status": "proved",
   "theorems": [
    "C03_signed_bytes_determine_message",
    "C03_kinds_are_separated",
    "C03_choke_certificate_unsigned_refuted"
   ],
   "note": "Injectivity of the byte strings that are hashed; collision resistance of the hash is not modelled. The choke's certificate is not covered (refuted variant)."
  },
  {
   "property": "C04",
   "status": "partial",
   "theorems": [
    "C04_decoders_return_partial",
    "C04_never_panics_refuted"
   ],
   "note": "Refuted for the code as it is; the partial theorem proves panic freedom of every other decoder and characterises exactly when the remaining four panic."
  },
  {
   "property": "C05",
   "status": "proved",
   "theorems": [
    "C05_order_of_list_irrelevant",
    "C05_positions_are_ascending_addresses",
    "C05_public_and_internal_agree",
    "C05_random_u32_sum_refuted"
   ],
   "note": "Auth model. Prime-number helper and PCG generator are executable model functions; prime_tools is an oracle."
  },
  {
   "property": "C06",
   "status": "proved",
   "theorems": [
    "C06_round_robin_fair"
   ],
   "note": "Auth model, default rotation (features random_leader off)."
  },
  {
   "property": "C07",
   "status": "proved",
   "theorems": [
    "C07_exactly_proportional",
    "C07_index_in_range_and_positive",
    "C07_zero_weight_never_leads"
   ],
   "note": "Auth model with random_leader; the PCG stream is modelled bit for bit, the claim is about its accepted outputs."
  },
  {
   "property": "C08",
   "status": "proved",
   "theorems": [
    "C08_threshold_exact",
    "C08_quorums_share_honest",
    "C08_duplicate_address_refuted"
   ],
   "note": "Auth model; quorum intersection is by weight. Duplicate addresses in the authority list break it (refuted variant)."
  },
  {
   "property": "C09",
   "status": "proved",
   "theorems": [
    "C09_bitmap_names_exactly_the_voters"
   ],
   "note": "Auth model; bitmap packing and extraction."
  },
  {
   "property": "C10",
   "status": "proved",
   "theorems": [
    "C10_first_vote_per_validator",
    "C10_later_votes_change_nothing"
   ],
   "note": "Vote collector, all operation histories."
  },
  {
   "property": "C11",
   "status": "proved",
   "theorems": [
    "C11_counting_exact_any_order",
    "C11_counting_vote",
    "C11_u32_overflow_refuted"
   ],
   "note": "counting_vote for every iteration order; C11_u32_overflow_refuted shows the 2^32 guard is needed."
  },
  {
   "property": "C12",
   "status": "proved",
   "theorems": [
    "C12_first_proposal_wins"
   ],
   "note": "Proposal collector, all operation histories."
  },
  {
   "property": "C13",
   "status": "proved",
   "theorems": [
    "C13_flush_drops_exactly_older_heights"
   ],
   "note": "All cache contents."
  },
  {
   "property": "C14",
   "status": "proved",
   "theorems": [
    "C14_highest_round_with_enough_chokes"
   ],
   "note": "Choke collector, all histories."
  },
  {
   "property": "C15",
   "status": "proved",
   "theorems": [
    "C15_certificates_under_their_own_key"
   ],
   "note": "Vote collector, all histories."
  },
  {
   "property": "C16",
   "status": "partial",
   "theorems": [
    "C16_certificate_signature_partial",
    "C16_quorum_refuted"
   ],
   "note": "Refuted: one validator of four suffices (C16_quorum_refuted, a full schedule that commits). Proved for every schedule: the aggregated signature is verified over the claimed vote for exactly the selected validators of a list in force, unless the message was taken early (C20)."
  },
  {
   "property": "C17",
   "status": "partial",
   "theorems": [
    "C17_proposal_verified_partial",
    "C17_lock_proof_refuted"
   ],
   "note": "Refuted: C17_lock_proof_refuted makes a locked node give up its lock with a certificate for another block. Proved for every schedule: leader, proposer signature over the whole proposal, and the aggregated signature of the lock's certificate."
  },
  {
   "property": "C18",
   "status": "partial",
   "theorems": [
    "C18_chokes_partial",
    "C18_certificate_in_choke_refuted"
   ],
   "note": "Refuted: an outsider's choke commits a block with a made-up certificate. Proved: which chokes can bring a certificate in, and that nothing else comes in that way."
  },
  {
   "property": "C19",
   "status": "partial",
   "theorems": [
    "C19_round_changes_partial",
    "C19_at_start_partial",
    "C19_outsiders_refuted",
    "C19_claimed_aggregate_refuted"
   ],
   "note": "Refuted: three outsiders, or one outsider claiming an aggregated choke, end a round. Proved for every schedule: otherwise more than 2/3 as many distinct verified senders as there are validators choked for one round."
  },
  {
   "property": "C20",
   "status": "partial",
   "theorems": [
    "C20_treated_messages_partial",
    "C20_early_only_cached_partial",
    "C20_held_items_partial",
    "C20_unverified_message_refuted"
   ],
   "note": "Refuted by a schedule without any verification. Proved for every schedule: messages are verified under the validators in force for their height or were taken early; early ones below their height are only cached; everything held for the current height has such an origin if no log write failed."
  },
  {
   "property": "C21",
   "status": "proved",
   "theorems": [
    "C21_height_round_never_decrease",
    "C21_unguarded_refuted"
   ],
   "note": "Smr model. The u64::MAX guard is part of the property; C21_unguarded_refuted shows it is needed."
  },
  {
   "property": "C22",
   "status": "proved",
   "theorems": [
    "C22_one_vote_per_round",
    "C22_without_timer_refuted"
   ],
   "note": "Smr model. If only the timer task is dead the claim fails (C22_without_timer_refuted); the theorem excludes exactly that."
  },
  {
   "property": "C23",
   "status": "proved",
   "theorems": [
    "C23_locked_prevotes_lock",
    "C23_unlocked_prevote",
    "C23_fork_is_error"
   ],
   "note": "Smr model, all runs from start-up incl. WAL reloads."
  },
  {
   "property": "C24",
   "status": "proved",
   "theorems": [
    "C24_lock_created_by_certificate",
    "C24_lock_removed_only_by",
    "C24_timeouts_and_chokes_keep_lock",
    "C24_certificate_locks",
    "C24_empty_certificate_unlocks",
    "C24_newer_proof_unlocks",
    "C24_new_height_unlocks"
   ],
   "note": "Smr model, one-step statements over all states and triggers."
  },
  {
   "property": "C25",
   "status": "proved",
   "theorems": [
    "C25_precommit_justified",
    "C25_empty_precommit"
   ],
   "note": "Smr model, all runs."
  },
  {
   "property": "C26",
   "status": "proved",
   "theorems": [
    "C26_commit_justified",
    "C26_commit_whatever_round",
    "C26_commit_step_stable"
   ],
   "note": "Smr model, all runs."
  },
  {
   "property": "C27",
   "status": "partial",
   "theorems": [
    "C27_quiet_after_commit_refuted",
    "C27_quiet_after_commit_partial"
   ],
   "note": "Refuted for the code as it is (witness schedule); the partial theorem covers runs without a later-round prevote certificate or choke continuation."
  },
  {
   "property": "C28",
   "status": "partial",
   "theorems": [
    "C28_agreement_partial",
    "C28_forged_certificates_refuted",
    "C28_stale_votes_refuted",
    "C28_lock_removal_refuted"
   ],
   "note": "Whole network: every honest node's life is a sequence of complete node runs (broker, state, state machine, timer, verification, WAL) with crashes; any weights, any Byzantine set below one third. Agreement is proved for every such network in which every certificate a node accepts carries genuine votes above two thirds (certs_genuine), no vote event is handled after the height it was raised in (votes_fresh), and a proposal takes a lock away only with a genuine proof of lock for another block, of a round between the lock's and the proposal's (unlocks_justified). Each of the three is broken by the code as it is: the three _refuted theorems exhibit a network that meets the other two and forks."
  },
  {
   "property": "C29",
   "status": "proved",
   "theorems": [
    "C29_stale_timeout_no_effect",
    "C29_late_timeout_no_effect",
    "C29_timeout_effect_bounded"
   ],
   "note": "Smr model, all states."
  },
  {
   "property": "C30",
   "status": "proved",
   "theorems": [
    "C30_never_waits_forever",
    "C30_timeout_chain"
   ],
   "note": "Smr+Timer models; that an armed tokio Delay eventually fires is runtime behaviour outside the model."
  },
  {
   "property": "C31",
   "status": "proved",
   "theorems": [
    "C31_timeout_length"
   ],
   "note": "Timer model, all event histories."
  },
  {
   "property": "C32",
   "status": "proved",
   "theorems": [
    "C32_nothing_leaves_unrecorded",
    "C32_vote_record_has_the_lock",
    "C32_own_choke_counted_unrecorded_refuted"
   ],
   "note": "State model, every run (start, WAL contents, inputs, callback answers arbitrary) and every prefix of its actions. C32_own_choke_counted_unrecorded_refuted shows the one gap named in the property."
  },
  {
   "property": "C33",
   "status": "proved",
   "theorems": [
    "C33_reload_restores_and_never_revotes"
   ],
   "note": "Smr model; see also the State half."
  },
  {
   "property": "C34",
   "status": "proved",
   "theorems": [
    "C34_commit_is_redone_after_crash"
   ],
   "note": "State model: every commit record written in any run, every restart from it. Conditions: the node is in the restart's validator set, a leader exists, the record can be written again."
  },
  {
   "property": "C35",
   "status": "partial",
   "theorems": [
    "C35_one_vote_per_round_partial",
    "C35_no_contradiction_partial",
    "C35_record_not_behind_votes",
    "C35_two_votes_in_one_round_refuted"
   ],
   "note": "Refuted for the code as it is (C35_two_votes_in_one_round_refuted, a schedule without any fault). Proved for a whole life with any number of crashes (at every crash point) and restarts from the stored record: votes cast for an event of the node's own height are never repeated for the same height, round and type, and the stored record is never behind them. Missing: votes cast for an event of another height (the refuted case). Conditions in `life`: the node is a validator at boot or its record is not ahead of the boot height, record height > 0, trigger rounds below 2^64-1 (C21)."
  },
  {
   "property": "C36",
   "status": "proved",
   "theorems": [
    "C36_commit_has_matching_proof"
   ],
   "note": "State model, every run."
  },
  {
   "property": "C37",
   "status": "proved",
   "theorems": [
    "C37_commit_heights_increase"
   ],
   "note": "State model, every run in which commit answers with a higher height."
  },
  {
   "property": "C38",
   "status": "proved",
   "theorems": [
    "C38_only_checked_blocks_reach_the_state_machine",
    "C38_committed_content_checked_refuted",
    "C38_checked_means_passed"
   ],
   "note": "State model, every run; C38_checked_means_passed (P_Tight.v) for a whole instance, where the answer of the check is tied to the application's result. The parenthesis of the statement (content that is committed need not be checked) is witnessed by C38_committed_content_checked_refuted."
  },
  {
   "property": "C39",
   "status": "proved",
   "theorems": [
    "C39_certificate_backed_by_votes",
    "C39_none_at_start"
   ],
   "note": "State model, every run; weights below 2^32 and distinct addresses for the two-thirds part (see C11)."
  },
  {
   "property": "C40",
   "status": "proved",
   "theorems": [
    "C40_proposals_sent",
    "C40_none_at_start",
    "C40_leader_proposes",
    "C40_orders_carry_the_lock",
    "C40_proposals_follow_the_lock"
   ],
   "note": "State model, every run; C40_leader_proposes gives the converse when nothing fails; C40_proposals_follow_the_lock (P_Tight.v) ties the proposal to the lock of the state machine in a whole instance."
  },
  {
   "property": "C41",
   "status": "proved",
   "theorems": [
    "C41_only_the_leader_is_heard",
    "C41_acted_on_proposals"
   ],
   "note": "State model, every run; validators in force are those last supplied."
  },
  {
   "property": "C42",
   "status": "proved",
   "theorems": [
    "C42_outdated_and_far_messages_dropped",
    "C42_certificates_dropped",
    "C42_nothing_cached_far_ahead"
   ],
   "note": "State model. The cache bound is for every run; it supposes the record loaded at start carries a certificate of at most 5 heights ahead (every record the node writes does, see C49)."
  },
  {
   "property": "C43",
   "status": "proved",
   "theorems": [
    "C43_silent_unless_validator",
    "C43_validator_status_follows_rich_status",
    "C43_received_status_is_adopted",
    "C43_never_validator_never_acts"
   ],
   "note": "State model, every run."
  },
  {
   "property": "C44",
   "status": "proved",
   "theorems": [
    "C44_higher_status_moves_the_node",
    "C44_higher_status_without_the_node",
    "C44_other_status_ignored",
    "C44_failed_save_refuted"
   ],
   "note": "State+Smr models. The failing-save case of the statement is witnessed by C44_failed_save_refuted."
  },
  {
   "property": "C45",
   "status": "proved",
   "theorems": [
    "C45_state_machine_never_aborts"
   ],
   "note": "Node model (state, SMR, timer, spawned tasks, all schedules)."
  },
  {
   "property": "C46",
   "status": "partial",
   "theorems": [
    "C46_stop_refuted",
    "C46_stop_partial"
   ],
   "note": "Refuted: in every reachable state taking a Stop panics the event loop. The partial theorem says exactly how far a Stop gets: SMR and timer go on, the loop never ends in an orderly way."
  },
  {
   "property": "C47",
   "status": "proved",
   "theorems": [
    "C47_state_machine_never_ahead"
   ],
   "note": "Node model, every schedule."
  },
  {
   "property": "C48",
   "status": "proved",
   "theorems": [
    "C48_causes_exclude_each_other",
    "C48_view_change_reports",
    "C48_every_entered_round_is_reported"
   ],
   "note": "State model, all states; the causes are a separate inductive specification, shown exclusive."
  },
  {
   "property": "C49",
   "status": "proved",
   "theorems": [
    "C49_records_are_consistent",
    "C49_records_meet_the_cache_bound"
   ],
   "note": "State model, every run; the last theorem discharges the condition of C42."
  },
  {
   "property": "C50",
   "status": "proved",
   "theorems": [
    "C50_nothing_ends_the_instance",
    "C50_round_robin_selects",
    "C50_empty_list_refuted"
   ],
   "note": "Node model, every schedule. Decoding of received bytes (C04) happens in the user's code before send_msg and is not part of the instance; a verification task that panics would only lose its message."
  },
  {
   "property": "C51",
   "status": "proved",
   "theorems": [
    "C51_never_waits_forever",
    "C51_orders_are_treated"
   ],
   "note": "Node model, every endless fair execution. Fairness of the runtime's scheduler and the clock are hypotheses (record `fair`); certificates' rounds below 2^64-1; the instance is not stopped (C50). stuck_execution (P_LiveEx) exhibits an endless fair execution."
  },
  {
   "property": "C52",
   "status": "proved",
   "theorems": [
    "C52_locks_have_certificates",
    "C52_precommits_have_certificates",
    "C52_prevotes_have_an_origin",
    "C52_committed_blocks_were_checked"
   ],
   "note": "Node model (P_Cause.v), every execution of an instance. The round relation and the origin of votes assume a readable record or none (boots) and rounds below u64::MAX."
  },
  {
   "property": "C53",
   "status": "proved",
   "theorems": [
    "C53_decided_blocks_are_committed"
   ],
   "note": "Node model (P_Decide.v), every endless fair execution (fairness and the clock as in C51). decided_execution (P_DecideEx) exhibits such an execution."
  },
  {
   "property": "C54",
   "status": "proved",
   "theorems": [
    "C54_quorums_are_certified"
   ],
   "note": "Node model (P_Quorum.v), every run up to the moment a vote is counted. Conditions: no record write failed, one validator list in force for the whole height with the instance in it, heights and rounds at least 10 below 2^64, the signature scheme aggregates. quorum_run (P_QuorumEx) meets them."
  },
  {
   "property": "C55",
   "status": "proved",
   "theorems": [
    "C55_sent_messages_pass_verification",
    "C55_choke_at_start_passes_verification"
   ],
   "note": "State model (P_Accept.v), every run and every message sent; the signature scheme's completeness is a hypothesis (record `understands`), shown to hold of the scheme of the examples. A certificate is accepted if the votes the sender knew for it are genuine (it may hold unverified ones: C20), a proposal with a lock if the lock's certificate is."
  },
  {
   "property": "C56",
   "status": "proved",
   "theorems": [
    "C56_proposals_are_answered",
    "C56_timely_proposals_are_taken"
   ],
   "note": "Node model (P_Answer.v), every endless fair execution (fairness as in C51), Crypto::sign never failing. answering_execution (P_AnswerEx) meets the hypotheses. C56_timely_proposals_are_taken: a proposal of the leader that comes in its round does go to check_block (P_Early.v, timely_applies). A locked state machine is not covered: it votes for its lock or unlocks (C28)."
  },
  {
   "property": "C57",
   "status": "proved",
   "theorems": [
    "C57_prevote_certificates_are_answered"
   ],
   "note": "Node model (P_Answer.v), every endless fair execution (fairness as in C51), Crypto::sign never failing. answering_execution (P_AnswerEx) meets the hypotheses."
  },
  {
   "property": "C58",
   "status": "proved",
   "theorems": [
    "C58_votes_go_to_the_leader",
    "C58_lost_record_refuted"
   ],
   "note": "Node model (P_Leader.v), every execution of an instance that boots from a readable record or none, trigger rounds below 2^64-1 (C21), votes for an event of the node's own height (C35). Exceptions are visible in the statement: a round entered with a failed record write, and a start without a record, for which C58_lost_record_refuted exhibits a vote sent to the empty address."
  },
  {
   "property": "C59",
   "status": "proved",
   "theorems": [
    "C59_serde_round_trip",
    "C59_serde_reads_in_range",
    "C59_serde_objects"
   ],
   "note": "Serde model (Serde.v, P_Serde.v): documents as serde_json reads and writes them (trusted: what serde's derive generates, serde_json's mapping); hummer's hex functions are parameters that invert each other. Error values are not modelled, only that reading fails."
  },
  {
   "property": "C60",
   "status": "proved",
   "theorems": [
    "C60_chokes_end_the_round",
    "C60_the_next_round_is_entered"
   ],
   "note": "Node model (P_Choke.v): every run up to the moment a choke is counted, no matter what the chokes contain (their senders and signatures are a separate matter, C18, C19), chokes of rounds below 2^64-1, the signature scheme aggregates; then every endless fair execution (fairness as in C51). choked_run and choked_execution (P_ChokeEx) meet the hypotheses."
  },
  {
   "property": "C61",
   "status": "proved",
   "theorems": [
    "C61_early_messages_wait_for_their_height",
    "C61_early_proposals_are_taken"
   ],
   "note": "Node model (P_Early.v), every run. When the message arrives it is judged by the list in force then (a validator that is only in the next height's list is dropped): the hypotheses say so. After the entry: C20 treats what verification lets through. waiting_applies, taking_applies (P_EarlyEx) meet the hypotheses; waiting_verified and taking_happens show the outcome."
  },
  {
   "property": "C62",
   "status": "proved",
   "theorems": [
    "C62_stalled_validators_keep_asking"
   ],
   "note": "Node model (P_Stall.v), every fair endless execution. The two exceptions in the theorem are visible: an action ASave _ false, and `recordable` (the lock's certificate and block are at hand; process.rs clears the block pool but not the is_full map when a height is entered, so it can be false). stalled_execution (P_StallEx) is an endless execution that meets every hypothesis and in which none of the ways out ever happens; stalled_chokes applies the theorem to it."
  },
  {
   "property": "C63",
   "status": "proved",
   "theorems": [
    "C63_validators_do_not_stay_in_a_round"
   ],
   "note": "Node model (P_Together.v): a family of instances on one clock; only the chokes of the round in question have to be delivered, anything else may be lost, delayed or forged. Assumed and visible in the statement: signing, aggregating and record writes succeed, a lock to be recorded has its certificate and block at hand (`served`), and no choke is for round 2^64-1. three_together (P_TogetherEx) meets every hypothesis with three of four validators, all stuck in round 0 at the start; three_moved shows the outcome."
  },
  {
   "property": "C64",
   "status": "partial",
   "theorems": [
    "C64_round_changes_can_deadlock_refuted",
    "C64_later_chokes_are_followed_partial"
   ],
   "note": "Refuted (P_Deadlock.v, code finding 28): a family of three executions on one clock, a prefix and then a cycle for ever, in which three of four validators are correct, every message between them is treated, nothing is forged, nothing stays unread, and yet none ever leaves its round again. The partial theorem (P_Lag.v) says which chokes of a later round do take a lagging instance along, in every fair endless execution; lag_applies (P_LagEx) meets its hypotheses for each of the three reasons, lag_follows shows the outcome. Missing: the same for a prevote certificate of the instance's own round, which is false."
  },
  {
   "property": "C65",
   "status": "proved",
   "theorems": [
    "C65_prevote_quorums_are_answered",
    "C65_precommit_quorums_decide",
    "C65_prevote_quorums_decide"
   ],
   "note": "Node model (P_Commit.v): a family of instances on one clock; composes C39, C53, C54 and C57. Assumed of the collecting validator (`collects`): the list in force at the height is the one the weights are taken from, it is in it, its records are written, aggregation succeeds, and it made no certificate of the position before the observed time. Votes count when they are treated in their round (`gathers`); only the certificates have to be delivered (`certs_arrive`). Ways out are in the statements (`foreign`, `precommit_hindered`, `commit_hindered`, `drops_out`). trio_meets (P_CommitEx) meets the hypotheses of all three theorems with three of four validators; trio_commit shows that all three commit."
  },
  {
   "property": "C66",
   "status": "proved",
   "theorems": [
    "C66_good_rounds_decide"
   ],
   "note": "Node model (P_Commit.v): C56 or C67 for every member of the quorum, then C65. `takes_up`: the instance of the height treats a proposal and orders the check of the block (for a follower and for the leader alike). The way out misses_proposal says: the state machine was not free to vote for the block then (free_for: in the propose step without a lock, or locked on this block with block and certificate at hand), or prevote_hindered. Delivery is assumed only of votes that are cast and of certificates. trio_meets and trio_takes_up (P_CommitEx) meet all hypotheses with three of four validators who wait for the proposal without a lock; trio_commit shows that all three commit."
  },
  {
   "property": "C67",
   "status": "proved",
   "theorems": [
    "C67_locked_validators_prevote_their_block"
   ],
   "note": "Node model (P_Locked.v). That the instance has the block and a certificate of the lock is a hypothesis about the moment of the proposal (both are kept until the height changes); that a locked state machine works on the locked block is proved for every run. locking_execution (P_LockedEx) meets the hypotheses with a validator locked in round 0 that gets a proposal of round 1; locking_votes shows the vote."
  },
  {
   "property": "C68",
   "status": "proved",
   "theorems": [
    "C68_waiting_validators_vote",
    "C68_locked_validators_vote_for_their_block"
   ],
   "note": "Node model (P_Waiting.v), every endless fair execution, Crypto::sign never failing. recordable: the certificate and the block of the lock that the vote claims are at hand. waiting_execution (P_WaitingEx) meets the hypotheses of both theorems: a locked validator that gets no proposal in round 1; waiting_votes shows that it prevotes its block."
  },
  {
   "property": "C69",
   "status": "proved",
   "theorems": [
    "C69_timeouts_have_run_out",
    "C69_timeouts_are_never_early"
   ],
   "note": "Node model (NodeBrake.v, P_Timely.v), every schedule. The exclusion of TWalInfo in the first theorem: the trigger that hands the record to the state machine is no timeout. The second theorem assumes that the instance still runs (nd_on), that the record found at start is as the instance writes them (boots, with any round), and rounds below 2^64 - 1 (smr_in_range), as in C21. C69_example_hypotheses and C69_example_timeouts (P_TimelyEx): a history in which the timeouts of all four steps are treated."
  }
 ]
}