{"claims": [
  {"property": "C01", "status": "proved", "theorems": ["C01_agreement"], "note": "All runs in which no AcceptSync overtakes another one of the same ballot on its link (H1; all other reordering and loss allowed) and buffers are drained (H2), with crashes at every storage write."},
  {"property": "C02", "status": "partial", "theorems": ["C02_agreement_any_fetch_times_refuted", "C02_agreement_fetch_before_handling_partial"], "note": "The claim is false of the code: a witness execution with FIFO links in which two servers show different decided entries. Proved: agreement when every application fetches outgoing messages before it hands over a message (arbitrary fetch times otherwise); more generally C01 only needs that no AcceptDecide for a peer waits when its Promise is handled."},
  {"property": "C03", "status": "partial", "theorems": ["C03_agreement_reordering_refuted", "C03_agreement_reordering_partial"], "note": "The claim is false of the code: a witness execution with a reordered link. Proved: agreement with arbitrary reordering and loss, except that an AcceptSync does not overtake an earlier AcceptSync of the same ballot on the same link (exactly what the witness does)."},
  {"property": "C04", "status": "proved", "theorems": ["C04_validity"], "note": "For every run of the cluster: any loss, reordering, crashes at any write, any fetch times."},
  {"property": "C05", "status": "proved", "theorems": ["C05_decided_stable"], "note": "Every later read at the server succeeds and returns the entry or a compaction."},
  {"property": "C06", "status": "partial", "theorems": ["C06_decided_monotone_refuted", "C06_only_acceptsync_lowers_decided_partial"], "note": "The claim is false of the code: the AcceptSync that answers a promise arriving after the read quorum was formed carries an older decided index. Proved: at a server without a stop sign nothing else lowers it, neither another message or call nor a crash with restart."},
  {"property": "C07", "status": "proved", "theorems": ["C07_reconfiguration_agreement", "C07_reconfiguration_final", "C07_reconfigured_final"], "note": "Agreement and finality at any two moments of a run."},
  {"property": "C08", "status": "partial", "theorems": ["C08_is_reconfigured_stable_refuted", "C08_reconfigured_stays_partial"], "note": "The claim is false of the code: re-synchronisation after the stop sign makes the cached accepted index too large. Proved: under H1 and H2, no other step changes the answer: only an AcceptSync, the Promise a candidate waits for, an Accepted, or a restart can."},
  {"property": "C09", "status": "proved", "theorems": ["C09_stopped_server_refuses_entries", "C09_stopped_server_refuses_reconfiguration", "C09_append_never_fails_without_stopsign"], "note": "For every state that one server can get into under any calls, messages and crashes."},
  {"property": "C10", "status": "proved", "theorems": ["C10_promise_never_decreases", "C10_promise_never_decreases_at_any_write", "C10_promise_is_persisted", "C10_promise_never_decreases_in_cluster"], "note": "For every life of a server with arbitrary calls and messages, and over crashes at any write."},
  {"property": "C11", "status": "proved", "theorems": ["C11_one_leader_per_ballot", "C11_round_entries_never_rewritten"], "note": "Leader uniqueness; the entries of an accepted round agree across servers, moments and AcceptSync messages, and are never removed except by compaction."},
  {"property": "C12", "status": "proved", "theorems": ["C12_accepted_durable"], "note": "At every later moment and storage write."},
  {"property": "C13", "status": "proved", "theorems": ["C13_decided_accepted_by_write_quorum", "C13_decided_held_by_write_quorum"], "note": "Both under the assumptions of C01 (H1: AcceptSyncs of one ballot in order, drained buffers). First: one ballot and one write quorum whose members had each accepted exactly that ballot up to the decided index, at that moment or before, and hold the decided entries ever after."},
  {"property": "C14", "status": "proved", "theorems": ["C14_read_write_quorums_meet", "C14_majority_write_quorums_meet"], "note": "Also for node lists with duplicates."},
  {"property": "C15", "status": "proved", "theorems": ["C15_ballot_order_lexicographic", "C15_ballot_order_total", "C15_ballot_eq_same_config", "C15_ballot_eq_other_config"], "note": ""},
  {"property": "C16", "status": "proved", "theorems": ["C16_follower_applies_consecutive_messages", "C16_acceptsync_starts_session"], "note": "Stated for the follower itself: log, stop sign and number after any list of numbered messages of its ballot; after a gap it waits in the recover phase."},
  {"property": "C17", "status": "proved", "theorems": ["C17_election_view_never_decreases", "C17_after_timeout_view_covers_promise"], "note": "Every state, every call; the replication part runs in the same call."},
  {"property": "C18", "status": "partial", "theorems": ["C18_elected_ballot_is_own_and_new", "C18_takeover_only_if", "C18_replies_of_different_servers_partial", "C18_takeover_from_read_quorum_partial", "C18_quorums_are_the_clusters", "C18_read_quorum_of_servers_refuted"], "note": "Proved: the elected ballot is own and larger; a takeover needs unhappiness, only unhappy replies, and as many replies as a read quorum needs. For a server that has not restarted, in a cluster whose node list has no duplicates, the replies it counts come from different servers of the cluster (in every execution, whatever is lost and whichever others restart), so the takeover has a real read quorum behind it. Refuted without the restart condition: replies carry no sender check and a restarted server starts again at round 1."},
  {"property": "C19", "status": "proved", "theorems": ["C19_other_replies_are_ignored", "C19_counted_replies_are_of_this_round"], "note": "First part for every state; second part for every state one server can get into."},
  {"property": "C20", "status": "proved", "theorems": ["C20_clock_fires_every_k_ticks", "C20_zero_timeout_never_fires"], "note": ""},
  {"property": "C21", "status": "proved", "theorems": ["C21_read_entries", "C21_read", "C21_read_decided_suffix", "C21_matched_in_clusters", "C21_matched_after_build"], "note": "Every state of one server whose accepted index is the end of its stored log (the 'cache matches the storage' of the statement); the last two theorems say when that is so."},
  {"property": "C22", "status": "partial", "theorems": ["C22_empty_range_refuted", "C22_empty_range_panics_iff_partial"], "note": "False of the code when the stop sign is exactly at k (refuted). The second theorem is exact: k..k panics in that situation and in no other."},
  {"property": "C23", "status": "proved", "theorems": ["C23_trim_not_leader", "C23_trim_success", "C23_trim_keeps_the_rest"], "note": "For every state one server can get into; acknowledged means recorded by the leader for that server."},
  {"property": "C24", "status": "partial", "theorems": ["C24_trim_sparse_pids_refuted", "C24_trim_contiguous_pids_partial"], "note": "False of the code for clusters with a gap in the pids (refuted). Proved when every id up to the largest one is a server."},
  {"property": "C25", "status": "partial", "theorems": ["C25_trim_then_panic_refuted", "C25_panics_only_across_a_trim_partial", "C25_untrimmed_servers_do_not_panic_partial", "C25_reads_no_panic_partial"], "note": "False of the code: witness execution with one trim in which a later message makes a server panic. Proved in every schedule (any order, loss, crashes) with trim as the only compaction and an entry type without snapshots: no call panics, and a message panics only if it is a Prepare, Promise or AcceptSync that reaches below the compacted index of the receiver; a server that has compacted nothing never panics; reads do not panic without stop sign."},
  {"property": "C26", "status": "proved", "theorems": ["C26_snapshot_call", "C26_kept_by_calls", "C26_snapshot_calls"], "note": "One snapshot request, and every sequence of snapshot requests mixed with calls that neither trim nor synchronise, at one server and also at every crash point. The state at a snapshot request is assumed settled (accepted index = end of the stored log, decided index within it); C21_matched_in_clusters shows this in clusters without stop sign."},
  {"property": "C27", "status": "partial", "theorems": ["C27_snapshot_sync_refuted", "C27_snapshot_contents_partial", "C27_snapshots_agree_partial", "C27_shown_snapshot_partial"], "note": "False of the code in general (a delta snapshot overwrites the stored one when the follower has none). Proved for every run without trims, stop signs and delta snapshots: every stored or shown snapshot is the snapshot of exactly the decided entries below its label."},
  {"property": "C28", "status": "partial", "theorems": ["C28_trim_after_snapshot_refuted", "C28_snapshot_label_partial", "C27_shown_snapshot_partial"], "note": "False of the code after a trim that follows a snapshot. Proved: while the store represents a log (kept by snapshots, appends, decides, complete synchronisations; see C26, C27), every snapshot shown covers exactly the entries below its label."},
  {"property": "C29", "status": "partial", "theorems": ["C29_restart_changes_report_refuted", "C29_cache_is_persistent_partial", "C29_restart_keeps_indexes_partial", "C29_restart_keeps_reads_partial", "C29_restart_keeps_reads_in_clusters_partial"], "note": "False of the code after a stop sign was re-synchronised. Proved: what a restart keeps in every state, and that it keeps all reads at servers whose accepted index is the end of the stored log, which is so at every server without a stop sign in clusters under H1 and H2."},
  {"property": "C30", "status": "proved", "theorems": ["C30_interchangeable", "C30_reopen", "C30_method_is_batch"], "note": "For all sequences of atomic batches, single calls and reopenings that respect client_ok (indexes not below the trimmed index, AppendOnPrefix inside the log, a trim beyond the end followed by AppendOnPrefix, 64-bit indexes) both stores give the same answers. Serialisation and RocksDB itself are trusted."},
  {"property": "C31", "status": "proved", "theorems": ["C31_key_order", "C31_key_decodes", "C31_key_bytes"], "note": "All 64-bit indexes."},
  {"property": "C32", "status": "proved", "theorems": ["C32_batching_keeps_all_entries", "C32_reported_entries_are_the_flushed_ones", "C32_batch_is_never_full"], "note": "Every storage state, batch size and list of operations; the last theorem for every state one server can get into."},
  {"property": "C33", "status": "proved", "theorems": ["C33_take_outgoing_messages", "C33_queue_only_grows", "C33_positions_in_queue"], "note": "For every server state."},
  {"property": "C34", "status": "proved", "theorems": ["C34_lockstep", "C34_encodes", "C34_oversized_panics"], "note": "Every size and sequence: what the encoder encodes the decoder decodes; the encoder never panics when the encoded type has a code for every slot (beyond that it overflows: C34_oversized_panics)."},
  {"property": "C35", "status": "proved", "theorems": ["C35_lockstep", "C35_encodes"], "note": "Every size and sequence, same remark on sizes beyond the encoded type as for C34."},
  {"property": "C36", "status": "partial", "theorems": ["C36_lru_clone", "C36_lru_clone_sent", "C36_lfu_clone_partial", "C36_lfu_clone_refuted", "C36_later_leader_refuted", "C36_later_leader_lfu_refuted", "C36_sent_with_length_refuted", "C36_pending_batch_refuted"], "note": "Proved for LRU for every history of a cache that is no clone itself, and for LFU while nothing is evicted. False in the code otherwise: LFU clones lose the counters, a follower that becomes leader encodes with one slot, a wire format with lengths panics, a clone taken with a pending batch decodes its entries twice."},
  {"property": "C37", "status": "partial", "theorems": ["C37_validate_iff_safe", "C37_build_rejects_iff", "C37_validated_builds_partial", "C37_validated_builds_refuted"], "note": "The equivalence is proved, also for build with the conditions on the server. The second half is false: nodes [1,1] is accepted and panics in build (refuted); proved without repeated ids."},
  {"property": "C38", "status": "proved", "theorems": ["C38_append_reaches_log_or_queue"], "note": "For every state that one server can get into; the call also never panics."},
  {"property": "C39", "status": "partial", "theorems": ["C39_buffered_stopsign_refuted", "C39_buffered_stopsign_at_takeover_partial"], "note": "False of the code: the buffered stop sign of a follower is never forwarded. Proved for the other way out: a server that becomes leader puts its buffered stop sign in the log, unless the log it takes over has one already."},
  {"property": "C40", "status": "partial", "theorems": ["C40_resent_decide_refuted", "C40_expected_decide_partial"], "note": "False of the code: the resent Decide has an old sequence number and is dropped. Proved: a Decide for the accepted index that has the number the follower expects makes it report its stop sign as decided."},
  {"property": "C41", "status": "partial", "theorems": ["C41_decided_le_accepted", "C41_compacted_le_decided_refuted"], "note": "First half proved for every server without a stop sign. Second half false: the decided index can move below the compacted index."},
  {"property": "C42", "status": "proved", "theorems": ["C42_stale_leader_is_answered", "C42_stale_prepare_is_ignored"], "note": "For every state that one server can get into."},
  {"property": "C43", "status": "proved", "theorems": ["C43_no_storage_write"], "note": "For every server state."},
  {"property": "C44", "status": "proved", "theorems": ["C44_no_panic", "C44_reads_no_panic"], "note": "Every call and every message returns in every schedule (any order, loss, crashes, any fetch times) without trim and snapshot calls and with an entry type that does not use snapshots; reconfigure is even allowed. Reads do not panic either if reconfigure is not called (C22 has the panic with a stop sign). C44_stop_sign_was_proposed_partial in addition: stop signs come from reconfigure."},
  {"property": "C45", "status": "proved", "theorems": ["C45_stop_sign_was_proposed", "C45_stored_stop_sign_was_proposed"], "note": "Every run: any loss, order, crashes at any write, any fetch times, trims and snapshots. The second theorem is about the persistent stop sign at every write."},
  {"property": "C46", "status": "proved", "theorems": ["C46_decided_at_most_as_often_as_appended", "C46_stored_at_most_as_often_as_appended"], "note": "Under H1 and H2; any loss and crashes. Append calls interrupted by a crash are counted as made."},
  {"property": "C47", "status": "proved", "theorems": ["C47_quorum_never_stuck"], "note": "Possibility of progress from every reachable state (there is a schedule), under H1 and H2, for configurations without snapshots and runs without trim, snapshot and reconfigure calls. Nothing is claimed about fairness or about how long a real network takes."},
  {"property": "C48", "status": "proved", "theorems": ["C48_heard_leader_is_not_replaced", "C48_timeout_takes_up_heard_leader"], "note": "From every reachable state in which b is the largest ballot known (on_top), over every continuation within H1 and H2 without try_become_leader, set_priority and restart of the server of b, provided that the heartbeats are heard before each election timeout (heard): on_top still holds, own ballots, promises of b and views b are kept, the leader keeps its role and its accept phase. The heartbeat condition is the hypothesis of the claim, not a fact about a network."},
  {"property": "C49", "status": "proved", "theorems": ["C49_leader_brings_followers_up_to_date"], "note": "Existence of the schedule (loss of what is under way, reconnected, four messages per server) from every reachable state; Q need not be a quorum. Without trims, snapshots and stop signs."},
  {"property": "C50", "status": "proved", "theorems": ["C50_steady_leader_decides_in_one_round_trip"], "note": "The schedule of the rounds is explicit (definition round), the resynchronisation before is existential and independent of the entries. Batch size at most 1; without trims, snapshots and stop signs."},
  {"property": "C51", "status": "proved", "theorems": ["C51_election_ends", "C51_rounds_grow_with_ballots"], "note": "Rounds are in lockstep: replies are computed from the states at the beginning of the round. Hypotheses: own ballots not above the own view at the start (true unless set_priority raised them), and the promise read at a timeout is not above the view or a heard ballot. The second theorem shows that the bound has to depend on the ballots (F24)."},
  {"property": "C52", "status": "proved", "theorems": ["C52_buffered_proposals_are_kept"], "note": "No hypothesis on the state. Stop-sign proposals that wait for a leader are a separate field and not part of the claim."},
  {"property": "C53", "status": "proved", "theorems": ["C53_try_become_leader_starts_a_prepare_phase", "C53_elected_server_starts_a_prepare_phase"], "note": "For any state in the life of a server under arbitrary messages. Case: C53_case."},
  {"property": "C54", "status": "proved", "theorems": ["C54_resend_timeout_asks_again", "C54_resend_timeout_repeats_the_stopsign"], "note": "For any state in the life of a server under arbitrary messages. Case: C54_case."},
  {"property": "C55", "status": "proved", "theorems": ["C55_followers_acknowledge_what_they_accept"], "note": "For any state in the life of a server under arbitrary messages. The round of the acknowledgement is compared without the configuration id, as arbitrary messages may carry any. Case: C55_case."},
  {"property": "C56", "status": "proved", "theorems": ["C56_replicas_apply_the_same", "C56_replicas_with_snapshots_apply_the_same", "C56_reads_catch_up"], "note": "First theorem: all runs under H1 and H2, for applications that do not load snapshots (they stop at a compacted part). Second and third: applications that load snapshots, in the runs of C27 (no trims, stop-signs and delta snapshots). Cases: C56_case, C56_case_snapshots."},
  {"property": "C57", "status": "partial", "theorems": ["C57_acknowledged_by_quorum_is_decided_refuted", "C57_last_acknowledgement_decides_partial", "C57_equal_acknowledgements_are_decided_partial", "C57_nobody_acknowledges_more_than_the_leader"], "note": "False in full (F25): alternating acknowledgements of two followers leave everything undecided. Proved: when Accepted k arrives and a write quorum including its sender has then acknowledged k or more, k is decided; when the write quorum other than the leader has acknowledged exactly k, k is decided; without a stop sign nobody is recorded beyond the leader's own log."},
  {"property": "C58", "status": "partial", "theorems": ["C58_quiet_means_decided_refuted", "C58_quiet_means_decided_partial"], "note": "False in full (F26): calls of reconnected can make a follower accept an older AcceptSync and ignore a newer one, after which the cluster rests with an undecided entry at the leader, for any number of ticks. Proved: from any moment at which leader and followers are in step (nothing under way, sequence numbers equal, acknowledgement recorded, decided index known), as long as they stay in the ballot and no message between them is lost or overtaken, every quiet state has the whole log decided at the leader and at each follower. Missing: the stages before (Prepare, Promise, AcceptSync), where the claim fails; logs with a stop sign."},
  {"property": "C59", "status": "partial", "theorems": ["C59_snapshots_no_panic_refuted", "C59_after_a_snapshot_refuted", "C59_panics_only_out_of_reach_partial", "C59_calls_no_panic", "C59_uncompacted_servers_partial", "C59_reads_no_panic"], "note": "False in full (F27): a candidate keeps the snapshot of a promise after the server that sent it restarts, but not its decided index, and panics when it takes over, though nobody has called trim or snapshot; also after one call of snapshot with three servers and no crash (a consequence of F3). Proved for any schedule with any compaction and reconfiguration: calls of the application and ticks never panic, reads never panic without stop sign, and a message panics only if it is a Prepare, Promise or AcceptSync that needs a part of the log the server no longer has. Missing: the Promise case does not say which combination of promises panics."},
  {"property": "C60", "status": "proved", "theorems": ["C60_ballots_in_use_are_usable", "C60_restarted_server_is_nobodys_leader", "C60_number_0_until_own_timeout"], "note": "For every schedule; neither H1 nor H2 is needed."},
  {"property": "C61", "status": "partial", "theorems": ["C61_copied_sync_refuted", "C61_agreement_with_copies_partial", "C61_decided_stable_with_copies_partial", "C61_reconfiguration_agreement_with_copies_partial"], "note": "False in full (F28): an AcceptSync that arrives a second time after the follower has reconnected in the same ballot cuts its log back, and two servers then decide different entries. Proved under H1 and H2 for copies of every other message, in any number and at any later time. Missing: AcceptSync, for which the claim is false."},
  {"property": "C62", "status": "partial", "theorems": ["C62_agreement_partial", "C62_decodes_partial", "C62_no_cache_panic_partial", "C62_agreement_no_heir_partial", "C62_no_cache_panic_no_heir_partial", "C62_lru_agreement_partial", "C62_lru_no_cache_panic_partial", "C62_batched_refuted", "C62_failover_refuted"], "note": "Proved for batch size 1 and leaders whose cache works: agreement at all moments, every accepted AcceptDecide decodes to what was sent, and the feature adds no panic; for any cache with three laws, and for the LRU cache of the library when no server leads that took entries or a cache from a leader since its start. Missing: the other executions, where the claim is false (F29: batch sizes above 1 make servers decide different entries; F30: a follower that becomes leader makes another one panic)."},
  {"property": "C63", "status": "partial", "theorems": ["C63_agreement_partial", "C63_reconfiguration_agreement_partial", "C63_late_message_refuted", "C63_only_own_proposals_refuted"], "note": "False in full: with links in order and the stop sign decided everywhere before the new cluster starts, one late AcceptSync makes two new servers decide different entries (F31), and late forwarded proposals make the new cluster decide an entry and a stop sign nobody proposed to it (F32). Proved for both clusters when a crossing Prepare is below the promise of the receiver, a crossing message of a leader does not have the rank of the promised ballot, and no trim request crosses; all other messages may cross freely. Missing: the other crossings, where the claim is false."},
  {"property": "C64", "status": "partial", "theorems": ["C64_reconfigure_placed_partial", "C64_forwarded_stop_placed_partial", "C64_forwarded_entries_placed", "C64_waiting_stop_kept_partial", "C64_second_request_refuted", "C64_first_request_refuted"], "note": "Proved in full for forwarded entries. For stop signs the claim is false (F33): a second request is dropped although reconfigure returns Ok when one is already waiting, or replaces the waiting one at a server that collects promises. Proved: these are the only two exceptions. Missing: those two cases, where the claim is false."},
  {"property": "C65", "status": "partial", "theorems": ["C65_trim_is_announced", "C65_snapshot_is_announced", "C65_trim_request", "C65_trim_reaches_everyone_refuted"], "note": "Announcement and handling proved in full. The last sentence is false (F35): a server that waits for the answer to its PrepareReq (reconnected) has not decided far enough, ignores the trim request and never hears of it again; it keeps the entries although no message is lost."},
  {"property": "C66", "status": "partial", "theorems": ["C66_priority_is_used_partial", "C66_set_priority", "C66_try_become_leader_uses_the_priority", "C66_priority_refuted", "C66_reelection_refuted"], "note": "Proved for servers that never call try_become_leader. With it the priority set can be replaced by the old one of the promised ballot at the next election timeout (F34). The re-election announced in omni_paxos.rs 399-400 does not take place if the ballot of the leader has a higher number (F36)."},
  {"property": "C67", "status": "proved", "theorems": ["C67_log_is_sent", "C67_log_is_sent_in_clusters", "C67_flush_timeout"], "note": "For every reachable state of a server in any environment, all calls and messages except compactions, and except a Decide of the leader's own ballot (handle_decide does not check the role). In clusters under H1 and H2 such a Decide does not occur, so there the theorem holds for every call and message except compactions."},
  {"property": "C68", "status": "proved", "theorems": ["C68_requests_are_answered", "C68_timeout_asks_every_server", "C68_started_server_asks_every_server"], "note": "For all executions with crashes, losses and any delivery."},
  {"property": "C69", "status": "proved", "theorems": ["C69_messages_are_well_addressed", "C69_receivers_are_in_the_configuration", "C69_any_reconnected_id_refuted"], "note": "For all executions, including losses and crashes at every storage write. The first theorem has no condition on the calls; the second is the claim for executions that call reconnected with ids of the configuration, and the third shows that this condition is needed."},
  {"property": "C70", "status": "partial", "theorems": ["C70_reported_leader_is_a_server", "C70_reporting_itself", "C70_reported_accept_phase_partial", "C70_leader_is_in_accept_phase_refuted"], "note": "The first and the last sentence are proved for all executions. The middle one is refuted as documented; instead proved: q is or was in the accept phase as leader of exactly the promised ballot, has promised at least this ballot, and is in the accept phase whenever it still leads with it."},
  {"property": "C71", "status": "partial", "theorems": ["C71_decodes_what_was_encoded", "C71_encodes", "C71_repeated_entry_is_encoded", "C71_attributes_partial", "C71_clone_partial", "C71_agreement_partial", "C71_no_cache_panic_partial", "C71_default_policy_refuted"], "note": "Round trip, absence of panics and the saving are proved for all structs. The documented default policy is refuted: a field that names no cache gets the policy of the annotated field before it (F39). Clone and agreement are for structs without lfu (C36, C62)."},
  {"property": "C72", "status": "partial", "theorems": ["C72_persistent_servers_partial", "C72_persistent_servers_refuted"], "note": "After every storage call of every execution the persistent storage answers like the memory storage and reopens unchanged. Missing: calls that synchronise or compact the log while a stop sign is in it; for AcceptSync the claim is then false (get_suffix fails), shown on an execution; and indices beyond 64 bits."},
  {"property": "C73", "status": "proved", "theorems": ["C73_leader_order", "C73_program_order_of_any_server_refuted", "C73_order_across_ballots_refuted"], "note": "Under H1 and H2; any loss and crashes. The ballot is the same when a and b are stored; the two refutations show that the order of the append calls of one server is not kept if it forwards them, or if it leads in different ballots, without any loss or crash."},
  {"property": "C74", "status": "partial", "theorems": ["C74_dashboard_exists", "C74_panics_iff", "C74_shows", "C74_shows_role", "C74_no_panic_partial", "C74_heartbeats_of_the_previous_round", "C74_heartbeats_of_the_peers", "C74_role_refuted", "C74_decided_panics_refuted", "C74_progress_panics_refuted", "C74_own_heartbeat_refuted"], "note": "False in full (F41-F43): a tick panics if the decided index has gone down (the protocol can do that, F3) or if a peer has acknowledged more than the leader (after a stop sign); the role is that of the tick before; the heartbeats never include the current node. Proved: exactly when a tick panics, for any history of the dashboard; what is shown, including the role as a function of the tick before; that the heartbeats are the replies counted in the round before, from other servers of the cluster, one each without a restart; under H1 and H2 no panic while the decided index does not go down and the leader has no stop sign."},
  {"property": "C75", "status": "partial", "theorems": ["C75_quorum_connected_leader_partial", "C75_one_elected_refuted", "C75_flexible_quorums_refuted"], "note": "proved for majority quorums and for flexible quorums of one size with 2*size > servers, in synchronous rounds over fixed links, with promises not above the view or the ballots heard; refuted for flexible quorums whose read and write sizes differ (the election never ends) and for the reading that only one server is reported as elected"},
  {"property": "C76", "status": "proved", "theorems": ["C76_forwarding_climbs", "C76_no_circles"], "note": "Hops.v sweeps all handlers; a Prepare never exceeds its sender's durable promise, so the owner of a promised ballot has promised it too; a leader of its own promise does not forward. Case: an entry goes 3 -> 1 -> 2."},
  {"property": "C77", "status": "proved", "theorems": ["C77_two_messages_per_receiver", "C77_start", "C77_messages_linear"], "note": "Fan.v sweeps all handlers and counts per receiver; a tick stays within two because an election leaves no accept phase and resends split the peers by promise. C77_start is about building and restarting. The total uses C69 and therefore assumes that reconnected is called with ids of the configuration. Case: synchronising a follower with a buffered proposal sends exactly two."}
]}
