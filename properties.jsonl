{"id": "C01", "title": "Agreement on decided log entries", "statement": "If one server reports index i as a decided entry with value e (read, read_entries or read_decided_suffix) and any server, at the same or any other moment of the run, reports index i as a decided entry with value e2, then e = e2.", "quantifier": "every cluster size and valid cluster configuration, every schedule of API calls, message deliveries, losses and process crashes (at any storage write), every pair of servers and pair of moments; an AcceptSync does not overtake another AcceptSync of the same ballot on the same link (other messages may be reordered), and a server has handed over its queued AcceptDecide messages for a peer before it handles a Promise of that peer", "why_tests_cant": "The number of interleavings of elections, losses, crashes and batching is unbounded; the integration tests run a handful of schedules.", "anchors": ["omnipaxos/src/sequence_paxos/mod.rs: handle, create_log_sync", "omnipaxos/src/sequence_paxos/leader.rs: handle_majority_promises, handle_accepted, send_accsync, send_acceptdecide", "omnipaxos/src/sequence_paxos/follower.rs: handle_prepare, handle_acceptsync, handle_acceptdecide, handle_decide", "omnipaxos/src/omni_paxos.rs: OmniPaxos::read"]}
{"id": "C02", "title": "Agreement with outgoing messages fetched at arbitrary times", "statement": "C01 also holds when the application fetches outgoing messages at arbitrary times (as the API allows), i.e. without the assumption about AcceptDecide messages still queued when a Promise is handled.", "quantifier": "every schedule with FIFO lossy links and arbitrary times of take_outgoing_messages", "why_tests_cant": "Needs a particular interleaving of a lost AcceptSync, a resent Promise and appends between two fetches; tests fetch messages every few milliseconds.", "anchors": ["omnipaxos/src/sequence_paxos/leader.rs: send_accsync, send_acceptdecide, get_latest_accdec_message", "omnipaxos/src/omni_paxos.rs: take_outgoing_messages"]}
{"id": "C03", "title": "Agreement over links that reorder messages", "statement": "C01 also holds when messages between two servers may be delivered out of order.", "quantifier": "every schedule with links that lose and reorder messages", "why_tests_cant": "Reordering within one TCP-like link never happens in the test harness.", "anchors": ["omnipaxos/src/sequence_paxos/follower.rs: handle_acceptsync, handle_sequence_num", "omnipaxos/src/util.rs: SequenceNumber::check_msg_status"]}
{"id": "C04", "title": "Validity of decided entries", "statement": "Every entry that any server ever reports (decided or undecided) was previously given to append on some server of the cluster.", "quantifier": "every schedule (reordering, loss, crash at any write, any fetch times), every server, every index", "why_tests_cant": "A universally quantified negative statement: nothing is invented, in any execution.", "anchors": ["omnipaxos/src/sequence_paxos/mod.rs: append, forward_proposals", "omnipaxos/src/sequence_paxos/leader.rs: handle_forwarded_proposal, handle_majority_promises"]}
{"id": "C05", "title": "Decided entries are stable", "statement": "Once a server reports index i as decided with value e, every later decided report for index i at that server (also after crashes and restarts) has value e, or the index is reported as compacted.", "quantifier": "every server, index and pair of moments of every schedule covered by C01", "why_tests_cant": "Requires considering every later leader change and crash.", "anchors": ["omnipaxos/src/sequence_paxos/follower.rs: handle_acceptsync, update_decided_idx_and_get_accepted_idx", "omnipaxos/src/storage/internal_storage.rs: sync_log"]}
{"id": "C06", "title": "The decided index never moves backwards while a server runs", "statement": "get_decided_idx never decreases over the calls made on a running server.", "quantifier": "every sequence of API calls and incoming messages of every schedule", "why_tests_cant": "Depends on which promise arrives after the read quorum was formed.", "anchors": ["omnipaxos/src/sequence_paxos/follower.rs: handle_acceptsync, update_decided_idx_and_get_accepted_idx", "omnipaxos/src/sequence_paxos/leader.rs: handle_majority_promises, handle_promise_accept, handle_accepted"]}
{"id": "C07", "title": "Reconfiguration agreement and finality", "statement": "All servers for which is_reconfigured returns a stop sign return the same stop sign, at all times; and once some server reports the stop sign as decided at index k, no server ever reports a decided normal entry at an index at or after k.", "quantifier": "every pair of servers and moments of every schedule covered by C01", "why_tests_cant": "Concurrent reconfigure calls at different servers and leader changes around them give unboundedly many races.", "anchors": ["omnipaxos/src/sequence_paxos/mod.rs: is_reconfigured, reconfigure", "omnipaxos/src/sequence_paxos/leader.rs: accept_stopsign_leader", "omnipaxos/src/sequence_paxos/follower.rs: handle_accept_stopsign"]}
{"id": "C08", "title": "is_reconfigured is stable", "statement": "Once is_reconfigured returns Some(ss) at a server it keeps returning Some(ss) at that server.", "quantifier": "every schedule with FIFO links", "why_tests_cant": "Only breaks when a server is re-synchronised after the stop sign was decided.", "anchors": ["omnipaxos/src/sequence_paxos/mod.rs: is_reconfigured, create_log_sync", "omnipaxos/src/storage/internal_storage.rs: sync_log", "omnipaxos/src/storage/state_cache.rs: stopsign_is_decided"]}
{"id": "C09", "title": "A stopped server rejects proposals and changes nothing", "statement": "append and reconfigure return PendingReconfigEntry / PendingReconfigConfig with the very argument, and change neither storage nor outgoing messages nor any observable state, whenever a stop sign is in the log of the server; with no stop sign append never fails.", "quantifier": "every server state and every argument", "why_tests_cant": "All states of the server must be covered, including every role and phase.", "anchors": ["omnipaxos/src/sequence_paxos/mod.rs: append, reconfigure, accepted_reconfiguration"]}
{"id": "C10", "title": "The promised ballot never decreases", "statement": "The promise persisted in storage never decreases, over any call, any incoming message, and any crash at any storage write followed by recovery; get_promise always equals the persisted promise.", "quantifier": "every state, call, message and crash point, every schedule", "why_tests_cant": "Crash points between any two storage writes are not reachable from unit tests.", "anchors": ["omnipaxos/src/sequence_paxos/mod.rs: with", "omnipaxos/src/sequence_paxos/leader.rs: handle_leader", "omnipaxos/src/sequence_paxos/follower.rs: handle_prepare", "omnipaxos/src/storage/internal_storage.rs: set_promise"]}
{"id": "C11", "title": "At most one leader per ballot, and its entries are never rewritten", "statement": "Two servers never both act as leader with the same ballot, and the sequence of entries that a leader replicates in one ballot only grows.", "quantifier": "every schedule, including crash and restart of leaders", "why_tests_cant": "A statement about all pairs of servers and all times.", "anchors": ["omnipaxos/src/sequence_paxos/leader.rs: handle_leader", "omnipaxos/src/ballot_leader_election.rs: hb_timeout, check_takeover"]}
{"id": "C12", "title": "Acknowledged entries are durable", "statement": "When a server has sent Accepted{n, idx}, its persistent storage contains every entry below idx (or a compaction covering it) of the log of ballot n, at every storage write point from then on, until the server accepts in a later ballot.", "quantifier": "every schedule covered by C01, every crash point", "why_tests_cant": "Crash points between storage writes and the sending of messages.", "anchors": ["omnipaxos/src/sequence_paxos/follower.rs: reply_accepted, handle_acceptdecide, flush_batch_follower", "omnipaxos/src/storage/internal_storage.rs: append_entries_and_get_accepted_idx"]}
{"id": "C13", "title": "A decided index is accepted by a write quorum", "statement": "Whenever a server reports decided index d > 0 there is a ballot and a write quorum of servers each of which has accepted that ballot at least up to d.", "quantifier": "every server at every moment of every schedule covered by C01", "why_tests_cant": "Global property relating states of several servers at different times.", "anchors": ["omnipaxos/src/sequence_paxos/leader.rs: handle_accepted", "omnipaxos/src/util.rs: LeaderState::is_chosen"]}
{"id": "C14", "title": "Any read quorum meets any write quorum", "statement": "For every configuration accepted by validate, any set of distinct servers accepted as prepare quorum and any set of distinct servers accepted as accept quorum have a common member; and two accept quorums under majority also do.", "quantifier": "every validated cluster configuration, every two sets of cluster nodes", "why_tests_cant": "Arithmetic over all sizes and all sets.", "anchors": ["omnipaxos/src/util.rs: Quorum", "omnipaxos/src/omni_paxos.rs: ClusterConfig::validate"]}
{"id": "C15", "title": "Ballots are totally ordered; equality and order agree inside one configuration", "statement": "The ballot comparison is a total order that is lexicographic in (n, priority, pid); for two ballots of the same configuration Equal means the same ballot; for ballots of different configurations Equal and == can disagree.", "quantifier": "all ballots", "why_tests_cant": "All pairs and triples of ballots.", "anchors": ["omnipaxos/src/ballot_leader_election.rs: Ballot, Ord"]}
{"id": "C16", "title": "Followers apply an accept sequence without gaps or duplicates", "statement": "Whatever subsequence, with whatever duplicates and order, of the numbered messages of one session is delivered to a follower, the messages it applies are exactly the consecutive numbers following its AcceptSync, each once and in order; a gap is reported as DroppedPreceding and anything not newer than the last applied one as Outdated.", "quantifier": "every initial number and every list of arriving numbers", "why_tests_cant": "All arrival lists.", "anchors": ["omnipaxos/src/util.rs: SequenceNumber::check_msg_status", "omnipaxos/src/sequence_paxos/follower.rs: handle_sequence_num"]}
{"id": "C17", "title": "The election view of the leader is monotone", "statement": "The ballot that the election component regards as leader never decreases from one call to the next, whatever heartbeats arrive, and after an election timeout it is at least the promised ballot.", "quantifier": "every state of the election component, every call and heartbeat", "why_tests_cant": "All states and reply multisets.", "anchors": ["omnipaxos/src/ballot_leader_election.rs: hb_timeout, update_leader, check_takeover"]}
{"id": "C18", "title": "Elected ballots belong to the electing server and exceed everything it knows", "statement": "When an election timeout makes a server start a prepare phase, the ballot has its own pid and is strictly larger than its promise and its previous leader ballot; a takeover happens only if the server is unhappy, all replies are unhappy, and it has heard from a read quorum.", "quantifier": "every election state, all replies", "why_tests_cant": "All reply multisets and previous states.", "anchors": ["omnipaxos/src/ballot_leader_election.rs: check_takeover, update_happiness", "omnipaxos/src/sequence_paxos/leader.rs: handle_leader"]}
{"id": "C19", "title": "Heartbeat replies of other rounds or configurations are ignored", "statement": "A heartbeat reply whose round is not the current one or whose ballot is of another configuration leaves the election component unchanged; replies counted in a round all carry that round.", "quantifier": "every election state and reply", "why_tests_cant": "All states.", "anchors": ["omnipaxos/src/ballot_leader_election.rs: handle_reply, new_hb_round"]}
{"id": "C20", "title": "Timeouts fire exactly every k ticks", "statement": "A logical clock with timeout k > 0 reports a timeout at exactly the calls number k, 2k, 3k, ...; with timeout 0 (which validate accepts for flush_batch_tick_timeout) it never fires.", "quantifier": "every k and every number of ticks", "why_tests_cant": "Unbounded number of ticks.", "anchors": ["omnipaxos/src/util.rs: LogicalClock", "omnipaxos/src/omni_paxos.rs: tick, ServerConfig::validate"]}
{"id": "C21", "title": "read, read_entries and read_decided_suffix return the right entries", "statement": "In every state whose cache matches the storage, reading any index range returns: None if out of bounds, one compaction entry for the compacted part if the range touches it, then exactly the stored entries of the range in order, marked Decided below the decided index and Undecided otherwise, and the stop sign last if the range reaches it.", "quantifier": "every coherent server state and every non-empty range", "why_tests_cant": "All log shapes, compaction points and ranges.", "anchors": ["omnipaxos/src/storage/internal_storage.rs: read, get_entry_type, create_read_log_entries, read_decided_suffix"]}
{"id": "C22", "title": "Reading an empty range never panics", "statement": "read_entries(k..k) returns (None or an empty list) and does not panic, for every k.", "quantifier": "every server state and index", "why_tests_cant": "The panic needs a stop sign exactly at k.", "anchors": ["omnipaxos/src/storage/internal_storage.rs: read"]}
{"id": "C23", "title": "trim refuses undecided or not everywhere accepted indexes and removes nothing it should keep", "statement": "trim(idx) at a leader succeeds only if every server acknowledged idx and idx is decided at the leader; in every case, no entry at or after the trimmed index is removed or changed, the compacted index never decreases, and non-leaders return NotCurrentLeader without effect.", "quantifier": "every server state and argument", "why_tests_cant": "All states.", "anchors": ["omnipaxos/src/sequence_paxos/mod.rs: trim, handle_compaction", "omnipaxos/src/storage/internal_storage.rs: try_trim", "omnipaxos/src/util.rs: get_min_all_accepted_idx"]}
{"id": "C24", "title": "trim works for every valid set of server ids", "statement": "If all servers of the cluster have accepted and decided up to idx, trim(idx) at the leader succeeds.", "quantifier": "every validated cluster configuration (server ids need not be contiguous)", "why_tests_cant": "Needs a cluster with a gap in the pids.", "anchors": ["omnipaxos/src/util.rs: get_min_all_accepted_idx, LeaderState::with"]}
{"id": "C25", "title": "Trimming everywhere-accepted entries never makes a later leader crash or diverge", "statement": "After a successful trim every later leader can synchronise every follower, i.e. no server panics while handling protocol messages.", "quantifier": "every schedule with FIFO links in which only trim is used for compaction", "why_tests_cant": "Needs two leader changes after the trim with a follower that missed both the decide and the trim.", "anchors": ["omnipaxos/src/sequence_paxos/leader.rs: send_accsync", "omnipaxos/src/sequence_paxos/mod.rs: create_log_sync", "omnipaxos_storage/src/memory_storage.rs: get_suffix, append_on_prefix"]}
{"id": "C26", "title": "A local snapshot represents exactly the compacted prefix", "statement": "For a snapshot type where merging create(a) with create(b) gives create(a ++ b), after any sequence of local snapshot calls (and appends and decides) the stored snapshot equals create of all entries below the compacted index, entries after it are unchanged, only decided entries are snapshotted, and undecided indexes are refused with UndecidedIndex.", "quantifier": "every state, every sequence of snapshot indexes", "why_tests_cant": "All sequences and all snapshot types satisfying the law.", "anchors": ["omnipaxos/src/storage/internal_storage.rs: try_snapshot, create_snapshot", "omnipaxos/src/sequence_paxos/mod.rs: snapshot"]}
{"id": "C27", "title": "Snapshot synchronisation preserves the snapshot contents", "statement": "When a follower or a new leader is synchronised with a snapshot, its stored snapshot afterwards equals create of all decided entries below its compacted index.", "quantifier": "every schedule", "why_tests_cant": "The test snapshot type compares only the latest value, so a wrong merge is invisible to the tests.", "anchors": ["omnipaxos/src/storage/internal_storage.rs: sync_log, create_decided_snapshot, create_diff_snapshot", "omnipaxos/src/sequence_paxos/mod.rs: create_log_sync"]}
{"id": "C28", "title": "Mixing trim and snapshot keeps snapshots labelled correctly", "statement": "A Snapshotted log entry returned by read covers all entries below its trimmed_idx.", "quantifier": "every sequence of trim and snapshot calls", "why_tests_cant": "Requires trim after snapshot followed by reads.", "anchors": ["omnipaxos/src/storage/internal_storage.rs: try_trim, create_compacted_entry, create_snapshot"]}
{"id": "C29", "title": "The in-memory cache always equals the persistent state", "statement": "The cached promise, accepted round, decided index, compacted index, stop sign and (accepted index) log length agree with the storage after every call, so a restart does not change what the server reports.", "quantifier": "every call sequence and message sequence", "why_tests_cant": "Every call path through sync, batching and compaction.", "anchors": ["omnipaxos/src/storage/internal_storage.rs: load_cache, sync_log, set_stopsign, flush_batch", "omnipaxos/src/storage/state_cache.rs"]}
{"id": "C30", "title": "Persistent and in-memory storage are interchangeable", "statement": "The key-value based persistent storage and the in-memory storage give the same results for the same sequence of operations, and reopening the persistent storage recovers the same state.", "quantifier": "every sequence of storage operations that respects the index preconditions", "why_tests_cant": "All operation sequences.", "anchors": ["omnipaxos_storage/src/persistent_storage.rs", "omnipaxos_storage/src/memory_storage.rs"]}
{"id": "C31", "title": "Big-endian log keys sort like indexes", "statement": "The byte-wise lexicographic order of the 8-byte big-endian keys of the persistent log equals the numeric order of the indexes, and the decoding of a key is the index.", "quantifier": "all pairs of 64-bit indexes", "why_tests_cant": "2^128 pairs.", "anchors": ["omnipaxos_storage/src/persistent_storage.rs: open, append_entries, get_entries"]}
{"id": "C32", "title": "Batching neither loses, duplicates nor reorders entries", "statement": "For every batch size, after any sequence of appends and flushes the flushed log followed by the batch is exactly the previous log followed by the appended entries in order, and a batch is never as long as the batch size.", "quantifier": "every batch size, every sequence of operations", "why_tests_cant": "All sequences.", "anchors": ["omnipaxos/src/storage/state_cache.rs: append_entry, append_entries, take_batched_entries", "omnipaxos/src/storage/internal_storage.rs: append_entries_with_batching, flush_batch"]}
{"id": "C33", "title": "take_outgoing_messages hands over every queued message exactly once and in order", "statement": "The buffer afterwards is the old buffer followed by all queued replication messages then all queued election messages, the queues are empty, and later calls never modify a message that was handed over nor index outside the queue.", "quantifier": "every state reachable by any schedule", "why_tests_cant": "Interaction of cached queue indexes with every handler.", "anchors": ["omnipaxos/src/sequence_paxos/mod.rs: take_outgoing_msgs", "omnipaxos/src/sequence_paxos/leader.rs: get_latest_accdec_message", "omnipaxos/src/sequence_paxos/follower.rs: get_latest_accepted_message"]}
{"id": "C34", "title": "UniCache (LRU) encoder and decoder stay in lockstep", "statement": "Starting from equal fresh LRU caches, decoding in order every encoded field yields the original field and never panics.", "quantifier": "every cache size and every sequence of fields", "why_tests_cant": "All sequences and sizes.", "anchors": ["omnipaxos/src/unicache/lru_cache.rs: try_encode, decode"]}
{"id": "C35", "title": "UniCache (LFU) encoder and decoder stay in lockstep", "statement": "Starting from equal fresh LFU caches, decoding in order every encoded field yields the original field and never panics.", "quantifier": "every cache size and every sequence of fields", "why_tests_cant": "All sequences and sizes.", "anchors": ["omnipaxos/src/unicache/lfu_cache.rs: try_encode, decode", "omnipaxos/src/unicache/lfu/mod.rs"]}
{"id": "C36", "title": "A UniCache sent to a follower decodes what the leader encodes next", "statement": "After cloning the leader's cache (AcceptSync), the clone decodes every field encoded afterwards, for LRU and for LFU, and for a follower that itself becomes leader later.", "quantifier": "every history of the leader cache and every later sequence of fields", "why_tests_cant": "Depends on the full history of the cache.", "anchors": ["omnipaxos/src/unicache/lru_cache.rs: Clone", "omnipaxos/src/unicache/lfu_cache.rs: Clone"]}
{"id": "C37", "title": "Configuration validation accepts exactly the safe cluster configurations", "statement": "ClusterConfig::validate succeeds iff there are at least two nodes, a non-zero id and, if given, flexible quorums in range that overlap with read >= write; and every accepted configuration can be built without panic.", "quantifier": "all configurations", "why_tests_cant": "All configurations; duplicates and zero pids are not covered by tests.", "anchors": ["omnipaxos/src/omni_paxos.rs: ClusterConfig::validate, ServerConfig::validate, build", "omnipaxos/src/sequence_paxos/mod.rs: with"]}
{"id": "C38", "title": "Proposals reach a log or stay queued", "statement": "append at a server that is not stopped puts the entry exactly once into exactly one of: the local log or batch (leader in accept phase), the buffered proposals, or a ProposalForward message to the current leader.", "quantifier": "every server state and entry", "why_tests_cant": "All roles, phases and promises.", "anchors": ["omnipaxos/src/sequence_paxos/mod.rs: append, propose_entry, forward_proposals", "omnipaxos/src/sequence_paxos/leader.rs: accept_entry_leader"]}
{"id": "C39", "title": "A buffered reconfiguration is eventually proposed by a follower", "statement": "A stop sign buffered at a server without a leader is forwarded or proposed once the server follows a leader.", "quantifier": "every schedule", "why_tests_cant": "Liveness-flavoured: no step ever touches the buffered stop sign of a follower.", "anchors": ["omnipaxos/src/sequence_paxos/follower.rs: handle_acceptsync, forward_buffered_proposals", "omnipaxos/src/sequence_paxos/mod.rs: forward_stopsign"]}
{"id": "C40", "title": "A resent stop sign decision is eventually applied", "statement": "When the leader has decided the stop sign, the Decide it resends on every resend timeout makes a connected follower that accepted the stop sign report it as decided.", "quantifier": "every schedule", "why_tests_cant": "Needs a decide folded into an AcceptDecide queued before the stop sign.", "anchors": ["omnipaxos/src/sequence_paxos/leader.rs: resend_messages_leader, send_decide, handle_accepted", "omnipaxos/src/sequence_paxos/follower.rs: handle_decide, update_decided_idx_and_get_accepted_idx"]}
{"id": "C41", "title": "Decided is a prefix of accepted", "statement": "The decided index never exceeds the accepted length, the compacted index never exceeds the decided index, at every server and moment.", "quantifier": "every schedule without stop signs and with FIFO links", "why_tests_cant": "All schedules.", "anchors": ["omnipaxos/src/storage/internal_storage.rs: sync_log, try_trim", "omnipaxos/src/sequence_paxos/follower.rs: update_decided_idx_and_get_accepted_idx"]}
{"id": "C42", "title": "Stale leaders cannot change a follower", "statement": "A Prepare, AcceptSync, AcceptDecide, AcceptStopSign or Decide with a ballot smaller than the promise of the receiver changes neither its storage nor its role and phase; it is answered with NotAccepted (or ignored for Prepare).", "quantifier": "every receiver state and every message", "why_tests_cant": "All states and messages.", "anchors": ["omnipaxos/src/sequence_paxos/follower.rs: check_valid_ballot, handle_prepare"]}
{"id": "C43", "title": "Read-only calls and BLE messages do not change the log", "statement": "read, read_entries, read_decided_suffix, get_decided_idx, get_current_leader, set_priority, heartbeats and take_outgoing_messages write nothing to storage.", "quantifier": "every state and argument", "why_tests_cant": "All states.", "anchors": ["omnipaxos/src/omni_paxos.rs", "omnipaxos/src/ballot_leader_election.rs: handle"]}
{"id": "C44", "title": "No protocol step panics without compaction and reconfiguration", "statement": "In runs that use neither trim, snapshot nor reconfigure and whose entry type does not use snapshots, no API call and no message handling panics.", "quantifier": "every schedule with FIFO links of a cluster with distinct non-zero pids", "why_tests_cant": "All schedules.", "anchors": ["omnipaxos/src/sequence_paxos/leader.rs", "omnipaxos/src/sequence_paxos/follower.rs", "omnipaxos/src/util.rs: LeaderState"]}
{"id": "C45", "title": "Stop signs are proposed by reconfigure", "statement": "A stop sign that a server reports, decided or not, by a read or by is_reconfigured, is exactly the configuration and metadata of an earlier call of reconfigure at some server, and the configuration is a valid one.", "quantifier": "every schedule with arbitrary loss, reordering and crashes", "why_tests_cant": "All schedules.", "anchors": ["omnipaxos/src/sequence_paxos/mod.rs: reconfigure", "omnipaxos/src/sequence_paxos/leader.rs: accept_stopsign_leader", "omnipaxos/src/storage/internal_storage.rs: sync_log"]}
{"id": "C46", "title": "No entry is decided more often than it was appended", "statement": "For every test on entries, the number of log indices at which servers ever report a decided entry that passes the test is at most the number of append calls with such an entry that did not return an error. In particular an entry appended once is decided at most once, whatever retransmissions, forwarding, leader changes, log synchronisations and restarts happen in between, and an entry that was only refused is never decided. The same bound holds for the entries in the stored log of every server, decided or not.", "quantifier": "every reachable cluster state, every test, every set of indices; FIFO links and drained outgoing buffers, with arbitrary loss, crashes and restarts", "why_tests_cant": "Duplication needs particular interleavings of forwarding, retransmission, take-over and crash; tests sample a few.", "anchors": ["omnipaxos/src/sequence_paxos/mod.rs: append, forward_proposals, handle_forwarded_proposal", "omnipaxos/src/sequence_paxos/leader.rs: accept_entries_leader, handle_majority_promises", "omnipaxos/src/sequence_paxos/follower.rs: handle_acceptsync, handle_acceptdecide", "omnipaxos/src/storage/internal_storage.rs: append_entries_and_get_accepted_idx, flush_batch"]}
{"id": "C47", "title": "A quorum can always get an entry decided", "statement": "In a cluster without compaction and reconfiguration calls, no reachable state is a dead end: whatever happened before (crashes and restarts, lost messages, failed or competing leaders, half finished synchronisations, entries waiting in batches), any majority of the servers (or, with flexible quorums, any read quorum) can, by exchanging messages only among themselves and with one of them asking to become leader, decide an entry appended at that server, so that every one of them reads it as decided at the same index and as the last decided entry.", "quantifier": "every reachable cluster state, every set of servers of quorum size, every server of it, every entry, every cluster size and quorum configuration that is accepted; FIFO links and drained outgoing buffers; stop signs, trims and snapshots excluded", "why_tests_cant": "A state from which no continuation makes progress shows up in a test only if the test happens to reach it; that none exists is a statement about all reachable states.", "anchors": ["omnipaxos/src/omni_paxos.rs: try_become_leader, append", "omnipaxos/src/sequence_paxos/leader.rs: handle_leader, handle_promise_prepare, handle_promise_accept, handle_majority_promises, send_accsync, handle_accepted", "omnipaxos/src/sequence_paxos/follower.rs: handle_prepare, handle_acceptsync, reply_accepted, handle_decide", "omnipaxos/src/util.rs: LeaderState, Quorum"]}
{"id": "C48", "title": "A leader that is heard is not replaced", "statement": "Once a server has taken over with the largest ballot any server, promise or heartbeat reply knows, the leadership is stable as long as heartbeats work: if before each of its election timeouts every other server has received a heartbeat reply carrying the leader's ballot, and the leader has replies of as many servers as a quorum needs, then no server takes over, no server increments its ballot, nobody promises a larger ballot, every server that has promised the leader's ballot keeps that promise, every server that regards it as leader continues to (and every election timeout makes one that does not yet do so), and the leader stays in the leader role and does not fall back to the prepare phase. Loss and reordering of all other messages, proposals, compaction, reconfiguration, reconnections and restarts of the other servers do not disturb this.", "quantifier": "every reachable cluster state in which no larger ballot is known, every continuation without try_become_leader, set_priority and restart of the leader (other servers may restart if the ballot number is at least 2), every cluster size, quorum configuration and priorities", "why_tests_cant": "Leader churn depends on which heartbeats, late replies and Prepares meet which election timeouts; a test sees a few interleavings of a few rounds.", "anchors": ["omnipaxos/src/ballot_leader_election.rs: hb_timeout, update_leader, update_happiness, check_takeover, handle_request, handle_reply", "omnipaxos/src/omni_paxos.rs: tick, election_timeout", "omnipaxos/src/sequence_paxos/leader.rs: handle_leader", "omnipaxos/src/sequence_paxos/follower.rs: handle_prepare", "omnipaxos/src/sequence_paxos/mod.rs: reconnected"]}
{"id": "C49", "title": "A leader brings servers that fell behind up to date without an election", "statement": "Whatever state the other servers are in (behind, holding entries the leader does not have, in the middle of a synchronisation that got stuck on a lost message, still regarding themselves as leader of a lower ballot, just recovered), as long as they have not promised a ballot above the leader's, telling them that they are connected to the leader again is enough: through the messages this causes they end with the leader's promise, exactly the leader's stored log and the leader's decided index, while the leader stays leader of the same ballot with the same log. No election, no quorum and no restart is needed.", "quantifier": "every reachable cluster state with a server in the accept phase as leader of the ballot it promised, every set of servers containing it whose promises are not larger, every cluster size and quorum configuration; FIFO links and drained outgoing buffers before; stop signs, trims and snapshots excluded", "why_tests_cant": "The follower's log, phase, sequence number and pending messages can be anything an earlier run produced; a test constructs a handful of such divergences.", "anchors": ["omnipaxos/src/sequence_paxos/mod.rs: reconnected", "omnipaxos/src/sequence_paxos/leader.rs: handle_preparereq, handle_promise_accept, send_accsync", "omnipaxos/src/sequence_paxos/follower.rs: handle_prepare, handle_acceptsync", "omnipaxos/src/storage/internal_storage.rs: sync_log"]}
{"id": "C50", "title": "With a leader in place each append is decided in one round trip", "statement": "From every reachable state with a leader in the accept phase and a quorum of servers that have not promised a larger ballot, there is a resynchronisation of that quorum after which any sequence of entries whatsoever can be appended at the leader one after the other, each with exactly the same fixed exchange: one message to every other server of the quorum, one answer from each, one more message to each. After every such round the entry is decided and readable as decided at the next index at every server of the quorum; the logs of all of them are the leader's old log followed by the appended entries. So sequence numbers, counters and decided indices never drift apart, however long the run is.", "quantifier": "every reachable cluster state with a leader, every quorum containing it that is not ahead, every list of entries (any length), batch size at most one; FIFO links; stop signs, trims and snapshots excluded", "why_tests_cant": "A test appends some number of entries; that the normal case goes on for ever, from whatever state it started, needs an induction over the rounds.", "anchors": ["omnipaxos/src/sequence_paxos/leader.rs: accept_entry_leader, send_acceptdecide, handle_accepted, send_decide", "omnipaxos/src/sequence_paxos/follower.rs: handle_acceptdecide, reply_accepted, handle_decide, handle_sequence_num", "omnipaxos/src/util.rs: LeaderState, SequenceNumber"]}
{"id": "C51", "title": "If everybody hears everybody, the election ends", "statement": "Suppose a quorum of servers exchanges heartbeats in rounds: in each round every one of them receives the reply of every other one, in any order, before its election timeout. Whatever ballots, views and happy flags they start from, and whatever Sequence Paxos is doing meanwhile (its role, phase and promise enter the timeout), after a number of rounds that is bounded by the number of servers and the largest ballot number seen, one server is reported as elected at every timeout, always with the same ballot, no other server is, no server changes its ballot any more and a quorum has that ballot as its view. Duels of servers that keep taking over from each other do not last. (The bound cannot be independent of the ballots: a companion theorem shows a run in which the elected ballot changes in as many rounds as the largest ballot number.)", "quantifier": "every set of at least two servers that is a quorum, all initial ballots, views and flags, all orders of replies, every state of Sequence Paxos in each round, all later rounds without end; read and write thresholds equal (majority)", "why_tests_cant": "Whether takeovers come to rest depends on the interplay of all flags, views and ballots over many rounds; a test starts from one or two constellations and stops after the first election.", "anchors": ["omnipaxos/src/ballot_leader_election.rs: hb_timeout, update_leader, update_happiness, check_takeover, handle_request, handle_reply, new_hb_round"]}
{"id": "C52", "title": "Buffered proposals are kept until they are in the log or sent to a leader", "statement": "A proposal that a server accepted while it knew no leader (or while it was preparing) stays in its buffer through every call and every message, in the order of the proposals, until either the server, as leader in the accept phase, has the whole buffer as a contiguous block in its own log, or the whole buffer is in its outgoing queue as one ProposalForward to the server that it has promised (not to itself and not to nobody). The buffer is emptied in no other way: not by lost elections, new leaders, trims, snapshots, reconnects, timeouts, or by fetching outgoing messages. (A crash does lose it: the buffer is not stored.)", "quantifier": "every state whatsoever of a server, every call, every message with any content", "why_tests_cant": "The buffer is touched in several handlers and must survive every interleaving of role changes; a test proposes before one particular election.", "anchors": ["omnipaxos/src/sequence_paxos/mod.rs: forward_buffered_proposals, forward_proposals, propose_entry", "omnipaxos/src/sequence_paxos/leader.rs: handle_majority_promises, handle_forwarded_proposal", "omnipaxos/src/sequence_paxos/follower.rs: handle_acceptsync"]}
{"id": "C53", "title": "A server that is elected or told to take over asks everybody for promises", "statement": "try_become_leader never panics and never does nothing: in every state of a server, it makes the server promise (and store) its own next ballot, which is larger than what it had promised, enter the prepare phase as leader, keep in its stored log all that it held, and queue a Prepare with this ballot, its decided index, its last accepted round and the length of its log for every peer. The same holds for a tick in which the leader ballot of the server changes because the election reports the server's own ballot.", "quantifier": "every reachable state of a server under arbitrary messages, calls and crashes; every peer", "why_tests_cant": "The interplay of the ballot of the election and the promise of the log replication depends on the history; a test sees one election on fresh servers.", "anchors": ["omnipaxos/src/omni_paxos.rs: try_become_leader, tick, election_timeout", "omnipaxos/src/sequence_paxos/leader.rs: handle_leader"]}
{"id": "C54", "title": "A waiting server repeats its request at every resend timeout", "statement": "After a tick that is a resend timeout: a follower that recovers has a PrepareReq with its promise in its queue for every peer; a follower that has promised and waits for the log has its Promise, with the ballot that it has promised, in its queue for the server of that ballot; a leader (preparing or accepting) has a Prepare in its queue for every peer whose promise it has not recorded. A leader that has appended a stop-sign also repeats the decision on it to each promised follower if it is decided, and else the stop-sign itself to each promised follower whose recorded accepted index differs from its own. So no wait ends the exchange for ever after a lost message.", "quantifier": "every reachable state of a server under arbitrary messages, calls and crashes in which the resend timeout is due; every peer", "why_tests_cant": "Message loss can hit every kind of message in every state; a test loses one message in one state.", "anchors": ["omnipaxos/src/sequence_paxos/mod.rs: resend_message_timeout", "omnipaxos/src/sequence_paxos/leader.rs: resend_messages_leader", "omnipaxos/src/sequence_paxos/follower.rs: resend_messages_follower, send_preparereq_to_all_peers", "omnipaxos/src/omni_paxos.rs: tick"]}
{"id": "C55", "title": "A follower acknowledges whatever it accepts", "statement": "After every call and message that leaves a server as a follower in the accept phase, either its accepted index, its promise and its role are as before, or its outgoing queue has an Accepted message with its current accepted index for the round that it has promised. In particular, a log that is extended, replaced or resynchronised is always reported; no batch is stored without being acknowledged.", "quantifier": "every reachable state of a server under arbitrary messages, calls and crashes; every call and message", "why_tests_cant": "The acknowledgement is merged into an earlier message or left out in several places (batches, equal lengths, cached positions in the queue); a test checks one path.", "anchors": ["omnipaxos/src/sequence_paxos/follower.rs: handle_acceptsync, handle_acceptdecide, handle_accept_stopsign, handle_decide, reply_accepted, get_latest_accepted_message, flush_batch_follower"]}
{"id": "C56", "title": "Applications that read the decided log go through the same states", "statement": "Take a deterministic application that keeps an index, reads the decided suffix from its index on, applies the decided entries in order and moves its index accordingly, as the key-value example does. Two copies of it may read from any servers, change servers between reads, and read at any moments of the run. Then the copy that has read less was in the state of a prefix of what the other one has applied: at the same index both are in the same state. The entries they applied were all appended by somebody, and they are exactly what the servers report as decided. The same holds for applications that load snapshots (if loading a snapshot gives the state after the entries that it was created from), and each read takes the application at least to the decided index of the server.", "quantifier": "all runs of the cluster with crashes, message loss and failovers (H1, H2), all applications, all choices of servers and moments for the reads; with snapshots: runs without trims, stop-signs and delta snapshots", "why_tests_cant": "The claim is about all pairs of read histories across all servers and failovers; a test compares the logs of the servers at the end of one run.", "anchors": ["examples/kv_store/src/main.rs: main (reading and applying)", "omnipaxos/src/omni_paxos.rs: read_decided_suffix", "omnipaxos/src/storage/internal_storage.rs: read_decided_suffix, read"]}
{"id": "C57", "title": "What a leader knows to be accepted by a write quorum is decided", "statement": "Whenever a leader in the accept phase has recorded, for each server of a write quorum, an accepted index of at least k, its decided index is at least k. In particular the Accepted message that completes a write quorum for index k makes the leader decide k, and nobody is recorded with more than the leader itself has accepted.", "quantifier": "all valid configurations, all executions under H1 and H2 (any delays, losses, crashes), all leaders in the accept phase, all write quorums and all indexes", "why_tests_cant": "Which index is decided depends on the order in which the acknowledgements of several followers arrive; tests have followers that acknowledge the same indexes in step.", "anchors": ["omnipaxos/src/sequence_paxos/leader.rs:316-345", "omnipaxos/src/util.rs:252-262"]}
{"id": "C58", "title": "When the cluster comes to rest, the log of its leader is decided", "statement": "If no message is lost or overtaken and no server crashes, then whenever a leader is in the accept phase, a write quorum follows it in the accept phase of its ballot, no message is under way between them and nobody has entries waiting in a batch, the whole log of the leader is decided, at the leader and at these followers.", "quantifier": "all valid configurations, all executions under H1 and H2, all leaders and write quorums of followers, any interleaving with the other servers (whose messages may be lost) and any calls", "why_tests_cant": "That nothing is forgotten concerns every state in which a cluster can come to rest; tests look at a few runs in which they see the entries decided.", "anchors": ["omnipaxos/src/sequence_paxos/leader.rs:150-345", "omnipaxos/src/sequence_paxos/follower.rs:13-200", "omnipaxos/src/sequence_paxos/mod.rs:338-352"]}
{"id": "C59", "title": "Snapshots never make a server panic", "statement": "If the functions of the entry type that create and merge snapshots never fail, no call of the application, no tick and no message makes a server panic.", "quantifier": "all valid configurations, all executions with FIFO links in which a restarted server reads nothing sent to its predecessor, any calls except trim and reconfigure, entry types with snapshots", "why_tests_cant": "Synchronisation by snapshot is used only when a new leader meets servers with different decided and compacted indexes; which combinations can arise, after restarts and interrupted elections, is a question about all schedules.", "anchors": ["omnipaxos/src/sequence_paxos/mod.rs: create_log_sync", "omnipaxos/src/sequence_paxos/leader.rs: handle_majority_promises, handle_preparereq, send_accsync", "omnipaxos/src/util.rs:168-177", "omnipaxos/src/storage/internal_storage.rs: sync_log, create_diff_snapshot, try_snapshot", "omnipaxos_storage/src/memory_storage.rs: get_suffix, trim"]}
{"id": "C60", "title": "A restarted server is nobody's leader until it starts an election of its own", "statement": "Every ballot that a server follows, has promised, leads with or asks promises for belongs to the configuration and has a number of at least 1; a server that restarts after having promised something gets a ballot with number 0, so nobody follows, has promised or leads with this ballot; and its number changes only at an election timeout of this server, after which it follows itself or a larger ballot that it has promised.", "quantifier": "all cluster configurations, all schedules with loss, reordering and crashes, all server states", "why_tests_cant": "Depends on every ballot ever exchanged in an execution, including those read back after a crash in the middle of a call; a test sees one restart.", "anchors": ["omnipaxos/src/ballot_leader_election.rs: with, hb_timeout, RECOVERY_ROUND", "omnipaxos/src/sequence_paxos/mod.rs: with", "omnipaxos/src/sequence_paxos/leader.rs: handle_leader"]}
{"id": "C61", "title": "Agreement holds when the network duplicates messages", "statement": "If links may, besides losing and reordering messages, also deliver a message several times, arbitrarily late, then servers still never show different decided entries at an index, a decided entry stays, and is_reconfigured never names two stop signs. The code puts sequence numbers on the replication messages, so a second arrival should have no effect.", "quantifier": "all cluster configurations, all schedules with loss, crashes, duplication of any message any number of times, to any place of the queue of its link", "why_tests_cant": "A copy can arrive in any later state of the receiver; tests deliver each message once.", "anchors": ["omnipaxos/src/sequence_paxos/follower.rs: handle_acceptsync, handle_acceptdecide, handle_prepare, handle_sequence_num", "omnipaxos/src/sequence_paxos/leader.rs: handle_promise_accept, handle_accepted"]}
{"id": "C62", "title": "With UniCache servers still agree, and no accepted message breaks a cache", "statement": "With the feature unicache (a leader sends entries encoded by its cache, followers decode them with theirs, AcceptSync carries the leader's cache), servers never show different decided entries at an index, and a follower can decode every AcceptDecide that it accepts.", "quantifier": "all cluster configurations, all schedules with H1 and H2, loss and crashes, all batch sizes, the caches of the library", "why_tests_cant": "Whether two caches are in step depends on everything both ever processed, across changes of leader, late promises and pending batches; a test sees one history.", "anchors": ["omnipaxos/src/storage/state_cache.rs:58-100", "omnipaxos/src/storage/internal_storage.rs:270-279", "omnipaxos/src/sequence_paxos/leader.rs:100-190", "omnipaxos/src/sequence_paxos/follower.rs: handle_acceptsync, handle_acceptdecide", "omnipaxos/src/unicache/lru_cache.rs"]}
{"id": "C63", "title": "Late messages of an old configuration do not disturb the next one", "statement": "After a reconfiguration, messages of the old configuration that are still under way may be handed to the new instances (the messages name no configuration), or new ones to old instances. The servers of the new cluster still agree on what is decided, and it decides only what was proposed to it; the same for the old cluster.", "quantifier": "all pairs of cluster configurations with different ids, all schedules of both clusters with H1 and H2, crashes, all messages handed across in both directions at any time", "why_tests_cant": "Which stray message does harm depends on the ballots and logs of two clusters at once; tests start the second cluster on clean links.", "anchors": ["omnipaxos/src/messages.rs:252-258", "omnipaxos/src/ballot_leader_election.rs:53-57", "omnipaxos/src/omni_paxos.rs:331-336", "omnipaxos/src/sequence_paxos/mod.rs: handle_message", "docs/omnipaxos/reconfiguration.md"]}
{"id": "C64", "title": "Every accepted proposal and reconfiguration request is placed exactly once", "statement": "A reconfiguration request that returns Ok, a forwarded stop sign and forwarded entries go to exactly one place: the log of the leader, the buffer of the server, or a message to the current leader. Requests of a stopped server are refused or ignored without any effect. A waiting stop sign stays until its server has put it into the log as leader.", "quantifier": "every state whatsoever of a server, every request and message", "why_tests_cant": "A lost request only shows when a second one meets a server in the right role, and the call has returned Ok; the cases are role x phase x buffer x known leader.", "anchors": ["omnipaxos/src/sequence_paxos/mod.rs:310-330", "omnipaxos/src/sequence_paxos/mod.rs:366-396", "omnipaxos/src/sequence_paxos/leader.rs:76-95"]}
{"id": "C65", "title": "A successful compaction is announced to every other server, which then compacts too", "statement": "When trim succeeds, the leader removes its entries up to the trim index (never a decided stop sign), and queues a request with this index to every other server of the cluster; a successful snapshot that is not local_only queues the snapshot request, a local one sends nothing. A server that handles a trim request compacts to max(compacted, index) if it has decided that far, and otherwise changes nothing. If no message is lost, every server has compacted in the end.", "quantifier": "all configurations, all executions of the cluster with crashes, losses and any delivery, all servers, all trim indexes and snapshot calls; for the handling, all states a server can be in", "why_tests_cant": "The tests look at one trim of one cluster and wait until it worked. Which servers get the request, and what they do with it in the state they are in when it arrives, depends on every interleaving with reconnections, elections and stop signs.", "anchors": ["omnipaxos/src/sequence_paxos/mod.rs:141-227", "omnipaxos/src/storage/internal_storage.rs", "omnipaxos/src/omni_paxos.rs:245-262"]}
{"id": "C66", "title": "The priority that is set is the one the server is elected with", "statement": "set_priority changes the priority of the server's own ballot and nothing else; the ballots with which the server starts a prepare phase carry the priority it was last given (by its configuration or by set_priority); changing the priority triggers a leader re-election.", "quantifier": "all good configurations, all executions of the cluster, all servers, all sequences of set_priority calls", "why_tests_cant": "Whether the priority survives depends on the order of elections, restarts and promises; a test sees a handful of elections.", "anchors": ["omnipaxos/src/ballot_leader_election.rs:155-220", "omnipaxos/src/omni_paxos.rs:380-403"]}
{"id": "C68", "title": "Heartbeats reach everybody and are answered", "statement": "Every election timeout begins a new heartbeat round and asks every other server of the configuration in it; a new server does so at once. A server answers every request it gets with its own ballot, view and happiness for exactly that round.", "quantifier": "all configurations, all executions of the cluster, all servers; for the answer all states", "why_tests_cant": "Failure detection relies on every round, over all interleavings of timeouts, elections and restarts.", "anchors": ["omnipaxos/src/ballot_leader_election.rs:100-296"]}
{"id": "C67", "title": "What a leader adds to its log is sent to every follower that has promised", "statement": "When a leader in the accept phase adds entries to its log, whether by append, by a forwarded proposal, by filling a batch or by a flush timeout, the entries queued for each follower that has promised grow by exactly these entries in this order, even when they are merged into a message that was queued before; a stop sign that the leader accepts is queued for each of them. A flush timeout in the accept phase leaves nothing waiting in the batch.", "quantifier": "for every state a server can reach in any environment, every call and message other than a compaction (which rewrites the log) and a Decide of the leader's own ballot (which only the leader itself sends), every batch size, every number of followers", "why_tests_cant": "the merged message is found through an index cached per follower and reset at every fetch; whether the index always points to the right message depends on every other message queued in between and on crashes, promises and ballots, which tests sample only for a few interleavings", "anchors": ["omnipaxos/src/sequence_paxos/leader.rs:111-153", "omnipaxos/src/sequence_paxos/leader.rs:193-237", "omnipaxos/src/sequence_paxos/leader.rs:405-412", "omnipaxos/src/sequence_paxos/mod.rs:240-247", "omnipaxos/src/storage/internal_storage.rs:206-300"]}
{"id": "C69", "title": "Messages name their sender and reach only other servers of the cluster", "statement": "Every message a server hands over, and every message on its way, names that server as the sender and another server of the configuration as the receiver; messages that only leaders send (Prepare, AcceptSync, AcceptDecide, Decide, AcceptStopSign) carry a ballot whose pid is that of the sender. So the network layer can deliver every message, nothing is sent back to its sender or into the void, and no server speaks in the name of another leader. Calls of reconnected with an id outside of the configuration are excepted.", "quantifier": "for every execution of a cluster with any losses, delays, reorderings and crashes, any configuration, any calls as long as reconnected is called with ids of the configuration, every message and moment", "why_tests_cant": "receivers are computed from ballots, cached promises and leader tables that outlive the role in which they were set and that are restored from storage after a crash; tests see only the receivers of the interleavings they run", "anchors": ["omnipaxos/src/messages.rs:252-279", "omnipaxos/src/sequence_paxos/mod.rs:338-352", "omnipaxos/src/sequence_paxos/mod.rs:366-396", "omnipaxos/src/sequence_paxos/leader.rs:97-109", "omnipaxos/src/sequence_paxos/leader.rs:150-256", "omnipaxos/src/ballot_leader_election.rs:276-288"]}
{"id": "C70", "title": "The leader and phase that get_current_leader reports", "statement": "get_current_leader returns None only if the server has not promised any ballot, and otherwise a server of the configuration. If it returns (q, true) then q is in the accept phase, as the documentation says. If a server reports itself with true then it is the leader of the ballot it has promised, in the accept phase.", "quantifier": "for every execution of a cluster with any losses, delays, reorderings and crashes, every configuration without pid 0, every server and moment", "why_tests_cant": "the answer is computed from the local promise and phase while the claim is about the state of another server, across crashes, restarts and competing ballots; tests query it only in settled clusters", "anchors": ["omnipaxos/src/omni_paxos.rs:269-285", "omnipaxos/src/sequence_paxos/follower.rs:55-113", "omnipaxos/src/sequence_paxos/leader.rs:16-61"]}
{"id": "C71", "title": "Entries with the macro UniCacheEntry travel unchanged, cached as their attributes say", "statement": "For any struct with the derive macro UniCacheEntry: the cache that the macro writes decodes every sequence of encoded entries to the original entries, in all fields; it does not panic when the sizes fit the encoded types; a repeated value of a cached field is sent encoded; exactly the annotated fields are cached, with the size, encoded type and eviction policy of the field's own attribute or the documented defaults (255, u8, lru); and servers of a cluster agree on such entries.", "quantifier": "all structs (any number and types of fields, any attributes), all sequences of entries, all histories of the cache; for agreement all executions of a cluster with batch size 1 and no heir leading", "why_tests_cant": "The macro is exercised by tests on one struct; the combination of attributes and the interplay of the variables in its loop over the fields are unbounded.", "anchors": ["omnipaxos_macros/src/lib.rs: unicache_entry_derive", "omnipaxos/src/unicache/mod.rs: UniCache, FieldCache"]}
{"id": "C72", "title": "Servers can keep their log in the persistent storage", "statement": "The calls that a running server makes on its storage, in any execution of a cluster with crashes and restarts, leave the persistent storage (RocksDB) after each call with the same answers as the memory storage, so that the guarantees about servers hold for either; and reopening the database recovers exactly the same storage.", "quantifier": "all clusters, all executions with loss, reordering, crashes in the middle of a call and restarts, all servers, after every single storage call; as long as nothing is synchronised or compacted while a stop sign is in the log and indices stay in 64 bits", "why_tests_cant": "Tests run short scenarios on one of the two back-ends; whether every call that the protocol can issue meets the unwritten contract of the persistent storage (append at the end, trim not beyond the end) needs the invariants of the protocol over all executions.", "anchors": ["omnipaxos_storage/src/persistent_storage.rs:183-355", "omnipaxos/src/storage/internal_storage.rs:226-453", "omnipaxos/src/sequence_paxos/follower.rs", "omnipaxos/src/storage/mod.rs"]}
{"id": "C73", "title": "A leader's order is the order of the decided log", "statement": "If a leader stores entry a and later, still leading in the same ballot, entry b, which is appended once, then wherever and whenever b is reported as decided, it is at the index at which the leader stored it, a lower index holds a, is decided too, and nobody ever reports anything else there: no leader change, crash or resynchronisation reorders the two, drops a alone or puts something between them.", "quantifier": "all clusters, all executions with loss, crashes and restarts, FIFO links and drained restarts (H1, H2), all batch sizes, all servers and moments before and after", "why_tests_cant": "A test shows the order for the leader changes it contains; that no sequence of takeovers, partial replication and synchronisation lets b survive without a needs an invariant over the logs of all ballots.", "anchors": ["omnipaxos/src/sequence_paxos/leader.rs:149-175", "omnipaxos/src/sequence_paxos/leader.rs:280-348", "omnipaxos/src/sequence_paxos/follower.rs:49-116", "omnipaxos/src/sequence_paxos/mod.rs:235-300"]}
{"id": "C74", "title": "What the dashboard shows, and that it does not panic", "statement": "A dashboard (crate omnipaxos_ui) built from the configuration of a server and updated by tick with the states that get_ui_states returns at any moments of an execution never panics. After each tick it shows the ballot, the decided index, the reported leader and the role of the server; a peer as connected exactly if the server counted a heartbeat reply of it in the round before the current one, with the ballot and the leader of that reply; and at a leader the accepted index and the progress recorded for each server. The heartbeats handed over include the one of the current node, as documented.", "quantifier": "all clusters, all executions with loss, reordering, crashes and restarts, all servers, all sequences of moments at which the dashboard is updated", "why_tests_cant": "The states depend on the whole execution: whether an index goes down, a peer is ahead of the leader or an id has no row can only be excluded by invariants of all executions, not by looking at a screen.", "anchors": ["omnipaxos/src/utils/ui.rs:9-46", "omnipaxos/src/omni_paxos.rs:417-431", "omnipaxos/src/ballot_leader_election.rs:175-194", "omnipaxos_ui/src/app.rs:57-115", "omnipaxos_ui/src/lib.rs:99-171", "omnipaxos_ui/src/render.rs:398-500"]}
{"id": "C75", "title": "A server that hears a quorum is enough for a stable leader", "statement": "Over any fixed set of working links, however partial, as long as one server exchanges heartbeats with a quorum, the leader election settles after a bounded number of rounds: one server that hears a quorum is elected at every timeout with the same ballot, a quorum of the servers it hears follows it, has promised nothing larger and is not elected itself, and nobody takes over any more.", "quantifier": "all numbers of servers, all symmetric sets of links with a server that hears a quorum, all ballots, views and flags at the start, all roles, phases and promises of Sequence Paxos, all orders of replies, all later rounds", "why_tests_cant": "Tests try a few hand-picked partitions for a limited time; that the election settles for every link topology and every starting state, and stays settled for ever, needs a ranking argument.", "anchors": ["omnipaxos/src/ballot_leader_election.rs:197-274", "omnipaxos/src/ballot_leader_election.rs:276-294"]}
{"id": "C76", "title": "Forwarded proposals do not go round in circles", "statement": "A server hands a proposal or a reconfiguration request on only to the owner of the ballot it has promised, and never to itself. If the receiver hands anything on later, it has promised a strictly larger ballot by then. So along any path of such hand-overs the promised ballots strictly increase, no path is longer than the number of ballots promised along it, and a path that returns to a server finds it with a larger promise than when it handed the proposal on.", "quantifier": "all clusters and configurations, all executions with loss, reordering, crashes and restarts, all paths of any length", "why_tests_cant": "Tests see a forwarded proposal reach a settled leader; that no interleaving of elections, crashes and delayed messages sends one round between servers that each believe another leads concerns every execution.", "anchors": ["omnipaxos/src/sequence_paxos/mod.rs:332-396", "omnipaxos/src/sequence_paxos/leader.rs:16-92", "omnipaxos/src/sequence_paxos/follower.rs:13-100"]}
{"id": "C77", "title": "One call sends at most two replication messages and one heartbeat message to each server", "statement": "Whatever is called and whatever message arrives, a server queues at most two replication messages and at most one heartbeat message for each other server. So one call, tick or message adds at most three messages per other server, linear in the size of the cluster, however long the log, the batch, the buffers and the backlog of unfetched messages are.", "quantifier": "all clusters without repeated ids, all reachable states with loss, reordering, crashes and restarts, all calls and all messages, even forged ones, all receivers", "why_tests_cant": "Tests count messages in a few scenarios; that no combination of timeouts, buffered proposals, stop signs, resends and elections in one call sends more concerns every state.", "anchors": ["omnipaxos/src/sequence_paxos/leader.rs:16-415", "omnipaxos/src/sequence_paxos/follower.rs:13-290", "omnipaxos/src/sequence_paxos/mod.rs:130-396", "omnipaxos/src/ballot_leader_election.rs:167-294"]}
