# Formal model of OmniPaxos: design

The code under study is `haraldng/omnipaxos` at the pinned commit in `/repo`.
The model is written in Rocq (Coq 8.16.1) under `rocq/theories`. It is a
function-by-function transcription of the Rust code into total, computable
Gallina functions, plus a transition system for a whole cluster. The
properties are listed in `properties.jsonl`; `MANIFEST.json` maps every
property to theorem names.

## 1. What is modelled

| Rust | Coq file | remarks |
|---|---|---|
| `ballot_leader_election.rs` (Ballot, order) , `messages.rs`, `util.rs` (SequenceNumber, Quorum, LogicalClock), `storage/mod.rs` (StopSign, SnapshotType, StorageOp) | `Types.v` | |
| `omni_paxos.rs` configs and `validate` | `Config.v` | |
| `omnipaxos_storage/memory_storage.rs` | `MemStore.v` | the storage used by the cluster model |
| `storage/state_cache.rs`, `storage/internal_storage.rs` | `Internal.v` | without the `unicache` feature (see `UniSys.v`) |
| `util.rs` (`LeaderState`, `PromiseMetaData`) | `LeaderState.v` | |
| `sequence_paxos/{mod,leader,follower}.rs` | `SeqPaxos.v` | |
| `ballot_leader_election.rs` | `Ble.v` | |
| `omni_paxos.rs` (`OmniPaxos`) | `Omni.v` | the public API |
| cluster: links, crashes, recovery | `System.v` | |
| `omnipaxos_storage/persistent_storage.rs` | `Persist.v` | over an abstract ordered key-value store |
| `unicache/*` | `Unicache.v` | as separate components |
| `omnipaxos_macros/src/lib.rs` (`UniCacheEntry`) | `Derive.v` | the decisions of the macro and the code it writes, for any list of fields |
| `utils/ui.rs`, `get_ui_states`, `omnipaxos_ui/src/{app,lib,util}.rs`, the panics of `render.rs` | `Ui.v` | fractions instead of f64; trusted: `Gauge::ratio` of ratatui panics on arguments above 1 |
| the `unicache` feature in `sequence_paxos/*`, `internal_storage.rs`, `state_cache.rs`, `messages.rs` | `UniSys.v` | the cluster of `System.v` with entries that carry their processed form |
| several configurations one after the other (`docs/omnipaxos/reconfiguration.md`) | `TwoConf.v` | two clusters of `System.v` side by side; messages of one may be handed to the other |

### Conventions

* Numbers (`u32`, `u64`, `usize`) are unbounded `nat`. Wrap-around at 2^32 or
  2^64 is not modelled. Subtraction that would underflow is a panic, as in a
  build with overflow checks (the Rust debug profile).
* The entry type, its snapshot type, `create`, `merge` and `use_snapshots` are
  parameters (class `EntryT`); `create`/`merge` may panic (as `NoSnapshot`
  does). Theorems hold for every instance.
* A panic is the value `Panic tr`. `tr` is the list of storage states written
  so far during the call. A successful call also carries the storage states it
  wrote (ghost field `tr`). This lets a crash happen after any storage write of
  any call; one `write_atomically` is one write, as the `Storage` trait demands.
* Storage errors (`Err`) other than `CompactionErr` are not modelled: the
  in-memory storage never returns one and the code turns them into panics.
* Logging, serde, toml parsing, the terminal of the dashboard and its layout are not modelled. Of the macros, `Entry` (no behaviour) is not.
* `Vec` capacity (`buffer_size`) has no effect in the code and is dropped.

### The cluster

`System.v` has one node per pid, one queue per ordered pair of servers, and
steps for: every API call at a server; `take_outgoing_messages` at a server
(queued messages move to the links); delivery of the k-th message of a link;
loss of the k-th message of a link; and crash of a server during any call or
delivery after the j-th storage write, followed by recovery through `build`
from the surviving storage. A call that panics can only be followed by such a
crash. The election component is part of every node, driven by `tick`.

Hypotheses of the agreement theorems, stated on the execution:
* H1 (`syncs_in_order`): no `AcceptSync` overtakes another `AcceptSync` of the
  same ballot on the same link. Apart from this the messages of a link are
  delivered in any order, and any of them may be lost. FIFO links satisfy it
  (`fifo_syncs_in_order`).
* H2 (drained before promise): when a `Promise` from F is delivered to L, the
  outgoing buffer of L holds no `AcceptDecide` for F. An application that
  fetches outgoing messages after every call satisfies it.
* All servers are built with the same cluster configuration, accepted by
  `validate`, whose ids are non-zero.
C02 and C03 record that dropping H2 or H1 makes agreement false in the code.
Links of `System.v` do not duplicate messages; `Dup.v` adds steps that copy a
message of a link to any place of its queue (C61).

## 2. Proof plan

*Spec side.* Small, separate definitions: what a server reports (results of the
API functions), what an execution is, quorum membership by counting. No
invariant of the proof occurs in the statement of a property.

*Agreement family (C01, C05, C07, C11, C12, C13, C41).* An invariant over all
reachable cluster states with ghost state: for each ballot b the log `M b` of
its leader, for each server and ballot how far it has accepted. A log is a
list of entries and an optional stop sign, viewed as a stream in which the
stop sign repeats forever; this makes the off-by-one indexes of re-synchronised
stop signs harmless for agreement. The abstract Paxos argument (quorum
intersection, strong induction on ballots) is proved once over the ghost state.
The concrete part shows that each step of the code keeps the storage, message,
link-order and leader invariants.

*Local properties.* C09, C10, C15-C23, C26, C29, C30-C35, C37, C38, C42, C43 are
proved by case analysis or induction on the functions of the model.

*Refutations.* Where the faithful model contradicts the property, a theorem
named `..._refuted` gives a concrete execution, checked by computation.

## 3. Property by property

| id | modelled in | method | expected |
|---|---|---|---|
| C01 | System | invariant | proved under H1, H2 |
| C02 | System | witness execution; corollary of C01 for applications that fetch before each message | refuted; positive part `C02_agreement_fetch_before_handling_partial` |
| C03 | System | witness execution; C01 with the weakened H1 | refuted; positive part `C03_agreement_reordering_partial`: everything may be reordered except two AcceptSyncs of one ballot |
| C04 | System | invariant over arbitrary schedules | proved |
| C05 | System | corollary of the C01 invariant | proved |
| C06 | System | witness; monotone except by AcceptSync/new leader sync | refuted + partial |
| C07 | System | corollary of the C01 invariant | proved |
| C08 | System | witness execution; for the rest a sweep over all functions with the C01 invariant (a server that has the stop sign of its ballot gets no entries) | refuted; proved for all steps but synchronisation, takeover, Accepted and restart |
| C09 | Omni | case analysis | proved |
| C10 | System | invariant | proved |
| C11 | System | invariant | proved |
| C12 | System | corollary of the C01 invariant | proved |
| C13 | System | traversal of all handlers + C01 invariant | proved |
| C14 | Config, Types | counting | proved |
| C15 | Types | case analysis | proved |
| C16 | Types | induction on arrivals | proved |
| C17, C19 | Ble | case analysis | proved |
| C18 | Ble, System | case analysis; token-counting invariant on requests and replies; witness | partial: a takeover of a restarted server is refuted |
| C20 | Types | induction | proved |
| C21 | Internal, Omni | case analysis on ranges | proved |
| C22 | Omni | witness | refuted + partial |
| C23 | SeqPaxos | case analysis | proved |
| C24 | Omni | witness | refuted + partial (contiguous pids) |
| C25 | System | witness; the C44 sweep repeated for runs with trims (TrimPanic.v) | refuted; proved that only Prepare, Promise and AcceptSync that reach below the own compacted index panic |
| C26 | Internal | induction | proved |
| C27 | System | witness | refuted + partial (complete snapshots) |
| C28 | Omni | witness | refuted |
| C29 | SeqPaxos | invariant; witness with stop sign | partial |
| C30 | Persist | simulation | proved |
| C31 | Persist | arithmetic | proved |
| C32 | Internal | induction | proved |
| C33 | Omni, System | invariant | proved |
| C34, C35 | Unicache | lockstep invariant | proved |
| C36 | Unicache | witness; LRU clone lockstep | refuted + partial |
| C37 | Config, Omni | case analysis, witnesses | partial |
| C38 | Omni | case analysis | proved |
| C39 | System, SeqPaxos | witness; case analysis of the takeover | refuted for followers; proved for a server that takes over |
| C40 | System, SeqPaxos | witness; computation of `handle_decide` | refuted; proved for a Decide with the expected number |
| C41 | System | invariant; witness | first half proved, second refuted |
| C42 | SeqPaxos | case analysis | proved |
| C43 | Omni | case analysis | proved |
| C44 | System | invariant over arbitrary schedules | proved |
| C45 | System | traversal of all handlers, arbitrary schedules | proved |
| C46 | System | counting invariant inside the C01 traversal (`xt`, `xB`, `budget`, `room` in Op.v) | proved under H1, H2 |
| C47 | System | explicit schedule (lose everything, one takeover round, one synchronisation round, one decide round) from every state of the C01 invariant; Takeover.v has what each handler achieves | proved under H1, H2, no stop sign, no compaction |
| C48 | System, Ble | invariant `on_top` (no known ballot above b; PropStable.v); promises and Prepares bounded through the C01 invariant and the storage operations of Prims.v | proved; that the heartbeats of the leader arrive before each election timeout is its hypothesis |
| C49 | System | explicit schedule per server (drop what is under way, `reconnected`, PrepareReq, Prepare, Promise, AcceptSync) from every state of the C01 invariant; Steady.v has what each handler achieves, Moves.v the steps; equal logs through the link counters of SysInv.v | proved under H1, H2, no stop sign, no compaction |
| C50 | System | C49, then an explicit round per entry; induction on the list of entries (PropSteady.v) | proved under H1, H2, batch size at most 1, no stop sign, no compaction |
| C51 | Ble | Converge.v: after at most 2\|Q\|+3 rounds either a server leads for good or the sum of the view numbers, capped at N, has grown; PropConverge.v derives the abstract round from `hb_timeout`, `handle_request`, `handle_reply` | proved for rounds in which every server of a quorum hears every other one before its timeout, equal read and write thresholds; the promise of Sequence Paxos at each timeout is not above the view or a ballot that was heard |
| C52 | SeqPaxos, Omni | traversal of all handlers (PropBuffer.v) | proved for arbitrary states |
| C53 | SeqPaxos, Ble, Omni | invariants of the life of one server (PropAnswer.v) | proved |
| C54 | SeqPaxos, Omni | invariants of the life of one server (PropAnswer.v) | proved |
| C55 | SeqPaxos, Omni | traversal of all handlers, invariant on the cached queue position (PropAnswer.v) | proved |
| C56 | System; the application of examples/kv_store | C01, C04, C27 and the shape of the reads; induction on the reads (PropReplica.v) | proved under H1, H2; with snapshots in the runs of C27 |
| C57 | System | an invariant of what a leader records (Chosen.v) with the message facts of SysInv (PropChosen.v) | partial: false as stated (F25); holds at the arrival of the acknowledgement that completes the quorum, and for equal acknowledgements |
| C58 | System | an invariant for a leader and one follower: the numbers, decided indexes and acknowledgements under way, as a function of both states (Quiet.v, PropQuiet.v); step by step through all handlers, with the link invariant of SysInv.v for the equal logs | partial: false as stated (F26); holds from any moment at which leader and follower are in step, as long as both stay in the ballot and no message between them is lost or overtaken |
| C59 | System | two witnesses; the C44 sweep repeated for runs with any compaction (SnapPanic.v) | refuted (F27); proved that calls, ticks and reads never panic, and messages only if they need a part of the log that the server has compacted |
| C60 | System | invariant of all steps: the ballots of leaders and Prepares (Fresh.v), promises (Prims.v), the election (PropFresh.v) | proved for every schedule |
| C61 | System, Dup | the C01 invariant, in which only an AcceptSync has to leave the network when it is delivered: a run with copies is a run in which delivered messages stay (Dup.v); witness | partial: false for AcceptSync (F28), proved for all other messages |
| C62 | UniSys | two witnesses (UniRefute.v); invariant with the history of the leader's cache per ballot (UniSweep.v, UniInv.v) | refuted in general (F29, F30); proved for batch size 1 and leaders with a working cache (any cache with three laws), and for the LRU cache when no server leads that accepted from a leader since it was started |
| C63 | TwoConf | two witnesses; the invariant SysInv of each cluster is kept by every foreign message allowed by `may_cross` | refuted in general (F31, F32); agreement of both clusters proved under `may_cross` |
| C64 | SeqPaxos, Omni | case analysis of every call and message, no hypothesis on the state | entries proved; stop signs refuted (F33) and proved up to the two exceptions |
| C65 | SeqPaxos, Internal, System | peers of every server along a run, case analysis of try_trim, witness | announcement and handling proved; "everybody compacts in the end" refuted (F35) |
| C66 | Ble, Omni | invariant "a promised own ballot is not above the election view" along runs, two witnesses | proved without try_become_leader; refuted with it (F34); re-election refuted (F36) |
| C67 | SeqPaxos, Internal, LeaderState | invariant "a cached AcceptDecide is the last one queued for its follower" for every server state, then one sweep through all handlers that relates log, stop sign and queue before and after | proved (compaction and an echo of the own Decide excluded) |
| C68 | Ble, System | peers of the election along a run, case analysis | proved |
| C69 | Route, System | invariant of each server and of the network over all handlers, crashes included | proved |
| C70 | Phase, Route, System | evidence for the accept phase of a ballot (queued or travelling AcceptSync, servers in the phase) always goes back to its leader | documented claim refuted; what holds instead proved |
| C71 | Derive | product of the lockstep relations of C34 and C35 over the fields; induction over the loop of the macro; the laws of C62 for the product | round trip, panics and saving proved for all structs; documented default policy refuted; clone and agreement without lfu |
| C72 | DiskCalls, DiskRun | the functions of `InternalStorage` as storage calls; every call of a server of a cluster meets the contract of C30 by the cluster invariant; induction over the execution with crashes | proved without stop signs at synchronisation and compaction; refuted with them (F40) |
| C73 | System | the budget of C46 generalised from a number to a condition on logs that survives cutting off and appending (`budget` in Op.v); rounds below the promise of a server are never extended (`fr_O` in GhostOps.v), so the step in which a leader stores an entry puts it in the log of its ballot only | proved under H1, H2 for one ballot; refuted for forwarded entries and across ballots |
| C74 | Ui, System | `prev_replies` is added to the election component and followed through the executions; a tick of the dashboard is computed in full for every state of the dashboard that ticks can produce | exact condition for a panic, what is shown, and the heartbeats proved; no panic, the role, and the own heartbeat refuted |
| C75 | Ble | QConnect.v: the argument of Converge.v on an arbitrary fixed symmetric set of links; a server that hears a quorum either leads with the largest ballot among those it hears, or the capped sum of view numbers grows. PropQConnect.v derives the abstract round from `hb_timeout`. Assumes synchronous rounds, read quorum = write quorum, and promises not above the view or the ballots heard; `_partial` because the claim is false for other flexible quorums (F44), and the one-leader reading is false (F45) |
| C76 | System | Hops.v sweeps all handlers: what a call forwards, and that no `Prepare` exceeds the promise of its sender. PropHops.v: the owner of a promised ballot has promised it or more, for ever; whoever owns its own promise keeps proposals, so a forwarding receiver has promised more. Paths are over senders and receivers, not over the contents of one proposal, so the claim also covers a proposal that is duplicated, held back or mixed with others |
| C77 | Omni, System | Fan.v counts the messages one handler queues for one receiver. PropFan.v: peers have no repeated ids (assumed of the configuration, which the code does not check), hence at most two per call, and by C69 at most 3(n-1) in total. Counts queued messages; bytes are not counted, one `AcceptSync` may carry a whole log |

## 4. Trusted base

* Coq's kernel (8.16.1) and `coqchk`.
* The axioms printed by `Print Assumptions` after each theorem in the
  `Prop*.v` files (see section 5).
* The transcription of the Rust code, whose every definition cites file and
  lines.

## 5. Results

Status, theorem names and the exact reach of each claim are in
`MANIFEST.json`. `Print Assumptions` reports "Closed under the global context"
for every theorem listed there: no axiom of the standard library is used.

Beside each theorem stands an `Example` (`Cxx_case...`) with a concrete
execution or state that meets its hypotheses. Those of the cluster theorems
run three servers through elections, appends, crashes and re-synchronisation.

### What is not covered

* Liveness under fairness or time. C51 says that the election ends by itself if the heartbeats of a quorum arrive in
  lockstep rounds, C48 that the leader then stays; C47 and C49/C50 say that from every reachable state a quorum can get
  entries decided by some continuation. No theorem says that Sequence Paxos gets there by itself under arbitrary fair
  schedules.
* `unicache` with a separate vector of batched processed entries: `UniSys.v` keeps
  the processed form with the entry (its header says why this is enough).
* Wrap-around of machine integers, except the 64-bit keys of `Persist.v` and
  the code type of the caches.
* Storage errors, RocksDB, serialisation of entries, logging.
* Serde of messages: messages arrive as they were sent, or not at all.

### Where code and property disagree

Each line is a fact about the code as it is, with the theorem that shows it.

| | finding | theorem |
|---|---|---|
| F1 | A `Delta` snapshot that reaches a follower without a snapshot is stored as if it were complete; the entries before it are lost. | `C27_snapshot_sync_refuted` |
| F2 | Re-synchronising a log that ends in a stop sign adds one to the cached accepted index each time: it becomes larger than the log. `is_reconfigured` turns back to `None`, and a restart changes the report. | `C08_is_reconfigured_stable_refuted`, `C29_restart_changes_report_refuted` |
| F3 | The `AcceptSync` that answers a late `Promise` carries the decided index of the moment when the read quorum was formed: a follower's decided index can decrease, even below its compacted index. | `C06_decided_monotone_refuted`, `C41_compacted_le_decided_refuted` |
| F4 | An `AcceptDecide` waiting in the outgoing buffer is extended with entries after a new session for the same follower was started; the follower takes them at the wrong index. Two servers decide differently. It needs an application that handles a `Promise` before fetching earlier outgoing messages. The main loop of `examples/kv_store/src/server.rs` does so: it fetches by a timer. | `C02_agreement_any_fetch_times_refuted` |
| F5 | A reordered `AcceptSync` is applied again and takes the follower back to an older log. | `C03_agreement_reordering_refuted` |
| F6 | With gaps in the pids, `trim` with an index waits for servers that do not exist. | `C24_trim_sparse_pids_refuted` |
| F7 | After `trim`, a late `Promise` of a server with a shorter log makes the leader panic on an unwrap of `get_suffix`/snapshot creation. | `C25_trim_then_panic_refuted` |
| F8 | `read_entries(k..k)` panics if the stop sign is at `k`. | `C22_empty_range_refuted`, exact condition in `C22_empty_range_panics_iff_partial` |
| F9 | A timeout of 0 is refused by `validate` for two of the clocks only; a clock with timeout 0 never fires. | `C20_zero_timeout_never_fires` |
| F10 | `nodes: [1, 1]` is accepted by `validate` and panics in `build`. | `C37_validated_builds_refuted` |
| F11 | `Ballot` equality compares the configuration id, its order does not. | `C15_ballot_eq_other_config` |
| F12 | A cloned or received LFU cache has lost its counters and leaves the lockstep. | `C36_lfu_clone_refuted` |
| F13 | The stop sign buffered by a follower without leader is never forwarded. | `C39_buffered_stopsign_refuted` |
| F14 | Heartbeat replies are counted without a look at their sender: after a restart, replies of one server can count several times. | `C18_read_quorum_of_servers_refuted` |
| F15 | A `Decide` sent again by `resend_messages` has an old sequence number and is dropped. | `C40_resent_decide_refuted` |
| F16 | `trim` after `snapshot` leaves the old snapshot under the new, larger label. | `C28_trim_after_snapshot_refuted` |
| F20 | A cache with more slots than the encoded type has codes panics on encoding. | `C34_oversized_panics` |
| F21 | The encoder of a clone has one slot: a follower that becomes leader desynchronises its followers. | `C36_later_leader_refuted`, `C36_later_leader_lfu_refuted` |
| F22 | The LRU wrapper reads back an empty encoder only from formats without length. | `C36_sent_with_length_refuted` |
| F23 | The cache in an `AcceptSync` already holds the fields of entries that are batched and not yet sent. | `C36_pending_batch_refuted` |
| F24 | A heartbeat reply reports the view of its sender, but the receiver does not raise its own view to it: a server that was started with a small ballot takes over again in every round until its number has passed the ballot that the others still follow, and its happy flag stops those who know that ballot from taking over. The election takes a number of rounds that grows with the ballots, not with the number of servers. | `C51_rounds_grow_with_ballots` |
| F25 | A leader that gets an acknowledgement asks only whether the index in it is chosen (leader.rs 316-345), not which smaller index has become chosen. While the acknowledgements of the followers alternate, each ahead of the others, nothing is decided, however many entries a write quorum is known to have. | `C57_acknowledged_by_quorum_is_decided_refuted` |
| F26 | A Promise answers whichever Prepare arrives, and an AcceptSync is accepted in phase Prepare whichever Promise it answers (follower.rs 13-80). If `reconnected` is called between two Prepares of the same leader, a follower can accept an older AcceptSync and ignore the newer one. The leader then counts it as synchronised, though it lacks the entries in between: with no message lost, the cluster rests with entries that are not decided, whatever the number of ticks, until another entry is appended. | `C58_quiet_means_decided_refuted` |
| F27 | A candidate that holds a promise with a snapshot forgets the decided index of the promise when its sender restarts (`reset_promise`, util.rs, called from leader.rs `handle_preparereq`), but keeps the snapshot (`max_promise_sync`). If other servers complete the majority, it installs the snapshot with a smaller decided index (leader.rs `handle_majority_promises`), and the subtraction in `get_suffix` underflows when it synchronises a server that is behind. No call of trim or snapshot is needed. Without overflow checks the suffix would be empty instead, and the follower would silently lack the entries. | `C59_snapshots_no_panic_refuted` |
| F28 | AcceptSync carries a sequence number, but `handle_acceptsync` (follower.rs) does not compare it with what the follower has already seen: in the prepare phase of the same ballot it takes any AcceptSync of that ballot. A second arrival of the first AcceptSync, after `reconnected` and the new Prepare, replaces the log by the old one; entries that the leader has counted as accepted are lost at this follower, and another server can take over with it and decide other entries. (The weakness behind C03; here no AcceptSync overtakes another.) | `C61_copied_sync_refuted` |
| F29 | (F23 at cluster level.) With UniCache a leader encodes an entry when it is proposed (state_cache.rs 65-73), not when it is sent, and puts a clone of its cache into every AcceptSync (leader.rs 182-183). With a batch size above 1, a server whose Promise arrives while an entry waits in the batch gets a cache that already has the entry, and decodes the entry with it later: its cache is ahead of the leader's codes, and servers decide different entries at the same index, with no message lost and no server restarted. | `C62_batched_refuted` |
| F30 | (F21 at cluster level.) The cache a follower gets in an AcceptSync has an encoder of one place (`LruWrapper::clone`), with which it encodes when it becomes leader itself. The decoders of its followers have the full size, so the codes differ, and a follower panics in `decode`. One change of leader and five entries are enough. | `C62_failover_refuted` |
| F31 | The messages handed to the application (messages.rs 252-258) do not name their configuration, the new instances use the same server ids, and the order of ballots (ballot_leader_election.rs 53-57) ignores `config_id`. An AcceptSync of the old configuration that arrives late at a new instance which has promised a ballot with the same number, priority and server passes the ballot check: its old log and decided index are taken over, and two servers of the new cluster then show different decided entries. All links deliver in order, and every old server shows the decided stop sign before the new cluster starts. docs/omnipaxos/reconfiguration.md does not tell the user to separate the messages of configurations. | `C63_late_message_refuted` |
| F32 | In the same way a late forwarded proposal and a late forwarded stop sign (`ProposalForward`, `ForwardStopSign`, which carry no ballot at all) are taken by a leader of the new cluster: it decides an entry nobody proposed to it, and a stop sign for its own configuration, after which it takes no proposal. | `C63_only_own_proposals_refuted` |
| F33 | There is room for one waiting stop sign. Without a known leader a second `reconfigure` returns Ok and has no effect (sequence_paxos/mod.rs 393-395); at a server in the prepare phase it replaces the first one, which had returned Ok (mod.rs 325, leader.rs 91). | `C64_second_request_refuted`, `C64_first_request_refuted` |
| F34 | `hb_timeout` takes up the promised ballot if it is above the view of the election and belongs to the server itself (ballot_leader_election.rs 206-214). After `try_become_leader` this is the case at the next timeout, and a priority set in between is replaced by the old one. | `C66_priority_refuted` |
| F35 | A trim request is tried once when it arrives and errors are ignored (mod.rs 217-222). A server that has acknowledged an entry but not yet learned that it is decided (here: Decide ignored in phase Recover after `reconnected`) refuses the request and keeps the entry for good, although no message is lost. | `C65_trim_reaches_everyone_refuted` |
| F36 | `set_priority` does not trigger a re-election as omni_paxos.rs 399-400 says: ballots are compared by number first, so a follower with the highest priority leaves a leader with a higher ballot number in place. | `C66_reelection_refuted` (five timeouts in which everybody hears everybody) |
| F37 | `reconnected` does not check the id it gets: with an id outside of the configuration the server queues a PrepareReq for a server that does not exist. | `C69_any_reconnected_id_refuted` |
| F38 | omni_paxos.rs 272-274 says that if `get_current_leader` returns `true` then the returned leader is in the accept phase. A leader that has restarted or has followed a higher ballot is not, and servers that have not heard of it still report it. | `C70_leader_is_in_accept_phase_refuted` |
| F39 | omnipaxos_macros/src/lib.rs 71 and 135: `cache_type` is declared outside the loop over the fields and is assigned the default too, so a field without `cache(..)` gets the policy of the annotated field before it. After a field with `cache(lfu)` the documented default `lru` (44) is not the default, and the field inherits the clone of an LFU cache that decodes wrongly (F12). A second attribute `unicache` on a field is ignored without a message (92). | `C71_default_policy_refuted` |
| F40 | persistent_storage.rs 205-216 and 323-334: `append_on_prefix` sets `next_log_key` to the given index even if the log is shorter. An AcceptSync for a log that is complete up to a stop sign has the index behind the stop sign and no entries, and the stop sign is not in the log column. After it `get_log_len` is one too large and `get_suffix` from an earlier index returns an error (346), at which `create_log_sync` panics (sequence_paxos/mod.rs 413-424) if this server later has to send its log. The memory storage and a reopened database are not affected | `C72_persistent_servers_refuted` |
| F41 | omnipaxos_ui/src/app.rs 107: `decided_idx - self.decided_idx` underflows when the decided index has gone down between two ticks, which the protocol allows (F3). The dashboard, and with it the process of the server, panics in a build with overflow checks; without them the throughput shown is about 2^64. | `C74_decided_panics_refuted` |
| F42 | omnipaxos_ui/src/lib.rs 110-115 and render.rs 499: the progress of a follower is its accepted index over that of the leader and goes to `Gauge::ratio`, which asserts that it is at most 1. A follower that is synchronised twice behind a stop sign reports an accepted index larger than the leader's, and the next tick panics. | `C74_progress_panics_refuted` |
| F43 | omnipaxos_ui/src/lib.rs 160-171: `tick` calls `update_progress` before `update_leader`, so the role shown is that of the tick before; the first tick shows a leader as a follower. utils/ui.rs 13 and 42 and ballot_leader_election.rs 82 say that the heartbeats include the current node; they never do. | `C74_role_refuted`, `C74_own_heartbeat_refuted`, `C74_heartbeats_of_the_peers` |
| F44 | ballot_leader_election.rs 231-274: with flexible quorums a takeover needs a read quorum of replies, but a leader in the accept phase is happy only with a write quorum of followers. From a fresh start with five servers, read quorum 3, write quorum 4, where server 4 hears everybody and 3 and 5 hear 4 and each other, servers 5 and 3 take over from each other for ever and server 4, the only one that could lead, is never elected (`C75_flexible_quorums_refuted`). |
| F45 | ballot_leader_election.rs 244-250: a server that follows its own ballot stays happy, and is reported as elected at every timeout, if some server it hears follows a larger ballot and is happy. With links 3 - 1 - 2 and a fresh start both 2 and 3 are reported as elected for ever (`C75_one_elected_refuted`). Only one of them is followed by a quorum, so this is not a safety problem. |

Minor observations without theorem: `handle_leader` compares the ballot's pid
with the own pid, which is always equal on the path that the code takes; the
index in the label of a diff snapshot is the compacted index of the sender.

### Wrong programs

`seeded/LOG.jsonl` records edits of the model with realistic bugs, made in a
copy outside the repository: which proofs stopped to go through, and which
property theorems depend on them. A property theorem counts as failed if it,
or a lemma it uses, can no longer be proved by the same script.
