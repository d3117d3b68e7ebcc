(** * Basic data types of OmniPaxos

    Transcription of the plain data types of the crate: ballots, sequence
    numbers, quorums, clocks, configurations, messages.  All machine integers
    are [nat]; see DESIGN.md for what this leaves out. *)

From Coq Require Import List Arith Bool Lia.
Import ListNotations.

(** ** Helpers *)

(** Checked subtraction of unsigned integers: [None] is the overflow panic of a
    build with overflow checks. *)
Definition sub_chk (a b : nat) : option nat :=
  if b <=? a then Some (a - b) else None.

(** [Vec] assignment [v[i] = x]; callers check the bound first. *)
Fixpoint upd {A} (l : list A) (i : nat) (x : A) : list A :=
  match l, i with
  | [], _ => []
  | _ :: t, 0 => x :: t
  | h :: t, S j => h :: upd t j x
  end.

(** ** Node ids, ballots *)

(** [NodeId], [ConfigurationId]: util.rs 350-352. *)
Notation node_id := nat (only parsing).

(** [Ballot]: ballot_leader_election.rs 26-35. *)
Record ballot := mkB { b_cfg : nat; b_n : nat; b_prio : nat; b_pid : node_id }.

(** [Ballot::default()]: derived, ballot_leader_election.rs 24. *)
Definition bdef : ballot := mkB 0 0 0 0.

(** [Ord for Ballot]: ballot_leader_election.rs 53-57 (lexicographic in
    (n, priority, pid); [config_id] is not compared). *)
Definition bcmp (a b : ballot) : comparison :=
  match Nat.compare (b_n a) (b_n b) with
  | Eq => match Nat.compare (b_prio a) (b_prio b) with
          | Eq => Nat.compare (b_pid a) (b_pid b)
          | c => c
          end
  | c => c
  end.

(** The operators [<], [<=] and [>] on ballots: ballot_leader_election.rs 59-63. *)
Definition blt (a b : ballot) : bool := match bcmp a b with Lt => true | _ => false end.
Definition ble (a b : ballot) : bool := match bcmp a b with Gt => false | _ => true end.
Definition bgt (a b : ballot) : bool := match bcmp a b with Gt => true | _ => false end.

(** Derived [PartialEq for Ballot] (all four fields): ballot_leader_election.rs 24. *)
Definition beq (a b : ballot) : bool :=
  (b_cfg a =? b_cfg b) && (b_n a =? b_n b) && (b_prio a =? b_prio b) && (b_pid a =? b_pid b).

(** ** Sequence numbers *)

(** [SequenceNumber]: util.rs 373-378. *)
Record seqnum := mkSeq { sq_sess : nat; sq_ctr : nat }.
Definition seq0 : seqnum := mkSeq 0 0.

(** [MessageStatus]: util.rs 361-368. *)
Inductive msg_status := Expected | DroppedPreceding | Outdated.

(** Derived [PartialOrd] of [SequenceNumber]: util.rs 371 (lexicographic). *)
Definition seq_le (a b : seqnum) : bool :=
  (sq_sess a <? sq_sess b) || ((sq_sess a =? sq_sess b) && (sq_ctr a <=? sq_ctr b)).

(** [SequenceNumber::check_msg_status]: util.rs 382-390. *)
Definition check_msg_status (self msg : seqnum) : msg_status :=
  if (sq_sess msg =? sq_sess self) && (sq_ctr msg =? sq_ctr self + 1) then Expected
  else if seq_le msg self then Outdated
  else DroppedPreceding.

(** ** Logical clock *)

(** [LogicalClock]: util.rs 393-396. *)
Record lclock := mkClk { lc_time : nat; lc_timeout : nat }.

(** [LogicalClock::with]: util.rs 399-401. *)
Definition clock_with (timeout : nat) : lclock := mkClk 0 timeout.

(** [LogicalClock::tick_and_check_timeout]: util.rs 403-411. *)
Definition clock_tick (c : lclock) : lclock * bool :=
  let t := lc_time c + 1 in
  if t =? lc_timeout c then (mkClk 0 (lc_timeout c), true)
  else (mkClk t (lc_timeout c), false).

(** ** Quorums *)

(** [FlexibleQuorum]: util.rs 419-424. *)
Record flexq := mkFlex { fq_read : nat; fq_write : nat }.

(** [Quorum]: util.rs 428-433. *)
Inductive quorum := Majority (m : nat) | Flexible (f : flexq).

(** [Quorum::with]: util.rs 436-447. *)
Definition quorum_with (f : option flexq) (num_nodes : nat) : quorum :=
  match f with
  | Some f => Flexible (mkFlex (fq_read f) (fq_write f))
  | None => Majority (num_nodes / 2 + 1)
  end.

(** [Quorum::is_prepare_quorum]: util.rs 449-454. *)
Definition is_prepare_quorum (q : quorum) (num_nodes : nat) : bool :=
  match q with
  | Majority m => m <=? num_nodes
  | Flexible f => fq_read f <=? num_nodes
  end.

(** [Quorum::is_accept_quorum]: util.rs 456-461. *)
Definition is_accept_quorum (q : quorum) (num_nodes : nat) : bool :=
  match q with
  | Majority m => m <=? num_nodes
  | Flexible f => fq_write f <=? num_nodes
  end.

(** ** Configurations *)

(** [ClusterConfig]: omni_paxos.rs 92-100. *)
Record cluster_config := mkCC { cc_id : nat; cc_nodes : list node_id; cc_flex : option flexq }.

(** [ServerConfig]: omni_paxos.rs 163-185 (without the logging fields). *)
Record server_config := mkSC {
  sc_pid : node_id;
  sc_election : nat;
  sc_resend : nat;
  sc_buffer : nat;
  sc_batch : nat;
  sc_flush : nat;
  sc_prio : nat
}.

(** [StopSign]: storage/mod.rs 51-56 ([metadata] bytes are [nat]). *)
Record stopsign := mkSS { ss_cfg : cluster_config; ss_meta : option (list nat) }.

(** ** Errors *)

(** [CompactionErr]: omni_paxos.rs 451-460. *)
Inductive compaction_err :=
| UndecidedIndex (i : nat)
| TrimmedIndex (i : nat)
| NotAllDecided (i : nat)
| NotCurrentLeader (p : node_id).

(** ** The entry type *)

(** [Entry] and [Snapshot]: storage/mod.rs 21-46 and 81-95.  [None] as result of
    [s_create] or [s_merge] is a panic (as in [NoSnapshot], 203-215). *)
Class EntryT := {
  T : Type;
  Snap : Type;
  s_create : list T -> option Snap;
  s_merge : Snap -> Snap -> option Snap;
  use_snapshots : bool
}.

Section WithEntry.
Context {E : EntryT}.

(** [SnapshotType]: storage/mod.rs 72-78. *)
Inductive snap_type := Complete (s : Snap) | Delta (s : Snap).

(** [LogSync]: util.rs 13-25. *)
Record log_sync := mkSync {
  sy_snap : option snap_type;
  sy_suffix : list T;
  sy_idx : nat;
  sy_ss : option stopsign
}.

(** [Promise]: messages.rs 45-60. *)
Record promise := mkProm {
  pr_n : ballot;
  pr_na : ballot;
  pr_dec : nat;
  pr_acc : nat;
  pr_sync : option log_sync
}.

(** [Compaction]: messages.rs 151-154. *)
Inductive compaction := CmpTrim (i : nat) | CmpSnapshot (i : option nat).

(** [PaxosMsg] and the message structs: messages.rs 20-179. *)
Inductive pmsg :=
| MPrepareReq (n : ballot)
| MPrepare (n : ballot) (dec : nat) (na : ballot) (acc : nat)
| MPromise (p : promise)
| MAcceptSync (n : ballot) (sq : seqnum) (dec : nat) (sy : log_sync)
| MAcceptDecide (n : ballot) (sq : seqnum) (dec : nat) (es : list T)
| MAccepted (n : ballot) (acc : nat)
| MNotAccepted (n : ballot)
| MDecide (n : ballot) (sq : seqnum) (dec : nat)
| MProposalForward (es : list T)
| MCompaction (c : compaction)
| MAcceptStopSign (n : ballot) (sq : seqnum) (ss : stopsign)
| MForwardStopSign (ss : stopsign).

(** [PaxosMessage]: messages.rs 184-194. *)
Record pmessage := mkPM { pm_from : node_id; pm_to : node_id; pm_msg : pmsg }.

(** [HeartbeatReply]: messages.rs 224-233. *)
Record hb_reply := mkHR { hr_round : nat; hr_ballot : ballot; hr_leader : ballot; hr_happy : bool }.

(** [HeartbeatMsg]: messages.rs 208-211 and 216-219. *)
Inductive hb_msg := HbRequest (round : nat) | HbReply (r : hb_reply).

(** [BLEMessage]: messages.rs 238-245. *)
Record ble_message := mkBM { bm_from : node_id; bm_to : node_id; bm_msg : hb_msg }.

(** [Message]: messages.rs 252-258. *)
Inductive message := MsgSP (m : pmessage) | MsgBLE (m : ble_message).

(** [Message::get_sender], [get_receiver]: messages.rs 265-278. *)
Definition msg_from (m : message) : node_id :=
  match m with MsgSP p => pm_from p | MsgBLE b => bm_from b end.
Definition msg_to (m : message) : node_id :=
  match m with MsgSP p => pm_to p | MsgBLE b => bm_to b end.

(** [LogEntry]: util.rs 264-279, [SnapshottedEntry]: util.rs 307-314. *)
Inductive log_entry :=
| LDecided (e : T)
| LUndecided (e : T)
| LTrimmed (i : nat)
| LSnapshotted (i : nat) (s : Snap)
| LStopSign (ss : stopsign) (decided : bool).

End WithEntry.
