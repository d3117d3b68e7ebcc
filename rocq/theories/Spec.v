(** * Specification vocabulary

    What a server shows to its user, and what an execution is.  Only the API
    functions of Omni.v and the cluster of System.v are used. *)
From Coq Require Import List Arith Bool.
Import ListNotations.
From Verif Require Import Types Config MemStore Internal LeaderState SeqPaxos Ble Omni System.

Section WithEntry.
Context {E : EntryT}.

(** The element [x] of the list [l], returned by a read that starts at index
    [from], is about the log index [i].  If the read starts inside the compacted
    part, the first element stands for the whole compacted part and the next one
    is at the compacted index. *)
Definition at_index (o : omni) (from : nat) (l : list log_entry) (i : nat) (x : log_entry) : Prop :=
  if from <? get_compacted_idx o
  then exists j, nth_error l (S j) = Some x /\ i = get_compacted_idx o + j
  else exists j, nth_error l j = Some x /\ i = from + j.

(** The index at which a range starts. *)
Definition start_of (lo : bound) : nat :=
  match lo with Included i => i | Excluded i => i + 1 | Unbounded => 0 end.

(** The server shows [x] at log index [i], through any of the three read
    functions. *)
Inductive reports (o : omni) (i : nat) (x : log_entry) : Prop :=
| rep_read : read o i = RSome x -> reports o i x
| rep_entries lo hi l : read_entries o lo hi = RSome l -> at_index o (start_of lo) l i x -> reports o i x
| rep_suffix from l : read_decided_suffix o from = RSome l -> at_index o from l i x -> reports o i x.

(** A server [p] of the cluster state [s] shows [x] at [i]. *)
Definition server_reports (s : sys) (p : node_id) (i : nat) (x : log_entry) : Prop :=
  exists o, nodes s p = Some o /\ reports o i x.

(** A configuration of the whole cluster: accepted by [validate] at every node,
    and node ids are not 0 (the documentation of the configuration demands it). *)
Definition good_config (cc : cluster_config) (scs : node_id -> server_config) : Prop :=
  cluster_validate cc = true /\ ~ In 0 (cc_nodes cc) /\
  forall p, In p (cc_nodes cc) -> config_validate cc (scs p) = true /\ sc_pid (scs p) = p.

(** A usable snapshot type: snapshots can always be created, and merging the snapshots
    of two lists gives the snapshot of their concatenation. *)
Definition snapshot_law : Prop :=
  (forall a, exists sa, s_create a = Some sa) /\
  (forall a b sa sb, s_create a = Some sa -> s_create b = Some sb -> s_merge sa sb = s_create (a ++ b)).

(** Executions in which no AcceptSync overtakes another one of the same ballot (H1) and
    outgoing buffers are drained (H2). *)
Definition h1h2 (s : sys) (a : action) : Prop := syncs_in_order s a /\ drained s a.

(** [s] is reached from the initial state by the actions [l]. *)
Definition reaches (cc : cluster_config) (scs : node_id -> server_config) (l : list action) (s : sys) : Prop :=
  run cc (init_sys cc scs) l = Some s.

(** [s] is the cluster state at some moment of the run [l]. *)
Definition moment (cc : cluster_config) (scs : node_id -> server_config) (l : list action) (s : sys) : Prop :=
  exists l1 l2, l = l1 ++ l2 /\ reaches cc scs l1 s.

(** ** Persistent storage *)

(** The storage holds the entry [e] at log index [i]. *)
Definition stored (st : mstore) (i : nat) (e : T) : Prop :=
  ms_trim st <= i /\ nth_error (ms_log st) (i - ms_trim st) = Some e.

(** The storage holds something for every index below [k]: a compaction, an entry, or,
    from the end of its log on, the stop sign. *)
Definition covers (st : mstore) (k : nat) : Prop :=
  forall i, i < k ->
    i < ms_trim st \/ (exists e, stored st i e) \/
    (ms_ss st <> None /\ ms_trim st + length (ms_log st) <= i).

(** The accepted round in the storage (the default ballot if none was written). *)
Definition accepted_round (st : mstore) : ballot :=
  match ms_around st with Some b => b | None => bdef end.
(** The promised ballot in the storage. *)
Definition promised (st : mstore) : ballot :=
  match ms_prom st with Some b => b | None => bdef end.

(** [st] is the storage of server [p] at the moment [s], or at one of the storage writes
    of the event that [p] handles next. *)
Definition storage_at (s : sys) (p : node_id) (st : mstore) : Prop :=
  exists o, nodes s p = Some o /\
    (st = i_st (s_is (o_sp o)) \/
     exists ev c, event_call s p ev = Some c /\ h1h2 s (ADo p ev) /\ In st (crash_points o c)).

(** The replication message [m] was sent from [p] to [q] and not yet handled. *)
Definition in_transit (s : sys) (p q : node_id) (m : pmsg) : Prop :=
  In (MsgSP (mkPM p q m)) (net s p q) \/
  exists o, nodes s p = Some o /\ In (mkPM p q m) (s_out (o_sp o)).

(** ** The life of one server

    Anything may be delivered to the server: the messages of the calls are arbitrary. *)

(** The persistent storage of a server. *)
Definition storage (o : omni) : mstore := i_st (s_is (o_sp o)).

Inductive server_step : omni -> omni -> Prop :=
| sv_call o c o' r : exec o c = Ok (o', r) -> server_step o o'
| sv_take o buf o' l : take_outgoing_messages o buf = (o', l) -> server_step o o'
| sv_crash o c st cc sc o' : In st (crash_points o c) -> build cc sc st = BOk o' -> server_step o o'.

Inductive lives : omni -> omni -> Prop :=
| lv_refl o : lives o o
| lv_step o o1 o2 : lives o o1 -> server_step o1 o2 -> lives o o2.

(** [o] is a state that a server first built with an empty storage can get into. *)
Definition server_state (o : omni) : Prop :=
  exists cc sc o0, build cc sc ms_default = BOk o0 /\ lives o0 o.

(** [o] and [o'] are the same server state; only the record of the storage writes of the
    last call, which the model keeps for crashes, is ignored. *)
Definition same_state (o o' : omni) : Prop := start_call o' = start_call o.

(** ** Proposals *)

(** What a server has of the log: the stored entries followed by the batch. *)
Definition held (o : omni) : list T := ms_log (storage o) ++ c_batch (i_ca (s_is (o_sp o))).
(** The proposals that wait for a leader. *)
Definition buffered (o : omni) : list T := s_bprops (o_sp o).
(** The replication messages that wait to be fetched. *)
Definition outgoing (o : omni) : list pmessage := s_out (o_sp o).
(** The forwarded proposals among them. *)
Definition is_forward (m : pmessage) : bool := match pm_msg m with MProposalForward _ => true | _ => false end.
Definition forwarded (o : omni) : list pmessage := filter is_forward (outgoing o).
(** Server id and role of a server. *)
Definition own_pid (o : omni) : node_id := s_pid (o_sp o).
Definition role_of (o : omni) : role * phase := (s_role (o_sp o), s_phase (o_sp o)).

(** The entry [e] was given to [append] at some server, in the actions [l]. *)
Definition appended (l : list action) (e : T) : Prop :=
  exists a p, In a l /\ action_event a = Some (p, ECall (CAppend e)).

(** The action gives an entry that satisfies [t] to [append]; the call returns without an error,
    or the server is killed during the call. *)
Definition takes (t : T -> bool) (s : sys) (a : action) : bool :=
  match a with
  | ADo p (ECall (CAppend e)) =>
      match nodes s p with
      | Some o => match exec o (CAppend e) with Ok (_, RPropose None) => t e | _ => false end
      | None => false
      end
  | ACrash _ (ECall (CAppend e)) _ _ => t e
  | _ => false
  end.
(** The number of these actions in the run [l] from [s]. *)
Fixpoint taken (t : T -> bool) (cc : cluster_config) (s : sys) (l : list action) : nat :=
  match l with
  | [] => 0
  | a :: r => (if takes t s a then 1 else 0) +
              match exec_action cc s a with Some s' => taken t cc s' r | None => 0 end
  end.

(** ** Compaction *)

(** Storage [st'] is [st] with nothing removed or changed except entries below its compacted
    index. *)
Definition only_compacted (st st' : mstore) : Prop :=
  ms_comp st <= ms_comp st' /\
  (forall i e, ms_comp st' <= i -> (stored st' i e <-> stored st i e)) /\
  ms_prom st' = ms_prom st /\ ms_around st' = ms_around st /\ ms_dec st' = ms_dec st /\ ms_ss st' = ms_ss st.
(** The leader [o] has recorded that [p] accepted the log up to [k]. *)
Definition acknowledged (o : omni) (p : node_id) (k : nat) : Prop :=
  exists a, nth_error (l_accs (s_ls (o_sp o))) (p - 1) = Some a /\ k <= a.
(** [p] is a server of the cluster of [o]. *)
Definition member (o : omni) (p : node_id) : Prop := p = own_pid o \/ In p (s_peers (o_sp o)).
(** The server has the decided stop sign in its log. *)
Definition stopped (o : omni) : Prop := ms_ss (storage o) <> None /\ i_dec (s_is (o_sp o)) = i_acc (s_is (o_sp o)).

(** The storage represents the log [full]: it holds the entries from the compacted index on, and
    its snapshot is the snapshot of the entries before. *)
Definition represents (st : mstore) (full : list T) : Prop :=
  ms_comp st <= length full /\ ms_log st = skipn (ms_comp st) full /\
  match ms_snap st with
  | Some sn => s_create (firstn (ms_comp st) full) = Some sn
  | None => ms_comp st = 0
  end.
(** A synchronisation that carries no snapshot, or a complete one that is right. *)
Definition sync_complete (sy : log_sync) : Prop :=
  match sy_snap sy with
  | None => True
  | Some (Complete sn) => exists a, length a = sy_idx sy /\ s_create a = Some sn
  | Some (Delta _) => False
  end.

(** ** Reading *)

(** Number of log indices that the storage holds: compacted ones, entries and the stop sign. *)
Definition log_end (st : mstore) : nat :=
  ms_comp st + length (ms_log st) + match ms_ss st with Some _ => 1 | None => 0 end.
(** The accepted index of the server is the end of its stored log. *)
Definition matched (o : omni) : Prop := i_acc (s_is (o_sp o)) = log_end (storage o).
(** The index before which a range ends. *)
Definition end_of (st : mstore) (hi : bound) : nat :=
  match hi with Included i => i + 1 | Excluded i => i | Unbounded => log_end st end.
(** [x] is what a read has to show for the index [i], which is not compacted: the entry with its
    mark, or the stop sign with its mark. *)
Definition shown (st : mstore) (i : nat) (x : log_entry) : Prop :=
  (exists e, stored st i e /\
     ((i < ms_dec st /\ x = LDecided e) \/ (ms_dec st <= i /\ x = LUndecided e))) \/
  (exists ss d, ms_ss st = Some ss /\ i = ms_comp st + length (ms_log st) /\ x = LStopSign ss d /\
     (d = true <-> ms_dec st = i + 1)).
(** [x] is what a read has to show for the compacted part. *)
Definition shown_compacted (st : mstore) (x : log_entry) : Prop :=
  match ms_snap st with
  | Some sn => x = LSnapshotted (ms_comp st) sn
  | None => x = LTrimmed (ms_comp st)
  end.
(** [l] is what a read of the indices from [a] up to and without [b] has to show. *)
Definition shown_range (st : mstore) (a b : nat) (l : list log_entry) : Prop :=
  exists c r, l = c ++ r /\
    (if a <? ms_comp st then exists x, c = [x] /\ shown_compacted st x else c = []) /\
    Forall2 (shown st) (seq (Nat.max a (ms_comp st)) (b - Nat.max a (ms_comp st))) r.

(** ** Election *)

(** The ballot that the election regards as leader, its own ballot, and the replies of the
    current heartbeat round. *)
Definition election_view (o : omni) : ballot := e_leader (o_ble o).
Definition own_ballot (o : omni) : ballot := e_ballot (o_ble o).
Definition replies (o : omni) : list hb_reply := e_replies (o_ble o).
(** The ballot of the last prepare phase that the server started. *)
Definition leader_ballot (o : omni) : ballot := l_n (s_ls (o_sp o)).
(** The next [tick] is an election timeout. *)
Definition election_due (o : omni) : Prop := lc_time (o_eclk o) + 1 = lc_timeout (o_eclk o).
(** [v] is a largest ballot of [l]. *)
Definition largest (v : ballot) (l : list ballot) : Prop := In v l /\ forall x, In x l -> ble x v = true.
(** [n] servers are enough for a prepare phase of the server [o]. *)
Definition read_quorum (o : omni) (n : nat) : Prop :=
  match e_quorum (o_ble o) with Majority m => m <= n | Flexible f => fq_read f <= n end.
Definition write_quorum (o : omni) (n : nat) : Prop :=
  match e_quorum (o_ble o) with Majority m => m <= n | Flexible f => fq_write f <= n end.

End WithEntry.
