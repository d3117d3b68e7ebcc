(** * The public API: struct OmniPaxos *)
From Coq Require Import List Arith Bool.
Import ListNotations.
From Verif Require Import Types Config MemStore Internal LeaderState SeqPaxos Ble.

Section WithEntry.
Context {E : EntryT}.

(** [OmniPaxos]: omni_paxos.rs 225-235. *)
Record omni := mkOmni { o_sp : sp; o_ble : bles; o_eclk : lclock; o_rclk : lclock; o_fclk : lclock }.

Definition set_sp (o : omni) x := mkOmni x (o_ble o) (o_eclk o) (o_rclk o) (o_fclk o).
Definition set_ble (o : omni) x := mkOmni (o_sp o) x (o_eclk o) (o_rclk o) (o_fclk o).

(** [OmniPaxosConfig::build]: omni_paxos.rs 61-80, with the conversions
    sequence_paxos/mod.rs 470-491 and ballot_leader_election.rs 328-353.
    [BErr]: validation failed.  [BPanic]: the panic of [SequencePaxos::with]. *)
Inductive build_res := BErr | BPanic | BOk (o : omni).

Definition build (c : cluster_config) (s : server_config) (st : mstore) : build_res :=
  if config_validate c s then
    let peers := peers_of c (sc_pid s) in
    match sp_with (sc_pid s) peers (cc_flex c) (sc_batch s) st with
    | Some p =>
        BOk (mkOmni p
               (ble_with (cc_id c) (sc_pid s) peers (sc_prio s) (cc_flex c) (ms_prom st))
               (clock_with (sc_election s)) (clock_with (sc_resend s)) (clock_with (sc_flush s)))
    | None => BPanic
    end
  else BErr.

(** ** Read-only functions *)

(** [get_decided_idx], [get_compacted_idx], [get_promise], [is_reconfigured]:
    omni_paxos.rs 262-269, 288-290, 339-341. *)
Definition get_decided_idx (o : omni) : nat := i_dec (s_is (o_sp o)).
Definition get_compacted_idx (o : omni) : nat := i_comp (s_is (o_sp o)).
Definition get_promise (o : omni) : ballot := i_prom (s_is (o_sp o)).
Definition is_reconfigured (o : omni) : option stopsign := sp_is_reconfigured (o_sp o).

(** [get_current_leader]: omni_paxos.rs 277-285. *)
Definition get_current_leader (o : omni) : option (node_id * bool) :=
  let p := b_pid (get_promise o) in
  if p =? 0 then None else Some (p, phase_eqb (s_phase (o_sp o)) PhAccept).

(** Result of a read: panic, [None], or a value. *)
Inductive read_res (A : Type) := RPanic | RNone | RSome (a : A).
Arguments RPanic {A}.
Arguments RNone {A}.
Arguments RSome {A} a.

Definition to_rr {A} (x : option (option A)) : read_res A :=
  match x with None => RPanic | Some None => RNone | Some (Some a) => RSome a end.

(** [read_entries]: omni_paxos.rs 312-320. *)
Definition read_entries (o : omni) (lo hi : bound) : read_res (list log_entry) :=
  to_rr (i_read (s_is (o_sp o)) lo hi).

(** [read]: omni_paxos.rs 299-309 ([v.pop()] takes the last element). *)
Definition read (o : omni) (idx : nat) : read_res log_entry :=
  match i_read (s_is (o_sp o)) (Included idx) (Excluded (idx + 1)) with
  | None => RPanic
  | Some None => RNone
  | Some (Some v) => match rev v with [] => RNone | x :: _ => RSome x end
  end.

(** [read_decided_suffix]: omni_paxos.rs 323-328. *)
Definition read_decided_suffix (o : omni) (from : nat) : read_res (list log_entry) :=
  to_rr (i_read_decided_suffix (s_is (o_sp o)) from).

(** ** Calls that change the state *)

(** [take_outgoing_messages]: omni_paxos.rs 293-296. *)
Definition take_outgoing_messages (o : omni) (buffer : list message) : omni * list message :=
  let '(s, buffer) := sp_take_outgoing (o_sp o) buffer in
  let buffer := buffer ++ map MsgBLE (e_out (o_ble o)) in
  (set_ble (set_sp o s) (e_set_out (o_ble o) []), buffer).

(** The calls of the API, except the read-only ones and
    [take_outgoing_messages]. *)
Inductive call :=
| CAppend (e : T)
| CReconfigure (c : cluster_config) (meta : option (list nat))
| CTick
| CTrim (i : option nat)
| CSnapshot (i : option nat) (local_only : bool)
| CReconnected (p : node_id)
| CTryLeader
| CSetPriority (p : nat)
| CHandle (m : message).

(** Returned values. *)
Inductive ret := RUnit | RPropose (r : option propose_err) | RCompact (r : option compaction_err).

(** [election_timeout]: omni_paxos.rs 408-415. *)
Definition election_timeout (o : omni) : res omni :=
  let s := o_sp o in
  let '(b, r) := hb_timeout (o_ble o) (s_role s, s_phase s) (sp_promise s) in
  let o := set_ble o b in
  match r with
  | Some n => s <- handle_leader s n ;; Ok (set_sp o s)
  | None => Ok o
  end.

(** [tick]: omni_paxos.rs 376-386. *)
Definition tick (o : omni) : res omni :=
  let '(ec, fire) := clock_tick (o_eclk o) in
  let o := mkOmni (o_sp o) (o_ble o) ec (o_rclk o) (o_fclk o) in
  o <- (if fire then election_timeout o else Ok o) ;;
  let '(rc, fire) := clock_tick (o_rclk o) in
  let o := mkOmni (o_sp o) (o_ble o) (o_eclk o) rc (o_fclk o) in
  o <- (if fire then s <- resend_message_timeout (o_sp o) ;; Ok (set_sp o s) else Ok o) ;;
  let '(fc, fire) := clock_tick (o_fclk o) in
  let o := mkOmni (o_sp o) (o_ble o) (o_eclk o) (o_rclk o) fc in
  (if fire then s <- flush_batch_timeout (o_sp o) ;; Ok (set_sp o s) else Ok o).

(** [try_become_leader]: omni_paxos.rs 391-396. *)
Definition try_become_leader (o : omni) : res omni :=
  let my := set_n (e_ballot (o_ble o)) (b_n (sp_promise (o_sp o)) + 1) in
  s <- handle_leader (o_sp o) my ;; Ok (set_sp o s).

(** [reconfigure]: omni_paxos.rs 352-365. *)
Definition reconfigure (o : omni) (c : cluster_config) (meta : option (list nat)) : res (omni * ret) :=
  if cluster_validate c then
    '(s, r) <- sp_reconfigure (o_sp o) c meta ;; Ok (set_sp o s, RPropose r)
  else Ok (o, RPropose (Some (ConfigErr c meta))).

(** [handle_incoming]: omni_paxos.rs 331-336. *)
Definition handle_incoming (o : omni) (m : message) : res omni :=
  match m with
  | MsgSP p => s <- sp_handle (o_sp o) p ;; Ok (set_sp o s)
  | MsgBLE b => Ok (set_ble o (ble_handle (o_ble o) b))
  end.

(** Forget the storage states recorded by earlier calls (not in the code). *)
Definition start_call (o : omni) : omni :=
  let s := o_sp o in set_sp o (set_is s (mkIS (i_st (s_is s)) (i_ca (s_is s)) [])).

(** One call of the API: omni_paxos.rs 245-403. *)
Definition exec_call (o : omni) (c : call) : res (omni * ret) :=
  match c with
  | CAppend e => '(s, r) <- sp_append (o_sp o) e ;; Ok (set_sp o s, RPropose r)
  | CReconfigure cc meta => reconfigure o cc meta
  | CTick => o <- tick o ;; Ok (o, RUnit)
  | CTrim i => '(s, r) <- sp_trim (o_sp o) i ;; Ok (set_sp o s, RCompact r)
  | CSnapshot i l => '(s, r) <- sp_snapshot (o_sp o) i l ;; Ok (set_sp o s, RCompact r)
  | CReconnected p => Ok (set_sp o (reconnected (o_sp o) p), RUnit)
  | CTryLeader => o <- try_become_leader o ;; Ok (o, RUnit)
  | CSetPriority p => Ok (set_ble o (ble_set_priority (o_ble o) p), RUnit)
  | CHandle m => o <- handle_incoming o m ;; Ok (o, RUnit)
  end.

Definition exec (o : omni) (c : call) : res (omni * ret) := exec_call (start_call o) c.

(** The storage states a server can be left in by a crash during (or right
    before or after) the call [c]. *)
Definition crash_points (o : omni) (c : call) : list mstore :=
  i_st (s_is (o_sp o)) ::
  match exec o c with
  | Ok (o', _) => i_tr (s_is (o_sp o'))
  | Panic tr => tr
  end.

End WithEntry.

Arguments RPanic {A}.
Arguments RNone {A}.
Arguments RSome {A} a.
