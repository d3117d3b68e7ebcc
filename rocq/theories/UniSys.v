(** * UniCache in the replication path

    The cluster of System.v with the feature "unicache": a leader sends encoded entries, a
    follower decodes what it accepts, a leader's cache travels in AcceptSync.

    The protocol code is that of the other files, used with entries that carry an annotation: the
    processed form that a leader made of them (which is what travels in AcceptDecide), and a number
    that no other entry has (a ghost: nothing depends on it, the proofs use it to tell entries
    apart).  The functions below add what the feature does before and after a call.

    Simplifications, with the reason why they change nothing:
    - [batched_processed_by_leader] (state_cache.rs 31-32) is not a separate vector: the processed
      form of a batched entry is its annotation.  The two vectors are filled together
      (state_cache.rs 65-90); they can get out of step only when a server stops being leader with
      a batch pending, which the executions used below for batch sizes above 1 do not do.
    - The cache in an AcceptSync (messages.rs 78-80) is kept in a table by ballot, destination and
      sequence number of the message instead of in the message.  No leader sends two AcceptSyncs
      with the same three.
    - A follower whose promise is its own ballot would encode again what it decodes
      (state_cache.rs 80-86); nobody sends AcceptDecides of a ballot to the owner of the ballot.
    - A killed server leaves nothing of its cache, so what its last call did to the cache is left
      out; its panic in [decode] or [try_encode] kills it before the first write of the call. *)
From Coq Require Import List Arith Bool.
Import ListNotations.
From Verif Require Import Types Config MemStore Internal LeaderState SeqPaxos Ble Omni System Spec.

(** The types and functions of an entry with a cache: [Entry] and [UniCache], storage/mod.rs
    21-46, unicache/mod.rs 58-71.  [None] is a panic.  [u_send] is the cache that a follower
    gets from a leader in an AcceptSync: the clone, serialised or not. *)
Class UniT := {
  UA : Type;
  USnap : Type;
  u_create : list UA -> option USnap;
  u_merge : USnap -> USnap -> option USnap;
  u_usesnap : bool;
  UCache : Type;
  UEnc : Type;
  u_new : UCache;
  u_encode : UCache -> UA -> option (UCache * UEnc);
  u_decode : UCache -> UEnc -> option (UCache * UA);
  u_send : UCache -> option UCache
}.

Section Uni.
Context {U : UniT}.

(** An entry with its annotation.  Snapshots are made of the entries. *)
Definition uentry : EntryT := {|
  T := UA * option (UEnc * nat);
  Snap := USnap;
  s_create := fun l => u_create (map fst l);
  s_merge := u_merge;
  use_snapshots := u_usesnap
|}.
Local Existing Instance uentry.

Record usys := mkUSys {
  u_s : sys;
  u_c : node_id -> UCache;
  u_t : ballot -> node_id -> seqnum -> option UCache;
  u_next : nat
}.

(** The entries [vs] encoded in order, with consecutive numbers from [i]: state_cache.rs 67-70,
    82-85. *)
Fixpoint enc_all (c : UCache) (i : nat) (vs : list UA) : option (UCache * list T) :=
  match vs with
  | [] => Some (c, [])
  | v :: r =>
      match u_encode c v with
      | Some (c1, x) =>
          match enc_all c1 (S i) r with
          | Some (c2, es) => Some (c2, (v, Some (x, i)) :: es)
          | None => None
          end
      | None => None
      end
  end.

(** [decode_entries]: internal_storage.rs 270-279.  Only the processed form is used; an entry
    without one cannot be in an AcceptDecide. *)
Fixpoint dec_all (c : UCache) (es : list T) : option (UCache * list T) :=
  match es with
  | [] => Some (c, [])
  | (_, Some (x, i)) :: r =>
      match u_decode c x with
      | Some (c1, v) =>
          match dec_all c1 r with
          | Some (c2, l) => Some (c2, (v, Some (x, i)) :: l)
          | None => None
          end
      | None => None
      end
  | (_, None) :: r => None
  end.

Definition bare (e : T) : T := (fst e, None).

(** The server encodes what is proposed to it: sequence_paxos/mod.rs 298-305 and 354-360 with
    leader.rs 111-121, leader.rs 76-84 with 123-133. *)
Definition encodes (s : sp) : bool :=
  negb (accepted_reconfiguration s) && (role_eqb (s_role s) Leader && phase_eqb (s_phase s) PhAccept).

(** The AcceptDecide is accepted: follower.rs 90-94. *)
Definition takes_accdec (s : sp) (n : ballot) (sq : seqnum) : bool :=
  match bcmp (i_prom (s_is s)) n, check_msg_status (s_cseq s) sq with
  | Eq, Expected => role_eqb (s_role s) Follower && phase_eqb (s_phase s) PhAccept
  | _, _ => false
  end.

(** The AcceptSync is accepted: follower.rs 52-54. *)
Definition takes_accsync (s : sp) (n : ballot) : bool :=
  match bcmp (i_prom (s_is s)) n with
  | Eq => role_eqb (s_role s) Follower && phase_eqb (s_phase s) PhPrepare
  | _ => false
  end.

(** The call that the protocol code gets, the cache after it and the next free number.  [None] is
    a panic of the cache, or an AcceptSync that carries no cache. *)
Definition uprep (u : usys) (p : node_id) (o : omni) (c : call) : option (call * UCache * nat) :=
  let s := o_sp o in
  let cache := u_c u p in
  match c with
  | CAppend e =>
      if encodes s then
        match enc_all cache (u_next u) [fst e] with
        | Some (cache', e' :: _) => Some (CAppend e', cache', S (u_next u))
        | _ => None
        end
      else Some (CAppend (bare e), cache, u_next u)
  | CHandle (MsgSP m) =>
      match pm_msg m with
      | MProposalForward es =>
          if encodes s && (b_pid (i_prom (s_is s)) =? s_pid s) then
            match enc_all cache (u_next u) (map fst es) with
            | Some (cache', es') =>
                Some (CHandle (MsgSP (mkPM (pm_from m) (pm_to m) (MProposalForward es'))), cache', u_next u + length es)
            | None => None
            end
          else Some (CHandle (MsgSP (mkPM (pm_from m) (pm_to m) (MProposalForward (map bare es)))), cache, u_next u)
      | MAcceptDecide n sq d es =>
          if takes_accdec s n sq then
            match dec_all cache es with
            | Some (cache', es') =>
                Some (CHandle (MsgSP (mkPM (pm_from m) (pm_to m) (MAcceptDecide n sq d es'))), cache', u_next u)
            | None => None
            end
          else Some (c, cache, u_next u)
      | MAcceptSync n sq d sy =>
          if takes_accsync s n then
            match u_t u n p sq with
            | Some w => Some (c, w, u_next u)
            | None => None
            end
          else Some (c, cache, u_next u)
      | _ => Some (c, cache, u_next u)
      end
  | _ => Some (c, cache, u_next u)
  end.

Definition seq_eqb (a b : seqnum) : bool := (sq_sess a =? sq_sess b) && (sq_ctr a =? sq_ctr b).

(** The queue has the AcceptSync with this ballot, destination and number. *)
Definition has_sync (l : list pmessage) (n : ballot) (b : node_id) (sq : seqnum) : bool :=
  existsb (fun m => match pm_msg m with
                    | MAcceptSync n' sq' _ _ => beq n' n && (pm_to m =? b) && seq_eqb sq' sq
                    | _ => false
                    end) l.

(** The caches sent in the AcceptSyncs of a call: leader.rs 182-183. *)
Definition put_syncs (u : usys) (cache : UCache) (old new : list pmessage) : ballot -> node_id -> seqnum -> option UCache :=
  fun n b sq => if has_sync new n b sq && negb (has_sync old n b sq) then u_send cache else u_t u n b sq.

(** A new AcceptSync among the messages of a call. *)
Definition new_sync (old new : list pmessage) : bool :=
  existsb (fun m => match pm_msg m with
                    | MAcceptSync n sq _ _ => negb (has_sync old n (pm_to m) sq)
                    | _ => false
                    end) new.

Definition upd_cache (f : node_id -> UCache) (p : node_id) (c : UCache) := fun q => if q =? p then c else f q.

(** One step: [exec_action] with the work of the feature. *)
Definition exec_uaction (cc : cluster_config) (u : usys) (a : action) : option usys :=
  let s := u_s u in
  match a with
  | ADo p ev =>
      match nodes s p, event_call s p ev with
      | Some o, Some c =>
          match uprep u p o c with
          | Some (c', cache, nx) =>
              match exec o c' with
              | Ok (o', _) =>
                  if new_sync (s_out (o_sp o)) (s_out (o_sp o')) && match u_send cache with None => true | _ => false end
                  then None
                  else Some (mkUSys (mkSys (upd1 (nodes s) p (Some o')) (event_net s p ev)) (upd_cache (u_c u) p cache)
                                    (put_syncs u cache (s_out (o_sp o)) (s_out (o_sp o'))) nx)
              | Panic _ => None
              end
          | None => None
          end
      | _, _ => None
      end
  | AFetch _ | ADrop _ _ _ =>
      match exec_action cc s a with
      | Some s' => Some (mkUSys s' (u_c u) (u_t u) (u_next u))
      | None => None
      end
  | ACrash p ev j sc =>
      match nodes s p, event_call s p ev with
      | Some o, Some c =>
          let '(points, nx) :=
            match uprep u p o c with
            | Some (c', _, nx) => (crash_points o c', nx)
            | None => ([i_st (s_is (o_sp o))], u_next u)
            end in
          match nth_error points j with
          | Some st =>
              if sc_pid sc =? p then
                match build cc sc st with
                | BOk o' => Some (mkUSys (mkSys (upd1 (nodes s) p (Some o')) (event_net s p ev))
                                         (upd_cache (u_c u) p u_new) (u_t u) nx)
                | _ => None
                end
              else None
          | None => None
          end
      | _, _ => None
      end
  end.

Fixpoint urun (cc : cluster_config) (u : usys) (l : list action) : option usys :=
  match l with
  | [] => Some u
  | a :: r => match exec_uaction cc u a with Some u' => urun cc u' r | None => None end
  end.

Fixpoint all_usteps (P : usys -> action -> Prop) (cc : cluster_config) (u : usys) (l : list action) : Prop :=
  match l with
  | [] => True
  | a :: r => P u a /\ match exec_uaction cc u a with Some u' => all_usteps P cc u' r | None => True end
  end.

(** Every server starts with a new cache ([StateCache::new], state_cache.rs 58-59). *)
Definition init_usys (cc : cluster_config) (scs : node_id -> server_config) : usys :=
  mkUSys (init_sys cc scs) (fun _ => u_new) (fun _ _ _ => None) 0.

Definition ureaches (cc : cluster_config) (scs : node_id -> server_config) (l : list action) (u : usys) : Prop :=
  urun cc (init_usys cc scs) l = Some u.
Definition umoment (cc : cluster_config) (scs : node_id -> server_config) (l : list action) (u : usys) : Prop :=
  exists l1 l2, l = l1 ++ l2 /\ ureaches cc scs l1 u.

(** The server reports the entry [v] as decided at index [i]. *)
Definition ureports (u : usys) (p : node_id) (i : nat) (v : UA) : Prop :=
  exists a, server_reports (u_s u) p i (LDecided ((v, a) : T)).

End Uni.
