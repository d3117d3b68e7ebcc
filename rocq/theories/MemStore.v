(** * In-memory storage back-end *)
From Coq Require Import List Arith Bool.
Import ListNotations.
From Verif Require Import Types.

Section WithEntry.
Context {E : EntryT}.

(** [MemoryStorage]: memory_storage.rs 7-27. *)
Record mstore := mkMS {
  ms_log : list T;
  ms_prom : option ballot;
  ms_around : option ballot;
  ms_dec : nat;
  ms_trim : nat;
  ms_comp : nat;
  ms_snap : option Snap;
  ms_ss : option stopsign
}.

(** [Default for MemoryStorage]: memory_storage.rs 148-161. *)
Definition ms_default : mstore := mkMS [] None None 0 0 0 None None.

(** [append_entry]: memory_storage.rs 53-56. *)
Definition ms_append_entry (m : mstore) (e : T) : mstore :=
  mkMS (ms_log m ++ [e]) (ms_prom m) (ms_around m) (ms_dec m) (ms_trim m) (ms_comp m) (ms_snap m) (ms_ss m).

(** [append_entries]: memory_storage.rs 58-62. *)
Definition ms_append_entries (m : mstore) (es : list T) : mstore :=
  mkMS (ms_log m ++ es) (ms_prom m) (ms_around m) (ms_dec m) (ms_trim m) (ms_comp m) (ms_snap m) (ms_ss m).

(** [append_on_prefix]: memory_storage.rs 64-67 ([Vec::truncate] keeps a
    shorter vector as it is, like [firstn]). *)
Definition ms_append_on_prefix (m : mstore) (from : nat) (es : list T) : option mstore :=
  match sub_chk from (ms_trim m) with
  | Some k =>
      Some (ms_append_entries
        (mkMS (firstn k (ms_log m)) (ms_prom m) (ms_around m) (ms_dec m) (ms_trim m) (ms_comp m) (ms_snap m) (ms_ss m))
        es)
  | None => None
  end.

(** [set_promise]: memory_storage.rs 69-72. *)
Definition ms_set_promise (m : mstore) (b : ballot) : mstore :=
  mkMS (ms_log m) (Some b) (ms_around m) (ms_dec m) (ms_trim m) (ms_comp m) (ms_snap m) (ms_ss m).

(** [set_decided_idx]: memory_storage.rs 74-77. *)
Definition ms_set_decided (m : mstore) (d : nat) : mstore :=
  mkMS (ms_log m) (ms_prom m) (ms_around m) d (ms_trim m) (ms_comp m) (ms_snap m) (ms_ss m).

(** [set_accepted_round]: memory_storage.rs 83-86. *)
Definition ms_set_around (m : mstore) (b : ballot) : mstore :=
  mkMS (ms_log m) (ms_prom m) (Some b) (ms_dec m) (ms_trim m) (ms_comp m) (ms_snap m) (ms_ss m).

(** [self.log.get(a..b)] of a slice: [None] unless a <= b <= len. *)
Definition slice_get (l : list T) (a b : nat) : option (list T) :=
  if (a <=? b) && (b <=? length l) then Some (firstn (b - a) (skipn a l)) else None.

(** [get_entries]: memory_storage.rs 92-96. *)
Definition ms_get_entries (m : mstore) (from to : nat) : option (list T) :=
  match sub_chk from (ms_trim m), sub_chk to (ms_trim m) with
  | Some a, Some b => Some (match slice_get (ms_log m) a b with Some l => l | None => [] end)
  | _, _ => None
  end.

(** [get_log_len]: memory_storage.rs 98-100. *)
Definition ms_log_len (m : mstore) : nat := length (ms_log m).

(** [get_suffix]: memory_storage.rs 102-107. *)
Definition ms_get_suffix (m : mstore) (from : nat) : option (list T) :=
  match sub_chk from (ms_trim m) with
  | Some a => Some (match slice_get (ms_log m) a (length (ms_log m)) with Some l => l | None => [] end)
  | None => None
  end.

(** [set_stopsign]: memory_storage.rs 113-116. *)
Definition ms_set_stopsign (m : mstore) (s : option stopsign) : mstore :=
  mkMS (ms_log m) (ms_prom m) (ms_around m) (ms_dec m) (ms_trim m) (ms_comp m) (ms_snap m) s.

(** [trim]: memory_storage.rs 122-127. *)
Definition ms_do_trim (m : mstore) (idx : nat) : option mstore :=
  match sub_chk idx (ms_trim m) with
  | Some k =>
      Some (mkMS (skipn (Nat.min k (length (ms_log m))) (ms_log m)) (ms_prom m) (ms_around m) (ms_dec m)
                 idx (ms_comp m) (ms_snap m) (ms_ss m))
  | None => None
  end.

(** [set_compacted_idx]: memory_storage.rs 129-132. *)
Definition ms_set_comp (m : mstore) (i : nat) : mstore :=
  mkMS (ms_log m) (ms_prom m) (ms_around m) (ms_dec m) (ms_trim m) i (ms_snap m) (ms_ss m).

(** [set_snapshot]: memory_storage.rs 138-141. *)
Definition ms_set_snapshot (m : mstore) (s : option Snap) : mstore :=
  mkMS (ms_log m) (ms_prom m) (ms_around m) (ms_dec m) (ms_trim m) (ms_comp m) s (ms_ss m).

(** [StorageOp]: storage/mod.rs 102-123. *)
Inductive storage_op :=
| OpAppendEntry (e : T)
| OpAppendEntries (es : list T)
| OpAppendOnPrefix (from : nat) (es : list T)
| OpSetPromise (b : ballot)
| OpSetDecided (d : nat)
| OpSetAround (b : ballot)
| OpSetComp (i : nat)
| OpTrim (i : nat)
| OpSetStopsign (s : option stopsign)
| OpSetSnapshot (s : option Snap).

(** One arm of the loop in [write_atomically]: memory_storage.rs 35-48. *)
Definition ms_op (m : mstore) (o : storage_op) : option mstore :=
  match o with
  | OpAppendEntry e => Some (ms_append_entry m e)
  | OpAppendEntries es => Some (ms_append_entries m es)
  | OpAppendOnPrefix from es => ms_append_on_prefix m from es
  | OpSetPromise b => Some (ms_set_promise m b)
  | OpSetDecided d => Some (ms_set_decided m d)
  | OpSetAround b => Some (ms_set_around m b)
  | OpSetComp i => Some (ms_set_comp m i)
  | OpTrim i => ms_do_trim m i
  | OpSetStopsign s => Some (ms_set_stopsign m s)
  | OpSetSnapshot s => Some (ms_set_snapshot m s)
  end.

(** [write_atomically]: memory_storage.rs 33-51. *)
Fixpoint ms_write (m : mstore) (ops : list storage_op) : option mstore :=
  match ops with
  | [] => Some m
  | o :: r => match ms_op m o with Some m' => ms_write m' r | None => None end
  end.

(** ** Results of calls

    [Ok a]: the call returned.  [Panic tr]: the call panicked after the storage
    writes that led to the storage states [tr]. *)
Inductive res (A : Type) :=
| Ok (a : A)
| Panic (tr : list mstore).
Arguments Ok {A} a.
Arguments Panic {A} tr.

Definition bind {A B} (x : res A) (f : A -> res B) : res B :=
  match x with Ok a => f a | Panic tr => Panic tr end.

End WithEntry.

Arguments Ok {E A} a.
Arguments Panic {E A} tr.

Declare Scope res_scope.
Delimit Scope res_scope with res.
Notation "x <- c1 ;; c2" := (bind c1 (fun x => c2))
  (at level 61, c1 at next level, right associativity) : res_scope.
Notation "' pat <- c1 ;; c2" := (bind c1 (fun x => match x with pat => c2 end))
  (at level 61, pat pattern, c1 at next level, right associativity) : res_scope.
Open Scope res_scope.
