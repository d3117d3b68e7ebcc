(** * Persistent storage back-end

    The storage on RocksDB.  Modelled: the keys, the column family of the log as a map that is
    ordered by the bytes of the keys, the six other keys, the write batches and the recovery of
    the next key.  Not modelled: the files of RocksDB, the serialisation of the values ([bincode],
    [as_bytes]; a value is read back as it was written), I/O errors. *)
From Coq Require Import List Arith NArith Bool.
Import ListNotations.
From Verif Require Import Types MemStore.

(** ** Keys *)

(** The last [k] bytes of [n], the most significant first. *)
Fixpoint be_bytes (k : nat) (n : N) : list N :=
  match k with
  | 0 => []
  | S k => ((n / 256 ^ N.of_nat k) mod 256)%N :: be_bytes k n
  end.
(** [usize::to_be_bytes] for 64-bit numbers (persistent_storage.rs 186, 197, 209, 210, 243, 244,
    302, 314, 327, 328, 344, 450, 451). *)
Definition to_be_bytes (n : nat) : list N := be_bytes 8 (N.of_nat n).
(** [usize::from_be_bytes]: persistent_storage.rs 142-144. *)
Definition from_be_bytes (k : list N) : N := fold_left (fun a b => (a * 256 + b)%N) k 0%N.

(** The order of RocksDB on keys: bytewise, a proper prefix is smaller
    (the default comparator; the options of persistent_storage.rs 70-94 keep it). *)
Fixpoint key_cmp (a b : list N) : comparison :=
  match a, b with
  | [], [] => Eq
  | [], _ :: _ => Lt
  | _ :: _, [] => Gt
  | x :: a, y :: b => match N.compare x y with Eq => key_cmp a b | c => c end
  end.
Definition key_ltb (a b : list N) : bool := match key_cmp a b with Lt => true | _ => false end.
Definition key_leb (a b : list N) : bool := match key_cmp a b with Gt => false | _ => true end.

Section WithEntry.
Context {E : EntryT}.

(** ** The database *)

(** The column family of the log, in the order of the keys. *)
Definition column := list (list N * T).
(** RocksDB [put_cf]. *)
Fixpoint col_put (c : column) (k : list N) (v : T) : column :=
  match c with
  | [] => [(k, v)]
  | (k', v') :: r =>
      match key_cmp k k' with
      | Lt => (k, v) :: c
      | Eq => (k, v) :: r
      | Gt => (k', v') :: col_put r k v
      end
  end.
(** RocksDB [delete_range_cf]: the keys from [a] up to and without [b]. *)
Definition col_delete_range (c : column) (a b : list N) : column :=
  filter (fun kv => negb (key_leb a (fst kv) && key_ltb (fst kv) b)) c.
(** RocksDB iterator: [seek], the first key at or after [k]; the rest of the column from there. *)
Fixpoint col_seek (c : column) (k : list N) : column :=
  match c with
  | [] => []
  | (k', v) :: r => if key_ltb k' k then col_seek r k else c
  end.

(** The database: the column of the log and the keys NPROM, ACC, DECIDE, TRIM, STOPSIGN, SNAPSHOT
    (persistent_storage.rs 11-17). *)
Record db := mkDB {
  d_log : column;
  d_prom : option ballot;
  d_acc : option ballot;
  d_decide : option nat;
  d_trim : option nat;
  d_ss : option (option stopsign);
  d_snap : option (option Snap)
}.
Definition empty_db : db := mkDB [] None None None None None None.

(** The entries of a write batch. *)
Inductive db_op :=
| PutLog (k : list N) (v : T)
| DeleteLog (a b : list N)
| PutProm (b : ballot)
| PutAcc (b : ballot)
| PutDecide (i : nat)
| PutTrim (i : nat)
| PutStopsign (s : option stopsign)
| PutSnapshot (s : option Snap).
Definition db_do (d : db) (o : db_op) : db :=
  match o with
  | PutLog k v => mkDB (col_put (d_log d) k v) (d_prom d) (d_acc d) (d_decide d) (d_trim d) (d_ss d) (d_snap d)
  | DeleteLog a b => mkDB (col_delete_range (d_log d) a b) (d_prom d) (d_acc d) (d_decide d) (d_trim d) (d_ss d) (d_snap d)
  | PutProm b => mkDB (d_log d) (Some b) (d_acc d) (d_decide d) (d_trim d) (d_ss d) (d_snap d)
  | PutAcc b => mkDB (d_log d) (d_prom d) (Some b) (d_decide d) (d_trim d) (d_ss d) (d_snap d)
  | PutDecide i => mkDB (d_log d) (d_prom d) (d_acc d) (Some i) (d_trim d) (d_ss d) (d_snap d)
  | PutTrim i => mkDB (d_log d) (d_prom d) (d_acc d) (d_decide d) (Some i) (d_ss d) (d_snap d)
  | PutStopsign s => mkDB (d_log d) (d_prom d) (d_acc d) (d_decide d) (d_trim d) (Some s) (d_snap d)
  | PutSnapshot s => mkDB (d_log d) (d_prom d) (d_acc d) (d_decide d) (d_trim d) (d_ss d) (Some s)
  end.
(** [DB::write]: all operations of the batch in their order. *)
Definition db_write (d : db) (batch : list db_op) : db := fold_left db_do batch d.

(** ** PersistentStorage *)

(** [PersistentStorage]: persistent_storage.rs 99-112.  [write_batch] is empty between calls and a
    parameter of the functions that fill it. *)
Record pstore := mkPS { p_db : db; p_next : nat }.

(** [open]: persistent_storage.rs 120-165.  [None]: the panic of [assert_eq!] (137-141). *)
Definition p_open (d : db) : option pstore :=
  match rev (d_log d) with
  | (k, _) :: _ => if length k =? 8 then Some (mkPS d (N.to_nat (from_be_bytes k + 1))) else None
  | [] => Some (mkPS d (match d_trim d with Some i => i | None => 0 end))
  end.

(** [batch_append_entry]: persistent_storage.rs 183-191. *)
Definition batch_append_entry (next : nat) (batch : list db_op) (e : T) : nat * list db_op :=
  (next + 1, batch ++ [PutLog (to_be_bytes next) e]).
(** [batch_append_entries]: persistent_storage.rs 193-203. *)
Fixpoint batch_append_entries (next : nat) (batch : list db_op) (es : list T) : nat * list db_op :=
  match es with
  | [] => (next, batch)
  | e :: r => batch_append_entries (next + 1) (batch ++ [PutLog (to_be_bytes next) e]) r
  end.
(** [batch_append_on_prefix]: persistent_storage.rs 205-216. *)
Definition batch_append_on_prefix (next : nat) (batch : list db_op) (from : nat) (es : list T) : nat * list db_op :=
  let del := from + length es in
  let batch := if del <? next then batch ++ [DeleteLog (to_be_bytes del) (to_be_bytes next)] else batch in
  batch_append_entries from batch es.

(** One arm of the loop in [write_atomically]: persistent_storage.rs 279-294, with
    [batch_set_promise] 218-222, [batch_set_decided_idx] 224-228, [batch_set_accepted_round] 230-234,
    [batch_set_compacted_idx] 236-240, [batch_trim] 242-248, [batch_set_stopsign] 250-254,
    [batch_set_snapshot] 256-260. *)
Definition batch_op (next : nat) (batch : list db_op) (o : storage_op) : nat * list db_op :=
  match o with
  | OpAppendEntry e => batch_append_entry next batch e
  | OpAppendEntries es => batch_append_entries next batch es
  | OpAppendOnPrefix from es => batch_append_on_prefix next batch from es
  | OpSetPromise b => (next, batch ++ [PutProm b])
  | OpSetDecided i => (next, batch ++ [PutDecide i])
  | OpSetAround b => (next, batch ++ [PutAcc b])
  | OpSetComp i => (next, batch ++ [PutTrim i])
  | OpTrim i => (next, batch ++ [DeleteLog (to_be_bytes 0) (to_be_bytes i)])
  | OpSetStopsign s => (next, batch ++ [PutStopsign s])
  | OpSetSnapshot s => (next, batch ++ [PutSnapshot s])
  end.
Fixpoint batch_ops (next : nat) (batch : list db_op) (ops : list storage_op) : nat * list db_op :=
  match ops with
  | [] => (next, batch)
  | o :: r => let '(next, batch) := batch_op next batch o in batch_ops next batch r
  end.
(** [write_atomically]: persistent_storage.rs 278-296. *)
Definition p_write (p : pstore) (ops : list storage_op) : pstore :=
  let '(next, batch) := batch_ops (p_next p) [] ops in
  mkPS (db_write (p_db p) batch) next.

(** [append_entry]: persistent_storage.rs 298-307. *)
Definition p_append_entry (p : pstore) (e : T) : pstore :=
  mkPS (db_do (p_db p) (PutLog (to_be_bytes (p_next p)) e)) (p_next p + 1).
(** [append_entries]: persistent_storage.rs 309-321. *)
Definition p_append_entries (p : pstore) (es : list T) : pstore :=
  let '(next, batch) := batch_append_entries (p_next p) [] es in
  mkPS (db_write (p_db p) batch) next.
(** [append_on_prefix]: persistent_storage.rs 323-334. *)
Definition p_append_on_prefix (p : pstore) (from : nat) (es : list T) : pstore :=
  let del := from + length es in
  let d := if del <? p_next p then db_do (p_db p) (DeleteLog (to_be_bytes del) (to_be_bytes (p_next p))) else p_db p in
  p_append_entries (mkPS d from) es.

(** The loop of [get_entries]: persistent_storage.rs 345-349.  [None]: the error of 346. *)
Fixpoint take_values (c : column) (n : nat) : option (list T) :=
  match n with
  | 0 => Some []
  | S n => match c with
      | [] => None
      | (_, v) :: r => match take_values r n with Some l => Some (v :: l) | None => None end
      end
  end.
(** [get_entries]: persistent_storage.rs 336-351. *)
Definition p_get_entries (p : pstore) (from to : nat) : option (list T) :=
  if (p_next p <? to) || (to <=? from) then Some []
  else take_values (col_seek (d_log (p_db p)) (to_be_bytes from)) (to - from).
(** [get_compacted_idx]: persistent_storage.rs 406-412. *)
Definition p_compacted (p : pstore) : nat := match d_trim (p_db p) with Some i => i | None => 0 end.
(** [get_log_len]: persistent_storage.rs 353-355; the subtraction can underflow. *)
Definition p_log_len (p : pstore) : option nat := sub_chk (p_next p) (p_compacted p).
(** [get_suffix]: persistent_storage.rs 357-359. *)
Definition p_get_suffix (p : pstore) (from : nat) : option (list T) := p_get_entries p from (p_next p).
(** [get_promise]: persistent_storage.rs 361-367. *)
Definition p_promise (p : pstore) : option ballot := d_prom (p_db p).
(** [get_decided_idx]: persistent_storage.rs 375-381. *)
Definition p_decided (p : pstore) : nat := match d_decide (p_db p) with Some i => i | None => 0 end.
(** [get_accepted_round]: persistent_storage.rs 389-398. *)
Definition p_accepted_round (p : pstore) : option ballot := d_acc (p_db p).
(** [get_stopsign]: persistent_storage.rs 420-426. *)
Definition p_stopsign (p : pstore) : option stopsign := match d_ss (p_db p) with Some s => s | None => None end.
(** [get_snapshot]: persistent_storage.rs 434-441. *)
Definition p_snapshot (p : pstore) : option Snap := match d_snap (p_db p) with Some s => s | None => None end.
(** [set_promise] 369-373, [set_decided_idx] 383-387, [set_accepted_round] 400-404,
    [set_compacted_idx] 414-418, [set_stopsign] 428-432, [set_snapshot] 443-447, [trim] 449-455:
    each is one write. *)
Definition p_set_promise (p : pstore) (b : ballot) : pstore := mkPS (db_do (p_db p) (PutProm b)) (p_next p).
Definition p_set_decided (p : pstore) (i : nat) : pstore := mkPS (db_do (p_db p) (PutDecide i)) (p_next p).
Definition p_set_around (p : pstore) (b : ballot) : pstore := mkPS (db_do (p_db p) (PutAcc b)) (p_next p).
Definition p_set_comp (p : pstore) (i : nat) : pstore := mkPS (db_do (p_db p) (PutTrim i)) (p_next p).
Definition p_set_stopsign (p : pstore) (s : option stopsign) : pstore := mkPS (db_do (p_db p) (PutStopsign s)) (p_next p).
Definition p_set_snapshot (p : pstore) (s : option Snap) : pstore := mkPS (db_do (p_db p) (PutSnapshot s)) (p_next p).
Definition p_trim (p : pstore) (i : nat) : pstore := mkPS (db_do (p_db p) (DeleteLog (to_be_bytes 0) (to_be_bytes i))) (p_next p).

(** One method of the trait that writes: through the methods themselves, not the batch. *)
Definition p_method (p : pstore) (o : storage_op) : pstore :=
  match o with
  | OpAppendEntry e => p_append_entry p e
  | OpAppendEntries es => p_append_entries p es
  | OpAppendOnPrefix from es => p_append_on_prefix p from es
  | OpSetPromise b => p_set_promise p b
  | OpSetDecided i => p_set_decided p i
  | OpSetAround b => p_set_around p b
  | OpSetComp i => p_set_comp p i
  | OpTrim i => p_trim p i
  | OpSetStopsign s => p_set_stopsign p s
  | OpSetSnapshot s => p_set_snapshot p s
  end.

End WithEntry.
