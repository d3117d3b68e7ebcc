(** * State cache and internal storage (without the unicache feature) *)
From Coq Require Import List Arith Bool.
Import ListNotations.
From Verif Require Import Types MemStore.

(** Result of a function returning [StorageResult] whose error is a
    [CompactionErr]; [CPanic] is a panic. *)
Inductive cres (A : Type) := COk (a : A) | CErr (e : compaction_err) | CPanic.
Arguments COk {A} a.
Arguments CErr {A} e.
Arguments CPanic {A}.

Section WithEntry.
Context {E : EntryT}.

(** [StateCache]: state_cache.rs 7-35. *)
Record cache := mkCache {
  c_bsize : nat;
  c_batch : list T;
  c_prom : ballot;
  c_around : ballot;
  c_dec : nat;
  c_acc : nat;
  c_comp : nat;
  c_ss : option stopsign
}.

(** [InternalStorage]: internal_storage.rs 22-30.  [tr] is not in the code: it
    lists the storage states written during the current call, newest last. *)
Record istore := mkIS { i_st : mstore; i_ca : cache; i_tr : list mstore }.

(** Field updates of the records. *)
Definition c_set_batch (c : cache) x := mkCache (c_bsize c) x (c_prom c) (c_around c) (c_dec c) (c_acc c) (c_comp c) (c_ss c).
Definition c_set_prom (c : cache) x := mkCache (c_bsize c) (c_batch c) x (c_around c) (c_dec c) (c_acc c) (c_comp c) (c_ss c).
Definition c_set_around (c : cache) x := mkCache (c_bsize c) (c_batch c) (c_prom c) x (c_dec c) (c_acc c) (c_comp c) (c_ss c).
Definition c_set_dec (c : cache) x := mkCache (c_bsize c) (c_batch c) (c_prom c) (c_around c) x (c_acc c) (c_comp c) (c_ss c).
Definition c_set_acc (c : cache) x := mkCache (c_bsize c) (c_batch c) (c_prom c) (c_around c) (c_dec c) x (c_comp c) (c_ss c).
Definition c_set_comp (c : cache) x := mkCache (c_bsize c) (c_batch c) (c_prom c) (c_around c) (c_dec c) (c_acc c) x (c_ss c).
Definition c_set_ss (c : cache) x := mkCache (c_bsize c) (c_batch c) (c_prom c) (c_around c) (c_dec c) (c_acc c) (c_comp c) x.
Definition set_ca (s : istore) c := mkIS (i_st s) c (i_tr s).

(** A storage write: new state of the back-end, recorded in [i_tr]. *)
Definition put_st (s : istore) (m : mstore) : istore := mkIS m (i_ca s) (i_tr s ++ [m]).

(** A panic in the current call. *)
Definition ipanic {A} (s : istore) : res A := Panic (i_tr s).
Definition ilift {A} (s : istore) (o : option A) : res A :=
  match o with Some a => Ok a | None => ipanic s end.

(** ** StateCache *)

(** [take_batched_entries]: state_cache.rs 114-116. *)
Definition take_batched_entries (c : cache) : cache * list T := (c_set_batch c [], c_batch c).

(** [take_entries_if_batch_is_full]: state_cache.rs 104-110. *)
Definition take_entries_if_batch_is_full (c : cache) : cache * option (list T) :=
  if c_bsize c <=? length (c_batch c) then
    let '(c', es) := take_batched_entries c in (c', Some es)
  else (c, None).

(** [StateCache::append_entry]: state_cache.rs 65-73. *)
Definition cache_append_entry (c : cache) (e : T) : cache * option (list T) :=
  take_entries_if_batch_is_full (c_set_batch c (c_batch c ++ [e])).

(** [StateCache::append_entries]: state_cache.rs 77-90. *)
Definition cache_append_entries (c : cache) (es : list T) : cache * option (list T) :=
  take_entries_if_batch_is_full (c_set_batch c (c_batch c ++ es)).

(** [StateCache::append_stopsign]: state_cache.rs 94-101. *)
Definition cache_append_stopsign (c : cache) (ss : stopsign) : cache * option (list T) :=
  let c := c_set_ss c (Some ss) in
  match c_batch c with
  | [] => (c, None)
  | _ => let '(c', es) := take_batched_entries c in (c', Some es)
  end.

(** [StateCache::stopsign_is_decided]: state_cache.rs 124-126. *)
Definition stopsign_is_decided (c : cache) : bool :=
  match c_ss c with Some _ => c_dec c =? c_acc c | None => false end.

(** ** InternalStorage *)

(** [Option::unwrap_or_default] on a ballot. *)
Definition bal_or_default (o : option ballot) : ballot := match o with Some b => b | None => bdef end.

(** [InternalStorage::with] and [load_cache]: internal_storage.rs 37-74, with [StateCache::new]
    (state_cache.rs 41-61), whose fields [load_cache] all sets but for the empty batch and its size. *)
Definition istore_with (st : mstore) (bsize : nat) : istore :=
  let acc := ms_log_len st + ms_comp st in
  mkIS st
    (mkCache bsize [] (bal_or_default (ms_prom st)) (bal_or_default (ms_around st)) (ms_dec st)
       (match ms_ss st with Some _ => acc + 1 | None => acc end)
       (ms_comp st) (ms_ss st))
    [].

(** [get_decided_idx], [get_accepted_idx], [get_compacted_idx], [get_promise],
    [get_accepted_round], [get_stopsign]: internal_storage.rs 465-523. *)
Definition i_dec (s : istore) := c_dec (i_ca s).
Definition i_acc (s : istore) := c_acc (i_ca s).
Definition i_comp (s : istore) := c_comp (i_ca s).
Definition i_prom (s : istore) := c_prom (i_ca s).
Definition i_around (s : istore) := c_around (i_ca s).
Definition i_ss (s : istore) := c_ss (i_ca s).

(** [IndexEntry]: util.rs 299-303. *)
Inductive index_entry := IxEntry | IxCompacted | IxStopSign (ss : stopsign).

(** [get_entry_type]: internal_storage.rs 159-177. *)
Definition get_entry_type (s : istore) (idx compacted accepted : nat) : option index_entry :=
  if idx <? compacted then Some IxCompacted
  else if idx + 1 <? accepted then Some IxEntry
  else if idx + 1 =? accepted then
    match i_ss s with Some ss => Some (IxStopSign ss) | None => Some IxEntry end
  else None.

(** The closure of [create_read_log_entries]: internal_storage.rs 185-192. *)
Fixpoint mark_entries (dec idx : nat) (es : list T) : list log_entry :=
  match es with
  | [] => []
  | e :: r => (if idx <? dec then LDecided e else LUndecided e) :: mark_entries dec (S idx) r
  end.

(** [create_read_log_entries]: internal_storage.rs 179-195. *)
Definition create_read_log_entries (s : istore) (from to : nat) : option (list log_entry) :=
  match ms_get_entries (i_st s) from to with
  | Some es => Some (mark_entries (i_dec s) from es)
  | None => None
  end.

(** [create_compacted_entry]: internal_storage.rs 197-202. *)
Definition create_compacted_entry (s : istore) (compacted : nat) : log_entry :=
  match ms_snap (i_st s) with
  | Some sn => LSnapshotted compacted sn
  | None => LTrimmed compacted
  end.

(** [std::ops::Bound]. *)
Inductive bound := Included (i : nat) | Excluded (i : nat) | Unbounded.

(** [InternalStorage::read]: internal_storage.rs 90-157.  Outer [None] is a
    panic, inner [None] is the [Ok(None)] of the code. *)
Definition i_read (s : istore) (lo hi : bound) : option (option (list log_entry)) :=
  let from := match lo with Included i => i | Excluded e => e + 1 | Unbounded => 0 end in
  let to := match hi with Included i => i + 1 | Excluded e => e | Unbounded => i_acc s end in
  if to =? 0 then Some None
  else
    let comp := i_comp s in
    let acc := i_acc s in
    match get_entry_type s (to - 1) comp acc with
    | None => Some None
    | Some IxCompacted => Some (Some [create_compacted_entry s comp])
    | Some to_type =>
        match get_entry_type s from comp acc with
        | None => Some None
        | Some from_type =>
            match from_type, to_type with
            | IxEntry, IxEntry =>
                match create_read_log_entries s from to with
                | Some es => Some (Some es) | None => None end
            | IxEntry, IxStopSign ss =>
                match create_read_log_entries s from (to - 1) with
                | Some es => Some (Some (es ++ [LStopSign ss (stopsign_is_decided (i_ca s))]))
                | None => None end
            | IxCompacted, IxEntry =>
                match create_read_log_entries s comp to with
                | Some es => Some (Some (create_compacted_entry s comp :: es)) | None => None end
            | IxCompacted, IxStopSign ss =>
                match create_read_log_entries s comp (to - 1) with
                | Some es => Some (Some (create_compacted_entry s comp :: es
                                          ++ [LStopSign ss (stopsign_is_decided (i_ca s))]))
                | None => None end
            | IxStopSign ss, IxStopSign _ =>
                Some (Some [LStopSign ss (stopsign_is_decided (i_ca s))])
            | _, _ => None
            end
        end
    end.

(** [read_decided_suffix]: internal_storage.rs 77-87. *)
Definition i_read_decided_suffix (s : istore) (from : nat) : option (option (list log_entry)) :=
  if from <? i_dec s then i_read s (Included from) (Excluded (i_dec s)) else Some None.

(** [append_entries_without_batching]: internal_storage.rs 303-311. *)
Definition append_entries_without_batching (s : istore) (es : list T) : istore * nat :=
  let s := put_st s (ms_append_entries (i_st s) es) in
  let acc := i_acc s + length es in
  (set_ca s (c_set_acc (i_ca s) acc), acc).

(** [flush_if_full_batch]: internal_storage.rs 237-253; [AcceptedMetaData]
    (util.rs 465-471) is a pair of the accepted index and the entries. *)
Definition flush_if_full_batch (s : istore) (r : option (list T)) : istore * option (nat * list T) :=
  match r with
  | Some es => let '(s', acc) := append_entries_without_batching s es in (s', Some (acc, es))
  | None => (s, None)
  end.

(** [append_entry_with_batching]: internal_storage.rs 206-212. *)
Definition append_entry_with_batching (s : istore) (e : T) : istore * option (nat * list T) :=
  let '(c, r) := cache_append_entry (i_ca s) e in
  flush_if_full_batch (set_ca s c) r.

(** [append_entries_with_batching]: internal_storage.rs 216-222. *)
Definition append_entries_with_batching (s : istore) (es : list T) : istore * option (nat * list T) :=
  let '(c, r) := cache_append_entries (i_ca s) es in
  flush_if_full_batch (set_ca s c) r.

(** [append_stopsign]: internal_storage.rs 226-235. *)
Definition i_append_stopsign (s : istore) (ss : stopsign) : istore * option (nat * list T) :=
  let '(c, r) := cache_append_stopsign (i_ca s) ss in
  let '(s, meta) := flush_if_full_batch (set_ca s c) r in
  let s := put_st s (ms_set_stopsign (i_st s) (Some ss)) in
  (set_ca s (c_set_acc (i_ca s) (i_acc s + 1)), meta).

(** [append_entries_and_get_accepted_idx]: internal_storage.rs 257-268. *)
Definition append_entries_and_get_accepted_idx (s : istore) (es : list T) : istore * option nat :=
  let '(c, r) := cache_append_entries (i_ca s) es in
  let s := set_ca s c in
  match r with
  | Some fl => let '(s', acc) := append_entries_without_batching s fl in (s', Some acc)
  | None => (s, None)
  end.

(** [flush_batch]: internal_storage.rs 281-289. *)
Definition flush_batch (s : istore) : istore * nat :=
  let '(c, es) := take_batched_entries (i_ca s) in
  append_entries_without_batching (set_ca s c) es.

(** [flush_batch_and_get_entries]: internal_storage.rs 291-300. *)
Definition flush_batch_and_get_entries (s : istore) : istore * option (nat * list T) :=
  match c_batch (i_ca s) with
  | [] => flush_if_full_batch s None
  | _ => let '(c, es) := take_batched_entries (i_ca s) in flush_if_full_batch (set_ca s c) (Some es)
  end.

(** [get_decided_idx_without_stopsign]: internal_storage.rs 469-474. *)
Definition dec_without_ss (s : istore) : option nat :=
  if stopsign_is_decided (i_ca s) then sub_chk (i_dec s) 1 else Some (i_dec s).

(** [create_snapshot]: internal_storage.rs 367-383. *)
Definition create_snapshot (s : istore) (idx : nat) : cres Snap :=
  let comp := i_comp s in
  if idx <? comp then CErr (TrimmedIndex comp)
  else match ms_get_entries (i_st s) comp idx with
  | None => CPanic
  | Some es =>
      match s_create es with
      | None => CPanic
      | Some delta =>
          match ms_snap (i_st s) with
          | Some sn => match s_merge sn delta with Some r => COk r | None => CPanic end
          | None => COk delta
          end
      end
  end.

(** [create_decided_snapshot]: internal_storage.rs 362-365. *)
Definition create_decided_snapshot (s : istore) : cres Snap :=
  match dec_without_ss s with
  | Some d => create_snapshot s d
  | None => CPanic
  end.

(** [create_diff_snapshot]: internal_storage.rs 389-412. *)
Definition create_diff_snapshot (s : istore) (from : nat) : cres (option snap_type * nat) :=
  match dec_without_ss s with
  | None => CPanic
  | Some d =>
      let comp := i_comp s in
      if from <=? comp then
        if comp <? d then
          match create_snapshot s d with
          | COk sn => COk (Some (Complete sn), d)
          | CErr e => CErr e
          | CPanic => CPanic
          end
        else COk (option_map Complete (ms_snap (i_st s)), d)
      else
        match ms_get_entries (i_st s) from d with
        | None => CPanic
        | Some es =>
            match s_create es with
            | Some sn => COk (Some (Delta sn), d)
            | None => CPanic
            end
        end
  end.

(** [sync_log]: internal_storage.rs 313-360.  An error from the snapshot
    creation is turned into a panic by the [expect] of all callers
    (leader.rs 263, follower.rs 59). *)
Definition sync_log (s : istore) (around : ballot) (dec : nat) (ls : option log_sync) : res (istore * nat) :=
  let s := set_ca s (c_set_dec (c_set_around (i_ca s) around) dec) in
  let ops0 := [OpSetAround around; OpSetDecided dec] in
  match ls with
  | None =>
      m <- ilift s (ms_write (i_st s) ops0) ;;
      let s := put_st s m in Ok (s, i_acc s)
  | Some sy =>
      '(s, ops1) <- (match sy_snap sy with
        | Some (Complete c) =>
            Ok (set_ca s (c_set_comp (i_ca s) (sy_idx sy)),
                ops0 ++ [OpTrim (sy_idx sy); OpSetComp (sy_idx sy); OpSetSnapshot (Some c)])
        | Some (Delta d) =>
            match create_decided_snapshot s with
            | COk sn =>
                match s_merge sn d with
                | Some sn' =>
                    Ok (set_ca s (c_set_comp (i_ca s) (sy_idx sy)),
                        ops0 ++ [OpTrim (sy_idx sy); OpSetComp (sy_idx sy); OpSetSnapshot (Some sn')])
                | None => ipanic s
                end
            | _ => ipanic s
            end
        | None => Ok (s, ops0)
        end) ;;
      let s := set_ca s (c_set_acc (i_ca s) (sy_idx sy + length (sy_suffix sy))) in
      let ops2 := ops1 ++ [OpAppendOnPrefix (sy_idx sy) (sy_suffix sy)] in
      let '(s, ops3) :=
        match sy_ss sy with
        | Some ss =>
            (set_ca s (c_set_acc (c_set_ss (i_ca s) (Some ss)) (i_acc s + 1)),
             ops2 ++ [OpSetStopsign (Some ss)])
        | None =>
            match i_ss s with
            | Some _ => (set_ca s (c_set_ss (i_ca s) None), ops2 ++ [OpSetStopsign None])
            | None => (s, ops2)
            end
        end in
      m <- ilift s (ms_write (i_st s) ops3) ;;
      let s := put_st s m in Ok (s, i_acc s)
  end.

(** [try_trim]: internal_storage.rs 414-430. *)
Definition try_trim (s : istore) (idx : nat) : res (istore * option compaction_err) :=
  let dec := i_dec s in
  match dec_without_ss s with
  | None => ipanic s
  | Some logdec =>
      let go new :=
        if i_comp s <? new then
          m <- ilift s (ms_write (i_st s) [OpTrim new; OpSetComp new]) ;;
          let s := put_st s m in Ok (set_ca s (c_set_comp (i_ca s) new), None)
        else Ok (s, None) in
      match Nat.compare idx dec with
      | Lt => go idx
      | Eq => go logdec
      | Gt => Ok (s, Some (UndecidedIndex dec))
      end
  end.

(** [try_snapshot]: internal_storage.rs 432-453. *)
Definition try_snapshot (s : istore) (idx : option nat) : res (istore * option compaction_err) :=
  let dec := i_dec s in
  match dec_without_ss s with
  | None => ipanic s
  | Some logdec =>
      let go new :=
        if i_comp s <? new then
          match create_snapshot s new with
          | CPanic => ipanic s
          | CErr e => Ok (s, Some e)
          | COk sn =>
              m <- ilift s (ms_write (i_st s) [OpTrim new; OpSetComp new; OpSetSnapshot (Some sn)]) ;;
              let s := put_st s m in Ok (set_ca s (c_set_comp (i_ca s) new), None)
          end
        else Ok (s, None) in
      match idx with
      | Some i =>
          match Nat.compare i dec with
          | Lt => go i
          | Eq => go logdec
          | Gt => Ok (s, Some (UndecidedIndex dec))
          end
      | None => go logdec
      end
  end.

(** [set_promise]: internal_storage.rs 455-458. *)
Definition i_set_promise (s : istore) (b : ballot) : istore :=
  let s := set_ca s (c_set_prom (i_ca s) b) in
  put_st s (ms_set_promise (i_st s) b).

(** [set_decided_idx]: internal_storage.rs 460-463. *)
Definition i_set_decided (s : istore) (d : nat) : istore :=
  let s := set_ca s (c_set_dec (i_ca s) d) in
  put_st s (ms_set_decided (i_st s) d).

(** [set_stopsign]: internal_storage.rs 497-506.  Only called with [Some]
    (follower.rs 120-122); the [None] branch subtracts from the accepted index. *)
Definition i_set_stopsign (s : istore) (ss : option stopsign) : res (istore * nat) :=
  c <- (match ss, c_ss (i_ca s) with
        | Some _, None => Ok (c_set_acc (i_ca s) (i_acc s + 1))
        | None, Some _ => a <- ilift s (sub_chk (i_acc s) 1) ;; Ok (c_set_acc (i_ca s) a)
        | _, _ => Ok (i_ca s)
        end) ;;
  let s := set_ca s (c_set_ss c ss) in
  let s := put_st s (ms_set_stopsign (i_st s) ss) in
  Ok (s, i_acc s).

End WithEntry.
