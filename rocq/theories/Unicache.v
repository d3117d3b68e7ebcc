(** * UniCache: the caches that encode recurring fields

    The two field caches of the feature "unicache".  The protocol model of the other files is the
    one without this feature; here the caches are modelled on their own, with the way they travel
    in [AcceptSync] (cloned at leader.rs 182-183, installed at follower.rs 76-77).

    Simplifications: the field type is any type with a decidable equality; the encoded type is a
    natural number with a largest value [lim] (255 for u8), and [add] beyond it is the overflow
    panic of debug builds. *)
From Coq Require Import List Arith Bool.
Import ListNotations.

(** [MaybeEncoded]: unicache/mod.rs 74-79. *)
Inductive maybe_encoded (A : Type) := Encoded (x : nat) | NotEncoded (a : A).
Arguments Encoded {A} x.
Arguments NotEncoded {A} a.

(** [enc.add(one)]: lru_cache.rs 109-111, 132-134, lfu_cache.rs 63-65, 86-88. *)
Definition add_one (lim enc : nat) : option nat := if enc <? lim then Some (S enc) else None.

(** ** The LRU cache of the crate lru (version 0.11) *)
Section Lru.
Context {K V : Type} (keq : K -> K -> bool).

(** Capacity, and the items with the most recently used first. *)
Record lru := mkLru { l_cap : nat; l_items : list (K * V) }.

(** [LruCache::new] of a [NonZeroUsize]; [None] is the panic of [NonZeroUsize::new(0).unwrap()]. *)
Definition lru_new (cap : nat) : option lru := match cap with 0 => None | _ => Some (mkLru cap []) end.

Definition assoc (l : list (K * V)) (k : K) : option V := option_map snd (find (fun kv => keq (fst kv) k) l).
Definition without (l : list (K * V)) (k : K) : list (K * V) := filter (fun kv => negb (keq (fst kv) k)) l.

(** [get]: the item becomes the most recently used. *)
Definition lru_get (c : lru) (k : K) : lru * option V :=
  match assoc (l_items c) k with
  | Some v => (mkLru (l_cap c) ((k, v) :: without (l_items c) k), Some v)
  | None => (c, None)
  end.
(** [push]: replaces the value of a present key, evicts the least recently used when full. *)
Definition lru_push (c : lru) (k : K) (v : V) : lru :=
  match assoc (l_items c) k with
  | Some _ => mkLru (l_cap c) ((k, v) :: without (l_items c) k)
  | None =>
      if length (l_items c) =? l_cap c then mkLru (l_cap c) ((k, v) :: removelast (l_items c))
      else mkLru (l_cap c) ((k, v) :: l_items c)
  end.
(** [pop_lru]. *)
Definition lru_pop (c : lru) : option (lru * (K * V)) :=
  match rev (l_items c) with
  | [] => None
  | kv :: r => Some (mkLru (l_cap c) (rev r), kv)
  end.
Definition lru_len (c : lru) : nat := length (l_items c).
(** Pushing a list of pairs in order. *)
Definition lru_push_all (c : lru) (l : list (K * V)) : lru := fold_left (fun c kv => lru_push c (fst kv) (snd kv)) l c.
End Lru.
Arguments lru : clear implicits.
Arguments mkLru {K V} l_cap l_items.

Section LruUni.
Context {A : Type} (aeq : A -> A -> bool) (lim : nat).

(** [LRUniCache]: lru_cache.rs 27-49. *)
Record lruc := mkLruc {
  u_enc : lru A nat;
  u_dec : lru nat A;
  u_encoding : nat;
  u_size : nat
}.
(** [new]: lru_cache.rs 90-98. *)
Definition lruc_new (size : nat) : option lruc :=
  match lru_new size, lru_new size with
  | Some e, Some d => Some (mkLruc e d 0 size)
  | _, _ => None
  end.
(** [try_encode]: lru_cache.rs 100-118. *)
Definition lruc_encode (u : lruc) (f : A) : option (lruc * maybe_encoded A) :=
  let '(e, r) := lru_get aeq (u_enc u) f in
  match r with
  | Some x => Some (mkLruc e (u_dec u) (u_encoding u) (u_size u), Encoded x)
  | None =>
      if lru_len e =? u_size u then
        match lru_pop e with
        | Some (e, (_, x)) => Some (mkLruc (lru_push aeq e f x) (u_dec u) (u_encoding u) (u_size u), NotEncoded f)
        | None => None
        end
      else
        match add_one lim (u_encoding u) with
        | Some x => Some (mkLruc (lru_push aeq e f x) (u_dec u) x (u_size u), NotEncoded f)
        | None => None
        end
  end.
(** [decode]: lru_cache.rs 120-142. *)
Definition lruc_decode (u : lruc) (r : maybe_encoded A) : option (lruc * A) :=
  match r with
  | Encoded x =>
      let '(d, a) := lru_get Nat.eqb (u_dec u) x in
      match a with
      | Some a => Some (mkLruc (u_enc u) d (u_encoding u) (u_size u), a)
      | None => None
      end
  | NotEncoded a =>
      if lru_len (u_dec u) =? u_size u then
        match lru_pop (u_dec u) with
        | Some (d, (x, _)) => Some (mkLruc (u_enc u) (lru_push Nat.eqb d x a) (u_encoding u) (u_size u), a)
        | None => None
        end
      else
        match add_one lim (u_encoding u) with
        | Some x => Some (mkLruc (u_enc u) (lru_push Nat.eqb (u_dec u) x a) x (u_size u), a)
        | None => None
        end
  end.
Definition swap {X Y} (p : X * Y) : Y * X := (snd p, fst p).
(** [clone]: lru_cache.rs 57-72. *)
Definition lruc_clone (u : lruc) : option lruc :=
  match lru_new (u_size u), lru_new 1 with
  | Some d, Some e => Some (mkLruc e (lru_push_all Nat.eqb d (map swap (rev (l_items (u_enc u))))) (u_encoding u) (u_size u))
  | _, _ => None
  end.
(** [serialize] followed by [deserialize] of the wrapper: lru_cache.rs 153-217.  [hint] is what the
    format answers to [size_hint]. *)
Definition lru_serde {K V} (keq : K -> K -> bool) (hint : nat -> option nat) (c : lru K V) : option (lru K V) :=
  match lru_new (match hint (length (l_items c)) with Some n => n | None => 255 end) with
  | Some c' => Some (lru_push_all keq c' (rev (l_items c)))
  | None => None
  end.
(** The derived [Serialize] and [Deserialize] of the cache: lru_cache.rs 24-36. *)
Definition lruc_serde (hint : nat -> option nat) (u : lruc) : option lruc :=
  match lru_serde aeq hint (u_enc u), lru_serde Nat.eqb hint (u_dec u) with
  | Some e, Some d => Some (mkLruc e d (u_encoding u) (u_size u))
  | _, _ => None
  end.
End LruUni.
Arguments lruc : clear implicits.

(** ** The LFU cache: unicache/lfu/mod.rs *)
Section Lfu.
Context {K V : Type} (keq : K -> K -> bool).

(** [LFUCache] and [ValueCounter]: lfu/mod.rs 30-42.  The hash maps are association lists (the order
    matters for [iter] only); a linked hash set is the list of its keys, oldest first. *)
Record lfu := mkLfu {
  f_values : list (K * (V * nat));
  f_bins : list (nat * list K);
  f_cap : nat;
  f_min : nat
}.
(** [with_capacity]: lfu/mod.rs 51-61. *)
Definition lfu_new (cap : nat) : option lfu := match cap with 0 => None | _ => Some (mkLfu [] [] cap 0) end.
(** [len]: lfu/mod.rs 67-69. *)
Definition lfu_len (c : lfu) : nat := length (f_values c).

Fixpoint bin (b : list (nat * list K)) (n : nat) : option (list K) :=
  match b with [] => None | (m, l) :: r => if m =? n then Some l else bin r n end.
Fixpoint set_bin (b : list (nat * list K)) (n : nat) (l : list K) : list (nat * list K) :=
  match b with [] => [(n, l)] | (m, l') :: r => if m =? n then (m, l) :: r else (m, l') :: set_bin r n l end.
Definition bin_or_empty (b : list (nat * list K)) (n : nat) : list K := match bin b n with Some l => l | None => [] end.
Definition rm (k : K) (l : list K) : list K := filter (fun x => negb (keq x k)) l.

(** [update_frequency_bin]: lfu/mod.rs 97-112.  [None]: the panic of 99. *)
Definition lfu_update (c : lfu) (k : K) : option lfu :=
  match assoc keq (f_values c) k with
  | None => Some c
  | Some (_, count) =>
      match bin (f_bins c) count with
      | None => None
      | Some l =>
          let l := rm k l in
          let b := set_bin (f_bins c) count l in
          let vals := map (fun kv => if keq (fst kv) k then (fst kv, (fst (snd kv), S (snd (snd kv)))) else kv) (f_values c) in
          let mn := if (count =? f_min c) && match l with [] => true | _ => false end then S (f_min c) else f_min c in
          Some (mkLfu vals (set_bin b (S count) (bin_or_empty b (S count) ++ [k])) (f_cap c) mn)
      end
  end.
(** [get]: lfu/mod.rs 87-90. *)
Definition lfu_get (c : lfu) (k : K) : option (lfu * option V) :=
  match lfu_update c k with
  | Some c => Some (c, option_map fst (assoc keq (f_values c) k))
  | None => None
  end.
(** The pop of [evict] 114-118, [evict_and_return_key] 120-129, [evict_and_return_value] 131-139:
    [None] is the panic of [pop_front().unwrap()]; [Some None] is the missing bin. *)
Definition lfu_pop (c : lfu) : option (option (lfu * K * option V)) :=
  match bin (f_bins c) (f_min c) with
  | None => Some None
  | Some [] => None
  | Some (k :: l) =>
      Some (Some (mkLfu (without keq (f_values c) k) (set_bin (f_bins c) (f_min c) l) (f_cap c) (f_min c), k,
                  option_map fst (assoc keq (f_values c) k)))
  end.
(** [set]: lfu/mod.rs 147-164.  In [evict] the missing bin panics too (115). *)
Definition lfu_set (c : lfu) (k : K) (v : V) : option lfu :=
  match assoc keq (f_values c) k with
  | Some _ =>
      lfu_update (mkLfu (map (fun kv => if keq (fst kv) k then (fst kv, (v, snd (snd kv))) else kv) (f_values c)) (f_bins c) (f_cap c) (f_min c)) k
  | None =>
      match (if f_cap c <=? lfu_len c then match lfu_pop c with Some (Some (c', _, _)) => Some c' | _ => None end else Some c) with
      | Some c => Some (mkLfu (f_values c ++ [(k, (v, 1))]) (set_bin (f_bins c) 1 (bin_or_empty (f_bins c) 1 ++ [k])) (f_cap c) 1)
      | None => None
      end
  end.
(** Setting a list of pairs in order. *)
Fixpoint lfu_set_all (c : lfu) (l : list (K * V)) : option lfu :=
  match l with [] => Some c | (k, v) :: r => match lfu_set c k v with Some c => lfu_set_all c r | None => None end end.
End Lfu.
Arguments lfu : clear implicits.
Arguments mkLfu {K V} f_values f_bins f_cap f_min.

Section LfuUni.
Context {A : Type} (aeq : A -> A -> bool) (lim : nat).

(** [LFUniCache]: lfu_cache.rs 7-16. *)
Record lfuc := mkLfuc {
  v_enc : lfu A nat;
  v_dec : lfu nat A;
  v_encoding : nat;
  v_size : nat
}.
(** [new]: lfu_cache.rs 45-52. *)
Definition lfuc_new (size : nat) : option lfuc :=
  match lfu_new size, lfu_new size with
  | Some e, Some d => Some (mkLfuc e d 0 size)
  | _, _ => None
  end.
(** [try_encode]: lfu_cache.rs 54-72. *)
Definition lfuc_encode (u : lfuc) (f : A) : option (lfuc * maybe_encoded A) :=
  match lfu_get aeq (v_enc u) f with
  | None => None
  | Some (e, Some x) => Some (mkLfuc e (v_dec u) (v_encoding u) (v_size u), Encoded x)
  | Some (e, None) =>
      if lfu_len e =? v_size u then
        match lfu_pop aeq e with
        | Some (Some (e, _, Some x)) =>
            match lfu_set aeq e f x with
            | Some e => Some (mkLfuc e (v_dec u) (v_encoding u) (v_size u), NotEncoded f)
            | None => None
            end
        | _ => None
        end
      else
        match add_one lim (v_encoding u) with
        | Some x =>
            match lfu_set aeq e f x with
            | Some e => Some (mkLfuc e (v_dec u) x (v_size u), NotEncoded f)
            | None => None
            end
        | None => None
        end
  end.
(** [decode]: lfu_cache.rs 74-96. *)
Definition lfuc_decode (u : lfuc) (r : maybe_encoded A) : option (lfuc * A) :=
  match r with
  | Encoded x =>
      match lfu_get Nat.eqb (v_dec u) x with
      | Some (d, Some a) => Some (mkLfuc (v_enc u) d (v_encoding u) (v_size u), a)
      | _ => None
      end
  | NotEncoded a =>
      if lfu_len (v_dec u) =? v_size u then
        match lfu_pop Nat.eqb (v_dec u) with
        | Some (Some (d, x, _)) =>
            match lfu_set Nat.eqb d x a with
            | Some d => Some (mkLfuc (v_enc u) d (v_encoding u) (v_size u), a)
            | None => None
            end
        | _ => None
        end
      else
        match add_one lim (v_encoding u) with
        | Some x =>
            match lfu_set Nat.eqb (v_dec u) x a with
            | Some d => Some (mkLfuc (v_enc u) d x (v_size u), a)
            | None => None
            end
        | None => None
        end
  end.
(** [clone]: lfu_cache.rs 24-37.  [order] is the order in which the hash map is iterated: it depends
    on the keys, not on the values or counters. *)
Definition lfuc_clone (order : list A -> list A) (u : lfuc) : option lfuc :=
  let vals := f_values (v_enc u) in
  let pick := flat_map (fun a => match assoc aeq vals a with Some (x, _) => [(x, a)] | None => [] end) (order (map fst vals)) in
  match lfu_new (v_size u), lfu_new 1 with
  | Some d, Some e =>
      match lfu_set_all Nat.eqb d pick with
      | Some d => Some (mkLfuc e d (v_encoding u) (v_size u))
      | None => None
      end
  | _, _ => None
  end.
End LfuUni.
Arguments lfuc : clear implicits.
