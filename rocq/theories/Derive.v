(** * The cache that the macro [UniCacheEntry] writes

    omnipaxos_macros/src/lib.rs 62-202.  [derive] is the macro: it goes through the fields of the
    struct and decides for each one whether it is cached, in what cache, of what size and encoded
    as what.  The rest of the file is the code that the macro writes: the struct of caches with
    [new], [try_encode], [decode] and the derived [Clone].

    Simplifications: field names are positions (a field named like a variable of the generated code
    is a compile error, not a wrong result); an encoded type is its largest value (255 for u8), as in
    Unicache.v; the snapshot type (208-222) has no behaviour; on an enum the macro stops (195-197).  A malformed attribute, an unknown
    attribute and an unknown cache are compile errors: [None]. *)
From Coq Require Import List Arith Bool.
From Verif Require Import Unicache.
Import ListNotations.

(** The items of an attribute [unicache(..)]: lib.rs 99-130. *)
Inductive policy := Lru | Lfu.
Inductive item := ISize (n : nat) | ICache (p : option policy) | IEncoding (lim : nat) | IOther.
(** A field of the struct: its type with its equality, and its attributes named [unicache], each
    with its items. *)
Record field := mkField {
  f_type : Type;
  f_eqb : f_type -> f_type -> bool;
  f_attrs : list (list item)
}.
(** What the macro knows of a cached field: the entries of [cache_types], [cache_sizes] and
    [encodable_field_attr_types] for it. *)
Record spec := mkSpec { sp_policy : policy; sp_size : nat; sp_lim : nat }.
Record slot := mkSlot { sl_type : Type; sl_eqb : sl_type -> sl_type -> bool; sl_spec : option spec }.

(** [attr.parse_nested_meta]: lib.rs 99-131.  The first component is the variable [cache_type],
    which is declared outside the loop over the fields (71).  [None] is [panic!]. *)
Fixpoint parse (its : list item) (ct : option policy) (size lim : option nat) : option (option policy * option nat * option nat) :=
  match its with
  | [] => Some (ct, size, lim)
  | ISize n :: r => parse r ct (Some n) lim
  | ICache (Some p) :: r => parse r (Some p) size lim
  | ICache None :: _ => None
  | IEncoding n :: r => parse r ct size (Some n)
  | IOther :: _ => None
  end.
Definition or_else {X} (o : option X) (d : X) : X := match o with Some x => x | None => d end.
(** The loop over the fields: lib.rs 89-149; the defaults are 133-135 ([cache_type] is assigned too),
    the attribute is the first one named [unicache] (92-94). *)
Fixpoint derive (ct : option policy) (fs : list field) : option (list slot) :=
  match fs with
  | [] => Some []
  | f :: r =>
      match f_attrs f with
      | its :: _ =>
          match parse its ct None None with
          | None => None
          | Some (ct, size, lim) =>
              let lim := or_else lim 255 in
              let size := or_else size 255 in
              let ct := or_else ct Lru in
              match derive (Some ct) r with
              | Some sl => Some (mkSlot (f_type f) (f_eqb f) (Some (mkSpec ct size lim)) :: sl)
              | None => None
              end
          end
      | [] =>
          match derive ct r with
          | Some sl => Some (mkSlot (f_type f) (f_eqb f) None :: sl)
          | None => None
          end
      end
  end.
(** The macro: [let mut cache_type = None], lib.rs 71. *)
Definition unicache_entry (fs : list field) : option (list slot) := derive None fs.

(** ** One field of the generated code *)
Section OneField.
(** [order]: the order in which the hash map of an LFU cache is iterated. *)
Context (order : forall X, list X -> list X) {A : Type} (aeq : A -> A -> bool).
(** The field of the cache struct, if any: lib.rs 141, 167-169. *)
Definition fcache (o : option spec) : Type :=
  match o with
  | None => unit
  | Some sp => match sp_policy sp with Lru => lruc A | Lfu => lfuc A end
  end.
(** Its place in [EncodeResult]: lib.rs 140, 147. *)
Definition wire (o : option spec) : Type := match o with None => A | Some _ => maybe_encoded A end.
(** lib.rs 176. *)
Definition fc_new (o : option spec) : option (fcache o) :=
  match o return option (fcache o) with
  | None => Some tt
  | Some sp =>
      match sp_policy sp as p return option (match p with Lru => lruc A | Lfu => lfuc A end) with
      | Lru => lruc_new (sp_size sp)
      | Lfu => lfuc_new (sp_size sp)
      end
  end.
(** lib.rs 181, 182. *)
Definition fc_encode (o : option spec) : fcache o -> A -> option (fcache o * wire o) :=
  match o return fcache o -> A -> option (fcache o * wire o) with
  | None => fun c a => Some (c, a)
  | Some sp =>
      match sp_policy sp as p return (match p with Lru => lruc A | Lfu => lfuc A end) -> A -> option ((match p with Lru => lruc A | Lfu => lfuc A end) * maybe_encoded A) with
      | Lru => fun c a => lruc_encode aeq (sp_lim sp) c a
      | Lfu => fun c a => lfuc_encode aeq (sp_lim sp) c a
      end
  end.
(** lib.rs 188, 189. *)
Definition fc_decode (o : option spec) : fcache o -> wire o -> option (fcache o * A) :=
  match o return fcache o -> wire o -> option (fcache o * A) with
  | None => fun c a => Some (c, a)
  | Some sp =>
      match sp_policy sp as p return (match p with Lru => lruc A | Lfu => lfuc A end) -> maybe_encoded A -> option ((match p with Lru => lruc A | Lfu => lfuc A end) * A) with
      | Lru => fun c m => lruc_decode (sp_lim sp) c m
      | Lfu => fun c m => lfuc_decode (sp_lim sp) c m
      end
  end.
(** [#[derive(Clone)]]: lib.rs 165. *)
Definition fc_clone (o : option spec) : fcache o -> option (fcache o) :=
  match o return fcache o -> option (fcache o) with
  | None => fun c => Some c
  | Some sp =>
      match sp_policy sp as p return (match p with Lru => lruc A | Lfu => lfuc A end) -> option (match p with Lru => lruc A | Lfu => lfuc A end) with
      | Lru => fun c => lruc_clone c
      | Lfu => fun c => lfuc_clone aeq (order A) c
      end
  end.
End OneField.

(** ** The generated struct and its functions *)
Section Generated.
Context (order : forall X, list X -> list X).
(** The struct that the user wrote. *)
Fixpoint entry (sl : list slot) : Type := match sl with [] => unit | s :: r => sl_type s * entry r end.
(** The cache struct: lib.rs 167-169 (fields that are not cached take no place there: unit). *)
Fixpoint cache (sl : list slot) : Type := match sl with [] => unit | s :: r => @fcache (sl_type s) (sl_spec s) * cache r end.
(** [EncodeResult]: lib.rs 161. *)
Fixpoint encoded (sl : list slot) : Type := match sl with [] => unit | s :: r => @wire (sl_type s) (sl_spec s) * encoded r end.

(** [new]: lib.rs 174-178. *)
Fixpoint c_new (sl : list slot) : option (cache sl) :=
  match sl return option (cache sl) with
  | [] => Some tt
  | s :: r => match fc_new (sl_spec s), c_new r with Some c, Some cs => Some (c, cs) | _, _ => None end
  end.
(** [try_encode]: lib.rs 180-184.  (The fields that are not cached are cloned after the others are
    encoded; a clone has no effect on a cache.) *)
Fixpoint c_encode (sl : list slot) : cache sl -> entry sl -> option (cache sl * encoded sl) :=
  match sl return cache sl -> entry sl -> option (cache sl * encoded sl) with
  | [] => fun c _ => Some (c, tt)
  | s :: r => fun c e =>
      match fc_encode (sl_eqb s) (sl_spec s) (fst c) (fst e) with
      | Some (c1, w) => match c_encode r (snd c) (snd e) with Some (cs, ws) => Some ((c1, cs), (w, ws)) | None => None end
      | None => None
      end
  end.
(** [decode]: lib.rs 186-191. *)
Fixpoint c_decode (sl : list slot) : cache sl -> encoded sl -> option (cache sl * entry sl) :=
  match sl return cache sl -> encoded sl -> option (cache sl * entry sl) with
  | [] => fun c _ => Some (c, tt)
  | s :: r => fun c w =>
      match fc_decode (sl_spec s) (fst c) (fst w) with
      | Some (c1, a) => match c_decode r (snd c) (snd w) with Some (cs, es) => Some ((c1, cs), (a, es)) | None => None end
      | None => None
      end
  end.
(** The derived [Clone]: lib.rs 165. *)
Fixpoint c_clone (sl : list slot) : cache sl -> option (cache sl) :=
  match sl return cache sl -> option (cache sl) with
  | [] => fun c => Some c
  | s :: r => fun c =>
      match fc_clone order (sl_eqb s) (sl_spec s) (fst c), c_clone r (snd c) with Some c1, Some cs => Some (c1, cs) | _, _ => None end
  end.
End Generated.
