(** * Leader state *)
From Coq Require Import List Arith Bool.
Import ListNotations.
From Verif Require Import Types MemStore Internal.

Section WithEntry.
Context {E : EntryT}.

(** [PromiseMetaData]: util.rs 29-34. *)
Record prom_meta := mkMeta { pmt_na : ballot; pmt_acc : nat; pmt_dec : nat; pmt_pid : node_id }.

(** [PromiseMetaData::default()]: derived, util.rs 27. *)
Definition meta_default : prom_meta := mkMeta bdef 0 0 0.

(** [PartialOrd for PromiseMetaData], the operator [>]: util.rs 36-52. *)
Definition meta_gt (a b : prom_meta) : bool :=
  if beq (pmt_na a) (pmt_na b) && (pmt_acc a =? pmt_acc b) && (pmt_pid a =? pmt_pid b) then false
  else bgt (pmt_na a) (pmt_na b) || (beq (pmt_na a) (pmt_na b) && (pmt_acc b <? pmt_acc a)).

(** [PromiseState]: util.rs 64-71. *)
Inductive prom_state := NotPromised | Promised (m : prom_meta) | PromisedHigher.

Definition is_promised (p : prom_state) : bool := match p with Promised _ => true | _ => false end.

(** [LeaderState]: util.rs 74-90. *)
Record leader_state := mkLS {
  l_n : ballot;
  l_proms : list prom_state;
  l_seqs : list seqnum;
  l_accs : list nat;
  l_maxmeta : prom_meta;
  l_maxsync : option log_sync;
  l_accmeta : list (option (ballot * nat));
  l_maxpid : nat;
  l_quorum : quorum
}.

(** [LeaderState::with]: util.rs 96-108. *)
Definition ls_with (n : ballot) (max_pid : nat) (q : quorum) : leader_state :=
  mkLS n (repeat NotPromised max_pid) (repeat seq0 max_pid) (repeat 0 max_pid)
       meta_default None (repeat None max_pid) max_pid q.

(** Field updates. *)
Definition l_set_proms (l : leader_state) x := mkLS (l_n l) x (l_seqs l) (l_accs l) (l_maxmeta l) (l_maxsync l) (l_accmeta l) (l_maxpid l) (l_quorum l).
Definition l_set_seqs (l : leader_state) x := mkLS (l_n l) (l_proms l) x (l_accs l) (l_maxmeta l) (l_maxsync l) (l_accmeta l) (l_maxpid l) (l_quorum l).
Definition l_set_accs (l : leader_state) x := mkLS (l_n l) (l_proms l) (l_seqs l) x (l_maxmeta l) (l_maxsync l) (l_accmeta l) (l_maxpid l) (l_quorum l).
Definition l_set_max (l : leader_state) m sy := mkLS (l_n l) (l_proms l) (l_seqs l) (l_accs l) m sy (l_accmeta l) (l_maxpid l) (l_quorum l).
Definition l_set_accmeta (l : leader_state) x := mkLS (l_n l) (l_proms l) (l_seqs l) (l_accs l) (l_maxmeta l) (l_maxsync l) x (l_maxpid l) (l_quorum l).

(** [pid_to_idx]: util.rs 110-112. *)
Definition pid_to_idx (pid : node_id) : option nat := sub_chk pid 1.

(** Indexing [v[pid_to_idx(pid)]] for reading; [None] is a panic. *)
Definition vget {A} (l : list A) (pid : node_id) : option A :=
  match pid_to_idx pid with Some i => nth_error l i | None => None end.

(** Indexing [v[pid_to_idx(pid)] = x]; [None] is a panic. *)
Definition vset {A} (l : list A) (pid : node_id) (x : A) : option (list A) :=
  match pid_to_idx pid with
  | Some i => if i <? length l then Some (upd l i x) else None
  | None => None
  end.

(** [increment_seq_num_session]: util.rs 115-119. *)
Definition increment_seq_num_session (l : leader_state) (pid : node_id) : option leader_state :=
  match vget (l_seqs l) pid with
  | Some s => option_map (l_set_seqs l) (vset (l_seqs l) pid (mkSeq (sq_sess s + 1) 0))
  | None => None
  end.

(** [next_seq_num]: util.rs 121-125. *)
Definition next_seq_num (l : leader_state) (pid : node_id) : option (leader_state * seqnum) :=
  match vget (l_seqs l) pid with
  | Some s =>
      let s' := mkSeq (sq_sess s) (sq_ctr s + 1) in
      option_map (fun v => (l_set_seqs l v, s')) (vset (l_seqs l) pid s')
  | None => None
  end.

(** [get_seq_num]: util.rs 127-129. *)
Definition get_seq_num (l : leader_state) (pid : node_id) : option seqnum := vget (l_seqs l) pid.

(** [set_promise]: util.rs 131-149. *)
Definition ls_set_promise (l : leader_state) (p : promise) (from : node_id) (check_max : bool)
  : option (leader_state * bool) :=
  let m := mkMeta (pr_na p) (pr_acc p) (pr_dec p) from in
  let l := if check_max && meta_gt m (l_maxmeta l) then l_set_max l m (pr_sync p) else l in
  match vset (l_proms l) from (Promised m) with
  | Some v =>
      let l := l_set_proms l v in
      Some (l, is_prepare_quorum (l_quorum l) (length (filter is_promised v)))
  | None => None
  end.

(** [reset_promise]: util.rs 151-153. *)
Definition reset_promise (l : leader_state) (pid : node_id) : option leader_state :=
  option_map (l_set_proms l) (vset (l_proms l) pid NotPromised).

(** [lost_promise]: util.rs 156-158. *)
Definition lost_promise (l : leader_state) (pid : node_id) : option leader_state :=
  option_map (l_set_proms l) (vset (l_proms l) pid PromisedHigher).

(** [take_max_promise_sync]: util.rs 160-162. *)
Definition take_max_promise_sync (l : leader_state) : leader_state * option log_sync :=
  (l_set_max l (l_maxmeta l) None, l_maxsync l).

(** [get_max_decided_idx]: util.rs 168-177. *)
Definition get_max_decided_idx (l : leader_state) : nat :=
  fold_left (fun a p => match p with Promised m => Nat.max a (pmt_dec m) | _ => a end) (l_proms l) 0.

(** [get_promise_meta]: util.rs 179-184. *)
Definition get_promise_meta (l : leader_state) (pid : node_id) : option prom_meta :=
  match vget (l_proms l) pid with Some (Promised m) => Some m | _ => None end.

(** [get_min_all_accepted_idx]: util.rs 186-191; [None] is the [expect] panic
    on an empty vector. *)
Definition get_min_all_accepted_idx (l : leader_state) : option nat :=
  match l_accs l with
  | [] => None
  | a :: r => Some (fold_left Nat.min r a)
  end.

(** [reset_latest_accept_meta]: util.rs 193-195. *)
Definition reset_latest_accept_meta (l : leader_state) : leader_state :=
  l_set_accmeta l (repeat None (l_maxpid l)).

(** The iterator of [get_promised_followers]: util.rs 198-207 ([i] is the
    enumeration index). *)
Fixpoint promised_from (ps : list prom_state) (i : nat) (leader : node_id) : list node_id :=
  match ps with
  | [] => []
  | p :: r =>
      if is_promised p && negb (i + 1 =? leader) then (i + 1) :: promised_from r (i + 1) leader
      else promised_from r (i + 1) leader
  end.

(** [get_promised_followers]: util.rs 197-208.  For a leader pid of 0 the
    computation of [pid_to_idx] panics at the first promised entry. *)
Definition get_promised_followers (l : leader_state) : option (list node_id) :=
  if (b_pid (l_n l) =? 0) && existsb is_promised (l_proms l) then None
  else Some (promised_from (l_proms l) 0 (b_pid (l_n l))).

(** [get_preparable_peers]: util.rs 211-222. *)
Fixpoint get_preparable_peers (l : leader_state) (peers : list node_id) : option (list node_id) :=
  match peers with
  | [] => Some []
  | p :: r =>
      match vget (l_proms l) p, get_preparable_peers l r with
      | Some NotPromised, Some t => Some (p :: t)
      | Some _, Some t => Some t
      | _, _ => None
      end
  end.

(** [set_latest_accept_meta]: util.rs 224-227. *)
Definition set_latest_accept_meta (l : leader_state) (pid : node_id) (idx : option nat) : option leader_state :=
  option_map (l_set_accmeta l) (vset (l_accmeta l) pid (option_map (fun x => (l_n l, x)) idx)).

(** [set_accepted_idx]: util.rs 229-231. *)
Definition set_accepted_idx (l : leader_state) (pid : node_id) (idx : nat) : option leader_state :=
  option_map (l_set_accs l) (vset (l_accs l) pid idx).

(** [get_latest_accept_meta]: util.rs 233-239. *)
Definition get_latest_accept_meta (l : leader_state) (pid : node_id) : option (option (ballot * nat)) :=
  vget (l_accmeta l) pid.

(** [get_decided_idx]: util.rs 241-246. *)
Definition ls_get_decided_idx (l : leader_state) (pid : node_id) : option (option nat) :=
  match vget (l_proms l) pid with
  | Some (Promised m) => Some (Some (pmt_dec m))
  | Some _ => Some None
  | None => None
  end.

(** [get_accepted_idx]: util.rs 248-250. *)
Definition ls_get_accepted_idx (l : leader_state) (pid : node_id) : option nat := vget (l_accs l) pid.

(** [is_chosen]: util.rs 252-259. *)
Definition is_chosen (l : leader_state) (idx : nat) : bool :=
  is_accept_quorum (l_quorum l) (length (filter (fun a => idx <=? a) (l_accs l))).

End WithEntry.
