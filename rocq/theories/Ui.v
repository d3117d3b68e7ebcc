(** * The dashboard: omnipaxos_ui

    What a server hands to the dashboard ([get_ui_states]) and what the dashboard does with it: the
    state that is drawn ([dash]), its update ([ui_tick]) and the steps of drawing that can panic
    ([draws]).

    Simplifications: times and [dps] (entries per second of the last tick) are left out, nothing else
    depends on them; the terminal, the logger and the keyboard are left out (their [unwrap]s are about
    the terminal); a colour is its position in the list of colours, [None] is the default colour;
    numbers of type f64 are exact fractions (equal to the code's for indexes below 2^53, as far as
    comparison with 1 goes); [usize] subtraction below zero is a panic, as in a build with overflow
    checks. *)
From Coq Require Import List Arith Bool.
Import ListNotations.
From Verif Require Import Types Config MemStore Internal LeaderState SeqPaxos Ble Omni.

Section WithEntry.
Context {E : EntryT}.

(** [ClusterState], [OmniPaxosStates]: utils/ui.rs 9-17, 34-46. *)
Record cluster_state := mkCS { cs_accepted : list nat; cs_heartbeats : list hb_reply }.
Record ui_states := mkUS {
  us_ballot : ballot;
  us_leader : option node_id;
  us_decided : nat;
  us_heartbeats : list hb_reply;
  us_cluster : cluster_state
}.

(** [From<&LeaderState<T>> for ClusterState]: utils/ui.rs 19-32. *)
Definition cluster_state_from (l : leader_state) : cluster_state := mkCS (0 :: l_accs l) [].

(** [get_ui_states]: omni_paxos.rs 418-430; [get_leader_state]: sequence_paxos/mod.rs 362-364. *)
Definition get_ui_states (o : omni) : ui_states :=
  let c := cluster_state_from (s_ls (o_sp o)) in
  let c := mkCS (cs_accepted c) (get_ballots (o_ble o)) in
  mkUS (get_current_ballot (o_ble o)) (option_map fst (get_current_leader o)) (get_decided_idx o) (get_ballots (o_ble o)) c.
End WithEntry.

(** [Node], [Role], [App]: app.rs 7-53.  A fraction is a pair. *)
Definition color := option nat.
Record ui_node := mkNode { nd_pid : node_id; nd_ballot : nat; nd_leader : node_id; nd_color : color; nd_connected : bool }.
Inductive ui_role := UFollower | ULeader.
Record dash := mkApp {
  ap_node : ui_node;
  ap_leader : option node_id;
  ap_color : color;
  ap_role : ui_role;
  ap_decided : nat;
  ap_nodes : list ui_node;
  ap_peers : list ui_node;
  ap_throughput : list nat;
  ap_progress : list (nat * nat);
  ap_accepted : list nat
}.

(** Field updates. *)
Definition ap_set_node (a : dash) x := mkApp x (ap_leader a) (ap_color a) (ap_role a) (ap_decided a) (ap_nodes a) (ap_peers a) (ap_throughput a) (ap_progress a) (ap_accepted a).
Definition ap_set_leader (a : dash) x c := mkApp (ap_node a) x c (ap_role a) (ap_decided a) (ap_nodes a) (ap_peers a) (ap_throughput a) (ap_progress a) (ap_accepted a).
Definition ap_set_role (a : dash) x := mkApp (ap_node a) (ap_leader a) (ap_color a) x (ap_decided a) (ap_nodes a) (ap_peers a) (ap_throughput a) (ap_progress a) (ap_accepted a).
Definition ap_set_decided (a : dash) x t := mkApp (ap_node a) (ap_leader a) (ap_color a) (ap_role a) x (ap_nodes a) (ap_peers a) t (ap_progress a) (ap_accepted a).
Definition ap_set_peers (a : dash) x := mkApp (ap_node a) (ap_leader a) (ap_color a) (ap_role a) (ap_decided a) (ap_nodes a) x (ap_throughput a) (ap_progress a) (ap_accepted a).
Definition ap_set_progress (a : dash) x y := mkApp (ap_node a) (ap_leader a) (ap_color a) (ap_role a) (ap_decided a) (ap_nodes a) (ap_peers a) (ap_throughput a) x y.

(** [UIAppConfig] and its conversion from the configuration of the server: lib.rs 178-182, util.rs 43-57. *)
Record ui_config := mkUC { uc_pid : node_id; uc_peers : list node_id }.
Definition ui_config_from (c : cluster_config) (s : server_config) : ui_config :=
  mkUC (sc_pid s) (filter (fun x => negb (x =? sc_pid s)) (cc_nodes c)).

(** [sort]. *)
Fixpoint insert (x : nat) (l : list nat) : list nat :=
  match l with [] => [x] | y :: r => if x <=? y then x :: l else y :: insert x r end.
Fixpoint sort (l : list nat) : list nat := match l with [] => [] | x :: r => insert x (sort r) end.
(** [COLORS]: util.rs 23-32. *)
Definition num_colors := 8.

(** The nodes in [App::with]: app.rs 69-83; [i] is the position of the first one. *)
Fixpoint make_nodes (i : nat) (l : list node_id) : list ui_node :=
  match l with
  | [] => []
  | p :: r => mkNode p 0 0 (Some (i mod num_colors)) false :: make_nodes (i + 1) r
  end.
(** The colour of the current node after the closure has seen all nodes: app.rs 77-79. *)
Definition own_color (pid : node_id) (l : list ui_node) : color :=
  fold_left (fun c n => if nd_pid n =? pid then nd_color n else c) l None.

(** [App::with]: app.rs 57-103.  [None]: there is no peer and [unwrap] panics. *)
Definition app_with (c : ui_config) : option dash :=
  match uc_peers c with
  | [] => None
  | x :: r =>
      let max_pid := Nat.max (fold_left Nat.max r x) (uc_pid c) in
      let nodes := make_nodes 0 (sort (uc_peers c ++ [uc_pid c])) in
      let peers := filter (fun n => negb (nd_pid n =? uc_pid c)) nodes in
      Some (mkApp (mkNode (uc_pid c) 0 0 (own_color (uc_pid c) nodes) false) None None UFollower 0 nodes peers []
              (repeat (0, 1) (max_pid + 1)) (repeat 0 (max_pid + 1)))
  end.

(** [set_decided_idx]: app.rs 105-115. *)
Definition set_decided_idx (a : dash) (d : nat) : option dash :=
  match sub_chk d (ap_decided a) with
  | Some t => Some (ap_set_decided a d (t :: ap_throughput a))
  | None => None
  end.

(** An assignment [v[i] = x]; [None] is a panic. *)
Definition put {A} (v : list A) (i : nat) (x : A) : option (list A) :=
  if i <? length v then Some (upd v i x) else None.

(** The loop in [update_progress]: lib.rs 107-116; [i] is the position of the first index of [l],
    [d] the accepted index of the leader. *)
Fixpoint fill (i d : nat) (l : list nat) (pr : list (nat * nat)) (ac : list nat) : option (list (nat * nat) * list nat) :=
  match l with
  | [] => Some (pr, ac)
  | x :: r =>
      match put pr i (if d =? 0 then (0, 1) else (x, d)), put ac i x with
      | Some pr, Some ac => fill (i + 1) d r pr ac
      | _, _ => None
      end
  end.

(** [update_progress]: lib.rs 99-122. *)
Definition update_progress (a : dash) (u : ui_states) : option dash :=
  match ap_leader a with
  | None => Some a
  | Some q =>
      if q =? nd_pid (ap_node a) then
        let a := ap_set_role a ULeader in
        match nth_error (cs_accepted (us_cluster u)) q with
        | None => None
        | Some d =>
            match fill 0 d (cs_accepted (us_cluster u)) (ap_progress a) (ap_accepted a) with
            | Some (pr, ac) => Some (ap_set_progress a pr ac)
            | None => None
            end
        end
      else Some (ap_set_role a UFollower)
  end.

(** [update_active_peers]: lib.rs 124-142. *)
Definition update_peer (hs : list hb_reply) (n : ui_node) : ui_node :=
  match find (fun x => b_pid (hr_ballot x) =? nd_pid n) hs with
  | Some h => mkNode (nd_pid n) (b_n (hr_ballot h)) (b_pid (hr_leader h)) (nd_color n) true
  | None => mkNode (nd_pid n) (nd_ballot n) (nd_leader n) (nd_color n) false
  end.
Definition update_active_peers (a : dash) (u : ui_states) : dash :=
  ap_set_peers a (map (update_peer (cs_heartbeats (us_cluster u))) (ap_peers a)).

(** [update_leader]: lib.rs 144-157.  [None]: no node has the id of the leader and [unwrap] panics. *)
Definition ui_update_leader (a : dash) (u : ui_states) : option dash :=
  match us_leader u with
  | None => Some (ap_set_leader a None None)
  | Some q =>
      if q =? nd_pid (ap_node a) then Some (ap_set_leader a (Some q) (nd_color (ap_node a)))
      else
        match find (fun n => nd_pid n =? q) (ap_nodes a) with
        | Some n => Some (ap_set_leader a (Some q) (nd_color n))
        | None => None
        end
  end.

(** What [render] needs: render.rs 18-27.  At a leader: the accepted index of the server (281) and of the
    peers (413), the progress of the peers (466) and, in [Gauge::ratio] of the library ratatui (499), a
    progress of at most 1: that function asserts that its argument is between 0 and 1. *)
Definition draws (a : dash) : bool :=
  match ap_role a with
  | UFollower => true
  | ULeader =>
      (nd_pid (ap_node a) <? length (ap_accepted a)) &&
      forallb (fun n =>
        (nd_pid n <? length (ap_accepted a)) &&
        match nth_error (ap_progress a) (nd_pid n) with Some (x, d) => x <=? d | None => false end) (ap_peers a)
  end.

(** [tick] of a started dashboard: lib.rs 160-171. *)
Definition ui_tick (a : dash) (u : ui_states) : option dash :=
  let n := ap_node a in
  let a := ap_set_node a (mkNode (nd_pid n) (b_n (us_ballot u)) (nd_leader n) (nd_color n) (nd_connected n)) in
  match set_decided_idx a (us_decided u) with
  | None => None
  | Some a =>
      match update_progress a u with
      | None => None
      | Some a =>
          match ui_update_leader (update_active_peers a u) u with
          | None => None
          | Some a => if draws a then Some a else None
          end
      end
  end.
(** [tick] for the states of several moments. *)
Fixpoint ui_ticks (a : dash) (us : list ui_states) : option dash :=
  match us with
  | [] => Some a
  | u :: r => match ui_tick a u with Some a => ui_ticks a r | None => None end
  end.
