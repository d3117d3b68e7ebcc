(** * Ballot leader election *)
From Coq Require Import List Arith Bool.
Import ListNotations.
From Verif Require Import Types Config MemStore Internal LeaderState SeqPaxos.

(** [INITIAL_ROUND], [RECOVERY_ROUND]: ballot_leader_election.rs 65-66. *)
Definition initial_round := 1.
Definition recovery_round := 0.

(** [BallotLeaderElection]: ballot_leader_election.rs 71-99.  [e_prev] is [prev_replies]. *)
Record bles := mkBle {
  e_cfg : nat;
  e_pid : node_id;
  e_peers : list node_id;
  e_round : nat;
  e_replies : list hb_reply;
  e_prev : list hb_reply;
  e_ballot : ballot;
  e_leader : ballot;
  e_happy : bool;
  e_quorum : quorum;
  e_out : list ble_message
}.

(** Field updates. *)
Definition e_set_round (b : bles) r reps out := mkBle (e_cfg b) (e_pid b) (e_peers b) r reps (e_prev b) (e_ballot b) (e_leader b) (e_happy b) (e_quorum b) out.
Definition e_set_ballot (b : bles) x := mkBle (e_cfg b) (e_pid b) (e_peers b) (e_round b) (e_replies b) (e_prev b) x (e_leader b) (e_happy b) (e_quorum b) (e_out b).
Definition e_set_leader (b : bles) x := mkBle (e_cfg b) (e_pid b) (e_peers b) (e_round b) (e_replies b) (e_prev b) (e_ballot b) x (e_happy b) (e_quorum b) (e_out b).
Definition e_set_happy (b : bles) x := mkBle (e_cfg b) (e_pid b) (e_peers b) (e_round b) (e_replies b) (e_prev b) (e_ballot b) (e_leader b) x (e_quorum b) (e_out b).
Definition e_set_prev (b : bles) x := mkBle (e_cfg b) (e_pid b) (e_peers b) (e_round b) (e_replies b) x (e_ballot b) (e_leader b) (e_happy b) (e_quorum b) (e_out b).
Definition e_set_out (b : bles) x := e_set_round b (e_round b) (e_replies b) x.
Definition e_set_replies (b : bles) x := e_set_round b (e_round b) x (e_out b).

(** [new_hb_round]: ballot_leader_election.rs 175-194. *)
Definition new_hb_round (b : bles) : bles :=
  let b := e_set_prev b (e_replies b) in
  let r := e_round b + 1 in
  e_set_round b r [] (e_out b ++ map (fun p => mkBM (e_pid b) p (HbRequest r)) (e_peers b)).

(** Assignments to the fields [n] and [priority] of a ballot. *)
Definition set_n (b : ballot) (n : nat) : ballot := mkB (b_cfg b) n (b_prio b) (b_pid b).
Definition set_prio (b : ballot) (p : nat) : ballot := mkB (b_cfg b) (b_n b) p (b_pid b).

(** [BallotLeaderElection::with]: ballot_leader_election.rs 103-151. *)
Definition ble_with (cfg : nat) (pid : node_id) (peers : list node_id) (prio : nat) (flex : option flexq)
  (recovered : option ballot) : bles :=
  let num_nodes := length peers + 1 in
  let q := quorum_with flex num_nodes in
  let ini := mkB cfg initial_round prio pid in
  let '(ini, leader) :=
    match recovered with
    | Some b => if negb (beq b bdef) then (set_n ini recovery_round, b) else (ini, ini)
    | None => (ini, ini)
    end in
  new_hb_round (mkBle cfg pid peers 0 [] [] ini leader true q []).

(** [set_priority]: ballot_leader_election.rs 155-157. *)
Definition ble_set_priority (b : bles) (p : nat) : bles := e_set_ballot b (set_prio (e_ballot b) p).

(** [Iterator::max] on ballots (the last of several maximal ones). *)
Fixpoint max_ballot (l : list ballot) : option ballot :=
  match l with
  | [] => None
  | x :: r => match max_ballot r with
              | Some m => Some (if bgt x m then x else m)
              | None => Some x
              end
  end.

(** [update_leader]: ballot_leader_election.rs 222-229. *)
Definition update_leader (b : bles) : bles :=
  match max_ballot (map hr_ballot (e_replies b)) with
  | Some m => if bgt m (e_leader b) then e_set_leader b m else b
  | None => b
  end.

(** [update_happiness]: ballot_leader_election.rs 231-258. *)
Definition update_happiness (b : bles) (st : role * phase) : bles :=
  e_set_happy b
    (if beq (e_leader b) (e_ballot b) then
       let potential := length (filter (fun r => ble (hr_leader r) (e_ballot b)) (e_replies b)) in
       let can_form :=
         match st with
         | (Leader, PhAccept) => is_accept_quorum (e_quorum b) (potential + 1)
         | _ => is_prepare_quorum (e_quorum b) (potential + 1)
         end in
       if can_form then true
       else existsb (fun r => bgt (hr_leader r) (e_ballot b) && hr_happy r) (e_replies b)
     else existsb (fun r => beq (hr_ballot r) (e_leader b) && hr_happy r) (e_replies b)).

(** [check_takeover]: ballot_leader_election.rs 260-274. *)
Definition check_takeover (b : bles) : bles :=
  if negb (e_happy b) then
    let all_unhappy := forallb (fun r => negb (hr_happy r)) (e_replies b) in
    let connected := is_prepare_quorum (e_quorum b) (length (e_replies b) + 1) in
    if all_unhappy && connected then
      let b := e_set_ballot b (set_n (e_ballot b) (b_n (e_leader b) + 1)) in
      e_set_happy (e_set_leader b (e_ballot b)) true
    else b
  else b.

(** [hb_timeout]: ballot_leader_election.rs 197-220. *)
Definition hb_timeout (b : bles) (st : role * phase) (prom : ballot) : bles * option ballot :=
  let b := update_leader b in
  let b := update_happiness b st in
  let b := check_takeover b in
  let b := new_hb_round b in
  let b :=
    if bgt prom (e_leader b) then
      let b := e_set_leader b prom in
      let b := if b_pid prom =? e_pid b then e_set_ballot b prom else b in
      e_set_happy b true
    else b in
  (b, if beq (e_leader b) (e_ballot b) then Some (e_ballot b) else None).

(** [handle_request]: ballot_leader_election.rs 276-288. *)
Definition handle_request (b : bles) (from : node_id) (round : nat) : bles :=
  e_set_out b (e_out b ++ [mkBM (e_pid b) from (HbReply (mkHR round (e_ballot b) (e_leader b) (e_happy b)))]).

(** [handle_reply]: ballot_leader_election.rs 290-294. *)
Definition handle_reply (b : bles) (r : hb_reply) : bles :=
  if (hr_round r =? e_round b) && (b_cfg (hr_ballot r) =? e_cfg b)
  then e_set_replies b (e_replies b ++ [r]) else b.

(** [handle]: ballot_leader_election.rs 167-172. *)
Definition ble_handle (b : bles) (m : ble_message) : bles :=
  match bm_msg m with
  | HbRequest r => handle_request b (bm_from m) r
  | HbReply r => handle_reply b r
  end.

(** [get_current_ballot], [get_ballots]: ballot_leader_election.rs 296-302. *)
Definition get_current_ballot (b : bles) : ballot := e_ballot b.
Definition get_ballots (b : bles) : list hb_reply := e_prev b.
