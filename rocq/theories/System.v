(** * Cluster of servers

    One server per node id, one queue per ordered pair of node ids.  The cluster
    is not code of the crate: it is the environment in which the crate runs (an
    application that calls the API, a network that may lose or reorder messages,
    processes that crash and are rebuilt from their storage). *)
From Coq Require Import List Arith Bool.
Import ListNotations.
From Verif Require Import Types Config MemStore Internal LeaderState SeqPaxos Ble Omni.

Section WithEntry.
Context {E : EntryT}.

Record sys := mkSys {
  nodes : node_id -> option omni;
  net : node_id -> node_id -> list message
}.

(** What a server may be doing: an API call of the application, or
    [handle_incoming] of the [k]-th message in the queue from [src]. *)
Inductive event :=
| ECall (c : call)
| EDeliver (src : node_id) (k : nat).

(** Steps of the cluster.
    [ADo p ev]: the event happens at server [p] and returns normally.
    [AFetch p]: the application fetches the outgoing messages of [p] and hands
    them to the network.
    [ADrop src dst k]: the network loses the [k]-th message from [src] to [dst].
    [ACrash p ev j sc]: [p] starts on the event (whose message is consumed), is
    killed after its [j]-th storage write (or panics after that many writes), and
    is built again from its storage with the server configuration [sc]. *)
Inductive action :=
| ADo (p : node_id) (ev : event)
| AFetch (p : node_id)
| ADrop (src dst : node_id) (k : nat)
| ACrash (p : node_id) (ev : event) (j : nat) (sc : server_config).

Fixpoint remove_nth {A} (l : list A) (k : nat) : list A :=
  match l, k with
  | [], _ => []
  | _ :: r, 0 => r
  | x :: r, S k => x :: remove_nth r k
  end.

Definition upd1 {A} (f : node_id -> A) (p : node_id) (x : A) : node_id -> A :=
  fun q => if q =? p then x else f q.
Definition upd2 {A} (f : node_id -> node_id -> A) (p q : node_id) (x : A) : node_id -> node_id -> A :=
  fun a b => if (a =? p) && (b =? q) then x else f a b.

(** The call made by an event.  [CHandle] is not a call of the application: the
    network delivers messages. *)
Definition event_call (s : sys) (p : node_id) (ev : event) : option call :=
  match ev with
  | ECall (CHandle _) => None
  | ECall c => Some c
  | EDeliver src k => option_map CHandle (nth_error (net s src p) k)
  end.

Definition event_net (s : sys) (p : node_id) (ev : event) : node_id -> node_id -> list message :=
  match ev with
  | ECall _ => net s
  | EDeliver src k => upd2 (net s) src p (remove_nth (net s src p) k)
  end.

(** Hand messages of [p] to the network. *)
Definition send_one (n : node_id -> node_id -> list message) (p : node_id) (m : message) :=
  upd2 n p (msg_to m) (n p (msg_to m) ++ [m]).
Definition send_all (n : node_id -> node_id -> list message) (p : node_id) (l : list message) :=
  fold_left (fun n m => send_one n p m) l n.

Definition exec_action (cc : cluster_config) (s : sys) (a : action) : option sys :=
  match a with
  | ADo p ev =>
      match nodes s p, event_call s p ev with
      | Some o, Some c =>
          match exec o c with
          | Ok (o', _) => Some (mkSys (upd1 (nodes s) p (Some o')) (event_net s p ev))
          | Panic _ => None
          end
      | _, _ => None
      end
  | AFetch p =>
      match nodes s p with
      | Some o =>
          let '(o', l) := take_outgoing_messages o [] in
          Some (mkSys (upd1 (nodes s) p (Some o')) (send_all (net s) p l))
      | None => None
      end
  | ADrop src dst k => Some (mkSys (nodes s) (upd2 (net s) src dst (remove_nth (net s src dst) k)))
  | ACrash p ev j sc =>
      match nodes s p, event_call s p ev with
      | Some o, Some c =>
          match nth_error (crash_points o c) j with
          | Some st =>
              if sc_pid sc =? p then
                match build cc sc st with
                | BOk o' => Some (mkSys (upd1 (nodes s) p (Some o')) (event_net s p ev))
                | _ => None
                end
              else None
          | None => None
          end
      | _, _ => None
      end
  end.

Fixpoint run (cc : cluster_config) (s : sys) (l : list action) : option sys :=
  match l with
  | [] => Some s
  | a :: r => match exec_action cc s a with Some s' => run cc s' r | None => None end
  end.

(** The initial state: every node of the configuration [cc] is built with its
    server configuration and an empty storage; nothing is in transit. *)
Definition init_sys (cc : cluster_config) (scs : node_id -> server_config) : sys :=
  mkSys
    (fun p => if existsb (Nat.eqb p) (cc_nodes cc) && (sc_pid (scs p) =? p) then
                match build cc (scs p) ms_default with BOk o => Some o | _ => None end
              else None)
    (fun _ _ => []).

(** ** Restrictions on executions *)

(** The event of an action, with its server. *)
Definition action_event (a : action) : option (node_id * event) :=
  match a with
  | ADo p ev | ACrash p ev _ _ => Some (p, ev)
  | _ => None
  end.

(** The messages of a link are delivered in the order in which they were sent
    (any of them may be lost). *)
Definition fifo (a : action) : Prop :=
  match action_event a with
  | Some (_, EDeliver _ k) => k = 0
  | _ => True
  end.

(** The ballot of an AcceptSync. *)
Definition sync_ballot (m : message) : option ballot :=
  match m with MsgSP (mkPM _ _ (MAcceptSync n _ _ _)) => Some n | _ => None end.

(** H1: no AcceptSync overtakes another AcceptSync of the same ballot on the same link.
    All other messages of a link may be delivered in any order, and any message may be
    lost. *)
Definition syncs_in_order (s : sys) (a : action) : Prop :=
  match action_event a with
  | Some (p, EDeliver src k) =>
      forall j m m' n, j < k -> nth_error (net s src p) j = Some m -> nth_error (net s src p) k = Some m' ->
        sync_ballot m = Some n -> sync_ballot m' <> Some n
  | _ => True
  end.

Lemma fifo_syncs_in_order s a : fifo a -> syncs_in_order s a.
Proof.
  unfold fifo, syncs_in_order. destruct (action_event a) as [[p [c|src k]]|]; auto. intros -> j m m' n Hj. inversion Hj.
Qed.

Definition is_promise_msg (m : message) : bool :=
  match m with MsgSP (mkPM _ _ (MPromise _)) => true | _ => false end.
Definition is_acceptdecide (m : pmessage) : bool :=
  match pm_msg m with MAcceptDecide _ _ _ _ => true | _ => false end.

(** H2: when a server handles a Promise of a peer, no AcceptDecide for that peer
    is waiting in its outgoing buffer.  (It holds in every application that
    fetches the outgoing messages before it handles the next message.) *)
Definition drained (s : sys) (a : action) : Prop :=
  match action_event a with
  | Some (p, EDeliver src k) =>
      match nodes s p, nth_error (net s src p) k with
      | Some o, Some m =>
          is_promise_msg m = true ->
          forall x, In x (s_out (o_sp o)) -> pm_to x = src -> is_acceptdecide x = false
      | _, _ => True
      end
  | _ => True
  end.

(** All actions of the run satisfy a restriction. *)
Fixpoint all_steps (P : sys -> action -> Prop) (cc : cluster_config) (s : sys) (l : list action) : Prop :=
  match l with
  | [] => True
  | a :: r => P s a /\ match exec_action cc s a with Some s' => all_steps P cc s' r | None => True end
  end.

End WithEntry.
