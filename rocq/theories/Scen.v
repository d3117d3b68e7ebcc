(** * Concrete entry types and a small scheduler for concrete executions

    Used by the refutations and by the non-vacuity examples.  Nothing here is
    part of the model of the code. *)
From Coq Require Import List Arith Bool.
Import ListNotations.
From Verif Require Import Types Config MemStore Internal LeaderState SeqPaxos Ble Omni System.

(** Entries are numbers and snapshots are not used ([NoSnapshot],
    storage/mod.rs 203-215: create and merge panic). *)
Definition plain_entry : EntryT :=
  {| T := nat; Snap := unit; s_create := fun _ => None; s_merge := fun _ _ => None; use_snapshots := false |}.

(** Entries are numbers and a snapshot is the list of all of them. *)
Definition list_entry : EntryT :=
  {| T := nat; Snap := list nat; s_create := fun l => Some l; s_merge := fun a b => Some (a ++ b);
     use_snapshots := true |}.

Section WithEntry.
Context {E : EntryT}.

(** Schedules: single actions, or groups of actions that depend on the state. *)
Inductive cmd :=
| Do (a : action)
| Call (p : node_id) (c : call)
| Fetch (l : list node_id)
| Deliver (src dst : node_id)      (* everything now on the link, in order *)
| DeliverN (src dst n : nat)       (* the first n messages of the link *)
| Lose (src dst : node_id)         (* everything now on the link *)
| LoseN (src dst n : nat)
| Settle (l : list node_id) (n : nat). (* n rounds: fetch at all of l, deliver all links among l *)

Definition pairs (l : list nat) : list (nat * nat) :=
  flat_map (fun a => flat_map (fun b => if a =? b then [] else [(a, b)]) l) l.

Definition deliver_acts (s : sys) (src dst : nat) : list action :=
  map (fun _ => ADo dst (EDeliver src 0)) (net s src dst).

Fixpoint round_acts (cc : cluster_config) (s : sys) (ps : list (nat * nat)) : list action :=
  match ps with
  | [] => []
  | (a, b) :: r =>
      let acts := deliver_acts s a b in
      match run cc s acts with
      | Some s' => acts ++ round_acts cc s' r
      | None => acts
      end
  end.

Fixpoint settle_acts (cc : cluster_config) (s : sys) (l : list nat) (n : nat) : list action :=
  match n with
  | 0 => []
  | S n =>
      let f := map AFetch l in
      match run cc s f with
      | Some s1 =>
          let d := round_acts cc s1 (pairs l) in
          match run cc s1 d with
          | Some s2 => f ++ d ++ settle_acts cc s2 l n
          | None => f ++ d
          end
      | None => f
      end
  end.

Definition cmd_acts (cc : cluster_config) (s : sys) (c : cmd) : list action :=
  match c with
  | Do a => [a]
  | Call p c => [ADo p (ECall c)]
  | Fetch l => map AFetch l
  | Deliver a b => deliver_acts s a b
  | DeliverN a b n => repeat (ADo b (EDeliver a 0)) n
  | Lose a b => map (fun _ => ADrop a b 0) (net s a b)
  | LoseN a b n => repeat (ADrop a b 0) n
  | Settle l n => settle_acts cc s l n
  end.

(** The actions of a schedule from a state. *)
Fixpoint acts_of (cc : cluster_config) (s : sys) (l : list cmd) : list action :=
  match l with
  | [] => []
  | c :: r =>
      let a := cmd_acts cc s c in
      match run cc s a with Some s' => a ++ acts_of cc s' r | None => a end
  end.

(** Boolean form of the restrictions of System.v. *)
Definition fifob (a : action) : bool :=
  match action_event a with Some (_, EDeliver _ k) => k =? 0 | _ => true end.

Definition drainedb (s : sys) (a : action) : bool :=
  match action_event a with
  | Some (p, EDeliver src k) =>
      match nodes s p, nth_error (net s src p) k with
      | Some o, Some m =>
          negb (is_promise_msg m) ||
          forallb (fun x => negb (pm_to x =? src) || negb (is_acceptdecide x)) (s_out (o_sp o))
      | _, _ => true
      end
  | _ => true
  end.

Fixpoint drained_run (cc : cluster_config) (s : sys) (l : list action) : bool :=
  match l with
  | [] => true
  | a :: r => drainedb s a && match exec_action cc s a with Some s' => drained_run cc s' r | None => true end
  end.

Lemma fifob_ok l : forallb fifob l = true -> Forall fifo l.
Proof.
  induction l as [|a l IH]; cbn; intros H; constructor; apply andb_true_iff in H; destruct H as [H1 H2]; auto.
  unfold fifob, fifo in *. destruct (action_event a) as [[p [c|src k]]|]; auto. apply Nat.eqb_eq; auto.
Qed.

Lemma drainedb_ok s a : drainedb s a = true -> drained s a.
Proof.
  unfold drainedb, drained. destruct (action_event a) as [[p [c|src k]]|]; auto.
  destruct (nodes s p); auto. destruct (nth_error (net s src p) k); auto.
  intros H Hp x Hx Ht. rewrite Hp in H. cbn in H. rewrite forallb_forall in H.
  specialize (H x Hx). rewrite Ht, Nat.eqb_refl in H. cbn in H. apply negb_true_iff in H. exact H.
Qed.

Lemma drained_run_ok cc l : forall s, drained_run cc s l = true -> all_steps drained cc s l.
Proof.
  induction l as [|a l IH]; cbn; intros s H; auto. apply andb_true_iff in H. destruct H as [H1 H2].
  split; [apply drainedb_ok; auto|]. destruct (exec_action cc s a); auto.
Qed.

(** Turn a computation into an existence statement about the final state. *)
Lemma run_ex (o : option sys) (f : sys -> bool) (P : sys -> Prop) :
  match o with Some s => f s | None => false end = true ->
  (forall s, f s = true -> P s) -> exists s, o = Some s /\ P s.
Proof. destruct o as [s|]; [|discriminate]. intros H HP. exists s. auto. Qed.

(** Readable view of the state of a server, for debugging scenarios. *)
Definition view (s : sys) (p : nat) :=
  match nodes s p with
  | Some o =>
      Some (s_role (o_sp o), s_phase (o_sp o), get_promise o, i_around (s_is (o_sp o)),
            (get_decided_idx o, i_acc (s_is (o_sp o)), get_compacted_idx o),
            ms_log (i_st (s_is (o_sp o))), i_ss (s_is (o_sp o)), s_cseq (o_sp o))
  | None => None
  end.

(** Observations of a server in a state. *)
Definition obs {A} (s : sys) (p : nat) (f : omni -> A) : option A := option_map f (nodes s p).

(** Whether an action cannot be executed because the call of its event panics. *)
Definition panics (s : sys) (p : nat) (ev : event) : bool :=
  match nodes s p, event_call s p ev with
  | Some o, Some c => match exec o c with Panic _ => true | Ok _ => false end
  | _, _ => false
  end.

Lemma panics_deliver s p src : panics s p (EDeliver src 0) = true ->
  exists o m rest pan, nodes s p = Some o /\ net s src p = m :: rest /\ exec o (CHandle m) = Panic pan.
Proof.
  unfold panics, event_call. intros H. destruct (nodes s p) as [o|]; [|discriminate H].
  destruct (net s src p) as [|m rest]; simpl nth_error in H; [discriminate H|]. simpl option_map in H. cbv iota in H.
  destruct (exec o (CHandle m)) as [|pan] eqn:He; [discriminate|].
  exists o, m, rest, pan. auto.
Qed.

End WithEntry.
