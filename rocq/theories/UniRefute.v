(** * C62: executions with UniCache that lose agreement or panic *)
From Coq Require Import List Arith Bool Lia.
Import ListNotations.
From Verif Require Import Types Config MemStore Internal LeaderState SeqPaxos Ble Omni System Scen Spec Unicache UniSys Refute.

(** Entries are numbers with one field, cached by an LRU cache of three places whose codes are at
    most 255; no snapshots; AcceptSync carries the clone. *)
Definition lru3 : UniT := {|
  UA := nat; USnap := unit; u_create := fun _ => None; u_merge := fun _ _ => None; u_usesnap := false;
  UCache := lruc nat; UEnc := maybe_encoded nat;
  u_new := mkLruc (mkLru 3 []) (mkLru 3 []) 0 3;
  u_encode := lruc_encode Nat.eqb 255;
  u_decode := lruc_decode 255;
  u_send := lruc_clone
|}.
Lemma lru3_new : lruc_new 3 = Some (@u_new lru3).
Proof. reflexivity. Qed.

Section Lru3.
Local Existing Instance lru3.
Local Existing Instance uentry.

Definition uini (f : node_id -> server_config) := init_usys cc3 f.
(** Batch size 2. *)
Definition scs2 (p : nat) := mkSC p 50 1 10 2 20 0.
Lemma good3b : good_config cc3 scs2.
Proof.
  split; [reflexivity|]. split; [cbn; lia|].
  intros p Hp. cbn in Hp. destruct Hp as [<-|[<-|[<-|[]]]]; vm_compute; auto.
Qed.

Definition uappend (p v : nat) : cmd := Call p (CAppend ((v, None) : @T uentry)).
Definition uon (u : usys) (p : nat) (f : omni -> bool) : bool :=
  match nodes (u_s u) p with Some o => f o | None => false end.
Definition ushows (o : omni) (i v : nat) : bool :=
  match read o i with RSome (LDecided e) => fst e =? v | _ => false end.

Lemma ushows_ok u p i v : uon u p (fun o => ushows o i v) = true -> ureports u p i v.
Proof.
  unfold uon, ushows, ureports, server_reports. destruct (nodes (u_s u) p) as [o|]; [|discriminate].
  destruct (read o i) as [| |[e| | | |]] eqn:Er; try discriminate. intros H. apply Nat.eqb_eq in H. subst v.
  destruct e as [v a]. cbn [fst]. exists a, o. split; [reflexivity|]. apply rep_read. exact Er.
Qed.

Lemma urun_ex cc u l (f : usys -> bool) (P : usys -> Prop) :
  match urun cc u l with Some u' => f u' | None => false end = true -> (forall u', f u' = true -> P u') ->
  exists u', urun cc u l = Some u' /\ P u'.
Proof. destruct (urun cc u l) as [u'|]; [|discriminate]. intros H HP. exists u'. auto. Qed.

(** The restrictions H1 and H2 on a run. *)
Fixpoint udrained (cc : cluster_config) (u : usys) (l : list action) : bool :=
  match l with
  | [] => true
  | a :: r => drainedb (u_s u) a && match exec_uaction cc u a with Some u' => udrained cc u' r | None => true end
  end.
Lemma fifob_in_order (s : sys) a : fifob a = true -> syncs_in_order s a.
Proof. intros H. apply fifo_syncs_in_order. assert (F : Forall fifo [a]) by (apply fifob_ok; cbn; rewrite H; reflexivity). inversion F; auto. Qed.
Lemma udrained_ok cc u l : forallb fifob l = true -> udrained cc u l = true -> all_usteps (fun u a => h1h2 (u_s u) a) cc u l.
Proof.
  revert u. induction l as [|a l IH]; intros u F H; cbn in *; auto. apply andb_true_iff in F. destruct F as [F1 F2].
  apply andb_true_iff in H. destruct H as [H1 H2]. split.
  - split; [apply fifob_in_order; exact F1|apply drainedb_ok; exact H1].
  - destruct (exec_uaction cc u a); auto.
Qed.

(** Batch size 2.  The Promise of server 3 arrives while the entry 7 waits in the batch: the
    cache that server 3 gets already has it, and gets it again with the batch. *)
Definition sch_u1 : list cmd :=
  [ Settle [1;2;3] 2; Call 1 CTryLeader; Fetch [1]; Deliver 1 2; Deliver 1 3; Fetch [2;3];
    Deliver 2 1; Fetch [1]; Deliver 1 2;
    uappend 1 7; Deliver 3 1; Fetch [1]; Deliver 1 3;
    uappend 1 7; uappend 1 8; uappend 1 8; Settle [1;2;3] 4 ].
Definition acts_u1 := Eval vm_compute in acts_of cc3 (init_sys cc3 scs2) sch_u1.
Lemma u1_witness : exists u, urun cc3 (uini scs2) acts_u1 = Some u /\
  ureports u 1 3 8 /\ ureports u 2 3 8 /\ ureports u 3 3 7.
Proof.
  apply urun_ex with (f := fun u => uon u 1 (fun o => ushows o 3 8) && (uon u 2 (fun o => ushows o 3 8) && uon u 3 (fun o => ushows o 3 7))).
  - vm_compute. reflexivity.
  - intros u H. apply andb_true_iff in H. destruct H as [H1 H]. apply andb_true_iff in H. destruct H as [H2 H3].
    split; [|split]; apply ushows_ok; assumption.
Qed.
Lemma u1_steps : all_usteps (fun u a => h1h2 (u_s u) a) cc3 (uini scs2) acts_u1.
Proof. apply udrained_ok; vm_compute; reflexivity. Qed.

(** Batch size 1.  Server 2 accepts from leader 1, and leads after it: the cache that it got in
    the AcceptSync has an encoder with one place, and the decoders of its followers have three.
    Server 3 is asked for a code that it does not have. *)
Definition sch_u2 : list cmd :=
  [ Settle [1;2;3] 2; Call 1 CTryLeader; Settle [1;2;3] 4; uappend 1 4; Settle [1;2;3] 3;
    Call 2 CTryLeader; Settle [1;2;3] 5;
    uappend 2 5; uappend 2 6; uappend 2 7; uappend 2 8; Settle [1;2;3] 3; uappend 2 8; Fetch [2] ].
Definition acts_u2 := Eval vm_compute in acts_of cc3 (init_sys cc3 scs) sch_u2.
Definition next_u2 : action := ADo 3 (EDeliver 2 0).
(** The server would panic in the cache: the call is one that the protocol takes. *)
Definition cache_panics (u : usys) (p : node_id) (ev : event) : Prop :=
  exists o c, nodes (u_s u) p = Some o /\ event_call (u_s u) p ev = Some c /\ uprep u p o c = None /\
    exists o' r, exec o c = Ok (o', r).
Definition cache_panicsb (u : usys) (p : node_id) (ev : event) : bool :=
  match nodes (u_s u) p, event_call (u_s u) p ev with
  | Some o, Some c => match uprep u p o c, exec o c with None, Ok _ => true | _, _ => false end
  | _, _ => false
  end.
Lemma cache_panicsb_ok u p ev : cache_panicsb u p ev = true -> cache_panics u p ev.
Proof.
  unfold cache_panicsb, cache_panics. destruct (nodes (u_s u) p) as [o|]; [|discriminate].
  destruct (event_call (u_s u) p ev) as [c|]; [|discriminate]. destruct (uprep u p o c) eqn:Eu; [discriminate|].
  destruct (exec o c) as [[o' r]|] eqn:Ee; [|discriminate]. intros _. exists o, c. rewrite Ee. eauto 6.
Qed.
Lemma u2_witness : exists u, urun cc3 (uini scs) acts_u2 = Some u /\ cache_panics u 3 (EDeliver 2 0).
Proof.
  apply urun_ex with (f := fun u => cache_panicsb u 3 (EDeliver 2 0)).
  - vm_compute. reflexivity.
  - intros u. apply cache_panicsb_ok.
Qed.
Lemma u2_steps : all_usteps (fun u a => h1h2 (u_s u) a) cc3 (uini scs) (acts_u2 ++ [next_u2]).
Proof. apply udrained_ok; vm_compute; reflexivity. Qed.
End Lru3.
