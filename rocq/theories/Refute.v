(** * Properties that the code does not have: concrete executions *)
From Coq Require Import List Arith Bool Lia.
Import ListNotations.
From Verif Require Import Types Config MemStore Internal LeaderState SeqPaxos Ble Omni System Scen Spec.

(** Three servers, election timeout long, resend at every tick, no batching. *)
Definition cc3 := mkCC 1 [1; 2; 3] None.
Definition scs (p : nat) := mkSC p 50 1 10 1 20 0.

Lemma good3 : good_config cc3 scs.
Proof.
  split; [reflexivity|]. split; [cbn; lia|].
  intros p Hp. cbn in Hp. destruct Hp as [<-|[<-|[<-|[]]]]; vm_compute; auto.
Qed.

Section Plain.
Local Instance plain : EntryT := plain_entry.

Definition ini := init_sys cc3 scs.
Definition append (p v : nat) : cmd := Call p (CAppend (v : @T plain_entry)).

(** A test on the state of a server. *)
Definition on (s : sys) (p : nat) (f : omni -> bool) : bool :=
  match nodes s p with Some o => f o | None => false end.

Definition shows (o : omni) (i v : nat) : bool :=
  match read o i with RSome (LDecided e) => e =? v | _ => false end.

Lemma shows_ok s p i v : on s p (fun o => shows o i v) = true ->
  server_reports s p i (LDecided (v : @T plain_entry)).
Proof.
  unfold on, shows, server_reports. destruct (nodes s p) as [o|]; [|discriminate].
  intros H. exists o. split; [reflexivity|]. apply rep_read.
  destruct (read o i) as [| |[e| | | |]]; try discriminate. apply Nat.eqb_eq in H. subst. reflexivity.
Qed.

(** ** C02 *)
Definition sch_c02 : list cmd :=
  [ Settle [1;2;3] 2; Call 1 CTryLeader; Fetch [1]; Deliver 1 2; Deliver 1 3; Fetch [2;3];
    Deliver 2 1; Deliver 3 1;          (* both promise; AcceptSync (session 1) to both *)
    Fetch [1]; Lose 1 2; Deliver 1 3;  (* the one to 2 is lost *)
    append 1 11;                       (* AcceptDecide(session 1) to 2 stays queued *)
    Call 2 CTick; Fetch [2]; Deliver 2 1;   (* 2 resends its Promise *)
    append 1 12;                       (* merged into the queued AcceptDecide(session 1) *)
    Fetch [1]; Deliver 1 2;            (* 2 skips it and takes AcceptSync(session 2) = [11] *)
    append 1 13; Fetch [1]; Deliver 1 2;    (* 13 lands at index 1 of server 2 *)
    Fetch [2]; Deliver 2 1;            (* accepted index 2: server 1 decides index 2 *)
    Fetch [1]; Deliver 1 2 ].
Definition acts_c02 := Eval vm_compute in acts_of cc3 ini sch_c02.

Lemma c02_witness :
  exists s, run cc3 ini acts_c02 = Some s /\
    server_reports s 1 1 (LDecided (12 : @T plain_entry)) /\
    server_reports s 2 1 (LDecided (13 : @T plain_entry)).
Proof.
  apply run_ex with (f := fun s => on s 1 (fun o => shows o 1 12) && on s 2 (fun o => shows o 1 13)).
  - vm_compute. reflexivity.
  - intros s H. apply andb_true_iff in H. destruct H. split; apply shows_ok; assumption.
Qed.
Lemma c02_fifo : Forall fifo acts_c02.
Proof. apply fifob_ok. vm_compute. reflexivity. Qed.

(** ** C03 *)
Definition sch_c03 : list cmd :=
  [ Settle [1;2;3] 2; Call 1 CTryLeader; Fetch [1]; Deliver 1 2; Lose 1 3; Fetch [2];
    Deliver 2 1;                            (* AcceptSync (session 1, empty log) to 2 *)
    Fetch [1];                              (* it stays on the link as message 0 *)
    Call 2 CTick; Fetch [2]; Deliver 2 1; Fetch [1];  (* 2 resends Promise: AcceptSync (session 2) *)
    Do (ADo 2 (EDeliver 1 1));              (* taken first *)
    append 1 11; Fetch [1]; Do (ADo 2 (EDeliver 1 1)); (* 2 accepts 11 *)
    Fetch [2]; Deliver 2 1;                 (* 1 decides index 1 *)
    Call 2 (CReconnected 1); Fetch [2]; Deliver 2 1; Fetch [1]; (* Decide, Prepare behind the old AcceptSync *)
    Do (ADo 2 (EDeliver 1 1)); Do (ADo 2 (EDeliver 1 1));  (* 2 in prepare phase, same ballot *)
    Do (ADo 2 (EDeliver 1 0));              (* the old AcceptSync: the log of 2 is empty again *)
    Lose 1 2; Lose 1 3; Lose 2 1; Lose 3 1;
    Call 3 CTryLeader; Call 3 CTryLeader; Fetch [2;3]; Lose 2 1; Lose 3 1;
    Deliver 3 2; Fetch [2]; Deliver 2 3; Fetch [3]; Deliver 3 2;  (* 3 leads with 2 *)
    append 3 99; Fetch [3]; Deliver 3 2; Fetch [2]; Deliver 2 3 ].
Definition acts_c03 := Eval vm_compute in acts_of cc3 ini sch_c03.

Lemma c03_witness :
  exists s, run cc3 ini acts_c03 = Some s /\
    server_reports s 1 0 (LDecided (11 : @T plain_entry)) /\
    server_reports s 3 0 (LDecided (99 : @T plain_entry)).
Proof.
  apply run_ex with (f := fun s => on s 1 (fun o => shows o 0 11) && on s 3 (fun o => shows o 0 99)).
  - vm_compute. reflexivity.
  - intros s H. apply andb_true_iff in H. destruct H. split; apply shows_ok; assumption.
Qed.
Lemma c03_drained : all_steps drained cc3 ini acts_c03.
Proof. apply drained_run_ok. vm_compute. reflexivity. Qed.

(** ** C06 *)
Definition sch_c06 : list cmd :=
  [ Settle [1;2;3] 2; Call 1 CTryLeader; Fetch [1]; Deliver 1 2; Lose 1 3; Fetch [2]; Deliver 2 1;
    Fetch [1]; Deliver 1 2; append 1 11; Fetch [1]; Deliver 1 2; Fetch [2]; Deliver 2 1;
    Fetch [1]; Lose 1 2; Lose 1 3;          (* 1 has decided, 2 does not learn it *)
    Call 3 CTryLeader; Call 3 CTryLeader; Fetch [3]; Deliver 3 1; Deliver 3 2; Fetch [1;2];
    Deliver 2 3; Deliver 1 3; Fetch [3] ].
Definition acts_c06 := Eval vm_compute in acts_of cc3 ini sch_c06.

(** The next message from 3 is the AcceptSync with decided index 0. *)
Definition dec_is (n : nat) (o : omni) : bool := get_decided_idx o =? n.
Lemma c06_witness :
  exists s s' o o', run cc3 ini acts_c06 = Some s /\
    exec_action cc3 s (ADo 1 (EDeliver 3 0)) = Some s' /\
    nodes s 1 = Some o /\ nodes s' 1 = Some o' /\
    get_decided_idx o = 1 /\ get_decided_idx o' = 0.
Proof.
  assert (H : match run cc3 ini acts_c06 with
              | Some s => on s 1 (dec_is 1) &&
                  match exec_action cc3 s (ADo 1 (EDeliver 3 0)) with Some s' => on s' 1 (dec_is 0) | None => false end
              | None => false end = true) by (vm_compute; reflexivity).
  destruct (run cc3 ini acts_c06) as [s|]; [|discriminate]. apply andb_true_iff in H. destruct H as [H1 H2].
  destruct (exec_action cc3 s (ADo 1 (EDeliver 3 0))) as [s'|] eqn:He; [|discriminate].
  unfold on, dec_is in *.
  destruct (nodes s 1) as [o|] eqn:Hn; [|discriminate]. destruct (nodes s' 1) as [o'|] eqn:Hn'; [|discriminate].
  apply Nat.eqb_eq in H1, H2. exists s, s', o, o'. auto 10.
Qed.
Lemma c06_steps : Forall fifo acts_c06 /\ all_steps drained cc3 ini acts_c06.
Proof. split; [apply fifob_ok|apply drained_run_ok]; vm_compute; reflexivity. Qed.

(** ** C08, C40 *)
Definition cc_next := mkCC 2 [1; 2; 3] None.
Definition sch_c08 : list cmd :=
  [ Settle [1;2;3] 2; Call 1 CTryLeader; Settle [1;2;3] 3; append 1 11; Settle [1;2;3] 3;
    Call 1 (CReconfigure cc_next None); Settle [1;2;3] 3 ].
Definition sch_c08' : list cmd := [ Call 2 (CReconnected 1); Settle [1;2;3] 4 ].
Definition sch_c40 : list cmd := [ Call 1 CTick; Settle [1;2;3] 4; Call 1 CTick; Settle [1;2;3] 4 ].
Definition acts_c08 := Eval vm_compute in acts_of cc3 ini sch_c08.
Definition acts_c08' := Eval vm_compute in
  match run cc3 ini acts_c08 with Some s => acts_of cc3 s sch_c08' | None => [] end.
Definition acts_c40 := Eval vm_compute in
  match run cc3 ini (acts_c08 ++ acts_c08') with Some s => acts_of cc3 s sch_c40 | None => [] end.

Definition recon (o : omni) : bool := match is_reconfigured o with Some _ => true | None => false end.
Lemma recon_some o : recon o = true -> exists ss, is_reconfigured o = Some ss.
Proof. unfold recon. destruct (is_reconfigured o) as [ss|]; [eauto|discriminate]. Qed.
Lemma recon_none o : negb (recon o) = true -> is_reconfigured o = None.
Proof. unfold recon. destruct (is_reconfigured o); [discriminate|reflexivity]. Qed.

Lemma on_ex s p f : on s p f = true -> exists o, nodes s p = Some o /\ f o = true.
Proof. unfold on. destruct (nodes s p) as [o|]; [|discriminate]. eauto. Qed.

Lemma c08_witness :
  exists s s' o o' ss, run cc3 ini acts_c08 = Some s /\ run cc3 s acts_c08' = Some s' /\
    nodes s 2 = Some o /\ nodes s' 2 = Some o' /\
    is_reconfigured o = Some ss /\ is_reconfigured o' = None.
Proof.
  assert (H : match run cc3 ini acts_c08 with
              | Some s => on s 2 recon &&
                  match run cc3 s acts_c08' with Some s' => on s' 2 (fun o => negb (recon o)) | None => false end
              | None => false end = true) by (vm_compute; reflexivity).
  destruct (run cc3 ini acts_c08) as [s|]; [|discriminate]. apply andb_true_iff in H. destruct H as [H1 H2].
  destruct (run cc3 s acts_c08') as [s'|] eqn:He; [|discriminate].
  apply on_ex in H1, H2. destruct H1 as [o [Ho H1]], H2 as [o' [Ho' H2]].
  apply recon_some in H1. destruct H1 as [ss H1]. apply recon_none in H2.
  exists s, s', o, o', ss. auto 10.
Qed.
Lemma c08_steps : Forall fifo (acts_c08 ++ acts_c08') /\ all_steps drained cc3 ini (acts_c08 ++ acts_c08').
Proof. split; [apply fifob_ok|apply drained_run_ok]; vm_compute; reflexivity. Qed.

(** C40: after two resend timeouts of the leader, everything delivered. *)
Definition has_ss (o : omni) : bool := match i_ss (s_is (o_sp o)) with Some _ => true | None => false end.
Definition quiet (s : sys) : bool :=
  forallb (fun '(a, b) => match net s a b with [] => true | _ => false end) (pairs [1; 2; 3]).
Lemma c40_witness :
  exists s s' o1 o2 o1' o2' ss,
    run cc3 ini (acts_c08 ++ acts_c08') = Some s /\ run cc3 s acts_c40 = Some s' /\
    nodes s 1 = Some o1 /\ nodes s 2 = Some o2 /\
    is_reconfigured o1 = Some ss /\ is_reconfigured o2 = None /\
    (* 2 follows 1 and has accepted the stop sign *)
    get_current_leader o2 = Some (1, true) /\ i_ss (s_is (o_sp o2)) = Some ss /\
    (* afterwards nothing is in transit and 2 still does not know *)
    quiet s' = true /\ nodes s' 1 = Some o1' /\ nodes s' 2 = Some o2' /\
    is_reconfigured o1' = Some ss /\ is_reconfigured o2' = None.
Proof.
  set (ss := mkSS cc_next None).
  assert (H : match run cc3 ini (acts_c08 ++ acts_c08') with
              | Some s =>
                  match run cc3 s acts_c40 with
                  | Some s' =>
                      match nodes s 1, nodes s 2, nodes s' 1, nodes s' 2 with
                      | Some o1, Some o2, Some o1', Some o2' =>
                          is_reconfigured o1 = Some ss /\ is_reconfigured o2 = None /\
                          get_current_leader o2 = Some (1, true) /\ i_ss (s_is (o_sp o2)) = Some ss /\
                          quiet s' = true /\ is_reconfigured o1' = Some ss /\ is_reconfigured o2' = None
                      | _, _, _, _ => False
                      end
                  | None => False end
              | None => False end) by (vm_compute; auto 10).
  destruct (run cc3 ini (acts_c08 ++ acts_c08')) as [s|]; [|destruct H].
  destruct (run cc3 s acts_c40) as [s'|] eqn:He; [|destruct H].
  destruct (nodes s 1) as [o1|] eqn:H1; [|destruct H]. destruct (nodes s 2) as [o2|] eqn:H2; [|destruct H].
  destruct (nodes s' 1) as [o1'|] eqn:H1'; [|destruct H]. destruct (nodes s' 2) as [o2'|] eqn:H2'; [|destruct H].
  exists s, s', o1, o2, o1', o2', ss. intuition.
Qed.
Lemma c40_fifo : Forall fifo (acts_c08 ++ acts_c08' ++ acts_c40).
Proof. apply fifob_ok. vm_compute. reflexivity. Qed.
(** The link from 1 carried a Decide to 2 in these steps. *)
Lemma c40_resent :
  match run cc3 ini (acts_c08 ++ acts_c08') with
  | Some s => match run cc3 s [ADo 1 (ECall CTick); AFetch 1] with
              | Some s' => match net s' 1 2 with [MsgSP (mkPM 1 2 (MDecide _ _ 2))] => true | _ => false end
              | None => false end
  | None => false end = true.
Proof. vm_compute. reflexivity. Qed.

(** C29: the same server after a restart from its storage. *)
Lemma c29_witness :
  exists s o o', run cc3 ini (acts_c08 ++ acts_c08') = Some s /\ nodes s 2 = Some o /\
    build cc3 (scs 2) (i_st (s_is (o_sp o))) = BOk o' /\
    is_reconfigured o = None /\ is_reconfigured o' = Some (mkSS cc_next None) /\
    i_acc (s_is (o_sp o)) <> i_acc (s_is (o_sp o')).
Proof.
  assert (H : match run cc3 ini (acts_c08 ++ acts_c08') with
              | Some s => match nodes s 2 with
                  | Some o => match build cc3 (scs 2) (i_st (s_is (o_sp o))) with
                      | BOk o' => is_reconfigured o = None /\ is_reconfigured o' = Some (mkSS cc_next None) /\
                                  (i_acc (s_is (o_sp o)) =? i_acc (s_is (o_sp o'))) = false
                      | _ => False end
                  | None => False end
              | None => False end) by (vm_compute; auto 10).
  destruct (run cc3 ini (acts_c08 ++ acts_c08')) as [s|]; [|destruct H].
  destruct (nodes s 2) as [o|] eqn:H2; [|destruct H].
  destruct (build cc3 (scs 2) (i_st (s_is (o_sp o)))) as [| |o'] eqn:Hb; try (destruct H; fail).
  destruct H as [Ha [Hc Hd]]. apply Nat.eqb_neq in Hd. exists s, o, o'. auto 10.
Qed.

(** ** C22 *)
Lemma c22_witness :
  exists s o, run cc3 ini acts_c08 = Some s /\ nodes s 1 = Some o /\
    read_entries o (Included 1) (Excluded 1) = RPanic.
Proof.
  assert (H : match run cc3 ini acts_c08 with
              | Some s => match nodes s 1 with
                          | Some o => read_entries o (Included 1) (Excluded 1) = RPanic
                          | None => False end
              | None => False end) by (vm_compute; reflexivity).
  destruct (run cc3 ini acts_c08) as [s|]; [|destruct H].
  destruct (nodes s 1) as [o|] eqn:Hn; [|destruct H]. exists s, o. auto.
Qed.

(** ** C25 *)
Definition sch_c25 : list cmd :=
  [ Settle [1;2;3] 2; Call 1 CTryLeader; Settle [1;2;3] 3;
    append 1 11; append 1 12; Fetch [1]; Deliver 1 2; Deliver 1 3; Fetch [2;3];
    Deliver 2 1; Deliver 3 1; Fetch [1]; Deliver 1 2; Lose 1 3; (* 3 does not learn the decision *)
    Call 1 (CTrim (Some 2)); Fetch [1]; Deliver 1 2; Lose 1 3;
    Call 2 CTryLeader; Fetch [2]; Lose 2 3; Deliver 2 1; Fetch [1]; Deliver 1 2; Fetch [2]; Deliver 2 1;
    Fetch [1]; Lose 1 2; Lose 1 3;
    Call 1 CTryLeader; Fetch [1]; Lose 1 2; Deliver 1 3; Fetch [3] ].
Definition acts_c25 := Eval vm_compute in acts_of cc3 ini sch_c25.

Lemma c25_witness :
  exists s, run cc3 ini acts_c25 = Some s /\ panics s 1 (EDeliver 3 0) = true.
Proof.
  apply run_ex with (f := fun s => panics s 1 (EDeliver 3 0)); [vm_compute; reflexivity|auto].
Qed.
Lemma c25_steps : Forall fifo acts_c25 /\ all_steps drained cc3 ini acts_c25.
Proof. split; [apply fifob_ok|apply drained_run_ok]; vm_compute; reflexivity. Qed.
(** The only compaction in the execution is the successful trim at server 1. *)
Definition is_compaction (a : action) : bool :=
  match action_event a with
  | Some (_, ECall (CTrim _)) | Some (_, ECall (CSnapshot _ _)) => true
  | _ => false
  end.
Lemma c25_only_trim : filter is_compaction acts_c25 = [ADo 1 (ECall (CTrim (Some 2)))].
Proof. vm_compute. reflexivity. Qed.

(** ** C24 *)
Definition cc_sparse := mkCC 1 [1; 2; 4] None.
Definition sch_c24 : list cmd :=
  [ Settle [1;2;4] 2; Call 1 CTryLeader; Settle [1;2;4] 3; append 1 11; append 1 12; Settle [1;2;4] 6 ].
Definition ini_sparse := init_sys cc_sparse scs.
Definition acts_c24 := Eval vm_compute in acts_of cc_sparse ini_sparse sch_c24.
Lemma c24_witness :
  exists s o1 o2 o4, run cc_sparse ini_sparse acts_c24 = Some s /\
    nodes s 1 = Some o1 /\ nodes s 2 = Some o2 /\ nodes s 4 = Some o4 /\
    get_decided_idx o1 = 2 /\ get_decided_idx o2 = 2 /\ get_decided_idx o4 = 2 /\
    get_current_leader o1 = Some (1, true) /\
    match exec o1 (CTrim (Some 2)) with Ok (_, r) => r = RCompact (Some (NotAllDecided 0)) | Panic _ => False end.
Proof.
  assert (H : match run cc_sparse ini_sparse acts_c24 with
              | Some s => match nodes s 1, nodes s 2, nodes s 4 with
                  | Some o1, Some o2, Some o4 =>
                      get_decided_idx o1 = 2 /\ get_decided_idx o2 = 2 /\ get_decided_idx o4 = 2 /\
                      get_current_leader o1 = Some (1, true) /\
                      match exec o1 (CTrim (Some 2)) with
                      | Ok (_, r) => r = RCompact (Some (NotAllDecided 0)) | Panic _ => False end
                  | _, _, _ => False end
              | None => False end) by (vm_compute; auto 10).
  destruct (run cc_sparse ini_sparse acts_c24) as [s|]; [|destruct H].
  destruct (nodes s 1) as [o1|] eqn:H1; [|destruct H]. destruct (nodes s 2) as [o2|] eqn:H2; [|destruct H].
  destruct (nodes s 4) as [o4|] eqn:H4; [|destruct H]. exists s, o1, o2, o4. intuition.
Qed.
Lemma good_sparse : good_config cc_sparse scs.
Proof.
  split; [reflexivity|]. split; [cbn; lia|].
  intros p Hp. cbn in Hp. destruct Hp as [<-|[<-|[<-|[]]]]; vm_compute; auto.
Qed.

(** ** C39 *)
Definition sch_c39 : list cmd :=
  [ Settle [1;2;3] 2; Call 2 (CReconfigure cc_next None); Call 1 CTryLeader; Settle [1;2;3] 4;
    Call 1 CTick; Call 2 CTick; Call 3 CTick; Settle [1;2;3] 4 ].

Definition acts_c39 := Eval vm_compute in acts_of cc3 ini sch_c39.
Lemma c39_witness :
  exists s o2, run cc3 ini acts_c39 = Some s /\ quiet s = true /\ nodes s 2 = Some o2 /\
    get_current_leader o2 = Some (1, true) /\ s_bss (o_sp o2) = Some (mkSS cc_next None) /\
    s_out (o_sp o2) = [] /\
    (forall p o, In p [1; 2; 3] -> nodes s p = Some o -> i_ss (s_is (o_sp o)) = None).
Proof.
  assert (H : match run cc3 ini acts_c39 with
              | Some s => quiet s = true /\ match nodes s 1, nodes s 2, nodes s 3 with
                  | Some o1, Some o2, Some o3 =>
                      get_current_leader o2 = Some (1, true) /\ s_bss (o_sp o2) = Some (mkSS cc_next None) /\
                      s_out (o_sp o2) = [] /\
                      i_ss (s_is (o_sp o1)) = None /\ i_ss (s_is (o_sp o2)) = None /\ i_ss (s_is (o_sp o3)) = None
                  | _, _, _ => False end
              | None => False end) by (vm_compute; auto 10).
  destruct (run cc3 ini acts_c39) as [s|]; [|destruct H]. destruct H as [Hq H].
  destruct (nodes s 1) as [o1|] eqn:H1; [|destruct H]. destruct (nodes s 2) as [o2|] eqn:H2; [|destruct H].
  destruct (nodes s 3) as [o3|] eqn:H3; [|destruct H].
  destruct H as [Ha [Hb [Hc [Hd [He Hf]]]]]. exists s, o2. repeat split; auto.
  intros p o Hp Ho. cbn [In] in Hp. destruct Hp as [<-|[<-|[<-|[]]]].
  - rewrite H1 in Ho. injection Ho as <-. exact Hd.
  - rewrite H2 in Ho. injection Ho as <-. exact He.
  - rewrite H3 in Ho. injection Ho as <-. exact Hf.
Qed.
Lemma c39_steps : Forall fifo acts_c39 /\ all_steps drained cc3 ini acts_c39.
Proof. split; [apply fifob_ok|apply drained_run_ok]; vm_compute; reflexivity. Qed.

End Plain.

Section Snap.
Local Instance lsnap : EntryT := list_entry.

Definition ini' := init_sys cc3 scs.
Definition append' (p v : nat) : cmd := Call p (CAppend (v : @T list_entry)).

(** ** C27 *)
Definition sch_c27 : list cmd :=
  [ Settle [1;2;3] 2; Call 1 CTryLeader; Settle [1;2;3] 3; append' 1 11; Settle [1;2;3] 4;
    append' 1 12; append' 1 13; Fetch [1]; Deliver 1 2; Lose 1 3; Fetch [2]; Deliver 2 1;
    Fetch [1]; Deliver 1 2; Lose 1 3;
    Call 3 (CReconnected 1); Settle [1;2;3] 5 ].
Definition acts_c27 := Eval vm_compute in acts_of cc3 ini' sch_c27.
Lemma c27_witness :
  exists s o2 o3, run cc3 ini' acts_c27 = Some s /\ nodes s 2 = Some o2 /\ nodes s 3 = Some o3 /\
    read_decided_suffix o2 0 = RSome [LDecided (11 : @T list_entry); LDecided (12 : @T list_entry); LDecided (13 : @T list_entry)] /\
    read o3 0 = RSome (LSnapshotted 3 ([12; 13] : @Snap list_entry)).
Proof.
  assert (H : match run cc3 ini' acts_c27 with
              | Some s => match nodes s 2, nodes s 3 with
                  | Some o2, Some o3 =>
                      read_decided_suffix o2 0 = RSome [LDecided (11 : @T list_entry); LDecided (12 : @T list_entry); LDecided (13 : @T list_entry)] /\
                      read o3 0 = RSome (LSnapshotted 3 ([12; 13] : @Snap list_entry))
                  | _, _ => False end
              | None => False end) by (vm_compute; auto 10).
  destruct (run cc3 ini' acts_c27) as [s|]; [|destruct H].
  destruct (nodes s 2) as [o2|] eqn:H2; [|destruct H]. destruct (nodes s 3) as [o3|] eqn:H3; [|destruct H].
  exists s, o2, o3. intuition.
Qed.
Lemma c27_steps : Forall fifo acts_c27 /\ all_steps drained cc3 ini' acts_c27.
Proof. split; [apply fifob_ok|apply drained_run_ok]; vm_compute; reflexivity. Qed.

(** ** C28 *)
Definition sch_c28 : list cmd :=
  [ Settle [1;2;3] 2; Call 1 CTryLeader; Settle [1;2;3] 3; append' 1 11; append' 1 12; Settle [1;2;3] 4;
    Call 1 (CSnapshot (Some 1) true); Call 1 (CTrim (Some 2)) ].
Definition acts_c28 := Eval vm_compute in acts_of cc3 ini' sch_c28.
Lemma c28_witness :
  exists s o1 o2, run cc3 ini' acts_c28 = Some s /\ nodes s 1 = Some o1 /\ nodes s 2 = Some o2 /\
    read_decided_suffix o2 0 = RSome [LDecided (11 : @T list_entry); LDecided (12 : @T list_entry)] /\
    read o1 0 = RSome (LSnapshotted 2 ([11] : @Snap list_entry)).
Proof.
  assert (H : match run cc3 ini' acts_c28 with
              | Some s => match nodes s 1, nodes s 2 with
                  | Some o1, Some o2 =>
                      read_decided_suffix o2 0 = RSome [LDecided (11 : @T list_entry); LDecided (12 : @T list_entry)] /\
                      read o1 0 = RSome (LSnapshotted 2 ([11] : @Snap list_entry))
                  | _, _ => False end
              | None => False end) by (vm_compute; auto 10).
  destruct (run cc3 ini' acts_c28) as [s|]; [|destruct H].
  destruct (nodes s 1) as [o1|] eqn:H1; [|destruct H]. destruct (nodes s 2) as [o2|] eqn:H2; [|destruct H].
  exists s, o1, o2. intuition.
Qed.
Lemma c28_steps : Forall fifo acts_c28 /\ all_steps drained cc3 ini' acts_c28.
Proof. split; [apply fifob_ok|apply drained_run_ok]; vm_compute; reflexivity. Qed.

(** ** C41: decided index below the compacted index *)
Definition sch_c41 : list cmd :=
  [ Settle [1;2;3] 2; Call 1 CTryLeader; Fetch [1]; Deliver 1 2; Lose 1 3; Fetch [2]; Deliver 2 1;
    Fetch [1]; Deliver 1 2; append' 1 11; Fetch [1]; Deliver 1 2; Fetch [2]; Deliver 2 1;
    Fetch [1]; Lose 1 2; Lose 1 3; Call 1 (CSnapshot None true);
    Call 3 CTryLeader; Call 3 CTryLeader; Fetch [3]; Deliver 3 1; Deliver 3 2; Fetch [1;2];
    Deliver 2 3; Deliver 1 3; Fetch [3]; Deliver 3 1 ].
Definition acts_c41 := Eval vm_compute in acts_of cc3 ini' sch_c41.
Lemma c41_witness :
  exists s o, run cc3 ini' acts_c41 = Some s /\ nodes s 1 = Some o /\
    get_decided_idx o = 0 /\ get_compacted_idx o = 1.
Proof.
  assert (H : match run cc3 ini' acts_c41 with
              | Some s => match nodes s 1 with
                  | Some o => get_decided_idx o = 0 /\ get_compacted_idx o = 1
                  | _ => False end
              | None => False end) by (vm_compute; auto 10).
  destruct (run cc3 ini' acts_c41) as [s|]; [|destruct H].
  destruct (nodes s 1) as [o1|] eqn:H1; [|destruct H].
  exists s, o1. intuition.
Qed.
Lemma c41_steps : Forall fifo acts_c41 /\ all_steps drained cc3 ini' acts_c41.
Proof. split; [apply fifob_ok|apply drained_run_ok]; vm_compute; reflexivity. Qed.

End Snap.
