(** * C02, C03: what is left of agreement with late fetching and reordering *)
From Coq Require Import List Arith Bool Lia.
Import ListNotations.
From Verif Require Import Types Config MemStore Internal LeaderState SeqPaxos Ble Omni System Basics Scen Spec Refute Agree PropAgreement.

Section WithEntry.
Context {E : EntryT}.

(** ** Specification *)

(** The application of [p] has handed over all outgoing messages of the log replication
    before it passes the next message to the server.  Between two messages it may fetch
    whenever it likes. *)
Definition fetched_before_handling (s : sys) (a : action) : Prop :=
  match action_event a with
  | Some (p, EDeliver _ _) => forall o, nodes s p = Some o -> s_out (o_sp o) = []
  | _ => True
  end.

(** Before it handles a Promise of a peer, a server has handed over the AcceptDecide messages
    for this peer, and no AcceptSync overtakes another one of the same ballot: all that
    agreement needs of the links and the application. *)
Definition restrained (s : sys) (a : action) : Prop := syncs_in_order s a /\ drained s a.

Lemma steps_impl (P P' : sys -> action -> Prop) cc : (forall s a, P s a -> P' s a) ->
  forall l s, all_steps P cc s l -> all_steps P' cc s l.
Proof. intros H. induction l as [|a l IH]; cbn; intros s Hs; auto. destruct Hs as [H1 H2]. split; auto. destruct (exec_action cc s a); auto. Qed.

(** C03, positive part: the links may lose messages and deliver them in any order, except
    that an AcceptSync may not overtake an earlier AcceptSync of the same ballot.
    Missing: agreement fails when an AcceptSync does overtake
    ([C03_agreement_reordering_refuted]). *)
Theorem C03_agreement_reordering_partial :
  forall cc scs, good_config cc scs ->
  forall l, all_steps restrained cc (init_sys cc scs) l ->
  forall s1 s2, moment cc scs l s1 -> moment cc scs l s2 ->
  forall p q i e1 e2, server_reports s1 p i (LDecided e1) -> server_reports s2 q i (LDecided e2) -> e1 = e2.
Proof. intros cc scs Hg l Hl. apply (C01_agreement cc scs Hg l). eapply steps_impl; [|exact Hl]. auto. Qed.

(** C02, positive part: agreement holds when every application fetches its outgoing messages
    before it hands over a message, at arbitrary times otherwise.
    Missing: agreement fails when a Promise is handled while AcceptDecide messages wait
    ([C02_agreement_any_fetch_times_refuted]). *)
Theorem C02_agreement_fetch_before_handling_partial :
  forall cc scs, good_config cc scs ->
  forall l, all_steps (fun s a => syncs_in_order s a /\ fetched_before_handling s a) cc (init_sys cc scs) l ->
  forall s1 s2, moment cc scs l s1 -> moment cc scs l s2 ->
  forall p q i e1 e2, server_reports s1 p i (LDecided e1) -> server_reports s2 q i (LDecided e2) -> e1 = e2.
Proof.
  intros cc scs Hg l Hl. apply (C01_agreement cc scs Hg l). eapply steps_impl; [|exact Hl]. intros s a [H1 H2]. split; auto.
  unfold fetched_before_handling, drained in *. destruct (action_event a) as [[p [c|src k]]|]; auto.
  destruct (nodes s p) as [o|]; auto. destruct (nth_error (net s src p) k); auto. intros _ x Hx. rewrite (H2 o eq_refl) in Hx. destruct Hx.
Qed.

(** Checkers for the cases below. *)
Definition orderedb (s : sys) (a : action) : bool :=
  match action_event a with
  | Some (p, EDeliver src k) =>
      match nth_error (net s src p) k with
      | Some m' => match sync_ballot m' with
                   | Some n => forallb (fun m => match sync_ballot m with Some n' => negb (beq n' n) | None => true end) (firstn k (net s src p))
                   | None => true
                   end
      | None => true
      end
  | _ => true
  end.
Definition emptyb (s : sys) (a : action) : bool :=
  match action_event a with
  | Some (p, EDeliver _ _) => match nodes s p with Some o => match s_out (o_sp o) with [] => true | _ => false end | None => true end
  | _ => true
  end.
Fixpoint stepsb (f : sys -> action -> bool) (cc : cluster_config) (s : sys) (l : list action) : bool :=
  match l with
  | [] => true
  | a :: r => f s a && match exec_action cc s a with Some s' => stepsb f cc s' r | None => true end
  end.
Lemma stepsb_ok f (P : sys -> action -> Prop) cc : (forall s a, f s a = true -> P s a) ->
  forall l s, stepsb f cc s l = true -> all_steps P cc s l.
Proof.
  intros H. induction l as [|a l IH]; cbn; intros s Hs; auto. apply andb_true_iff in Hs. destruct Hs as [H1 H2].
  split; auto. destruct (exec_action cc s a); auto.
Qed.
Lemma orderedb_ok s a : orderedb s a = true -> syncs_in_order s a.
Proof.
  unfold orderedb, syncs_in_order. destruct (action_event a) as [[p [c|src k]]|]; auto. intros H j m m' n Hj Hm Hm' Hs Hs'.
  rewrite Hm', Hs' in H. rewrite forallb_forall in H. specialize (H m). rewrite Hs in H.
  assert (Hin : In m (firstn k (net s src p))).
  { apply (nth_error_In _ j). rewrite <- (firstn_skipn k (net s src p)) in Hm. rewrite nth_error_app1 in Hm; auto.
    rewrite firstn_length. assert (k < length (net s src p)) by (apply nth_error_Some; congruence). lia. }
  specialize (H Hin). apply negb_true_iff in H. assert (beq n n = true) by (apply beq_spec; reflexivity). congruence.
Qed.
Lemma emptyb_ok s a : emptyb s a = true -> fetched_before_handling s a.
Proof.
  unfold emptyb, fetched_before_handling. destruct (action_event a) as [[p [c|src k]]|]; auto. intros H o Ho. rewrite Ho in H.
  destruct (s_out (o_sp o)); [reflexivity|discriminate].
Qed.
Lemma restrained_ok cc s l : stepsb (fun s a => orderedb s a && drainedb s a) cc s l = true -> all_steps restrained cc s l.
Proof. apply stepsb_ok. intros s0 a H. apply andb_true_iff in H. destruct H. split; [apply orderedb_ok|apply drainedb_ok]; auto. Qed.
Lemma fetching_ok cc s l : stepsb (fun s a => orderedb s a && emptyb s a) cc s l = true ->
  all_steps (fun s a => syncs_in_order s a /\ fetched_before_handling s a) cc s l.
Proof. apply stepsb_ok. intros s0 a H. apply andb_true_iff in H. destruct H. split; [apply orderedb_ok|apply emptyb_ok]; auto. Qed.
End WithEntry.
Print Assumptions C03_agreement_reordering_partial.
Print Assumptions C02_agreement_fetch_before_handling_partial.

(** A run in which the second AcceptDecide reaches server 2 first (it asks for a new
    synchronisation), the AcceptDecides of server 3 arrive in reverse order, and the Prepare
    that repairs the link overtakes the waiting messages. *)
Section Case.
Local Existing Instance plain.
Definition sch_order : list cmd :=
  [ append 1 13; Fetch [1]; append 1 14; Fetch [1]; append 1 15; Fetch [1];
    Do (ADo 2 (EDeliver 1 1)); Fetch [2]; Do (ADo 3 (EDeliver 1 2)); Do (ADo 3 (EDeliver 1 0)); Fetch [3];
    Do (ADo 1 (EDeliver 2 0)); Fetch [1]; Do (ADo 2 (EDeliver 1 2)); Fetch [2];
    Do (ADo 1 (EDeliver 2 0)); Fetch [1]; Do (ADo 2 (EDeliver 1 2)); Fetch [2]; Do (ADo 2 (EDeliver 1 1)); Fetch [2];
    Settle [1; 2; 3] 4 ].
Definition acts_order := Eval vm_compute in acts_of cc3 sys_case1 sch_order.
Definition sys_order := match run cc3 sys_case1 acts_order with Some s => s | None => ini end.
Lemma reach_order : reaches cc3 scs (acts_case1 ++ acts_order) sys_order.
Proof. eapply run_app_ok; [exact case_reach1|]. apply is_some_eta. vm_compute. reflexivity. Qed.
Example C03_case :
  good_config cc3 scs /\ all_steps restrained cc3 (init_sys cc3 scs) (acts_case1 ++ acts_order) /\
  ~ Forall fifo (acts_case1 ++ acts_order) /\
  moment cc3 scs (acts_case1 ++ acts_order) sys_case1 /\ moment cc3 scs (acts_case1 ++ acts_order) sys_order /\
  server_reports sys_case1 2 1 (LDecided (12 : @T plain)) /\
  server_reports sys_order 2 4 (LDecided (15 : @T plain)) /\ server_reports sys_order 3 4 (LDecided (15 : @T plain)).
Proof.
  split; [exact good3|]. split; [apply restrained_ok; vm_compute; reflexivity|]. split.
  { intros H. rewrite Forall_forall in H. specialize (H (ADo 2 (EDeliver 1 1))). assert (X : 1 = 0); [|discriminate].
    apply H. apply in_or_app. right. vm_compute. auto 20. }
  split; [exists acts_case1, acts_order; split; [reflexivity|exact case_reach1]|].
  split; [exists (acts_case1 ++ acts_order), []; rewrite app_nil_r; split; [reflexivity|exact reach_order]|].
  split; [|split]; apply shows_ok; vm_compute; reflexivity.
Qed.
(** A run in which every server fetches before it handles a message (the heartbeats are lost);
    server 3 receives the Decide before the AcceptDecide. *)
Definition acts_fetch := Eval vm_compute in acts_of cc3 ini
  ([ Fetch [1; 2; 3] ] ++ map (fun ab => Lose (fst ab) (snd ab)) (pairs [1; 2; 3]) ++
   [ Call 1 CTryLeader; Fetch [1]; DeliverN 1 2 1; Fetch [2]; DeliverN 2 1 1; append 1 11; Fetch [1]; DeliverN 1 2 1; Fetch [2];
    DeliverN 2 1 1; Fetch [1]; append 1 12; append 1 13; Fetch [1]; DeliverN 1 2 1; Fetch [2]; DeliverN 1 2 1; Fetch [2]; DeliverN 2 1 1; Fetch [1];
    DeliverN 1 3 1; Fetch [3]; DeliverN 3 1 1; Fetch [1]; DeliverN 2 1 1; append 1 14; Fetch [1]; 
    DeliverN 1 3 1; Fetch [3]; Do (ADo 3 (EDeliver 1 1)); Fetch [3]; Do (ADo 3 (EDeliver 1 0)); Fetch [3]; DeliverN 1 2 1; Fetch [2]; DeliverN 1 2 1; Fetch [2] ]).
Definition sys_fetch := match run cc3 ini acts_fetch with Some s => s | None => ini end.
Lemma reach_fetch : reaches cc3 scs acts_fetch sys_fetch.
Proof. apply is_some_eta. vm_compute. reflexivity. Qed.
Example C02_case :
  good_config cc3 scs /\ all_steps (fun s a => syncs_in_order s a /\ fetched_before_handling s a) cc3 (init_sys cc3 scs) acts_fetch /\
  moment cc3 scs acts_fetch sys_fetch /\
  server_reports sys_fetch 1 2 (LDecided (13 : @T plain)) /\ server_reports sys_fetch 2 2 (LDecided (13 : @T plain)) /\
  server_reports sys_fetch 3 0 (LDecided (11 : @T plain)).
Proof.
  split; [exact good3|]. split; [apply fetching_ok; vm_compute; reflexivity|].
  split; [exists acts_fetch, []; rewrite app_nil_r; split; [reflexivity|exact reach_fetch]|].
  split; [|split]; apply shows_ok; vm_compute; reflexivity.
Qed.
End Case.
