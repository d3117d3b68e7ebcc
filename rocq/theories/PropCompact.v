(** * C65: compaction requests reach the other servers *)
From Coq Require Import List Arith Bool Lia.
Import ListNotations.
From Verif Require Import Types Config MemStore Internal LeaderState SeqPaxos Ble Omni System Basics Scen Spec Refute PropAgreement Local Frame PropLocal PropCalls PropTrim.
From Verif Require Takeover.

Section WithEntry.
Context {E : EntryT}.

(** ** The other servers *)
Section Peers.
Context (cc : cluster_config) (scs : node_id -> server_config).
Definition sp_of (p : node_id) (o : omni) : Prop := Framed o /\ s_pid (o_sp o) = p /\ s_peers (o_sp o) = filter (fun q => negb (q =? p)) (cc_nodes cc).
Lemma build_sp sc st o : build cc sc st = BOk o -> sp_of (sc_pid sc) o.
Proof.
  intros Hb. split; [eapply build_f; eauto|]. unfold build in Hb. destruct (config_validate cc sc); [|discriminate]. destruct (sp_with _ _ _ _ _) as [x|] eqn:Hw; [|discriminate]. injection Hb as <-. cbn [o_sp].
  unfold sp_with in Hw. fold (peers_of cc (sc_pid sc)). destruct (peers_of cc (sc_pid sc)) as [|p0 pr]; [discriminate|]. destruct (ms_prom st); injection Hw as <-; split; reflexivity.
Qed.
Lemma run_sp l : forall s0 s, (forall p o, nodes s0 p = Some o -> sp_of p o) -> run cc s0 l = Some s -> forall p o, nodes s p = Some o -> sp_of p o.
Proof.
  induction l as [|a l IH]; intros s0 s H R; cbn [run] in R; [injection R as <-; exact H|]. destruct (exec_action cc s0 a) as [s1|] eqn:He; [|discriminate]. apply (IH s1 s); [|exact R]. clear IH R. intros p o Ho.
  destruct a as [q ev|q|src dst k|q ev j sc]; cbn [exec_action] in He.
  - destruct (nodes s0 q) as [o1|] eqn:Hq; [|discriminate]. destruct (event_call s0 q ev) as [c|]; [|discriminate]. destruct (exec o1 c) as [[o2 r]|] eqn:Hx; [|discriminate]. injection He as <-. cbn [nodes] in Ho. unfold upd1 in Ho.
    destruct (Nat.eqb_spec p q) as [->|]; [|apply H; exact Ho]. injection Ho as <-. destruct (H q o1 Hq) as (F1 & F2 & F3). destruct (framed_exec _ _ _ _ F1 Hx) as (G1 & G2 & G3 & _). split; [exact G1|]. split; congruence.
  - destruct (nodes s0 q) as [o1|] eqn:Hq; [|discriminate]. destruct (take_outgoing_messages o1 []) as [o2 ms] eqn:Ht. injection He as <-. cbn [nodes] in Ho. unfold upd1 in Ho.
    destruct (Nat.eqb_spec p q) as [->|]; [|apply H; exact Ho]. injection Ho as <-. destruct (H q o1 Hq) as (F1 & F2 & F3). split; [eapply framed_take; eauto|]. unfold take_outgoing_messages, sp_take_outgoing in Ht. injection Ht as <- _. split; [exact F2|exact F3].
  - injection He as <-. apply H. exact Ho.
  - destruct (nodes s0 q) as [o1|] eqn:Hq; [|discriminate]. destruct (event_call s0 q ev) as [c|]; [|discriminate]. destruct (nth_error _ j) as [st|]; [|discriminate]. destruct (Nat.eqb_spec (sc_pid sc) q) as [Hsq|]; [|discriminate].
    destruct (build cc sc st) as [| |o2] eqn:Hb; try discriminate. injection He as <-. cbn [nodes] in Ho. unfold upd1 in Ho. destruct (Nat.eqb_spec p q) as [->|]; [|apply H; exact Ho]. injection Ho as <-. apply build_sp in Hb. rewrite Hsq in Hb. exact Hb.
Qed.
Lemma reach_sp l s p o : reaches cc scs l s -> nodes s p = Some o -> sp_of p o.
Proof.
  intros R. apply (run_sp l (init_sys cc scs) s); [|exact R]. clear. intros p o. cbn [nodes init_sys]. destruct (existsb _ _ && _) eqn:Hx; [|discriminate]. apply andb_true_iff in Hx. destruct Hx as [_ Hx]. apply Nat.eqb_eq in Hx.
  destruct (build cc (scs p) ms_default) as [| |o1] eqn:Hb; try discriminate. intros X. injection X as <-. apply build_sp in Hb. rewrite Hx in Hb. exact Hb.
Qed.
End Peers.

(** ** Specification *)

(** [m] is queued for every other server of the cluster, and nothing else is new in the queue. *)
Definition tells_everyone (cc : cluster_config) (p : node_id) (o o' : omni) (m : pmsg) : Prop :=
  outgoing o' = outgoing o ++ map (fun q => mkPM p q m) (filter (fun q => negb (q =? p)) (cc_nodes cc)).
(** The index up to which a request to trim up to the decided index [k] removes entries: a decided stop sign
    is not removed. *)
Definition trim_end (o : omni) (k : nat) : nat :=
  match is_reconfigured o with Some _ => if k =? get_decided_idx o then k - 1 else k | None => k end.

Lemma isr o : is_reconfigured o = None <-> stopsign_is_decided (i_ca (s_is (o_sp o))) = false.
Proof.
  unfold is_reconfigured, sp_is_reconfigured, stopsign_is_decided, i_ss. destruct (c_ss (i_ca (s_is (o_sp o)))) as [ss|]; [|split; auto].
  match goal with |- context[if ?b then _ else _] => destruct b eqn:H end; cbn in *; split; intros X; try discriminate X; auto; congruence.
Qed.
Lemma trim_end_eq o k : trim_end o k = if (k =? get_decided_idx o) && stopsign_is_decided (i_ca (s_is (o_sp o))) then k - 1 else k.
Proof.
  unfold trim_end. pose proof (isr o) as X. destruct (is_reconfigured o), (stopsign_is_decided _); try (destruct X as [X1 X2]; discriminate (X2 eq_refl) || discriminate (X1 eq_refl)).
  - destruct (_ =? _); reflexivity.
  - destruct (_ =? _); reflexivity.
Qed.

(** A successful trim removes everything up to its index at the leader, and tells every other server of the
    cluster. The index is the one asked for or, without one, the smallest index acknowledged by the servers. *)
Theorem C65_trim_is_announced :
  forall cc scs l s, reaches cc scs l s ->
  forall p o i o', nodes s p = Some o -> exec o (CTrim i) = Ok (o', RCompact None) ->
  exists k, k <= get_decided_idx o /\ (forall j, i = Some j -> k = j) /\ (forall q, member o q -> 1 <= q -> acknowledged o q k) /\
    (i = None -> exists q, 1 <= q <= Frame.maxpid o /\ nth_error (l_accs (s_ls (o_sp o))) (q - 1) = Some k) /\
    get_compacted_idx o' = Nat.max (get_compacted_idx o) (trim_end o k) /\ tells_everyone cc p o o' (MCompaction (CmpTrim k)).
Proof.
  intros cc scs l s R p o i o' Ho He. destruct (reach_sp cc scs l s p o R Ho) as (_ & Hp & Hq). pose proof (cluster_server_state _ _ _ _ _ _ R Ho) as Hs.
  assert (X : exists k, (forall j, i = Some j -> k = j) /\ (i = None -> get_min_all_accepted_idx (s_ls (o_sp o)) = Some k) /\ tells_everyone cc p o o' (MCompaction (CmpTrim k)) /\
     k <= get_decided_idx o /\ get_compacted_idx o' = Nat.max (get_compacted_idx o) (trim_end o k) /\ exists mn, get_min_all_accepted_idx (s_ls (o_sp o)) = Some mn /\ k <= mn).
  { pose proof (own_state _ Hs) as Hl. pose proof (lc_is _ _ _ _ Hl) as Hi. destruct (il_st _ _ _ Hi) as (_ & _ & Ht). pose proof (h_comp _ (il_coh _ _ _ Hi)) as Hc.
    unfold exec in He. cbn [exec_call] in He. unfold sp_trim in He. fold (rest o) in He. destruct (s_role (rest o)); [discriminate|]. change (s_ls (rest o)) with (s_ls (o_sp o)) in He.
    destruct (get_min_all_accepted_idx (s_ls (o_sp o))) as [mn|] eqn:Hmn; [|discriminate]. cbn [lift bind] in He.
    assert (Main : forall k, ('(s, r) <- ('(is, r) <- try_trim (s_is (rest o)) k ;; match r with None => Ok (push_all (set_is (rest o) is) (s_peers (set_is (rest o) is)) (MCompaction (CmpTrim k)), None) | Some e => Ok (set_is (rest o) is, Some e) end) ;; Ok (set_sp (start_call o) s, RCompact r)) = Ok (o', RCompact None) ->
      tells_everyone cc p o o' (MCompaction (CmpTrim k)) /\ k <= get_decided_idx o /\ get_compacted_idx o' = Nat.max (get_compacted_idx o) (trim_end o k)).
    { intros k. destruct (try_trim (s_is (rest o)) k) as [[is r]|] eqn:Htr; [|discriminate]. cbn [bind]. pose proof (trim_cases _ _ _ _ Ht Hc Htr) as C. destruct r as [e|]; [discriminate|]. cbn [bind].
      intros X. injection X as <-. destruct C as (C1 & _ & _ & _ & _ & _ & _ & _ & C2 & _). rewrite Takeover.push_all_f. split; [|split; [exact C1|]].
      - unfold tells_everyone, outgoing. cbn [o_sp set_sp s_out set_out set_is rest start_call s_pid s_peers]. rewrite Hp, Hq. reflexivity.
      - rewrite trim_end_eq. exact C2. }
    destruct i as [i|].
    - destruct (Nat.leb_spec i mn) as [H1|H1]; [|discriminate]. destruct (Main i He) as (M1 & M2 & M3). exists i. split; [congruence|]. split; [discriminate|]. split; [exact M1|]. split; [exact M2|]. split; [exact M3|]. exists mn. auto.
    - destruct (Main mn He) as (M1 & M2 & M3). exists mn. split; [discriminate|]. split; [auto|]. split; [exact M1|]. split; [exact M2|]. split; [exact M3|]. exists mn. auto. }
  destruct X as (k & K1 & K2 & K3 & K4 & K5 & mn & K6 & K7). exists k. split; [exact K4|]. split; [exact K1|].
  destruct (framed_state _ Hs) as (Hf & Hpp & Hps). assert (La : length (l_accs (s_ls (o_sp o))) = maxpid o) by apply (lv_accs _ _ _ (fr_ls _ _ _ _ _ Hf)).
  split; [|split; [|split; [exact K5|exact K3]]].
  - intros q Hm H1. unfold get_min_all_accepted_idx in K6. destruct (l_accs (s_ls (o_sp o))) as [|a0 ar] eqn:Ha; [discriminate|]. injection K6 as <-.
    assert (Hlt : q - 1 < length (l_accs (s_ls (o_sp o)))). { rewrite Ha, La. destruct Hm as [->|Hm]; [unfold own_pid; lia|]. rewrite Forall_forall in Hps. destruct (Hps _ Hm). lia. }
    destruct (nth_error (l_accs (s_ls (o_sp o))) (q - 1)) as [a|] eqn:Hn; [|apply nth_error_None in Hn; lia]. exists a. split; [exact Hn|]. apply nth_error_In in Hn. rewrite Ha in Hn.
    destruct (min_all ar a0 a) as [M1 M2]. destruct Hn as [->|Hn]; [lia|]. specialize (M2 Hn). lia.
  - intros Hn. specialize (K2 Hn). clear - K2 La. unfold get_min_all_accepted_idx in K2. destruct (l_accs (s_ls (o_sp o))) as [|a0 ar] eqn:Ha; [discriminate|]. injection K2 as K2.
    assert (Hin : forall l m, fold_left Nat.min l m = m \/ In (fold_left Nat.min l m) l).
    { clear. induction l as [|y l IH]; cbn; intros m; [auto|]. destruct (IH (Nat.min m y)) as [X|X]; [|auto]. rewrite X. destruct (Nat.min_spec m y) as [[_ ->]|[_ ->]]; auto. }
    assert (Hk : In k (a0 :: ar)) by (destruct (Hin ar a0) as [X|X]; rewrite K2 in X; [left; auto|right; exact X]). apply In_nth_error in Hk. destruct Hk as (j & Hj).
    exists (S j). replace (S j - 1) with j by lia. split; [|exact Hj]. assert (j < length (a0 :: ar)) by (apply nth_error_Some; congruence). lia.
Qed.

(** A successful snapshot tells every other server, unless it is only local. *)
Theorem C65_snapshot_is_announced :
  forall cc scs l s, reaches cc scs l s ->
  forall p o i (local : bool) o', nodes s p = Some o -> exec o (CSnapshot i local) = Ok (o', RCompact None) ->
  if local then outgoing o' = outgoing o else tells_everyone cc p o o' (MCompaction (CmpSnapshot i)).
Proof.
  intros cc scs l s R p o i local o' Ho He. destruct (reach_sp cc scs l s p o R Ho) as (_ & Hp & Hq). unfold exec in He. cbn [exec_call] in He. unfold sp_snapshot in He.
  destruct (try_snapshot _ _) as [[is r]|]; [|discriminate]. cbn [bind] in He. destruct r as [e|]; [discriminate|]. cbn [bind] in He. injection He as <-. destruct local; [reflexivity|].
  rewrite Takeover.push_all_f. unfold tells_everyone, outgoing. cbn [o_sp set_sp s_out set_out set_is rest start_call s_pid s_peers]. rewrite Hp, Hq. reflexivity.
Qed.

(** A server that receives the request and has decided up to its index removes everything up to it. If it has
    not decided so far, it does nothing. *)
Theorem C65_trim_request :
  forall o from to k o' r, server_state o -> exec o (CHandle (MsgSP (mkPM from to (MCompaction (CmpTrim k))))) = Ok (o', r) ->
  if k <=? get_decided_idx o then get_compacted_idx o' = Nat.max (get_compacted_idx o) (trim_end o k) /\ only_compacted (storage o) (storage o') else same_state o o'.
Proof.
  intros o from to k o' r0 Hs He. pose proof (own_state _ Hs) as Hl. pose proof (lc_is _ _ _ _ Hl) as Hi. destruct (il_st _ _ _ Hi) as (_ & _ & Ht). pose proof (h_comp _ (il_coh _ _ _ Hi)) as Hc.
  unfold exec in He. cbn [exec_call handle_incoming sp_handle pm_msg handle_compaction bind] in He. fold (rest o) in He.
  destruct (try_trim (s_is (rest o)) k) as [[is r]|] eqn:Htr; [|discriminate]. cbn [bind] in He. injection He as <- _. pose proof (trim_cases _ _ _ _ Ht Hc Htr) as C. destruct (Nat.leb_spec k (get_decided_idx o)) as [H|H].
  - destruct r as [e|]; [destruct C as (_ & C & _); unfold get_decided_idx in H; change (i_dec (s_is (rest o))) with (i_dec (s_is (o_sp o))) in C; lia|]. destruct C as (C1 & C0 & _ & _ & _ & _ & _ & _ & C2 & _). split; [|exact C0]. rewrite trim_end_eq. exact C2.
  - destruct r as [e|]; [|destruct C as (C & _); unfold get_decided_idx in H; change (i_dec (s_is (rest o))) with (i_dec (s_is (o_sp o))) in C; lia]. destruct C as (-> & _). unfold same_state. destruct o; reflexivity.
Qed.
End WithEntry.
(** ** Cases *)
Section Case.
Existing Instance plain.

(** Server 1 leads and one entry is decided at every server. A trim up to it is announced and everybody removes
    the entry. *)
Definition sch_base : list cmd := [ Call 1 CTryLeader; Settle [1;2;3] 6; append 1 4; Settle [1;2;3] 6 ].
Definition acts_base := Eval vm_compute in acts_of cc3 ini sch_base.
Definition sys_base := match run cc3 ini acts_base with Some s => s | None => ini end.
Definition acts_trim := Eval vm_compute in acts_base ++ acts_of cc3 sys_base [ Call 1 (CTrim (Some 1)); Settle [1;2;3] 6 ].
Definition sys_trim := match run cc3 ini acts_trim with Some s => s | None => ini end.
Example C65_case :
  reaches cc3 scs acts_base sys_base /\ reaches cc3 scs acts_trim sys_trim /\
  obs sys_base 1 (fun o => match exec o (CTrim (Some 1)) with Ok (o', RCompact None) => outgoing o' | _ => [] end) = Some [mkPM 1 2 (MCompaction (CmpTrim 1)); mkPM 1 3 (MCompaction (CmpTrim 1))] /\
  map (fun p => obs sys_base p (fun o => (get_decided_idx o, get_compacted_idx o))) [1;2;3] = [Some (1, 0); Some (1, 0); Some (1, 0)] /\
  map (fun p => obs sys_trim p (fun o => (get_decided_idx o, get_compacted_idx o))) [1;2;3] = [Some (1, 1); Some (1, 1); Some (1, 1)].
Proof. split; [apply is_some_eta; vm_compute; reflexivity|]. split; [apply is_some_eta; vm_compute; reflexivity|]. vm_compute. auto 10. Qed.

(** Server 3 has acknowledged the entry. It loses its connection to the leader and asks it for its state. The
    request to trim arrives while it waits for the answer. *)
Definition sch_missed : list cmd :=
  [ Call 1 CTryLeader; Settle [1;2;3] 6; append 1 4; Fetch [1]; Deliver 1 2; Deliver 1 3; Fetch [2;3]; Deliver 2 1; Deliver 3 1;
    Call 3 (CReconnected 1); Call 1 (CTrim (Some 1)); Fetch [1]; Deliver 1 2; Deliver 1 3; Settle [1;2;3] 10 ].
Definition acts_missed := Eval vm_compute in acts_of cc3 ini sch_missed.
Definition sys_missed := match run cc3 ini acts_missed with Some s => s | None => ini end.
(** No message is lost and no server crashes, but server 3 keeps the entry. *)
Theorem C65_trim_reaches_everyone_refuted :
  exists (E : EntryT) cc scs l0 a l1 s0 o0 o1 s,
    good_config cc scs /\ cc_nodes cc = [1; 2; 3] /\ all_steps h1h2 cc (init_sys cc scs) (l0 ++ a :: l1) /\
    Forall (fun a => match a with ACrash _ _ _ _ | ADrop _ _ _ => False | _ => True end) (l0 ++ a :: l1) /\
    reaches cc scs l0 s0 /\ nodes s0 1 = Some o0 /\ a = ADo 1 (ECall (CTrim (Some 1))) /\ exec o0 (CTrim (Some 1)) = Ok (o1, RCompact None) /\
    reaches cc scs (l0 ++ a :: l1) s /\ (forall p q, In p [1;2;3] -> In q [1;2;3] -> net s p q = []) /\ (forall p o, nodes s p = Some o -> In p [1;2;3] -> outgoing o = []) /\
    exists o, nodes s 3 = Some o /\ get_decided_idx o = 1 /\ get_compacted_idx o = 0.
Proof.
  exists plain, cc3, scs, (firstn 48 acts_missed), (ADo 1 (ECall (CTrim (Some 1)))), (skipn 49 acts_missed).
  assert (H0 : exists s0, run cc3 ini (firstn 48 acts_missed) = Some s0 /\ exists o0, nodes s0 1 = Some o0 /\ exists o1, exec o0 (CTrim (Some 1)) = Ok (o1, RCompact None)).
  { vm_compute. eexists. split; [reflexivity|]. eexists. split; [reflexivity|]. eexists. reflexivity. }
  destruct H0 as (s0 & R0 & o0 & N0 & o1 & E0). exists s0, o0, o1, sys_missed.
  change (firstn 48 acts_missed ++ ADo 1 (ECall (CTrim (Some 1))) :: skipn 49 acts_missed) with acts_missed.
  split; [exact good3|]. split; [reflexivity|]. split; [apply h1h2_run; vm_compute; reflexivity|]. split; [repeat constructor|]. split; [exact R0|]. split; [exact N0|]. split; [reflexivity|]. split; [exact E0|].
  split; [apply is_some_eta; vm_compute; reflexivity|]. split; [intros p q [<-|[<-|[<-|[]]]] [<-|[<-|[<-|[]]]]; vm_compute; reflexivity|].
  split. { intros p o Ho [<-|[<-|[<-|[]]]]; vm_compute in Ho; injection Ho as <-; reflexivity. }
  vm_compute. eexists. split; [reflexivity|]. auto.
Qed.
End Case.

Section SnapCase.
Existing Instance lsnap.
(** A snapshot at server 2 of a cluster whose entries can be put into a snapshot. *)
Definition sys_sbase := match run cc3 ini' (acts_of cc3 ini' [ Call 1 CTryLeader; Settle [1;2;3] 6; append' 1 4; Settle [1;2;3] 6 ]) with Some s => s | None => ini' end.
Example C65_snapshot_case :
  obs sys_sbase 2 (fun o => match exec o (CSnapshot None false) with Ok (o', RCompact None) => outgoing o' | _ => [] end) = Some [mkPM 2 1 (MCompaction (CmpSnapshot None)); mkPM 2 3 (MCompaction (CmpSnapshot None))].
Proof. vm_compute. auto. Qed.
End SnapCase.

Print Assumptions C65_trim_is_announced.
Print Assumptions C65_snapshot_is_announced.
Print Assumptions C65_trim_request.
Print Assumptions C65_trim_reaches_everyone_refuted.
