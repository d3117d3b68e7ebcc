(** * C72: servers on the persistent storage *)
From Coq Require Import List Arith NArith Bool Lia.
Import ListNotations.
From Verif Require Import Types Config MemStore Internal LeaderState SeqPaxos Ble Omni System Scen Basics Spec Refute Ghost Inv Op Prims SysInv Agree PropAgreement.
From Verif Require Import Persist PropPersist DiskCalls DiskRun.

Section WithEntry.
Context {E : EntryT}.

(** ** The calls of one server on its storage *)

(** The calls that server [p] makes on its storage in an execution: [disk_history cc scs p l s h].  [SequencePaxos::with]
    writes the promise (sequence_paxos/mod.rs 84-91).  Every call of the server on Omni-Paxos adds the calls that the
    functions of [InternalStorage] make ([issued]).  A crash cuts them after [j] writes; then the storage is opened
    again. *)
Inductive disk_history (cc : cluster_config) (scs : node_id -> server_config) (p : node_id) : list action -> sys -> list client -> Prop :=
| dh_start : disk_history cc scs p [] (init_sys cc scs) [Method (OpSetPromise bdef)]
| dh_other l s h a s' : disk_history cc scs p l s h -> exec_action cc s a = Some s' ->
    (forall ev, action_event a <> Some (p, ev)) -> disk_history cc scs p (l ++ [a]) s' h
| dh_call l s h ev s' o c o' r k : disk_history cc scs p l s h -> exec_action cc s (ADo p ev) = Some s' ->
    nodes s p = Some o -> event_call s p ev = Some c -> exec o c = Ok (o', r) ->
    issued (s_is (o_sp (start_call o))) k (s_is (o_sp o')) ->
    disk_history cc scs p (l ++ [ADo p ev]) s' (h ++ k)
| dh_crash l s h ev j sc s' o c k is : disk_history cc scs p l s h -> exec_action cc s (ACrash p ev j sc) = Some s' ->
    nodes s p = Some o -> event_call s p ev = Some c ->
    issued (s_is (o_sp (start_call o))) k is -> i_tr is = firstn j (tl (crash_points o c)) ->
    disk_history cc scs p (l ++ [ACrash p ev j sc]) s' (h ++ k ++ [Reopen; Method (OpSetPromise (bal_or_default (ms_prom (i_st is))))]).

(** What the theorem asks of the calls of server [p]: [trim], [snapshot] and the messages AcceptSync, Promise and
    Compaction come while no stop sign is in its log, and the indices stay in 64 bits. *)
Definition calm (p : node_id) (s : sys) (a : action) : Prop :=
  match action_event a with
  | Some (q, ev) => q = p -> forall o c, nodes s p = Some o -> event_call s p ev = Some c ->
      (reshapes c = true -> ms_ss (storage o) = None) /\ Forall small (crash_points o c)
  | None => True
  end.

(** After every one of the calls both storages are at rest and agree. *)
Definition along (h : list client) : Prop :=
  forall h1 h2, h = h1 ++ h2 -> exists m d, run_calls mem_call ms_default h1 = Some m /\ run_calls per_call (mkPS empty_db 0) h1 = Some d /\
    rel true m (p_db d) (p_next d) /\ ms_comp m = ms_trim m.
Lemma along_snoc h c m d : along h -> run_calls mem_call ms_default (h ++ [c]) = Some m -> run_calls per_call (mkPS empty_db 0) (h ++ [c]) = Some d ->
  rel true m (p_db d) (p_next d) -> ms_comp m = ms_trim m -> along (h ++ [c]).
Proof.
  intros HA A B C D h1 h2 Hh. destruct h2 as [|x h2] using rev_ind; [rewrite app_nil_r in Hh; subst h1; exists m, d; auto|].
  rewrite app_assoc in Hh. apply app_inj_tail in Hh. destruct Hh as [Hh _]. exact (HA h1 h2 Hh).
Qed.
Lemma fissued_along s k s' : fissued s k s' -> i_tr s = [] -> Forall (fun m => ms_comp m = ms_trim m) (i_st s :: i_tr s') ->
  forall h d, along h -> run_calls mem_call ms_default h = Some (i_st s) -> run_calls per_call (mkPS empty_db 0) h = Some d -> rel true (i_st s) (p_db d) (p_next d) ->
  along (h ++ k).
Proof.
  intros H. induction H as [s|a b c k ks H IH Hi Hm Hf]; intros Ht HF h d HA A B C; [rewrite app_nil_r; exact HA|].
  assert (HF' : Forall (fun m => ms_comp m = ms_trim m) (i_st a :: i_tr b)).
  { destruct (issues_tr _ _ _ Hi) as [[X _]|X]; rewrite X in HF; [exact HF|]. inversion HF as [|y l HF1 HF2]. constructor; auto. apply Forall_app in HF2. tauto. }
  specialize (IH Ht HF' h d HA A B C). pose proof (fi_snoc _ _ _ _ _ H Hi Hm Hf) as H'. destruct ks as [|x [|]]; [rewrite app_nil_r; exact IH| |destruct Hf].
  rewrite app_assoc. destruct (fissued_rel _ _ _ H' d C) as (d' & A' & B' & C').
  apply (along_snoc _ _ (i_st c) d'); [exact IH|rewrite <- app_assoc, run_calls_app, A; exact C'|rewrite <- app_assoc, run_calls_app, B; exact A'|exact B'|].
  pose proof (fissued_last _ _ _ H' Ht) as HL. rewrite Forall_forall in HF. apply HF. eapply nth_error_In. exact HL.
Qed.

Definition agrees (s : sys) (p : node_id) (h : list client) : Prop :=
  forall o, nodes s p = Some o -> exists d, run_calls per_call (mkPS empty_db 0) h = Some d /\
    rel true (storage o) (p_db d) (p_next d) /\ run_calls mem_call ms_default h = Some (storage o).

Lemma build_st cc sc st o : build cc sc st = BOk o -> storage o = ms_set_promise st (bal_or_default (ms_prom st)).
Proof.
  unfold build. destruct (config_validate cc sc); [|discriminate]. destruct (sp_with _ _ _ _ _) as [x|] eqn:Hw; [|discriminate]. intros X. injection X as <-.
  unfold sp_with in Hw. destruct (peers_of cc (sc_pid sc)) as [|p0 pr]; [discriminate|]. unfold storage. cbn [o_sp]. destruct (ms_prom st); injection Hw as <-; reflexivity.
Qed.
Lemma rel_prom m d next b : rel true m d next -> rel true (ms_set_promise m b) (db_do d (PutProm b)) next.
Proof. intros HR. pose proof HR as [R1 R2 R3 R4 R5 R6 R7 R8 R9 R10]. constructor; cbn; auto. Qed.

Lemma h12_of s p ev a : action_event a = Some (p, ev) -> h1h2 s a -> h12 s p ev.
Proof.
  intros Ha [H1 H2]. unfold syncs_in_order, drained in *. rewrite Ha in *. destruct ev as [c|src k]; cbn; auto.
  split; auto. intros o0 m Ho0 Hm. rewrite Ho0, Hm in H2. exact H2.
Qed.

Section Cluster.
Context (cc : cluster_config) (Hv : cluster_validate cc = true) (H0 : ~ In 0 (cc_nodes cc)) (scs : node_id -> server_config) (p : node_id).

Lemma points_rest G s q ev o c : SysInv cc G s -> nodes s q = Some o -> event_call s q ev = Some c -> h12 s q ev ->
  Forall (fun m => ms_comp m = ms_trim m) (crash_points o c).
Proof.
  intros HS Ho Hc Hh. apply Forall_forall. intros st Hin. destruct (crash_safe cc Hv H0 G s q ev o c st HS Ho Hc Hh Hin) as (G1 & _ & _ & X & _). exact (st_comp _ _ _ _ X).
Qed.
Lemma history_step G l s h a s' : SysInv cc G s -> disk_history cc scs p l s h -> agrees s p h -> along h -> h1h2 s a -> calm p s a ->
  exec_action cc s a = Some s' -> exists h', disk_history cc scs p (l ++ [a]) s' h' /\ agrees s' p h' /\ along h'.
Proof.
  intros HS HD HA HB Hh Hc He. destruct a as [q ev|q|src dst k|q ev j sc].
  - destruct (Nat.eq_dec q p) as [->|Hq].
    + pose proof He as He0. cbn in He. destruct (nodes s p) as [o|] eqn:Ho; [|discriminate]. destruct (event_call s p ev) as [c|] eqn:Hec; [|discriminate].
      destruct (exec o c) as [[o' r]|] eqn:Hx; [|discriminate]. injection He as <-.
      destruct (Hc eq_refl o c Ho Hec) as [C1 C2]. pose proof (call_d cc Hv H0 G s p ev o c HS Ho Hec (h12_of s p ev (ADo p ev) eq_refl Hh) C1 C2) as X. rewrite Hx in X. destruct X as [k Hk].
      destruct (HA o Ho) as (d & A & B & C). destruct (fissued_rel _ _ _ Hk d B) as (d' & A' & B' & C').
      exists (h ++ k). split; [eapply dh_call; eauto; apply fissued_issued; exact Hk|]. split.
      * intros o1 Ho1. cbn in Ho1. unfold upd1 in Ho1. rewrite Nat.eqb_refl in Ho1. injection Ho1 as <-. exists d'. rewrite !run_calls_app, A, C. auto.
      * apply (fissued_along _ _ _ Hk eq_refl) with (d := d); auto. pose proof (points_rest G s p ev o c HS Ho Hec (h12_of s p ev (ADo p ev) eq_refl Hh)) as X. unfold crash_points in X. rewrite Hx in X. exact X.
    + exists h. split; [eapply dh_other; eauto; intros ev0 X; injection X as -> _; auto|]. split; [|exact HB].
      cbn in He. destruct (nodes s q) as [o|] eqn:Ho; [|discriminate]. destruct (event_call s q ev) as [c|] eqn:Hec; [|discriminate].
      destruct (exec o c) as [[o' r]|] eqn:Hx; [|discriminate]. injection He as <-. intros o1 Ho1. cbn in Ho1. unfold upd1 in Ho1. destruct (Nat.eqb_spec p q); [congruence|]. apply HA; auto.
  - exists h. split; [eapply dh_other; eauto; discriminate|]. split; [|exact HB]. cbn in He. destruct (nodes s q) as [o|] eqn:Ho; [|discriminate].
    destruct (take_outgoing_messages o []) as [o' m] eqn:Ht. injection He as <-. intros o1 Ho1. cbn in Ho1. unfold upd1 in Ho1. destruct (Nat.eqb_spec p q) as [->|]; [|apply HA; auto].
    assert (X : storage o1 = storage o) by (unfold take_outgoing_messages in Ht; injection Ht as <- _; injection Ho1 as <-; reflexivity). destruct (HA o Ho) as (d & A & B & C). exists d. rewrite X. auto.
  - exists h. split; [eapply dh_other; eauto; discriminate|]. split; [|exact HB]. cbn in He. injection He as <-. exact HA.
  - destruct (Nat.eq_dec q p) as [->|Hq].
    + pose proof He as He0. cbn in He. destruct (nodes s p) as [o|] eqn:Ho; [|discriminate]. destruct (event_call s p ev) as [c|] eqn:Hec; [|discriminate].
      destruct (nth_error (crash_points o c) j) as [st|] eqn:Hj; [|discriminate]. destruct (sc_pid sc =? p); [|discriminate]. destruct (build cc sc st) as [| |o'] eqn:Hb; try discriminate. injection He as <-.
      destruct (Hc eq_refl o c Ho Hec) as [C1 C2]. pose proof (h12_of s p ev (ACrash p ev j sc) eq_refl Hh) as H12. pose proof (call_d cc Hv H0 G s p ev o c HS Ho Hec H12 C1 C2) as X.
      assert (Y : exists k is, fissued (s_is (o_sp (start_call o))) k is /\ i_tr is = tl (crash_points o c)).
      { unfold crash_points. cbn [tl]. destruct (exec o c) as [[o1 r]|tr]; [destruct X as [k Hk]; eauto|exact X]. }
      destruct Y as (k0 & is0 & Hk0 & Htr0).
      assert (Hlen : j <= length (tl (crash_points o c))). { assert (Z : j < length (crash_points o c)) by (apply nth_error_Some; congruence). unfold crash_points in *. cbn [length tl] in *. lia. }
      destruct (fissued_prefix _ _ _ Hk0 eq_refl j) as (k & is & Hk & Htr); [rewrite Htr0; exact Hlen|]. rewrite Htr0 in Htr.
      pose proof (fissued_last _ _ _ Hk eq_refl) as HL. rewrite Htr, firstn_length_le in HL by exact Hlen.
      assert (Hst : i_st is = st).
      { change (i_st (s_is (o_sp (start_call o)))) with (storage o) in HL. replace (storage o :: firstn j (tl (crash_points o c))) with (firstn (S j) (crash_points o c)) in HL by reflexivity.
        assert (Z : nth_error (firstn (S j) (crash_points o c)) j = nth_error (crash_points o c) j).
        { rewrite <- (firstn_skipn (S j) (crash_points o c)) at 2. rewrite nth_error_app1; auto. rewrite firstn_length_le; [lia|]. assert (j < length (crash_points o c)) by (apply nth_error_Some; congruence). lia. }
        rewrite Z in HL. congruence. }
      exists (h ++ k ++ [Reopen; Method (OpSetPromise (bal_or_default (ms_prom (i_st is))))]). split; [eapply dh_crash; eauto; apply fissued_issued; exact Hk|].
      destruct (HA o Ho) as (d & A & B & C). destruct (fissued_rel _ _ _ Hk d B) as (d' & A' & B' & C'). change (i_st (s_is (o_sp (start_call o)))) with (storage o) in C'.
      pose proof (points_rest G s p ev o c HS Ho Hec H12) as HR.
      assert (Hcm : ms_comp (i_st is) = ms_trim (i_st is)) by (rewrite Hst; rewrite Forall_forall in HR; apply HR; eapply nth_error_In; eauto).
      set (d1 := p_set_promise (mkPS (p_db d') (p_next d')) (bal_or_default (ms_prom (i_st is)))).
      assert (K1 : run_calls mem_call ms_default (h ++ k) = Some (i_st is)) by (rewrite run_calls_app, C; exact C').
      assert (K2 : run_calls per_call (mkPS empty_db 0) (h ++ k) = Some d') by (rewrite run_calls_app, A; exact A').
      assert (K3 : run_calls mem_call ms_default ((h ++ k) ++ [Reopen]) = Some (i_st is)) by (rewrite run_calls_app, K1; reflexivity).
      assert (K4 : run_calls per_call (mkPS empty_db 0) ((h ++ k) ++ [Reopen]) = Some (mkPS (p_db d') (p_next d'))) by (rewrite run_calls_app, K2; cbn [run_calls per_call]; rewrite (rel_open _ _ _ B' Hcm); reflexivity).
      replace (h ++ k ++ [Reopen; Method (OpSetPromise (bal_or_default (ms_prom (i_st is))))]) with (((h ++ k) ++ [Reopen]) ++ [Method (OpSetPromise (bal_or_default (ms_prom (i_st is))))]) by (rewrite <- !app_assoc; reflexivity).
      assert (K5 : run_calls mem_call ms_default (((h ++ k) ++ [Reopen]) ++ [Method (OpSetPromise (bal_or_default (ms_prom (i_st is))))]) = Some (ms_set_promise (i_st is) (bal_or_default (ms_prom (i_st is))))) by (rewrite run_calls_app, K3; reflexivity).
      assert (K6 : run_calls per_call (mkPS empty_db 0) (((h ++ k) ++ [Reopen]) ++ [Method (OpSetPromise (bal_or_default (ms_prom (i_st is))))]) = Some d1) by (rewrite run_calls_app, K4; reflexivity).
      pose proof (rel_prom _ _ _ (bal_or_default (ms_prom (i_st is))) B') as K7. split.
      * intros o1 Ho1. cbn in Ho1. unfold upd1 in Ho1. rewrite Nat.eqb_refl in Ho1. injection Ho1 as <-. exists d1. rewrite (build_st _ _ _ _ Hb), <- Hst. auto.
      * eapply along_snoc; [eapply along_snoc; [|exact K3|exact K4|exact B'|exact Hcm]|exact K5|exact K6|exact K7|exact Hcm].
        apply (fissued_along _ _ _ Hk eq_refl) with (d := d); auto. change (i_st (s_is (o_sp (start_call o)))) with (storage o). rewrite Htr. inversion HR as [|y ys HR1 HR2]. constructor; auto.
        change (Forall (fun m => ms_comp m = ms_trim m) (tl (crash_points o c))) in HR2. rewrite <- (firstn_skipn j (tl (crash_points o c))) in HR2. apply Forall_app in HR2. tauto.
    + exists h. split; [eapply dh_other; eauto; intros ev0 X; injection X as -> _; auto|]. split; [|exact HB].
      cbn in He. destruct (nodes s q) as [o|] eqn:Ho; [|discriminate]. destruct (event_call s q ev) as [c|] eqn:Hec; [|discriminate].
      destruct (nth_error (crash_points o c) j) as [st|]; [|discriminate]. destruct (sc_pid sc =? q); [|discriminate]. destruct (build cc sc st) as [| |o']; try discriminate.
      injection He as <-. intros o1 Ho1. cbn in Ho1. unfold upd1 in Ho1. destruct (Nat.eqb_spec p q); [congruence|]. apply HA; auto.
Qed.
Lemma history_run l2 : forall G l1 s1 h1 s, SysInv cc G s1 -> disk_history cc scs p l1 s1 h1 -> agrees s1 p h1 -> along h1 ->
  all_steps h1h2 cc s1 l2 -> all_steps (calm p) cc s1 l2 -> run cc s1 l2 = Some s ->
  exists G' h, SysInv cc G' s /\ disk_history cc scs p (l1 ++ l2) s h /\ agrees s p h /\ along h.
Proof.
  induction l2 as [|a l2 IH]; intros G l1 s1 h1 s HS HD HA HB Hh Hc Hr.
  - cbn in Hr. injection Hr as <-. rewrite app_nil_r. exists G, h1. auto.
  - cbn in Hh, Hc, Hr. destruct (exec_action cc s1 a) as [s2|] eqn:He; [|discriminate]. destruct Hh as [Ha Hh], Hc as [Ca Hc].
    destruct (history_step G l1 s1 h1 a s2 HS HD HA HB Ha Ca He) as (h2 & HD2 & HA2 & HB2). destruct (step_inv cc Hv H0 G s1 a s2 HS Ha He) as (G2 & _ & S2).
    replace (l1 ++ a :: l2) with ((l1 ++ [a]) ++ l2) by (rewrite <- app_assoc; reflexivity). eapply IH; eauto.
Qed.
End Cluster.

Lemma init_agrees cc scs p : agrees (init_sys cc scs) p [Method (OpSetPromise bdef)].
Proof.
  intros o Ho. cbn in Ho. destruct (existsb _ _ && _); [|discriminate]. destruct (build cc (scs p) ms_default) as [| |o1] eqn:Hb; try discriminate. injection Ho as <-.
  rewrite (build_st _ _ _ _ Hb). eexists. split; [reflexivity|]. split; [|reflexivity]. constructor; cbn; auto; unfold fits; cbn; lia.
Qed.

Lemma init_along : along [Method (OpSetPromise bdef)].
Proof.
  assert (R : rel true ms_default empty_db 0) by (constructor; cbn; auto; unfold fits; cbn; lia).
  apply (along_snoc [] _ (ms_set_promise ms_default bdef) (p_set_promise (mkPS empty_db 0) bdef)); try reflexivity; [|exact (rel_prom _ _ _ bdef R)].
  intros h1 h2 Hh. destruct h1; [|discriminate]. exists ms_default, (mkPS empty_db 0). auto.
Qed.
Lemma disk_rel cc scs p l s : good_config cc scs -> reaches cc scs l s -> all_steps h1h2 cc (init_sys cc scs) l -> all_steps (calm p) cc (init_sys cc scs) l ->
  exists h, disk_history cc scs p l s h /\ along h /\ forall o, nodes s p = Some o -> ms_comp (storage o) = ms_trim (storage o) /\
    exists d, run_calls per_call (mkPS empty_db 0) h = Some d /\ rel true (storage o) (p_db d) (p_next d) /\ run_calls mem_call ms_default h = Some (storage o).
Proof.
  intros (Hv & H0 & _) Hr Hh Hc. destruct (history_run cc Hv H0 scs p l G00 [] _ _ s (init_inv cc scs) (dh_start cc scs p) (init_agrees cc scs p) init_along Hh Hc Hr) as (G & h & HS & HD & HA & HB).
  exists h. split; [exact HD|]. split; [exact HB|]. intros o Ho. split; [|apply HA; exact Ho].
  assert (Hosp : osp s p = Some (o_sp o)) by (unfold osp; rewrite Ho; reflexivity). exact (st_comp _ _ _ _ (n_st _ _ _ _ (y_N _ _ _ HS p _ Hosp))).
Qed.

(** An AcceptSync that starts beyond the entries, and with no entries, moves the end of the log of the persistent
    storage. *)
Lemma beyond m d i n dec ss : rel true m d (p_next (mkPS d (DiskCalls.cnt m))) -> DiskCalls.cnt m < i ->
  forall from, fits from -> ms_trim m <= from <= DiskCalls.cnt m ->
  p_get_suffix (p_write (mkPS d (DiskCalls.cnt m)) [OpSetAround n; OpSetDecided dec; OpAppendOnPrefix i []; OpSetStopsign ss]) from = None.
Proof.
  intros HR Hi from Hf Hb. pose proof HR as [R1 R2 R3 R4 R5 R6 R7 R8 R9 R10]. unfold p_write. cbn [batch_ops batch_op batch_append_on_prefix length batch_append_entries p_next p_db]. unfold batch_append_on_prefix. rewrite Nat.add_0_r.
  destruct (Nat.ltb_spec i (DiskCalls.cnt m)); [lia|]. cbn [batch_append_entries length app].
  unfold p_get_suffix, p_get_entries. cbn [p_next p_db]. rewrite Nat.ltb_irrefl. cbn [orb]. destruct (Nat.leb_spec i from); [lia|].
  cbn [db_write fold_left db_do d_log]. rewrite R1, (seek_rows from (ms_log m) (ms_trim m)); [|exact R2|exact Hf|lia].
  unfold DiskCalls.cnt in *. remember (skipn (from - ms_trim m) (ms_log m)) as q eqn:Hq.
  assert (Hl : length q < i - from) by (subst q; rewrite skipn_length; lia). clear - Hl. revert Hl. generalize (i - from) as j. intros j. revert from j.
  induction q as [|x q IH]; intros from [|j] Hl; cbn in *; try lia; auto. rewrite IH by lia. reflexivity.
Qed.

(** C72.  In every execution of a cluster, every server can keep its log in the persistent storage.  [h] are the calls
    that it has made.  On the memory storage of the model they give the storage of the server.  After each one of them
    the persistent storage, opened on an empty directory, gives the same answers as the memory storage, and opening it
    again changes nothing.

    Missing: calls that synchronise or compact the log while a stop sign is in it (refuted below for AcceptSync), and
    indices beyond 64 bits, which the keys of the database cannot hold. *)
Theorem C72_persistent_servers_partial :
  forall cc scs, good_config cc scs ->
  forall l, all_steps h1h2 cc (init_sys cc scs) l ->
  forall p, all_steps (calm p) cc (init_sys cc scs) l ->
  forall s, reaches cc scs l s ->
  exists h, disk_history cc scs p l s h /\
  (forall h1 h2, h = h1 ++ h2 ->
    exists m d0 d, run_calls mem_call ms_default h1 = Some m /\ p_open empty_db = Some d0 /\ run_calls per_call d0 h1 = Some d /\
      same_answers m d /\ p_open (p_db d) = Some d) /\
  forall o, nodes s p = Some o -> run_calls mem_call ms_default h = Some (storage o).
Proof.
  intros cc scs Hg l Hh p Hc s Hr. destruct (disk_rel cc scs p l s Hg Hr Hh Hc) as (h & HD & HB & HA). exists h. split; [exact HD|].
  split.
  { intros h1 h2 Hh12. destruct (HB h1 h2 Hh12) as (m & d & A & B & C & D). exists m, (mkPS empty_db 0), d. split; [exact A|]. split; [reflexivity|]. split; [exact B|]. split; [destruct d; apply rel_answers; auto|].
    rewrite (rel_open _ _ _ C D). destruct d; reflexivity. }
  intros o Ho.
  destruct (HA o Ho) as (_ & d & _ & _ & C). exact C.
Qed.
End WithEntry.

(** ** Cases *)
Section Case.
Local Existing Instance plain.

Definition smallb (m : mstore) : bool := (N.of_nat (DiskCalls.cnt m) <? 2 ^ 64)%N.
Definition calmb (p : node_id) (s : sys) (a : action) : bool :=
  match action_event a with
  | Some (q, ev) => if q =? p then
      match nodes s p, event_call s p ev with
      | Some o, Some c => (negb (reshapes c) || match ms_ss (storage o) with None => true | Some _ => false end) && forallb smallb (crash_points o c)
      | _, _ => true end else true
  | None => true
  end.
Fixpoint calm_run (p : node_id) (s : sys) (l : list action) : bool :=
  match l with
  | [] => true
  | a :: r => calmb p s a && match exec_action cc3 s a with Some s' => calm_run p s' r | None => true end
  end.
Lemma calm_ok p l : forall s, calm_run p s l = true -> all_steps (calm p) cc3 s l.
Proof.
  induction l as [|a l IH]; cbn; intros s H; auto. apply andb_true_iff in H. destruct H as [H1 H2]. split; [|destruct (exec_action cc3 s a); auto].
  unfold calmb, calm in *. destruct (action_event a) as [[q ev]|]; auto. intros -> o c Ho Hc. rewrite Nat.eqb_refl, Ho, Hc in H1. apply andb_true_iff in H1. destruct H1 as [A B]. split.
  - intros Hr. rewrite Hr in A. cbn in A. destruct (ms_ss (storage o)); [discriminate|reflexivity].
  - rewrite forallb_forall in B. apply Forall_forall. intros m Hm. apply B in Hm. apply N.ltb_lt in Hm. exact Hm.
Qed.

(** Server 3 crashes in the middle of a call, takes part under a new leader, and all servers trim the log. *)
Definition sch_c72 : list cmd := [ Settle [1;2;3] 4; Call 2 (CTrim (Some 2)); Settle [1;2;3] 3; append 3 15; Settle [1;2;3] 4 ].
Definition acts_c72 := Eval vm_compute in acts_of cc3 sys_case2 sch_c72.
Definition sys_c72 := match run cc3 sys_case2 acts_c72 with Some s => s | None => ini end.
Example C72_case :
  good_config cc3 scs /\ all_steps h1h2 cc3 ini ((acts_case1 ++ acts_case2) ++ acts_c72) /\
  all_steps (calm 3) cc3 ini ((acts_case1 ++ acts_case2) ++ acts_c72) /\ reaches cc3 scs ((acts_case1 ++ acts_case2) ++ acts_c72) sys_c72 /\
  In (ACrash 3 (EDeliver 1 0) 1 (scs 3)) acts_case2 /\
  obs sys_c72 3 (fun o => (ms_comp (storage o), ms_get_suffix (storage o) 2, ms_dec (storage o))) = Some (2, Some ([13; 14; 15] : list (@T plain)), 5).
Proof.
  split; [exact good3|]. split; [apply h1h2_run; vm_compute; reflexivity|]. split; [apply calm_ok; vm_compute; reflexivity|].
  split; [eapply run_app_ok; [exact case_reach2|]; apply is_some_eta; vm_compute; reflexivity|]. split; [vm_compute; intuition|]. vm_compute. reflexivity.
Qed.

(** The execution of C08: a reconfiguration is decided, then server 2 asks for the log again.  The AcceptSync that it
    receives starts behind the stop sign. *)
Definition pre_c72 := Eval vm_compute in firstn 84 (acts_c08 ++ acts_c08').
Definition s84 := match run cc3 ini pre_c72 with Some s => s | None => ini end.
Definition sync84 : log_sync := mkSync None [] 2 (Some (mkSS cc_next None)).
Definition call84 : call := CHandle (MsgSP (mkPM 1 2 (MAcceptSync (mkB 1 1 0 1) (mkSeq 2 1) 2 sync84))).
Definition batch84 : list storage_op := [OpSetAround (mkB 1 1 0 1); OpSetDecided 2; OpAppendOnPrefix 2 []; OpSetStopsign (Some (mkSS cc_next None))].
Definition oo84 := Eval vm_compute in nodes s84 2.
Definition oo85 := Eval vm_compute in match oo84 with Some o => match exec o call84 with Ok (o', r) => Some (o', r) | Panic _ => None end | None => None end.
Definition s85 := match exec_action cc3 s84 (ADo 2 (EDeliver 1 0)) with Some s => s | None => ini end.

(** C72 without the condition on stop signs is false.  In this execution server 2 decides the entry 11 and a stop sign
    and then makes the calls [h].  The memory storage still has the entry.  The persistent storage believes that it has
    two entries, and [get_suffix] from index 0 returns an error, at which [create_log_sync] panics
    (sequence_paxos/mod.rs 416-424). *)
Theorem C72_persistent_servers_refuted :
  exists cc scs l p s o h d0 d,
    good_config cc scs /\ Forall fifo l /\ all_steps drained cc (init_sys cc scs) l /\ reaches cc scs l s /\ nodes s p = Some o /\
    disk_history cc scs p l s h /\ run_calls mem_call ms_default h = Some (storage o) /\
    p_open empty_db = Some d0 /\ run_calls per_call d0 h = Some d /\
    ms_log_len (storage o) = 1 /\ ms_get_suffix (storage o) 0 = Some [11 : @T plain] /\
    p_log_len d = Some 2 /\ p_get_suffix d 0 = None.
Proof.
  assert (R84 : reaches cc3 scs pre_c72 s84) by (apply is_some_eta; vm_compute; reflexivity).
  assert (E85 : exec_action cc3 s84 (ADo 2 (EDeliver 1 0)) = Some s85) by (apply is_some_eta; vm_compute; reflexivity).
  assert (Ho : nodes s84 2 = oo84) by (vm_compute; reflexivity). assert (Hc : event_call s84 2 (EDeliver 1 0) = Some call84) by (vm_compute; reflexivity).
  destruct (disk_rel cc3 scs 2 pre_c72 s84 good3 R84) as (h & HD & _ & HA); [apply h1h2_run; vm_compute; reflexivity|apply calm_ok; vm_compute; reflexivity|].
  unfold oo84 in Ho. match type of Ho with _ = Some ?o => set (o84 := o) in * end. destruct (HA o84 Ho) as (_ & d & A & B & C).
  assert (Hx : match oo85 with Some (o', r) => exec o84 call84 = Ok (o', r) | None => False end) by (vm_compute; reflexivity).
  unfold oo85 in Hx. match type of Hx with _ = Ok (?o, ?r) => set (o85 := o) in *; set (r85 := r) in * end.
  assert (Hn : nodes s85 2 = Some o85).
  { unfold s85. cbn [exec_action]. rewrite Ho, Hc, Hx. cbn [nodes]. unfold upd1. rewrite Nat.eqb_refl. reflexivity. }
  assert (Hi : issued (s_is (o_sp (start_call o84))) [WriteBatch batch84] (s_is (o_sp o85))).
  { change [WriteBatch batch84] with ([] ++ [WriteBatch batch84]). eapply id_snoc; [apply id_nil|]. eapply (is_sync _ (mkB 1 1 0 1) 2 (Some sync84)); [vm_compute; reflexivity|]. exists []. split; reflexivity. }
  pose proof B as [R1 R2 R3 R4 R5 R6 R7 R8 R9 R10]. specialize (R4 (or_introl eq_refl)). destruct d as [d nx]. cbn [p_db p_next] in *. change (ms_trim (storage o84) + length (ms_log (storage o84))) with 1 in R4. subst nx.
  exists cc3, scs, (pre_c72 ++ [ADo 2 (EDeliver 1 0)]), 2, s85, o85, (h ++ [WriteBatch batch84]), (mkPS empty_db 0), (p_write (mkPS d 1) batch84).
  split; [exact good3|]. split; [apply fifob_ok; vm_compute; reflexivity|]. split; [apply drained_run_ok; vm_compute; reflexivity|].
  split; [eapply run_app_ok; [exact R84|]; cbn [run]; rewrite E85; reflexivity|]. split; [exact Hn|]. split; [exact (dh_call cc3 scs 2 pre_c72 s84 h (EDeliver 1 0) s85 o84 call84 o85 r85 _ HD E85 Ho Hc Hx Hi)|].
  split; [rewrite run_calls_app, C; reflexivity|]. split; [reflexivity|]. split; [rewrite run_calls_app, A; reflexivity|]. split; [reflexivity|]. split; [reflexivity|]. split.
  - unfold p_log_len, p_compacted, p_write, batch84. cbn. rewrite R8. reflexivity.
  - apply (beyond (storage o84) d 2 _ 2 _ B); [cbn; lia|unfold fits; cbn; lia|cbn; lia].
Qed.
End Case.
Print Assumptions C72_persistent_servers_partial.
Print Assumptions C72_persistent_servers_refuted.
