(** * One call of a server of a cluster on the storage back-end *)
From Coq Require Import List Arith NArith Bool Lia.
Import ListNotations.
From Verif Require Import Types Config MemStore Internal LeaderState SeqPaxos Ble Omni System Basics Spec Persist PropPersist Prims DiskCalls
  Ghost GhostOps Inv StoreOps SyncOps Op FollowerOps RecvOps LeadMaj SysInv.

Section WithCtx.
Context {E : EntryT} {X : octx}.
Notation cc := xcc.
Notation p := xp.

(** ** The index of a synchronisation *)
Lemma acov_le G s k : Op G s -> ms_ss (i_st (s_is s)) = None -> acov G p (arnd (i_st (s_is s))) k -> k <= DiskCalls.cnt (i_st (s_is s)).
Proof.
  intros HO Hs Ha. destruct (st_arnd _ _ _ _ (n_st _ _ _ _ (ok_N _ _ _ HO))) as (c & Hc & Hcc). unfold acov in Ha. rewrite Hc, Hs in Ha. cbn in Ha. rewrite (Hcc Hs) in Ha.
  destruct Ha as [Ha|Ha]; [exact Ha|discriminate].
Qed.
Lemma follower_sync G s from n sq d sy : Op G s -> Hd G s from (MAcceptSync n sq d sy) -> gP G p = n -> sy_snap sy = None -> ms_ss (i_st (s_is s)) = None ->
  sy_idx sy <= DiskCalls.cnt (i_st (s_is s)).
Proof.
  intros HO HH HP Hsn Hs. destruct (hd_m _ _ _ _ HH) as [Hne (Hpid & c & ss & Hsy & HI & Hdec & Hdc)]. destruct Hsy as (ln & Hln & Hsuf & Hshape & Hbase).
  pose proof (ok_G _ _ _ HO) as HG. pose proof (ok_N _ _ _ HO) as HN. destruct (stinv_M cc _ _ _ HG (n_st _ _ _ _ HN)) as [la Hla].
  pose proof (op_arnd_le _ _ _ HO) as Hal. rewrite HP in Hal. apply (acov_le G s); auto.
  destruct (base_use cc xHv xH0 G p n _ (arnd (i_st (s_is s))) la HG (Hbase Hsn) Hla Hal) as [X1 X2]; auto.
  - apply (st_max _ _ _ _ (n_st _ _ _ _ HN)).
  - destruct (st_arnd _ _ _ _ (n_st _ _ _ _ HN)) as [c0 [Hc0 _]]. congruence.
  - congruence.
Qed.
Lemma leader_sync G s pr from ls maj : Op G s -> s_role s = Leader -> s_phase s = PhPrepare -> minv cc G from p (MPromise pr) -> beq (pr_n pr) (l_n (s_ls s)) = true ->
  ls_set_promise (s_ls s) pr from true = Some (ls, maj) -> ms_ss (i_st (s_is s)) = None ->
  forall sy, l_maxsync ls = Some sy -> sy_snap sy = None -> sy_idx sy <= DiskCalls.cnt (i_st (s_is s)).
Proof.
  intros HO Hr Hph [Hf [Hpid Hpr]] Hn Hls Hss sy Hsy Hsn. apply beq_spec in Hn. apply set_promise_spec in Hls. cbn zeta in Hls. destruct Hls as (_ & _ & _ & _ & _ & _ & _ & _ & A9).
  pose proof (ok_N _ _ _ HO) as HN. pose proof (ok_G _ _ _ HO) as HG. pose proof (n_role _ _ _ _ HN) as HR. rewrite Hr, Hph in HR.
  destruct Hpr as (_ & R2 & R3 & R4 & R5). rewrite Hn in R5. destruct (lp_max _ _ _ _ HR) as (q0 & M1 & M2 & M3). pose proof (lp_M _ _ _ _ HR) as HM.
  destruct (stinv_M cc _ _ _ HG (n_st _ _ _ _ HN)) as [la Hla]. rewrite (op_arnd_eq _ _ _ HO) in M2.
  assert (Use : forall q na c ss, gA G q na = Some (c, ss) -> syncok cc G p na sy c ss -> ble_ (arnd (i_st (s_is s))) na -> sy_idx sy <= DiskCalls.cnt (i_st (s_is s))).
  { intros q na c ss Hg (l0 & Y3 & _ & _ & Y6) Hle. apply (acov_le G s); auto. destruct (base_use cc xHv xH0 G p na (sy_idx sy) (arnd (i_st (s_is s))) la) as [B1 B2]; auto.
    - intros b Hb. apply (st_max _ _ _ _ (n_st _ _ _ _ HN)); auto.
    - destruct (st_arnd _ _ _ _ (n_st _ _ _ _ HN)) as [c0 [Hc0 _]]. congruence.
    - congruence. }
  cbn [andb] in A9. destruct (meta_gt _ (l_maxmeta (s_ls s))) eqn:Hg; destruct A9 as [_ A9]; rewrite Hsy in A9.
  - destruct R5 as [[_ R5]|[R5 R6]]; [exfalso; destruct (acov_M _ _ _ _ _ HG R5) as [l [Hl _]]; congruence|]. destruct R6 as [R6|R6]; [congruence|]. rewrite <- A9 in R6. destruct R6 as (c & ss & Y1 & Y2).
    rewrite Hpid, Hn in *. eapply (Use from (pr_na pr)); eauto. apply meta_gt_true in Hg. cbn in Hg. eapply ble_trans; [|destruct Hg as [Hg|[Hg _]]; [left; exact Hg|right; symmetry; exact Hg]].
    destruct M2 as [M2|[M2 _]]; [left; auto|right; auto].
  - rewrite <- A9 in M3. destruct M3 as (c & ss & Y1 & Y2). eapply Use; eauto. destruct M2 as [M2|[M2 _]]; [left; auto|right; auto].
Qed.

(** ** Handlers *)
Definition dres (i0 : istore) (r : res sp) : Prop :=
  match r with
  | Ok s => Forall small (i_tr (s_is s)) -> exists k, fissued i0 k (s_is s)
  | Panic tr => Forall small tr -> exists k is, fissued i0 k is /\ i_tr is = tr
  end.
Lemma rec_is (s : sp) q : s_is (reconnected s q) = s_is s.
Proof. unfold reconnected. destruct (q =? s_pid s); auto. destruct (q =? sp_leader s); reflexivity. Qed.
Lemma cvb_is s n : s_is (fst (check_valid_ballot s n)) = s_is s.
Proof. unfold check_valid_ballot. destruct (bcmp _ _); cbn [fst]; auto. apply rec_is. Qed.
Lemma fwd_is s : s_is (forward_buffered_proposals s) = s_is s.
Proof.
  unfold forward_buffered_proposals. destruct (s_bprops s); auto. unfold forward_proposals. match goal with |- context[if ?b then _ else _] => destruct b end; auto.
Qed.
Lemma d_same s i0 : s_is s = i0 -> dres i0 (Ok s).
Proof. intros <- _. exists []. constructor. Qed.
Lemma sync_small s n d sy s' a : i_tr s = [] -> sync_log s n d sy = Ok (s', a) -> Forall small (i_tr s') -> small (i_st s').
Proof. intros Ht He F. rewrite (sync_tr _ _ _ _ _ _ He), Ht in F. inversion F. auto. Qed.
Lemma acceptsync_d G s n sq d sy from : Op G s -> Hd G s from (MAcceptSync n sq d sy) -> ms_ss (i_st (s_is s)) = None -> i_tr (s_is s) = [] ->
  dres (s_is s) (handle_acceptsync s n sq d sy from).
Proof.
  intros HO HH Hs Ht. destruct (hd_m _ _ _ _ HH) as [_ (Hpid & _)]. destruct (numb_wf _ _ _ _ n sq HO HH eq_refl Hpid) as [Hw Hpp]. unfold handle_acceptsync. destruct (check_valid_ballot s n) as [s0 v] eqn:Hcv. pose proof (cvb_is s n) as Hi. rewrite Hcv in Hi. cbn [fst] in Hi.
  destruct (cvb_ok _ _ _ _ _ HO Hw Hpp Hcv) as [(-> & -> & HP)|(-> & _)]; [|apply d_same; exact Hi]. cbn [andb]. destruct (_ && _); [|apply d_same; reflexivity].
  change (s_is (set_cprom s None)) with (s_is s). destruct (sync_log (s_is s) n d (Some sy)) as [[is acc]|tr] eqn:He; cbn [bind].
  - match goal with |- dres _ (Ok ?x) => assert (Hx : s_is x = is) end.
    { cbn [push set_lam set_cseq set_state s_is set_out]. destruct (i_ss (s_is (set_is (set_cprom s None) is))); [reflexivity|]. rewrite fwd_is. reflexivity. }
    unfold dres. rewrite Hx. intros F. eapply fi_step; [constructor|]. eapply f_sync; [exact He| |eapply sync_small; eauto].
    intros x Hx0 Hx1. injection Hx0 as <-. eapply follower_sync; eauto.
  - apply sync_panic in He. subst tr. intros _. exists [], (s_is s). split; [constructor|reflexivity].
Qed.

Notation Wn i0 := (Wg (fun _ _ _ => False) (fun _ => True) False False False True True (fun _ => True) (fun _ => True) i0).
Lemma maj_d s : i_tr (s_is s) = [] -> (forall sy, l_maxsync (s_ls s) = Some sy -> sy_snap sy = None -> sy_idx sy <= DiskCalls.cnt (i_st (s_is s))) ->
  dres (s_is s) (handle_majority_promises s).
Proof.
  intros Ht Hm. unfold handle_majority_promises, take_max_promise_sync. cbn zeta.
  set (s1 := set_ls s (l_set_max (s_ls s) (l_maxmeta (s_ls s)) None)). change (s_is s1) with (s_is s).
  destruct (sync_log _ _ _ _) as [[is acc]|tr] eqn:Hsy.
  2: { apply sync_panic in Hsy. subst tr. intros _. exists [], (s_is s). split; [constructor|reflexivity]. }
  cbn [bind].
  assert (H2 : Wn is false (set_is s1 is)). { constructor; cbn; try (intros; left; exact I); auto; constructor. }
  match goal with |- dres _ (let '(_, _) := ?e in _) => assert (Hx : Wn is false (fst e)); [|destruct e as [s3 acc3]; cbn [fst] in Hx] end.
  { destruct (accepted_reconfiguration (set_is s1 is)) eqn:Hr; [exact H2|]. apply nreconf in Hr.
    match goal with |- Wn is false (fst (let '(_, _) := ?e in _)) => assert (Hx : Wn is false (fst e) /\ i_ss (s_is (fst e)) = None); [|destruct e as [s3 acc3]; cbn [fst] in Hx] end.
    { destruct (s_bprops _) as [|e es]; [auto|].
      pose proof (p_awb (fun _ _ _ => False) (fun _ => True) False False False True True (fun _ => True) is (s_is (set_bprops (set_is s1 is) [])) (e :: es) (w_is _ _ _ _ _ _ _ _ _ _ _ _ H2)) as Ha.
      assert (Hn : i_ss (fst (append_entries_without_batching (s_is (set_bprops (set_is s1 is) [])) (e :: es))) = None) by exact Hr.
      destruct (append_entries_without_batching _ _) as [is2 acc2]. cbn [fst] in *. split; [apply ws_is; [apply ws_bp; exact H2|exact Ha]|exact Hn]. }
    destruct Hx as [Hx Hn]. destruct (s_bss s3) as [ss|]; [|exact Hx]. cbn [fst]. apply ws_is; [apply ws_bss; exact Hx|]. apply p_stop; auto. apply (w_is _ _ _ _ _ _ _ _ _ _ _ _ Hx). }
  match goal with |- dres _ ?r => assert (Hw : wokg (fun _ _ _ => False) (fun _ => True) False False False True True (fun _ => True) (fun _ => True) is true r) end.
  { assert (H4 : Wn is true (set_state s3 Leader PhAccept)) by (apply (w_true _ _ _ _ _ _ _ _ _ _ false); apply ws_state; exact Hx).
    apply lift_w; auto. intros ls Hls. assert (H5 : Wn is true (set_ls (set_state s3 Leader PhAccept) ls)) by (eapply w_setacc; eauto).
    apply lift_w; auto. intros l _. apply for_each_w; auto. intros. apply send_accsync_w; auto. }
  assert (K : forall x, prims (fun _ _ _ => False) (fun _ => True) False False False True True (fun _ => True) is x -> Forall small (i_tr x) -> exists k, fissued (s_is s) k x).
  { intros x Hp F. assert (F1 : Forall small (i_tr is)). { rewrite Forall_forall in *. intros st Hst. apply F. clear - Hp Hst. induction Hp as [y|a b c Hp IH Hs]; auto. specialize (IH Hst). destruct (prim_tr _ _ _ _ _ _ _ _ _ _ Hs) as [->| ->]; auto. apply in_or_app. auto. }
    pose proof (sync_small _ _ _ _ _ _ Ht Hsy F1) as S1. destruct (prims_plain _ _ _ _ _ _ Hp S1 F) as [k2 K2].
    destruct (fi_step (s_is s) [] (s_is s) is) as [k1 K1]; [constructor|eapply f_sync; eauto|]. exists (k1 ++ k2). eapply fi_trans; eauto. }
  match goal with |- dres _ ?r => destruct r as [s4|tr] end; cbn [wokg dres] in *.
  - intros F. apply K; auto. apply (w_is _ _ _ _ _ _ _ _ _ _ _ _ Hw).
  - intros F. destruct Hw as (x & Hp & <-). destruct (K x Hp F) as [k Hk]. eauto.
Qed.
Lemma promise_d G s pr from : Op G s -> s_role s = Leader -> s_phase s = PhPrepare -> minv cc G from p (MPromise pr) -> ms_ss (i_st (s_is s)) = None -> i_tr (s_is s) = [] ->
  dres (s_is s) (handle_promise_prepare s pr from).
Proof.
  intros HO Hr Hph Hm Hs Ht. unfold handle_promise_prepare. destruct (beq _ _) eqn:Hb; [|apply d_same; reflexivity].
  destruct (ls_set_promise (s_ls s) pr from true) as [[ls maj]|] eqn:Hl; cbn [lift bind]; [|intros _; exists [], (s_is s); split; [constructor|reflexivity]].
  destruct maj; [|apply d_same; reflexivity]. apply (maj_d (set_ls s ls)); [exact Ht|exact (leader_sync G s pr from ls true HO Hr Hph Hm Hb Hl Hs)].
Qed.
End WithCtx.

Section Cluster.
Context {E : EntryT}.
Context (cc : cluster_config) (Hv : cluster_validate cc = true) (H0 : ~ In 0 (cc_nodes cc)).
Notation SysInv := (SysInv cc).

(** The calls that can synchronise or compact the log: [trim], [snapshot], and the messages AcceptSync, Promise
    and Compaction. *)
Definition reshapes (c : call) : bool :=
  match c with
  | CTrim _ | CSnapshot _ _ => true
  | CHandle (MsgSP m) => match pm_msg m with MAcceptSync _ _ _ _ | MPromise _ | MCompaction _ => true | _ => false end
  | _ => false
  end.
Lemma call_d G s p ev o c (HS : SysInv G s) : nodes s p = Some o -> event_call s p ev = Some c -> h12 s p ev ->
  (reshapes c = true -> ms_ss (storage o) = None) -> Forall small (crash_points o c) ->
  match exec o c with
  | Ok (o', _) => exists k, fissued (s_is (o_sp (start_call o))) k (s_is (o_sp o'))
  | Panic tr => exists k is, fissued (s_is (o_sp (start_call o))) k is /\ i_tr is = tr
  end.
Proof.
  intros Ho Hc Hh Hss HF. unfold crash_points in HF. inversion HF as [|x l HF0 HF1]. subst x l. clear HF.
  set (i0 := s_is (o_sp (start_call o))) in *. assert (Hi : i_tr i0 = [] /\ i_st i0 = storage o) by (split; reflexivity). destruct Hi as [Hit Hist].
  assert (S0 : small (i_st i0)) by exact HF0.
  set (Z := sctx cc Hv H0 G s p (eni s p ev) nothing (upto 0) HS).
  assert (Hosp : osp s p = Some (o_sp o)) by (unfold osp; rewrite Ho; reflexivity).
  pose proof (sctx_op cc Hv H0 G s p (eni s p ev) nothing (upto 0) HS _ Hosp (fun a _ => eni_sub s p ev a) (roomt_le _ _ _ _ _ (Nat.le_add_r _ 0) (roomt_nothing G _ CTick))) as HO. fold Z in HO.
  pose proof (sctx_callok cc Hv H0 G s p ev (event_net s p ev) nothing (upto 0) HS o c Ho Hc Hh (or_introl eq_refl) (roomt_nothing G _ c)) as HC.
  change (trless (o_sp o)) with (o_sp (start_call o)) in *.
  assert (Plain : forall r : res (omni * ret), woko (fun _ _ _ => False) (fun _ => True) False False False True True (fun _ => True) (fun _ => True) i0 r ->
    Forall small (match r with Ok (o', _) => i_tr (s_is (o_sp o')) | Panic tr => tr end) ->
    match r with Ok (o', _) => exists k, fissued i0 k (s_is (o_sp o')) | Panic tr => exists k is, fissued i0 k is /\ i_tr is = tr end).
  { intros [[o' r]|tr] Hw F; cbn [woko] in Hw.
    - apply (prims_plain (fun _ => True) True True (fun _ => True)); auto. apply (w_is _ _ _ _ _ _ _ _ _ _ _ _ Hw).
    - destruct Hw as (x & Hp & <-). destruct (prims_plain _ _ _ _ _ _ Hp S0 F) as [k Hk]. eauto. }
  assert (Tight : reshapes c = true -> tight i0).
  { intros Hr. specialize (Hss Hr). pose proof (y_N _ _ _ HS p _ Hosp) as HN. pose proof (n_coh _ _ _ _ HN) as Hco. pose proof (n_st _ _ _ _ HN) as Hst. split.
    - unfold i_comp. change (i_ca i0) with (i_ca (s_is (o_sp o))). rewrite (co_comp _ _ Hco). apply (st_comp _ _ _ _ Hst).
    - unfold i_dec. change (i_ca i0) with (i_ca (s_is (o_sp o))). rewrite (co_dec _ _ Hco). destruct (st_cov _ _ _ _ Hst) as [Y|Y]; [exact Y|]. destruct Y. exact Hss. }
  assert (Comp : forall r : res (omni * ret), tight i0 -> woko (fun _ _ _ => False) (fun _ => True) False True True False False (fun _ => False) (fun _ => True) i0 r ->
    Forall small (match r with Ok (o', _) => i_tr (s_is (o_sp o')) | Panic tr => tr end) ->
    match r with Ok (o', _) => exists k, fissued i0 k (s_is (o_sp o')) | Panic tr => exists k is, fissued i0 k is /\ i_tr is = tr end).
  { intros [[o' r]|tr] Ht Hw F; cbn [woko] in Hw.
    - apply (prims_compact (fun _ => True)); auto. apply (w_is _ _ _ _ _ _ _ _ _ _ _ _ Hw).
    - destruct Hw as (x & Hp & <-). destruct (prims_compact _ _ _ Hp Ht S0 F) as [k Hk]. eauto. }
  assert (W0 : forall AS LD TR SN SSP DC PR, Wg AS (fun _ => True) LD TR SN SSP DC PR (fun _ => True) i0 false (o_sp (start_call o))).
  { intros. constructor; try (intros; left; exact I); auto; constructor. }
  unfold exec in *. destruct (reshapes c) eqn:Hr.
  2: { apply Plain; auto. apply exec_call_w; auto. destruct c as [e|c0 meta| |i|i l|q| |q|[m|m]]; cbn in *; auto; try discriminate. destruct (pm_msg m); cbn in *; auto; discriminate. }
  specialize (Hss eq_refl). specialize (Tight eq_refl).
  destruct c as [e|c0 meta| |i|i l|q| |q|[m|m]]; cbn [reshapes] in Hr; try discriminate.
  - apply Comp; auto. apply exec_call_w; auto. exact I.
  - apply Comp; auto. apply exec_call_w; auto. exact I.
  - destruct (pm_msg m) as [n|n d na a|pr|n q d sy|n q d es|n a|n|n q d|es|cp|n q ss|ss] eqn:Hm; try discriminate.
    + destruct HC as [_ HC]. destruct (HC m eq_refl) as [HH _]. rewrite Hm in HH. cbn [exec_call handle_incoming] in *. unfold sp_handle in *. rewrite Hm in *.
      assert (D : dres i0 (match s_role (o_sp (start_call o)), s_phase (o_sp (start_call o)) with
          | Leader, PhPrepare => handle_promise_prepare (o_sp (start_call o)) pr (pm_from m)
          | Leader, PhAccept => handle_promise_accept (o_sp (start_call o)) pr (pm_from m)
          | _, _ => Ok (o_sp (start_call o)) end)).
      { destruct (s_role (o_sp (start_call o))) eqn:Hro; [apply d_same; reflexivity|]. destruct (s_phase (o_sp (start_call o))) eqn:Hph; try (apply d_same; reflexivity).
        - eapply (@promise_d E Z G); eauto. apply (hd_m _ _ _ _ HH).
        - pose proof (promise_accept_w _ _ _ _ _ _ _ _ _ i0 (o_sp (start_call o)) pr (pm_from m) (w_true _ _ _ _ _ _ _ _ _ _ _ _ (W0 (fun _ _ _ => False) False False False True True (fun _ => True)))) as Hw.
          destruct (handle_promise_accept _ _ _) as [s'|tr]; cbn [wokg dres] in *; intros F.
          + eapply prims_plain; eauto. apply (w_is _ _ _ _ _ _ _ _ _ _ _ _ Hw).
          + destruct Hw as (x & Hp & <-). destruct (prims_plain _ _ _ _ _ _ Hp S0 F) as [k Hk]. eauto. }
      match type of D with dres _ ?r => destruct r as [s'|tr] end; cbn in *; auto.
    + destruct HC as [_ HC]. destruct (HC m eq_refl) as [HH _]. rewrite Hm in HH. cbn [exec_call handle_incoming] in *. unfold sp_handle in *. rewrite Hm in *.
      pose proof (@acceptsync_d E Z G (o_sp (start_call o)) n q d sy (pm_from m) HO HH Hss Hit) as D. fold i0 in D.
      destruct (handle_acceptsync _ _ _ _ _ _) as [s'|tr]; cbn in *; auto.
    + apply Comp; auto. apply exec_call_w; auto. cbn. rewrite Hm. destruct cp; exact I.
Qed.
End Cluster.
