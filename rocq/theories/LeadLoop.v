(** * Loops over the promised followers *)
From Coq Require Import List Arith Bool Lia.
Import ListNotations.
From Verif Require Import Types Config MemStore Internal LeaderState SeqPaxos Basics Ghost GhostOps Inv StoreOps SyncOps Op LeadLinks LeadSend.

Section WithCtx.
Context {E : EntryT} {X : octx}.
Notation cc := xcc.
Notation p := xp.
Notation oth := xoth.
Notation nin := xnin.
Notation nout := xnout.
Notation nds := (nds cc).

(** What the loop bodies do not change. *)
Record lfr (G : ghost) (s : sp) (G' : ghost) (s' : sp) : Prop := {
  f_is : s_is s' = s_is s;
  f_role : s_role s' = s_role s;
  f_phase : s_phase s' = s_phase s;
  f_pid : s_pid s' = s_pid s;
  f_peers : s_peers s' = s_peers s;
  f_ls : lsame (s_ls s) (s_ls s');
  f_le : gle G G';
  f_M : gM G' = gM G;
  f_I : gI G' = gI G;
  f_C : gC G' = gC G;
  f_P : gP G' = gP G;
  f_A : gA G' = gA G
}.
Lemma lfr_refl G s : lfr G s G s.
Proof. constructor; auto; [apply lsame_refl|apply gle_refl]. Qed.
Lemma lfr_trans G s G1 s1 G2 s2 : lfr G s G1 s1 -> lfr G1 s1 G2 s2 -> lfr G s G2 s2.
Proof. intros [] []. constructor; try congruence; [eapply lsame_trans; eauto|eapply gle_trans; eauto]. Qed.

(** The result of a loop body for [b]. *)
Definition body (G : ghost) (s : sp) (K : node_id -> mode) (r : res sp) : Prop :=
  match r with
  | Ok s' => exists G', glp p G G' /\ OpK G' s' K /\ lfr G s G' s'
  | Panic tr => Forall Safe tr
  end.

Lemma lfr_promd G s G' s' b : lfr G s G' s' -> promd s b -> promd s' b.
Proof. intros H. unfold promd. rewrite (lsm_proms _ _ (f_ls _ _ _ _ H)). auto. Qed.
Lemma lfr_promd' G s G' s' b : lfr G s G' s' -> promd s' b -> promd s b.
Proof. intros H. unfold promd. rewrite (lsm_proms _ _ (f_ls _ _ _ _ H)). auto. Qed.

Lemma loop_ok (f : sp -> node_id -> res sp) (k0 k1 : mode) (I : ghost -> sp -> Prop) :
  (forall G s G' s', lfr G s G' s' -> I G s -> I G' s') ->
  (forall G s K b, OpK G s K -> s_role s = Leader -> s_phase s = PhAccept -> I G s -> b <> p -> promd s b -> K b = k0 ->
     body G s (kset K b k1) (f s b)) ->
  forall ps G s K, NoDup ps -> (forall b, In b ps -> b <> p /\ promd s b /\ K b = k0) -> OpK G s K ->
    s_role s = Leader -> s_phase s = PhAccept -> I G s ->
    match for_each s ps f with
    | Ok s' => exists G' K', glp p G G' /\ OpK G' s' K' /\ lfr G s G' s' /\
        (forall b, In b ps -> K' b = k1) /\ (forall b, ~ In b ps -> K' b = K b)
    | Panic tr => Forall Safe tr
    end.
Proof.
  intros HI Hf. induction ps as [|b ps IH]; intros G s K Hnd Hps HO Hr Hph Hi; cbn [for_each].
  - exists G, K. split; [apply glp_refl|]. split; auto. split; [apply lfr_refl|]. split; [intros b []|auto].
  - inversion Hnd as [|? ? Hnb Hnd']; subst. destruct (Hps b (or_introl eq_refl)) as (B1 & B2 & B3).
    pose proof (Hf G s K b HO Hr Hph Hi B1 B2 B3) as H. unfold body in H.
    destruct (f s b) as [s1|tr]; cbn; [|exact H]. destruct H as (G1 & L1 & O1 & F1).
    assert (Hps1 : forall c, In c ps -> c <> p /\ promd s1 c /\ kset K b k1 c = k0).
    { intros c Hc. destruct (Hps c (or_intror Hc)) as (C1 & C2 & C3). split; auto. split; [eapply lfr_promd; eauto|].
      unfold kset. destruct (Nat.eqb_spec c b) as [->|]; [contradiction|auto]. }
    assert (Hr1 : s_role s1 = Leader) by (rewrite (f_role _ _ _ _ F1); auto).
    assert (Hph1 : s_phase s1 = PhAccept) by (rewrite (f_phase _ _ _ _ F1); auto).
    pose proof (IH G1 s1 (kset K b k1) Hnd' Hps1 O1 Hr1 Hph1 (HI _ _ _ _ F1 Hi)) as H.
    destruct (for_each s1 ps f) as [s2|tr]; [|exact H]. destruct H as (G2 & K2 & L2 & O2 & F2 & P1 & P2).
    exists G2, K2. split; [eapply glp_trans; eauto|]. split; auto. split; [eapply lfr_trans; eauto|]. split.
    + intros c [<-|Hc]; auto. rewrite P2 by auto. unfold kset. rewrite Nat.eqb_refl. reflexivity.
    + intros c Hc. cbn in Hc. rewrite P2 by tauto. unfold kset. destruct (Nat.eqb_spec c b) as [->|]; [tauto|auto].
Qed.

Lemma ploop_ok (f : sp -> node_id -> res sp) (k0 k1 : mode) (I : ghost -> sp -> Prop) G s :
  (forall G s G' s', lfr G s G' s' -> I G s -> I G' s') ->
  (forall G s K b, OpK G s K -> s_role s = Leader -> s_phase s = PhAccept -> I G s -> b <> p -> promd s b -> K b = k0 ->
     body G s (kset K b k1) (f s b)) ->
  OpK G s (fun _ => k0) -> s_role s = Leader -> s_phase s = PhAccept -> I G s ->
  body G s (fun _ => k1) (ps <- lift s (get_promised_followers (s_ls s)) ;; for_each s ps f).
Proof.
  intros HI Hf HO Hr Hph Hi. destruct (get_promised_followers (s_ls s)) as [ps|] eqn:Hps; cbn; [|apply (ok_tr _ _ _ HO)].
  apply gpf_spec in Hps. destruct Hps as [Hnd Hin].
  pose proof (n_role _ _ _ _ (ok_N _ _ _ HO)) as HR. rewrite Hr, Hph in HR. rewrite (la_pid _ _ _ _ HR) in Hin.
  assert (H1 : forall b, In b ps -> b <> p /\ promd s b /\ (fun _ : node_id => k0) b = k0).
  { intros b Hb. apply Hin in Hb. destruct Hb as [Hb1 Hb2]. split; auto. }
  pose proof (loop_ok f k0 k1 I HI Hf ps G s (fun _ => k0) Hnd H1 HO Hr Hph Hi) as H. unfold body.
  destruct (for_each s ps f) as [s'|tr]; [|exact H]. destruct H as (G' & K' & L & O' & F & P1 & P2).
  exists G'. split; auto. split; auto. eapply op_mode; [exact O'|]. intros b Hb _ _ Hpd. left. symmetry. apply P1. apply Hin.
  split; auto. apply (lfr_promd' _ _ _ _ _ F Hpd).
Qed.

(** ** Numbers *)
Lemma next_seq_spec l b l' sq' : next_seq_num l b = Some (l', sq') -> exists sq, vget (l_seqs l) b = Some sq /\
  sq' = mkSeq (sq_sess sq) (sq_ctr sq + 1) /\ lsame l l' /\ l_accmeta l' = l_accmeta l /\
  (forall q, vget (l_seqs l') q = if q =? b then Some sq' else vget (l_seqs l) q).
Proof.
  unfold next_seq_num. destruct (vget (l_seqs l) b) as [sq|] eqn:Hg; [|discriminate].
  destruct (vset (l_seqs l) b _) as [v|] eqn:Hs; cbn; [|discriminate]. intros H. injection H as <- <-.
  exists sq. split; auto. split; auto. split; [constructor; reflexivity|]. split; [reflexivity|].
  intros q. cbn. apply (vget_vset _ _ _ _ q Hs).
Qed.
Lemma inc_sess_spec l b l' : increment_seq_num_session l b = Some l' -> exists sq, vget (l_seqs l) b = Some sq /\
  lsame l l' /\ l_accmeta l' = l_accmeta l /\
  (forall q, vget (l_seqs l') q = if q =? b then Some (mkSeq (sq_sess sq + 1) 0) else vget (l_seqs l) q).
Proof.
  unfold increment_seq_num_session. destruct (vget (l_seqs l) b) as [sq|] eqn:Hg; [|discriminate].
  destruct (vset (l_seqs l) b _) as [v|] eqn:Hs; cbn; [|discriminate]. intros H. injection H as <-.
  exists sq. split; auto. split; [constructor; reflexivity|]. split; [reflexivity|].
  intros q. cbn. apply (vget_vset _ _ _ _ q Hs).
Qed.
Lemma set_accmeta_spec l b i l' : set_latest_accept_meta l b i = Some l' ->
  lsame l l' /\ l_seqs l' = l_seqs l /\
  (forall q, vget (l_accmeta l') q = if q =? b then Some (option_map (fun x => (l_n l, x)) i) else vget (l_accmeta l) q).
Proof.
  unfold set_latest_accept_meta. destruct (vset (l_accmeta l) b _) as [v|] eqn:Hs; cbn; [|discriminate]. intros H. injection H as <-.
  split; [constructor; reflexivity|]. split; [reflexivity|]. intros q. cbn. apply (vget_vset _ _ _ _ q Hs).
Qed.
Lemma spred_next sq : spred (mkSeq (sq_sess sq) (sq_ctr sq + 1)) = sq.
Proof. destruct sq as [a b]. unfold spred. cbn. f_equal. lia. Qed.
Lemma slt_next sq : slt sq (mkSeq (sq_sess sq) (sq_ctr sq + 1)).
Proof. unfold slt. cbn. lia. Qed.

(** The cached message. *)
Lemma accdec_cases G s K b : OpK G s K -> s_role s = Leader -> s_phase s = PhAccept -> b <> p ->
  match get_latest_accdec s b with
  | None => True
  | Some None => vget (l_accmeta (s_ls s)) b = Some None
  | Some (Some i) => exists sq d es, vget (l_accmeta (s_ls s)) b = Some (Some (l_n (s_ls s), i)) /\
      nth_error (s_out s) i = Some (mkPM p b (MAcceptDecide (l_n (s_ls s)) sq d es)) /\
      (promd s b -> match K b with
        | Norm => ~ ssset G (l_n (s_ls s)) -> vget (l_seqs (s_ls s)) b = Some sq
        | Old _ => vget (l_seqs (s_ls s)) b = Some sq
        | Fresh => False end)
  end.
Proof.
  intros HO Hr Hph Hb. unfold get_latest_accdec, get_latest_accept_meta.
  destruct (vget (l_accmeta (s_ls s)) b) as [[[n i]|]|] eqn:Hg; auto.
  destruct (ok_am _ _ _ HO b Hb Hr Hph n i Hg) as [-> (sq & d & es & B1 & B2)]. rewrite beq_refl, B1. cbn.
  exists sq, d, es. split; auto.
Qed.

Lemma la_mlen G s : LeadAcc cc G p s -> gM G (l_n (s_ls s)) <> None.
Proof. intros H. destruct (la_M _ _ _ _ H) as (l & Hl & _). congruence. Qed.

(** ** [send_acceptdecide] *)
Definition ents_at (G : ghost) (n : ballot) (k : nat) (es : list T) : Prop :=
  forall l, gM G n = Some l -> forall j e, nth_error es j = Some e -> at_ l (k + j) = Some (Ent e).

Lemma accdec_to_ok dec es k G s K b :
  OpK G s K -> s_role s = Leader -> s_phase s = PhAccept ->
  (mlen G (l_n (s_ls s)) = k + length es /\ ents_at G (l_n (s_ls s)) k es /\ decok cc G (l_n (s_ls s)) dec) ->
  b <> p -> promd s b -> K b = Old k ->
  body G s (kset K b (Old (k + length es))) (send_acceptdecide_to dec es s b).
Proof.
  intros HO Hr Hph (Hlen & Hat & Hdec) Hb Hpd HK. unfold send_acceptdecide_to.
  pose proof (accdec_cases G s K b HO Hr Hph Hb) as HC. destruct (get_latest_accdec s b) as [[i|]|]; cbn; [| |apply (ok_tr _ _ _ HO)].
  - destruct HC as (sq & d & es0 & B1 & B2 & B3). specialize (B3 Hpd). rewrite HK in B3.
    pose proof (ok_snd _ _ _ HO b Hb Hr Hph Hpd sq B3) as Hs. rewrite HK in Hs. destruct Hs as [_ Hs].
    destruct (op_modmsg G s K b i _ sq d es0 dec es (Old (k + length es)) HO Hb Hr Hph Hpd B1 B2 Hdec) as (G' & L & Le & HM & HI & HC & HP & HA & O').
    { right. split; [exact B3|]. rewrite Hs. split; [exact Hlen|]. split; [exact Hat|]. rewrite Hlen. reflexivity. }
    exists G'. split; auto. unfold mod_accdec. rewrite B2. cbn [pm_from pm_to pm_msg extend_accdec]. split; auto.
    constructor; auto. apply lsame_refl.
  - destruct (set_latest_accept_meta (s_ls s) b (Some (length (s_out s)))) as [ls1|] eqn:H1; cbn; [|apply (ok_tr _ _ _ HO)].
    destruct (next_seq_num ls1 b) as [[ls2 sq']|] eqn:H2; cbn; [|apply (ok_tr _ _ _ HO)].
    apply set_accmeta_spec in H1. destruct H1 as (S1 & S2 & S3). apply next_seq_spec in H2. destruct H2 as (sq & T1 & T2 & T3 & T4 & T5).
    rewrite S2 in T1, T5. assert (S : lsame (s_ls s) ls2) by (eapply lsame_trans; eauto).
    pose proof (n_role _ _ _ _ (ok_N _ _ _ HO)) as HR. rewrite Hr, Hph in HR. pose proof (la_mlen _ _ HR) as HMn.
    pose proof (ok_snd _ _ _ HO b Hb Hr Hph Hpd sq T1) as Hs. rewrite HK in Hs. destruct Hs as [Hs1 Hs2].
    rewrite (lsm_n _ _ S).
    destruct (op_send G s K b (MAcceptDecide (l_n (s_ls s)) sq' dec es) ls2 sq sq' (Old (k + length es))) as [L O']; auto.
    + rewrite T2. apply slt_next.
    + intros q Hq. rewrite T4, S3. apply Nat.eqb_neq in Hq. rewrite Hq. reflexivity.
    + split; [auto|]. split; [apply (la_pid _ _ _ _ HR)|auto].
    + intros n' sq0 Hp' Hn'. cbn in Hn'. injection Hn' as <- <-. rewrite setN_same. split; [exact HMn|]. split; [apply Nat.le_refl|].
      assert (Hpre : gN (setN G (l_n (s_ls s)) b sq' (mlen G (l_n (s_ls s)))) (l_n (s_ls s)) b (spred sq') = k).
      { rewrite T2, spred_next. rewrite setN_other; auto. apply slt_ne. apply slt_next. }
      rewrite Hpre. split; [rewrite T2; cbn; lia|]. split; [lia|exact Hat].
    + intros _ _ _ sq0. cbn [s_ls push set_out set_ls]. rewrite T5, Nat.eqb_refl. intros H. injection H as <-. cbn zeta.
      rewrite (lsm_n _ _ S). split; [rewrite T2; cbn; lia|]. rewrite <- Hlen. apply setN_same.
    + intros _ _ n0 i. cbn. rewrite T4, S3, Nat.eqb_refl. cbn. intros H. injection H as <- <-. split; [symmetry; apply (lsm_n _ _ S)|].
      exists sq', dec, es. split.
      * rewrite nth_error_app2, Nat.sub_diag by auto. cbn. rewrite (n_pid _ _ _ _ (ok_N _ _ _ HO)). reflexivity.
      * intros _. rewrite T5, Nat.eqb_refl. reflexivity.
    + eexists. split; [exact L|]. split; [exact O'|]. constructor; auto. apply L.
Qed.

Lemma lfr_accdec dec es k G s G' s' : lfr G s G' s' ->
  (mlen G (l_n (s_ls s)) = k + length es /\ ents_at G (l_n (s_ls s)) k es /\ decok cc G (l_n (s_ls s)) dec) ->
  (mlen G' (l_n (s_ls s')) = k + length es /\ ents_at G' (l_n (s_ls s')) k es /\ decok cc G' (l_n (s_ls s')) dec).
Proof.
  intros F (A & B & C). rewrite (lsm_n _ _ (f_ls _ _ _ _ F)). unfold mlen, ents_at in *. rewrite (f_M _ _ _ _ F). split; auto. split; auto.
  eapply decok_gle; [apply (f_le _ _ _ _ F)|auto].
Qed.

Lemma send_acceptdecide_ok es k G s :
  OpK G s (fun _ => Old k) -> s_role s = Leader -> s_phase s = PhAccept ->
  mlen G (l_n (s_ls s)) = k + length es -> ents_at G (l_n (s_ls s)) k es -> decok cc G (l_n (s_ls s)) (i_dec (s_is s)) ->
  body G s (fun _ => Old (k + length es)) (send_acceptdecide s es).
Proof.
  intros HO Hr Hph H1 H2 H3. unfold send_acceptdecide.
  apply (ploop_ok (send_acceptdecide_to (i_dec (s_is s)) es) (Old k) (Old (k + length es))
    (fun G' s' => mlen G' (l_n (s_ls s')) = k + length es /\ ents_at G' (l_n (s_ls s')) k es /\ decok cc G' (l_n (s_ls s')) (i_dec (s_is s)))); auto.
  - intros. eapply lfr_accdec; eauto.
  - intros G1 s1 K b O1 Hr1 Hph1 HI Hb Hpd HK. apply accdec_to_ok; auto.
Qed.

(** ** [send_accept_stopsign], [send_decide] *)
Lemma accss_to_ok ss G s K b :
  OpK G s K -> s_role s = Leader -> s_phase s = PhAccept ->
  (exists l, gM G (l_n (s_ls s)) = Some l /\ ll_ss l = Some ss) ->
  b <> p -> promd s b -> K b = Old (mlen G (l_n (s_ls s))) ->
  body G s (kset K b Norm) (send_accept_stopsign ss false s b).
Proof.
  intros HO Hr Hph Hss Hb Hpd HK. unfold send_accept_stopsign.
  destruct (next_seq_num (s_ls s) b) as [[ls2 sq']|] eqn:H2; cbn; [|apply (ok_tr _ _ _ HO)].
  apply next_seq_spec in H2. destruct H2 as (sq & T1 & T2 & S & T4 & T5).
  pose proof (n_role _ _ _ _ (ok_N _ _ _ HO)) as HR. rewrite Hr, Hph in HR. pose proof (la_mlen _ _ HR) as HMn.
  pose proof (ok_snd _ _ _ HO b Hb Hr Hph Hpd sq T1) as Hs. rewrite HK in Hs. destruct Hs as [Hs1 Hs2].
  assert (Hset : ssset G (l_n (s_ls s))) by (destruct Hss as (l & A & B); exists l; split; auto; congruence).
  rewrite (lsm_n _ _ S).
  assert (Hpre : gN (setN G (l_n (s_ls s)) b sq' (mlen G (l_n (s_ls s)))) (l_n (s_ls s)) b (spred sq') = mlen G (l_n (s_ls s))).
  { rewrite T2, spred_next. rewrite setN_other; auto. apply slt_ne. apply slt_next. }
  destruct (op_send G s K b (MAcceptStopSign (l_n (s_ls s)) sq' ss) ls2 sq sq' Norm) as [L O']; auto.
  - rewrite T2. apply slt_next.
  - intros q Hq. rewrite T4. reflexivity.
  - split; [auto|]. split; [apply (la_pid _ _ _ _ HR)|auto].
  - intros n' sq0 Hp' Hn'. cbn in Hn'. injection Hn' as <- <-. rewrite setN_same. split; [exact HMn|]. split; [apply Nat.le_refl|].
    split; [exact Hss|]. split; [reflexivity|]. right. exact Hpre.
  - intros _ _ _ sq0. cbn [s_ls push set_out set_ls]. rewrite T5, Nat.eqb_refl. intros H. injection H as <-. cbn zeta. rewrite (lsm_n _ _ S).
    rewrite setN_same. split; [rewrite T2; cbn; lia|]. split; [reflexivity|]. intros _. split; [right; exact Hpre|].
    intros m Hin Hm. apply in_app_iff in Hin. destruct Hin as [Hin|[<-|[]]]; [|reflexivity].
    destruct (ok_s12 _ _ _ HO b Hb Hr Hph sq T1) as [A _]. pose proof (A m sq' Hin Hm) as A1.
    exfalso. apply (slt_irrefl sq'). eapply sle_slt_trans; [exact A1|]. rewrite T2. apply slt_next.
  - intros _ _ n0 i. cbn [s_ls push set_out set_ls]. rewrite T4. intros Hi. destruct (ok_am _ _ _ HO b Hb Hr Hph n0 i Hi) as [-> (sq0 & d & es & B1 & B2)].
    split; [symmetry; apply (lsm_n _ _ S)|]. exists sq0, d, es. split.
    + cbn. rewrite nth_error_app1; auto. apply nth_error_Some. congruence.
    + intros _ HH. exfalso. apply HH. exact Hset.
  - eexists. split; [exact L|]. split; [exact O'|]. constructor; auto. apply L.
Qed.

Lemma send_decide_ok dec G s K b :
  OpK G s K -> s_role s = Leader -> s_phase s = PhAccept -> decok cc G (l_n (s_ls s)) dec ->
  b <> p -> promd s b -> K b = Norm -> vget (l_accmeta (s_ls s)) b = Some None ->
  body G s (kset K b Norm) (send_decide dec false s b).
Proof.
  intros HO Hr Hph Hdec Hb Hpd HK Hmeta. unfold send_decide.
  destruct (next_seq_num (s_ls s) b) as [[ls2 sq']|] eqn:H2; cbn; [|apply (ok_tr _ _ _ HO)].
  apply next_seq_spec in H2. destruct H2 as (sq & T1 & T2 & S & T4 & T5).
  pose proof (n_role _ _ _ _ (ok_N _ _ _ HO)) as HR. rewrite Hr, Hph in HR. pose proof (la_mlen _ _ HR) as HMn.
  pose proof (ok_snd _ _ _ HO b Hb Hr Hph Hpd sq T1) as Hs. rewrite HK in Hs. destruct Hs as (Hs1 & Hs2 & Hs3).
  rewrite (lsm_n _ _ S).
  assert (Hpre : gN (setN G (l_n (s_ls s)) b sq' (mlen G (l_n (s_ls s)))) (l_n (s_ls s)) b (spred sq') = mlen G (l_n (s_ls s))).
  { rewrite T2, spred_next. rewrite setN_other; auto. apply slt_ne. apply slt_next. }
  destruct (op_send G s K b (MDecide (l_n (s_ls s)) sq' dec) ls2 sq sq' Norm) as [L O']; auto.
  - rewrite T2. apply slt_next.
  - intros q Hq. rewrite T4. reflexivity.
  - split; [auto|]. split; [apply (la_pid _ _ _ _ HR)|auto].
  - intros n' sq0 Hp' Hn'. cbn in Hn'. injection Hn' as <- <-. rewrite setN_same. split; [exact HMn|]. split; [apply Nat.le_refl|].
    right. exact Hpre.
  - intros _ _ _ sq0. cbn [s_ls push set_out set_ls]. rewrite T5, Nat.eqb_refl. intros H. injection H as <-. cbn zeta. rewrite (lsm_n _ _ S).
    rewrite setN_same. split; [rewrite T2; cbn; lia|]. split; [reflexivity|]. intros _. split; [right; exact Hpre|].
    intros m Hin Hm. apply in_app_iff in Hin. destruct Hin as [Hin|[<-|[]]]; [|reflexivity].
    destruct (ok_s12 _ _ _ HO b Hb Hr Hph sq T1) as [A _]. pose proof (A m sq' Hin Hm) as A1.
    exfalso. apply (slt_irrefl sq'). eapply sle_slt_trans; [exact A1|]. rewrite T2. apply slt_next.
  - intros _ _ n0 i. cbn [s_ls push set_out set_ls]. rewrite T4, Hmeta. discriminate.
  - eexists. split; [exact L|]. split; [exact O'|]. constructor; auto. apply L.
Qed.

Lemma handle_accepted_to_ok dec G s K b :
  OpK G s K -> s_role s = Leader -> s_phase s = PhAccept -> decok cc G (l_n (s_ls s)) dec ->
  b <> p -> promd s b -> K b = Norm ->
  body G s (kset K b Norm) (handle_accepted_to dec s b).
Proof.
  intros HO Hr Hph Hdec Hb Hpd HK. unfold handle_accepted_to.
  pose proof (accdec_cases G s K b HO Hr Hph Hb) as HC. destruct (get_latest_accdec s b) as [[i|]|]; cbn; [| |apply (ok_tr _ _ _ HO)].
  - destruct HC as (sq & d & es0 & B1 & B2 & _).
    destruct (op_modmsg G s K b i _ sq d es0 dec [] Norm HO Hb Hr Hph Hpd B1 B2 Hdec) as (G' & L & Le & HM & HI & HC & HP & HA & O'); auto.
    exists G'. split; auto. unfold mod_accdec. rewrite B2. cbn [pm_from pm_to pm_msg redecide_accdec]. rewrite app_nil_r in O'. split; auto.
    constructor; auto. apply lsame_refl.
  - apply send_decide_ok; auto.
Qed.

Lemma decide_all_ok dec G s :
  Op G s -> s_role s = Leader -> s_phase s = PhAccept -> decok cc G (l_n (s_ls s)) dec ->
  body G s (fun _ => Norm) (ps <- lift s (get_promised_followers (s_ls s)) ;; for_each s ps (handle_accepted_to dec)).
Proof.
  intros HO Hr Hph Hd. apply (ploop_ok _ Norm Norm (fun G' s' => decok cc G' (l_n (s_ls s')) dec)); auto.
  - intros G1 s1 G2 s2 F H. rewrite (lsm_n _ _ (f_ls _ _ _ _ F)). eapply decok_gle; [apply (f_le _ _ _ _ F)|auto].
  - intros. apply handle_accepted_to_ok; auto.
Qed.

Lemma body_good G s r : body G s (fun _ => Norm) r -> good G r.
Proof. unfold body, good. destruct r; auto. intros (G' & A & B & _). exists G'. auto. Qed.

End WithCtx.
