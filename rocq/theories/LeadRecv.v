(** * A leader that receives messages in the accept phase *)
From Coq Require Import List Arith Bool Lia.
Import ListNotations.
From Verif Require Import Types Config MemStore Internal LeaderState SeqPaxos Basics Ghost GhostOps Inv StoreOps SyncOps Op FollowerOps RecvOps
  LeadLinks LeadSend LeadLoop LeadApp.

Section WithCtx.
Context {E : EntryT} {X : octx}.
Notation cc := xcc.
Notation p := xp.
Notation oth := xoth.
Notation nin := xnin.
Notation nout := xnout.
Notation nds := (nds cc).

(** ** What the leader has stored of its own log *)
Lemma lead_role G s K : OpK G s K -> s_role s = Leader -> s_phase s = PhAccept -> LeadAcc cc G p s.
Proof. intros HO Hr Hph. pose proof (n_role _ _ _ _ (ok_N _ _ _ HO)) as HR. rewrite Hr, Hph in HR. exact HR. Qed.
Lemma lead_arnd G s K : OpK G s K -> s_role s = Leader -> s_phase s = PhAccept -> arnd (i_st (s_is s)) = l_n (s_ls s).
Proof. intros HO Hr Hph. rewrite <- (op_arnd_eq _ _ _ HO). apply (la_arnd _ _ _ _ (lead_role _ _ _ HO Hr Hph)). Qed.
Lemma lead_cov G s K l k : OpK G s K -> s_role s = Leader -> s_phase s = PhAccept -> gM G (l_n (s_ls s)) = Some l -> ecov l k ->
  k <= cnt (i_st (s_is s)) \/ ms_ss (i_st (s_is s)) <> None.
Proof.
  intros HO Hr Hph Hl Hk. destruct (la_M _ _ _ _ (lead_role _ _ _ HO Hr Hph)) as (l0 & Hl0 & Hs & Hlen).
  assert (l0 = l) by congruence. subst l0. destruct Hk as [Hk|Hk]; [|right; congruence].
  destruct (ms_ss (i_st (s_is s))) eqn:Hss; [right; discriminate|]. left. rewrite <- Hlen; auto.
Qed.
Lemma lead_acov G s K l k : OpK G s K -> s_role s = Leader -> s_phase s = PhAccept -> gM G (l_n (s_ls s)) = Some l -> ecov l k ->
  acov G p (l_n (s_ls s)) k.
Proof.
  intros HO Hr Hph Hl Hk. rewrite <- (lead_arnd _ _ _ HO Hr Hph). destruct (st_arnd _ _ _ _ (n_st _ _ _ _ (ok_N _ _ _ HO))) as [c [Hc Hc']].
  unfold acov. rewrite Hc. destruct (lead_cov _ _ _ _ _ HO Hr Hph Hl Hk) as [H|H].
  - destruct (ms_ss (i_st (s_is s))); [right; reflexivity|]. left. rewrite Hc'; auto.
  - right. destruct (ms_ss (i_st (s_is s))); [reflexivity|congruence].
Qed.

(** ** [send_accsync] *)

(** The index from which on the follower needs the log. *)
Lemma valid_base G s K b m : OpK G s K -> s_role s = Leader -> s_phase s = PhAccept -> mok cc G (l_n (s_ls s)) b m ->
  let n := l_n (s_ls s) in
  let max := l_maxmeta (s_ls s) in
  let valid := if beq (pmt_na m) n then pmt_acc m
    else if beq (pmt_na m) (pmt_na max) then Nat.min (pmt_acc max) (pmt_acc m)
    else pmt_dec m in
  base cc G b n valid /\ acov G p n valid.
Proof.
  intros HO Hr Hph (Hd & Hda & Hin & Hpid & Hcase). cbn zeta. pose proof (ok_G _ _ _ HO) as HG.
  pose proof (lead_role _ _ _ HO Hr Hph) as HR. destruct (la_M _ _ _ _ HR) as (l & Hl & _).
  pose proof (lead_acov _ _ _ _ 0 HO Hr Hph Hl (or_introl (Nat.le_0_l _))) as H0.
  set (n := l_n (s_ls s)) in *.
  destruct (beq (pmt_na m) n) eqn:E1; [|destruct (beq (pmt_na m) (pmt_na (l_maxmeta (s_ls s)))) eqn:E2].
  - apply beq_spec in E1. destruct Hcase as [[_ Hac]|Hpf].
    2:{ destruct Hpf as (_ & Hlt & _). rewrite E1 in Hlt. apply bal_lt_irrefl in Hlt. contradiction. }
    split; [right; left; exact Hac|]. destruct (acov_M _ _ _ _ _ HG Hac) as [l0 [Hl0 Hk]]. assert (l0 = l) by congruence. subst l0.
    eapply lead_acov; eauto.
  - apply beq_spec in E2. destruct Hcase as [[Hn _]|Hpf]; [rewrite Hn, beq_refl in E1; discriminate|].
    destruct Hpf as (P1 & P2 & _ & c & ss & l0 & P3 & P4 & P5 & P6).
    destruct (la_max _ _ _ _ HR) as [M1 (lm & M2 & M3)]. fold n in M1, M3. rewrite <- E2 in *.
    assert (l0 = lm) by congruence. subst l0.
    assert (A : agree (Nat.min (pmt_acc (l_maxmeta (s_ls s))) (pmt_acc m)) lm (gI G n)) by (eapply agree_le; [apply Nat.le_min_l|exact M3]).
    split.
    + right; right; left. exists (pmt_na m), lm. split; auto. split; auto. split; auto. split.
      { unfold acov. rewrite P3. destruct ss; [right; reflexivity|left]. lia. }
      split; [congruence|]. split; auto.
    + eapply lead_acov; eauto. eapply lle_ecov; [apply (g_le _ _ HG _ _ Hl)|]. eapply agree_ecov_r; eauto.
  - destruct Hcase as [[Hn _]|Hpf]; [rewrite Hn, beq_refl in E1; discriminate|]. destruct Hpf as (P1 & P2 & _).
    destruct Hd as [Hd|(b0 & B1 & B2)].
    + rewrite Hd. split; [left; reflexivity|exact H0].
    + split.
      * right; right; right. exists b0, (pmt_na m). split; auto. split; [left; auto|auto].
      * destruct (chosen_M cc xHv _ _ _ HG B2) as [lb [Hlb _]]. eapply lead_acov; eauto.
        eapply lle_ecov; [apply (g_le _ _ HG _ _ Hl)|]. eapply agree_ecov_r.
        eapply (chosen_agree cc xHv xH0 G HG n b0); eauto; [congruence|]. eapply ble_lt_trans; eauto.
Qed.

Lemma accsync_to_ok G s K b :
  OpK G s K -> s_role s = Leader -> s_phase s = PhAccept -> b <> p -> promd s b -> K b = Fresh ->
  body G s (kset K b Norm) (send_accsync s b).
Proof.
  intros HO Hr Hph Hb Hpd HK. pose proof (lead_role _ _ _ HO Hr Hph) as HR. pose proof (ok_N _ _ _ HO) as HN. pose proof (ok_G _ _ _ HO) as HG.
  pose proof Hpd as [m Hm]. pose proof (la_proms _ _ _ _ HR b m Hm Hb) as Hmok.
  pose proof (valid_base G s K b m HO Hr Hph Hmok) as HV. cbn zeta in HV.
  unfold send_accsync, get_promise_meta. rewrite Hm. cbn [lift bind].
  pose proof Hmok as (_ & _ & Hbin & Hpid & _). rewrite Hpid. unfold ls_get_decided_idx. rewrite Hm. cbn [lift bind].
  set (valid := if beq (pmt_na m) (l_n (s_ls s)) then _ else _) in *. destruct HV as [HV1 HV2].
  set (n := l_n (s_ls s)) in *.
  destruct (create_log_sync s valid (pmt_dec m)) as [sy|] eqn:Hsy; cbn [lift bind]; [|apply (ok_tr _ _ _ HO)].
  destruct (increment_seq_num_session (s_ls s) b) as [ls1|] eqn:H1; cbn [lift bind]; [|apply (ok_tr _ _ _ HO)].
  destruct (next_seq_num ls1 b) as [[ls2 sq']|] eqn:H2; cbn [lift bind]; [|apply (ok_tr _ _ _ HO)].
  apply inc_sess_spec in H1. destruct H1 as (sq & S1 & S2 & S3 & S4). apply next_seq_spec in H2. destruct H2 as (sq2 & T1 & T2 & T3 & T4 & T5).
  assert (S : lsame (s_ls s) ls2) by (eapply lsame_trans; eauto).
  rewrite S4, Nat.eqb_refl in T1. injection T1 as <-. cbn in T2.
  destruct (la_M _ _ _ _ HR) as (l & Hl & Hs & Hlen). fold n in Hl.
  pose proof (lead_arnd _ _ _ HO Hr Hph) as Har. fold n in Har.
  destruct (cls_ok cc G p s b valid (pmt_dec m) sy l) as [Hsok Hsss]; auto; try apply HN.
  { rewrite Har. exact Hl. } { rewrite Har. exact HV1. } { rewrite Har. exact HV2. }
  rewrite Har in Hsok. fold n in Har.
  assert (Hml : mlen G n = len l) by (unfold mlen; rewrite Hl; reflexivity).
  assert (Hslt : slt sq sq') by (rewrite T2; unfold slt; cbn; lia).
  assert (Hns : forall m0, vget (l_accmeta (s_ls s)) b <> Some (Some m0)).
  { intros [n0 i] Hi. destruct (ok_am _ _ _ HO b Hb Hr Hph n0 i Hi) as [_ (sq0 & d & es & B1 & B2)]. specialize (B2 Hpd). rewrite HK in B2. exact B2. }
  assert (Hmi : minv cc G p b (MAcceptSync n sq' (i_dec (s_is s)) sy)).
  { split; [auto|]. split; [apply (la_pid _ _ _ _ HR)|]. exists (cnt (i_st (s_is s))), (issome (ms_ss (i_st (s_is s)))). split; auto. split; [|split].
    - intros k Hk. destruct (lead_cov G s K l k HO Hr Hph Hl) as [H|H]; auto.
      + eapply lle_ecov; [apply (g_le _ _ HG _ _ Hl)|exact Hk].
      + right. destruct (ms_ss (i_st (s_is s))); [reflexivity|congruence].
    - rewrite <- Har. unfold i_dec. rewrite (co_dec _ _ (n_coh _ _ _ _ HN)). apply (st_dec _ _ _ _ (n_st _ _ _ _ HN)).
    - intros Hss. unfold i_dec. rewrite (co_dec _ _ (n_coh _ _ _ _ HN)). destruct (st_cov _ _ _ _ (n_st _ _ _ _ HN)) as [H|H]; auto.
      destruct (ms_ss (i_st (s_is s))); [discriminate|congruence]. }
  assert (Hss : ssset G n <-> ms_ss (i_st (s_is s)) <> None).
  { split; [intros (l0 & A & B); congruence|]. intros H. exists l. split; auto. congruence. }
  destruct (op_send G s K b (MAcceptSync n sq' (i_dec (s_is s)) sy) ls2 sq sq' Norm) as [L O']; auto.
  - intros q. rewrite T5, S4. destruct (q =? b); reflexivity.
  - intros q Hq. rewrite T4, S3. reflexivity.
  - fold n. intros n' sq0 Hp' Hn'. cbn in Hn'. injection Hn' as <- <-. rewrite setN_same. split; [cbn; congruence|]. split; [apply Nat.le_refl|].
    split; [rewrite T2; reflexivity|]. rewrite Hsss in *. destruct Hsok as (l0 & L1 & _ & L2 & _). rewrite Hsss in L2.
    destruct (ms_ss (i_st (s_is s))) as [ss|] eqn:Hms.
    + split; [reflexivity|]. destruct Hss as [_ Hss]. apply Hss. discriminate.
    + destruct L2 as (_ & L2 & _). rewrite L2, Hml. apply Hlen. reflexivity.
  - fold n. intros H. cbn. rewrite Hsss. destruct (ms_ss (i_st (s_is s))); auto. apply Hss in H. congruence.
  - fold n. intros _ _ _ sq0. cbn [s_ls push set_out set_ls]. rewrite T5, Nat.eqb_refl. intros H. injection H as <-. cbn zeta. rewrite (lsm_n _ _ S). fold n.
    rewrite setN_same. split; [rewrite T2; cbn; lia|]. split; [reflexivity|]. intros _. split; [left; rewrite T2; cbn; lia|].
    intros m0 Hin Hm0. apply in_app_iff in Hin. destruct Hin as [Hin|[<-|[]]]; [|reflexivity].
    destruct (ok_s12 _ _ _ HO b Hb Hr Hph sq S1) as [A _]. pose proof (A m0 sq' Hin Hm0) as A1.
    exfalso. apply (slt_irrefl sq'). eapply sle_slt_trans; eauto.
  - intros _ _ n0 i. cbn [s_ls push set_out set_ls]. rewrite T4, S3. intros Hi. destruct (Hns _ Hi).
  - eexists. split; [exact L|]. split; [exact O'|]. constructor; auto. apply L.
Qed.

(** ** [handle_promise_accept] *)
Lemma promise_mok G n a pr : promok cc G a pr -> pr_n pr = n -> mok cc G n a (mkMeta (pr_na pr) (pr_acc pr) (pr_dec pr) a).
Proof.
  intros (H1 & H2 & H3 & H4 & H5) <-. unfold mok. cbn. split; auto. split; auto. split; auto. split; auto.
  destruct H5 as [H5|[H5 _]]; auto.
Qed.

Lemma op_fresh G s from m v : Op G s -> s_role s = Leader -> s_phase s = PhAccept -> from <> p ->
  mok cc G (l_n (s_ls s)) from m -> vset (l_proms (s_ls s)) from (Promised m) = Some v ->
  (forall x, vget (l_accmeta (s_ls s)) from <> Some (Some x)) ->
  OpK G (set_ls s (l_set_proms (s_ls s) v)) (kset knorm from Fresh).
Proof.
  intros HO Hr Hph Hf Hm Hv Hx. pose proof (lead_role _ _ _ HO Hr Hph) as HR.
  set (s1 := set_ls s (l_set_proms (s_ls s) v)).
  assert (Hpd : forall c, c <> from -> promd s1 c -> promd s c).
  { intros c Hc [m0 H]. exists m0. cbn in H. rewrite (vget_vset _ _ _ _ c Hv) in H. apply Nat.eqb_neq in Hc. rewrite Hc in H. exact H. }
  destruct HO as [O1 O2 O3 O4 O5 O6 O7 O8 O9 O10]. constructor; auto.
  - apply (nodeinv_acc G G s); auto; try reflexivity.
    + apply gle_refl.
    + intros q m0 H Hq. cbn in H. rewrite (vget_vset _ _ _ _ q Hv) in H. destruct (Nat.eqb_spec q from) as [->|].
      * injection H as <-. exact Hm.
      * apply (la_proms _ _ _ _ HR); auto.
    + apply (la_accs _ _ _ _ HR).
    + apply (n_lam _ _ _ _ O3).
    + apply (n_cprom _ _ _ _ O3).
    + apply (n_out _ _ _ _ O3).
  - intros b Hb H1 H2 H3 sq Hsq. unfold kset. destruct (Nat.eqb_spec b from) as [->|Hbf]; [exact I|].
    exact (O7 b Hb Hr Hph (Hpd b Hbf H3) sq Hsq).
  - intros b Hb H1 H2 n i Hi. unfold kset. destruct (Nat.eqb_spec b from) as [->|Hbf]; [exfalso; apply (Hx (n, i)); exact Hi|].
    destruct (O8 b Hb Hr Hph n i Hi) as [-> (sq & d & es & B1 & B2)]. split; [reflexivity|]. exists sq, d, es. split; [exact B1|].
    intros H3. exact (B2 (Hpd b Hbf H3)).
Qed.

Lemma promise_accept_ok G s pr from : Op G s -> s_role s = Leader -> s_phase s = PhAccept ->
  minv cc G from p (MPromise pr) -> (forall x, vget (l_accmeta (s_ls s)) from <> Some (Some x)) ->
  good G (handle_promise_accept s pr from).
Proof.
  intros HO Hr Hph [Hf [Hpid Hpr]] Hx. unfold handle_promise_accept. destruct (beq (pr_n pr) (l_n (s_ls s))) eqn:Hn; [|apply good_ok; auto].
  apply beq_spec in Hn. unfold ls_set_promise. cbn [andb].
  destruct (vset (l_proms (s_ls s)) from _) as [v|] eqn:Hv; cbn [lift bind]; [|eapply good_panic; eauto].
  pose proof (op_fresh G s from _ v HO Hr Hph Hf (promise_mok _ _ _ _ Hpr Hn) Hv Hx) as O1.
  assert (Hpd : promd (set_ls s (l_set_proms (s_ls s) v)) from).
  { eexists. cbn. rewrite (vget_vset _ _ _ _ from Hv), Nat.eqb_refl. reflexivity. }
  assert (HK : kset knorm from Fresh from = Fresh) by (unfold kset; rewrite Nat.eqb_refl; reflexivity).
  pose proof (accsync_to_ok G _ _ from O1 Hr Hph Hf Hpd HK) as HB. unfold body in HB. unfold good.
  destruct (send_accsync _ from) as [s2|tr]; auto. destruct HB as (G2 & L2 & O2 & _). exists G2. split; auto.
  eapply op_mode; [exact O2|]. intros b Hb _ _ _. left. unfold kset, knorm. destruct (b =? from); reflexivity.
Qed.

(** ** Fewer promises *)
Lemma op_lessprom G s ls1 : Op G s -> s_role s = Leader ->
  l_n ls1 = l_n (s_ls s) -> l_seqs ls1 = l_seqs (s_ls s) -> l_accs ls1 = l_accs (s_ls s) -> l_maxmeta ls1 = l_maxmeta (s_ls s) ->
  l_maxsync ls1 = l_maxsync (s_ls s) -> l_maxpid ls1 = l_maxpid (s_ls s) -> l_quorum ls1 = l_quorum (s_ls s) ->
  (forall q m, vget (l_proms ls1) q = Some (Promised m) -> vget (l_proms (s_ls s)) q = Some (Promised m)) ->
  (forall q x, vget (l_accmeta ls1) q = Some (Some x) -> vget (l_accmeta (s_ls s)) q = Some (Some x)) ->
  Op G (set_ls s ls1).
Proof.
  intros HO Hr E1 E2 E3 E4 E5 E6 E7 HP HA. pose proof (ok_N _ _ _ HO) as HN.
  assert (HN1 : NodeInv cc G p (set_ls s ls1)).
  { destruct HN. constructor; auto; cbn [s_ls set_ls].
    - congruence.
    - rewrite E6. auto.
    - congruence.
    - change (s_role (set_ls s ls1)) with (s_role s). change (s_phase (set_ls s ls1)) with (s_phase s). rewrite Hr in *.
      destruct (s_phase s); auto; destruct n_role; constructor; cbn [s_ls set_ls s_is] in *; rewrite ?E1, ?E2, ?E3, ?E4, ?E5; auto.
      intros q x Hx. destruct x as [x|]; auto. eapply lp_meta. apply HA. exact Hx. }
  eapply (op_upd G s knorm G _ knorm); auto.
  - apply gls_refl.
  - apply (ok_G _ _ _ HO).
  - apply vle_refl.
  - intros H1 H2. split; [exact Hr|]. split; [exact H2|]. split; [exact E1|]. split; [exact E2|]. intros b Hb. split; [left; auto|]. split.
    + intros [m Hm]. exists m. apply HP. exact Hm.
    + intros x Hx. apply HA. exact Hx.
  - apply (ok_tr _ _ _ HO).
  - rm_eq G s HO.
Qed.

Lemma notaccepted_ok G s n from : Op G s -> good G (handle_notaccepted s n from).
Proof.
  intros HO. unfold handle_notaccepted. destruct (role_eqb (s_role s) Leader) eqn:Hr; cbn [andb]; [|apply good_ok; auto].
  assert (Hr' : s_role s = Leader) by (destruct (s_role s); [discriminate|reflexivity]).
  destruct (blt (l_n (s_ls s)) n); [|apply good_ok; auto]. unfold lost_promise.
  destruct (vset (l_proms (s_ls s)) from PromisedHigher) as [v|] eqn:Hv; cbn [option_map lift bind]; [|eapply good_panic; eauto].
  apply good_ok. apply op_lessprom; auto. cbn. intros q m. rewrite (vget_vset _ _ _ _ q Hv). destruct (q =? from); [discriminate|auto].
Qed.

(** ** Prepare messages *)
Lemma minv_prepare G s K b : OpK G s K -> s_role s = Leader -> b <> p ->
  minv cc G p b (MPrepare (l_n (s_ls s)) (i_dec (s_is s)) (i_around (s_is s)) (i_acc (s_is s))).
Proof.
  intros HO Hr Hb. pose proof (n_role _ _ _ _ (ok_N _ _ _ HO)) as HR. rewrite Hr in HR. split; [auto|].
  destruct (s_phase s) eqn:Hph; try contradiction.
  - split; [apply (lp_pid _ _ _ _ HR)|]. left. apply (lp_C _ _ _ _ HR).
  - split; [apply (la_pid _ _ _ _ HR)|]. right. split; [apply (la_arnd _ _ _ _ HR)|apply la_mlen; auto].
Qed.

Lemma op_prepare_to G s K b : OpK G s K -> s_role s = Leader -> b <> p -> OpK G (send_prepare s b) K.
Proof. intros HO Hr Hb. apply op_push; auto. eapply minv_prepare; eauto. Qed.

Lemma op_prepare_fold G ps : forall s K, OpK G s K -> s_role s = Leader -> (forall b, In b ps -> b <> p) -> OpK G (fold_left send_prepare ps s) K.
Proof.
  induction ps as [|b ps IH]; intros s K HO Hr Hps; cbn [fold_left]; auto. apply IH.
  - apply op_prepare_to; auto. apply Hps. left; auto.
  - exact Hr.
  - intros c Hc. apply Hps. right; auto.
Qed.

Lemma preparereq_ok G s n from : Op G s -> from <> p -> good G (handle_preparereq s n from).
Proof.
  intros HO Hf. unfold handle_preparereq. destruct (role_eqb (s_role s) Leader) eqn:Hr; cbn [andb]; [|apply good_ok; auto].
  assert (Hr' : s_role s = Leader) by (destruct (s_role s); [discriminate|reflexivity]).
  destruct (ble n (l_n (s_ls s))); [|apply good_ok; auto]. unfold reset_promise.
  destruct (vset (l_proms (s_ls s)) from NotPromised) as [v|] eqn:Hv; cbn [option_map lift bind]; [|eapply good_panic; eauto].
  unfold set_latest_accept_meta. cbn [l_set_proms l_accmeta l_n].
  match goal with |- context [vset (l_accmeta ?l) from ?x] => destruct (vset (l_accmeta l) from x) as [v2|] eqn:Hv2 end;
    cbn [option_map lift bind]; [|eapply good_panic; eauto].
  apply good_ok. apply op_prepare_to; auto. apply op_lessprom; auto; cbn.
  - intros q m. rewrite (vget_vset _ _ _ _ q Hv). destruct (q =? from); [discriminate|auto].
  - intros q x. rewrite (vget_vset _ _ _ _ q Hv2). destruct (q =? from); [discriminate|auto].
Qed.

(** ** [resend_messages_leader] *)
Lemma preparable_incl l peers ps : get_preparable_peers l peers = Some ps -> incl ps peers.
Proof.
  revert ps. induction peers as [|q r IH]; intros ps; cbn; [intros H; injection H as <-; intros x []|].
  destruct (vget (l_proms l) q) as [pr|]; [|discriminate]. destruct (get_preparable_peers l r) as [t|]; [|destruct pr; discriminate].
  specialize (IH t eq_refl). destruct pr; intros H; injection H as <-; intros x Hx.
  - destruct Hx as [<-|Hx]; [left; auto|right; auto].
  - right; auto.
  - right; auto.
Qed.

Lemma resend_ss_to_ok ss dec G s K b :
  OpK G s K -> s_role s = Leader -> s_phase s = PhAccept -> (i_ss (s_is s) = Some ss /\ decok cc G (l_n (s_ls s)) dec) -> b <> p -> promd s b -> K b = Norm ->
  body G s (kset K b Norm) (resend_ss_to ss dec s b).
Proof.
  intros HO Hr Hph [Hss Hdec] Hb Hpd HK. pose proof (lead_role _ _ _ HO Hr Hph) as HR. pose proof (la_mlen _ _ HR) as HMn.
  destruct (la_M _ _ _ _ HR) as (l & Hl & Hs & _).
  assert (Hls : ll_ss l = Some ss). { rewrite Hs, <- (co_ss _ _ (n_coh _ _ _ _ (ok_N _ _ _ HO))). exact Hss. }
  assert (Hset : ssset G (l_n (s_ls s))) by (exists l; split; auto; congruence).
  assert (Fin : forall s1, OpK G s1 K -> lfr G s G s1 -> body G s (kset K b Norm) (Ok s1)).
  { intros s1 O1 F. exists G. split; [apply glp_refl|]. split; auto. eapply op_mode; [exact O1|]. intros c Hc _ _ _. left.
    unfold kset. destruct (Nat.eqb_spec c b) as [->|]; auto. }
  unfold resend_ss_to. destruct (stopsign_is_decided (i_ca (s_is s))).
  - unfold send_decide, get_seq_num. destruct (vget (l_seqs (s_ls s)) b) as [sq|] eqn:Hsq; cbn [option_map lift bind]; [|apply (ok_tr _ _ _ HO)].
    pose proof (ok_snd _ _ _ HO b Hb Hr Hph Hpd sq Hsq) as Hn. rewrite HK in Hn. destruct Hn as (N1 & N2 & N3). destruct (N3 Hset) as [N4 _].
    apply Fin.
    + apply (op_resend G s K b (MDecide (l_n (s_ls s)) sq dec) sq); auto.
      * split; [auto|]. split; [apply (la_pid _ _ _ _ HR)|auto].
      * intros n' sq0 Hp' Hn'. cbn in Hn'. injection Hn' as <- <-. split; [auto|]. split; [lia|auto].
    + constructor; auto; [apply lsame_refl|apply gle_refl].
  - unfold ls_get_accepted_idx. destruct (vget (l_accs (s_ls s)) b) as [a|]; cbn [lift bind]; [|apply (ok_tr _ _ _ HO)].
    destruct (a =? i_acc (s_is s)); [apply Fin; auto; apply lfr_refl|].
    unfold send_accept_stopsign, get_seq_num. destruct (vget (l_seqs (s_ls s)) b) as [sq|] eqn:Hsq; cbn [option_map lift bind]; [|apply (ok_tr _ _ _ HO)].
    pose proof (ok_snd _ _ _ HO b Hb Hr Hph Hpd sq Hsq) as Hn. rewrite HK in Hn. destruct Hn as (N1 & N2 & N3). destruct (N3 Hset) as [N4 _].
    apply Fin.
    + apply (op_resend G s K b (MAcceptStopSign (l_n (s_ls s)) sq ss) sq); auto.
      * split; [auto|]. split; [apply (la_pid _ _ _ _ HR)|auto].
      * intros n' sq0 Hp' Hn'. cbn in Hn'. injection Hn' as <- <-. split; [auto|]. split; [lia|]. split; [exists l; auto|]. split; auto.
    + constructor; auto; [apply lsame_refl|apply gle_refl].
Qed.

Lemma resend_leader_ok G s : Op G s -> s_role s = Leader -> good G (resend_messages_leader s).
Proof.
  intros HO Hr. unfold resend_messages_leader.
  assert (Tail : forall G1 s1, Op G1 s1 -> s_role s1 = Leader ->
     good G1 (ps <- lift s1 (get_preparable_peers (s_ls s1) (s_peers s1)) ;; Ok (fold_left send_prepare ps s1))).
  { intros G1 s1 O1 Hr1. destruct (get_preparable_peers (s_ls s1) (s_peers s1)) as [ps|] eqn:Hps; cbn [lift bind]; [|eapply good_panic; eauto].
    apply good_ok, op_prepare_fold; auto. intros b Hb Heq. subst b. apply (peers_ne _ _ _ _ O1 (preparable_incl _ _ _ Hps _ Hb)). reflexivity. }
  destruct (s_phase s) eqn:Hph; [apply Tail; auto| |apply good_ok; auto|apply good_ok; auto].
  destruct (i_ss (s_is s)) as [ss|] eqn:Hss; [|cbn [bind]; apply Tail; auto].
  assert (HB : body G s (fun _ => Norm) (ps <- lift s (get_promised_followers (s_ls s)) ;; for_each s ps (resend_ss_to ss (i_dec (s_is s))))).
  { apply (ploop_ok _ Norm Norm (fun G' s' => i_ss (s_is s') = Some ss /\ decok cc G' (l_n (s_ls s')) (i_dec (s_is s)))); auto.
    - intros G1 s1 G2 s2 F [H1 H2]. rewrite (f_is _ _ _ _ F), (lsm_n _ _ (f_ls _ _ _ _ F)). split; auto. eapply decok_gle; [apply (f_le _ _ _ _ F)|auto].
    - intros. apply resend_ss_to_ok; auto.
    - split; auto. pose proof (ok_N _ _ _ HO) as HN. rewrite <- (lead_arnd _ _ _ HO Hr Hph). unfold i_dec. rewrite (co_dec _ _ (n_coh _ _ _ _ HN)). apply (st_dec _ _ _ _ (n_st _ _ _ _ HN)). }
  unfold body in HB. destruct (bind _ _) as [s1|tr] eqn:Hx in HB; rewrite Hx; cbn [bind]; [|exact HB].
  destruct HB as (G1 & L1 & O1 & F1). eapply good_trans; [exact L1|]. apply Tail; auto. rewrite (f_role _ _ _ _ F1). auto.
Qed.

(** ** [handle_accepted] *)
Lemma filter_pids {A} (f : A -> bool) (l : list A) : forall i, exists W, NoDup W /\ length W = length (filter f l) /\
  forall q, In q W -> exists j k, q = S (i + j) /\ nth_error l j = Some k /\ f k = true.
Proof.
  induction l as [|x l IH]; intros i; cbn; [exists []; split; [constructor|]; split; [reflexivity|intros q []]|].
  destruct (IH (S i)) as (W & W1 & W2 & W3). destruct (f x) eqn:Hx.
  - exists (S i :: W). split.
    + constructor; auto. intros Hin. destruct (W3 _ Hin) as (j & k & Hj & _). lia.
    + split; [cbn; lia|]. intros q [<-|Hq].
      * exists 0, x. split; [lia|auto].
      * destruct (W3 q Hq) as (j & k & -> & H2 & H3). exists (S j), k. split; [lia|auto].
  - exists W. split; auto. split; auto. intros q Hq. destruct (W3 q Hq) as (j & k & -> & H2 & H3). exists (S j), k. split; [lia|auto].
Qed.
Lemma filter_vget {A} (f : A -> bool) (l : list A) : exists W, NoDup W /\ length W = length (filter f l) /\
  forall q, In q W -> exists k, vget l q = Some k /\ f k = true.
Proof.
  destruct (filter_pids f l 0) as (W & W1 & W2 & W3). exists W. split; auto. split; auto. intros q Hq.
  destruct (W3 q Hq) as (j & k & -> & H2 & H3). exists k. split; auto. apply vget_nth. exact H2.
Qed.

Lemma lead_chosen G s K acc : OpK G s K -> s_role s = Leader -> s_phase s = PhAccept -> is_chosen (s_ls s) acc = true -> 0 < acc ->
  chosen cc G (l_n (s_ls s)) acc.
Proof.
  intros HO Hr Hph Hc Ha. pose proof (lead_role _ _ _ HO Hr Hph) as HR. pose proof (ok_N _ _ _ HO) as HN.
  unfold is_chosen in Hc. destruct (filter_vget (fun a => acc <=? a) (l_accs (s_ls s))) as (W & W1 & W2 & W3).
  assert (HW : forall q, In q W -> acov G q (l_n (s_ls s)) acc).
  { intros q Hq. destruct (W3 q Hq) as (k & Hk & Hle). apply Nat.leb_le in Hle. destruct (la_accs _ _ _ _ HR q k Hk) as [|H]; [lia|].
    eapply acov_le; eauto. }
  exists W, p. split; auto. split; [|split; [apply HN|split; [|exact HW]]].
  - intros q Hq. destruct (g_wA _ _ (ok_G _ _ _ HO) q (l_n (s_ls s))) as [H|H]; auto.
    + specialize (HW q Hq). unfold acov in HW. destruct (gA G q (l_n (s_ls s))); [discriminate|contradiction].
    + exfalso. apply (lead_nb _ _ _ HO Hr Hph H).
  - rewrite W2, <- (n_q _ _ _ _ HN). exact Hc.
Qed.

Lemma accepted_ok G s n acc from : Op G s -> minv cc G from p (MAccepted n acc) -> good G (handle_accepted s n acc from).
Proof.
  intros HO [_ [Hpid Hac]]. unfold handle_accepted.
  destruct (beq n (l_n (s_ls s)) && (role_eqb (s_role s) Leader && phase_eqb (s_phase s) PhAccept)) eqn:Hc; [|apply good_ok; auto].
  rewrite !andb_true_iff in Hc. destruct Hc as (Hn & Hr & Hph). apply beq_spec in Hn.
  assert (Hr' : s_role s = Leader) by (destruct (s_role s); [discriminate|reflexivity]).
  assert (Hph' : s_phase s = PhAccept) by (destruct (s_phase s); try discriminate; reflexivity). clear Hr Hph.
  destruct (set_accepted_idx (s_ls s) from acc) as [ls1|] eqn:Hset; cbn [lift bind]; [|eapply good_panic; eauto].
  assert (O1 : Op G (set_ls s ls1)) by (eapply op_set_accs; eauto; rewrite <- Hn; auto).
  cbn zeta. set (s1 := set_ls s ls1) in *.
  assert (Hn1 : l_n ls1 = l_n (s_ls s)).
  { unfold set_accepted_idx in Hset. destruct (vset _ _ _); [|discriminate]. injection Hset as <-. reflexivity. }
  destruct ((i_dec (s_is s1) <? acc) && is_chosen (s_ls s1) acc) eqn:Hc; [|apply good_ok; auto].
  apply andb_true_iff in Hc. destruct Hc as [Hlt Hch]. apply Nat.ltb_lt in Hlt.
  assert (HC : chosen cc G (l_n (s_ls s1)) acc) by (eapply lead_chosen; eauto; lia).
  pose proof (lead_arnd _ _ _ O1 Hr' Hph') as Har.
  assert (Hd : decok cc G (l_n (s_ls s1)) acc) by (right; exists (l_n (s_ls s1)); split; [apply ble_refl_|auto]).
  assert (O2 : Op G (set_is s1 (i_set_decided (s_is s1) acc))).
  { apply op_setdec; auto.
    - rewrite Har. exact Hd.
    - destruct (chosen_M cc xHv _ _ _ (ok_G _ _ _ O1) HC) as (l & Hl & Hk). eapply lead_cov; eauto. }
  apply (body_good G (set_is s1 (i_set_decided (s_is s1) acc))). apply decide_all_ok; auto.
Qed.

(** ** Proposals *)
Lemma accrec_none s : accepted_reconfiguration s = false -> i_ss (s_is s) = None.
Proof. unfold accepted_reconfiguration. destruct (i_ss (s_is s)); [discriminate|auto]. Qed.

Lemma room_bprops G s es : room G s (cf es) -> room G (set_bprops s (s_bprops s ++ es)) 0.
Proof. apply roomg_le. unfold pend, lbatch. cbn [s_bprops s_out s_role s_is set_bprops]. rewrite cf_app. lia. Qed.
Lemma forwarded_proposal_ok G s es : Op G s -> room G s (cf es) -> good G (handle_forwarded_proposal s es).
Proof.
  intros HO Hrm. pose proof (room_bprops _ _ _ Hrm) as Hrb. unfold handle_forwarded_proposal. destruct (accepted_reconfiguration s) eqn:Ha; [apply good_ok; auto|]. apply accrec_none in Ha.
  destruct (s_role s) eqn:Hr; [apply good_ok, op_forward_proposals; auto|].
  destruct (s_phase s) eqn:Hph; try (apply good_ok, op_forward_proposals; auto; fail).
  - apply good_ok, op_bprops; auto.
  - apply accept_entries_leader_ok; auto.
Qed.
Lemma forwarded_stopsign_ok G s ss : Op G s -> good G (handle_forwarded_stopsign s ss).
Proof.
  intros HO. unfold handle_forwarded_stopsign. destruct (accepted_reconfiguration s) eqn:Ha; [apply good_ok; auto|]. apply accrec_none in Ha.
  destruct (s_role s) eqn:Hr; [apply good_ok, op_forward_stopsign; auto|].
  destruct (s_phase s) eqn:Hph; try (apply good_ok, op_forward_stopsign; auto; fail).
  - apply good_ok, op_bss; auto.
  - apply accept_stopsign_leader_ok; auto.
Qed.
Lemma append_ok G s e : Op G s -> room G s (cf [e]) -> goodr G (sp_append s e).
Proof.
  intros HO Hrm. pose proof (room_bprops _ _ _ Hrm) as Hrb. unfold goodr, sp_append. destruct (accepted_reconfiguration s) eqn:Ha; [apply good_ok; auto|]. apply accrec_none in Ha.
  assert (H : good G (propose_entry s e)).
  { unfold propose_entry. destruct (s_role s) eqn:Hr; [apply good_ok, op_forward_proposals; auto|].
    destruct (s_phase s) eqn:Hph; try (apply good_ok, op_forward_proposals; auto; fail).
    - apply good_ok, op_bprops; auto.
    - apply accept_entry_leader_ok; auto. }
  destruct (propose_entry s e); exact H.
Qed.
Lemma reconfigure_ok G s c meta : Op G s -> goodr G (sp_reconfigure s c meta).
Proof.
  intros HO. unfold goodr, sp_reconfigure. destruct (accepted_reconfiguration s) eqn:Ha; [apply good_ok; auto|]. apply accrec_none in Ha. cbn zeta.
  assert (H : good G (match s_role s, s_phase s with
          | Leader, PhPrepare => Ok (set_bss s (Some (mkSS c meta)))
          | Leader, PhAccept => accept_stopsign_leader s (mkSS c meta)
          | _, _ => Ok (forward_stopsign s (mkSS c meta))
          end)).
  { destruct (s_role s) eqn:Hr; [apply good_ok, op_forward_stopsign; auto|].
    destruct (s_phase s) eqn:Hph; try (apply good_ok, op_forward_stopsign; auto; fail).
    - apply good_ok, op_bss; auto.
    - apply accept_stopsign_leader_ok; auto. }
  match type of H with good _ ?x => destruct x; exact H end.
Qed.

End WithCtx.
