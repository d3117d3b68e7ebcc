(** * A follower handles a message of its leader *)
From Coq Require Import List Arith Bool Lia.
Import ListNotations.
From Verif Require Import Types Config MemStore Internal LeaderState SeqPaxos Basics Ghost GhostOps Inv StoreOps SyncOps Op FollowerOps.

Section WithCtx.
Context {E : EntryT} {X : octx}.
Notation cc := xcc.
Notation p := xp.
Notation oth := xoth.
Notation nin := xnin.
Notation nout := xnout.
Notation nds := (nds cc).

(** ** Changes of what the links see of a receiver *)
Lemma linv_recv G a sa vl v v' : linv cc G a p sa vl (Some v) -> (forall s, sa = Some s -> lead_pid a s) ->
  (b_pid (rv_prom v') <> a \/
   (rcvok G a p vl v' /\
    (rv_phase v' = PhAccept -> forall s0 sq, sa = Some s0 -> s_role s0 = Leader -> s_phase s0 = PhAccept ->
       l_n (s_ls s0) = rv_prom v' -> vget (l_seqs (s_ls s0)) p = Some sq ->
       sle (rv_cseq v') sq /\ forall x, vget (l_accmeta (s_ls s0)) p = Some (Some x) -> slt (rv_cseq v') sq))) ->
  linv cc G a p sa vl (Some v').
Proof.
  intros [(A1 & A2 & A3 & A4) B] HL HC. split.
  - split; [exact A1|]. split; [exact A2|]. split; [exact A3|]. intros rv Hrv. injection Hrv as <-.
    destruct HC as [HC|[HC _]]; auto. intros n Hn Hp. congruence.
  - intros s Hs. destruct (B s Hs) as [B1 B2]. split; auto. intros H1 H2 sq Hsq. destruct (B1 H1 H2 sq Hsq) as [C1 C2].
    split; auto. intros rv Hrv Hpr Hph. injection Hrv as <-.
    destruct HC as [HC|[_ HC]]; [|eapply HC; eauto].
    exfalso. apply HC. rewrite Hpr. apply (HL s Hs H1 H2).
Qed.

Lemma op_recv G s G1 s1 from : Op G s -> gls p G G1 -> GInv cc G1 -> NodeInv cc G1 p s1 ->
  s_role s1 = Follower -> s_out s1 = s_out s -> b_pid (i_prom (s_is s1)) = from ->
  rcvok G from p (nin from) (view s1) ->
  (s_phase s1 = PhAccept -> forall s0 sq, oth from = Some s0 -> s_role s0 = Leader -> s_phase s0 = PhAccept ->
       l_n (s_ls s0) = i_prom (s_is s1) -> vget (l_seqs (s_ls s0)) p = Some sq ->
       sle (s_cseq s1) sq /\ forall x, vget (l_accmeta (s_ls s0)) p = Some (Some x) -> slt (s_cseq s1) sq) ->
  Forall Safe (i_tr (s_is s1)) -> gM G1 = gM G -> s_bprops s1 = s_bprops s ->
  Op G1 s1.
Proof.
  intros HO [HL HN] HG1 HNI Hr Hout Hfrom Hrcv Hsn Htr HM Hbp.
  pose proof (room_fol G G1 s s1 0 HM Hbp Hout Hr (ok_room _ _ _ HO)) as Hrm. destruct HO as [O1 O2 O3 O4 O5 O6 O7 O8 O9 O10].
  assert (Hvo : forall b, vout s1 b = vout s b) by (intros b; unfold vout; rewrite Hout; reflexivity).
  constructor; auto; try (intros b Hb H1; congruence).
  - eapply glp_trans; eauto.
  - intros a Ha. eapply linv_recv; [eapply linv_fr; [exact HL|exact Ha|apply xHoth|auto]|apply xHoth|].
    destruct (Nat.eq_dec a from) as [->|Hne]; [right|left; cbn; congruence]. split; [|exact Hsn].
    eapply rcvok_gle; [apply HL|intros n Hn; rewrite HN; reflexivity|exact Hrcv].
  - intros b Hb. rewrite Hvo. destruct HL as [HL _]. eapply lcore_gle; [exact HL|intros n Hn; rewrite HN; reflexivity|auto].
Qed.

Lemma op_safe_recv G s K G1 st from : OpK G s K -> gls p G G1 -> GInv cc G1 -> StInv cc G1 p st ->
  b_pid (bal_or_default (ms_prom st)) = from ->
  rcvok G from p (nin from) (stview st) -> gM G1 = gM G -> Safe st.
Proof.
  intros HO [HL HN] HG1 HS Hfrom Hrcv HM. exists G1. split; [eapply glp_trans; [apply (ok_glp _ _ _ HO)|exact HL]|].
  split; auto. split; auto. split; [|split; [|rm_g G s HO]].
  - intros a Ha. eapply linv_recv; [eapply linv_fr; [exact HL|exact Ha|apply xHoth|]|apply xHoth|].
    { apply (ok_in _ _ _ HO); auto. }
    destruct (Nat.eq_dec a from) as [->|Hne]; [right|left; cbn; congruence]. split; [|cbn; discriminate].
    eapply rcvok_gle; [apply HL|intros n Hn; rewrite HN; reflexivity|exact Hrcv].
  - intros b Hb. destruct HL as [HL _]. eapply lcore_gle; [exact HL|intros n Hn; rewrite HN; reflexivity|].
    eapply lcore_prefix. apply (ok_out _ _ _ HO); auto.
Qed.

(** ** Reconnecting *)
Lemma op_reconnected G s pid : Op G s -> exists G1, gls p G G1 /\ Op G1 (reconnected s pid).
Proof.
  intros HO. unfold reconnected. pose proof (n_pid _ _ _ _ (ok_N _ _ _ HO)) as Hp. rewrite Hp.
  destruct (Nat.eqb_spec pid p) as [->|Hne]; [exists G; split; auto using gls_refl|].
  destruct (pid =? sp_leader s).
  - destruct (op_demote G s PhRecover HO) as (G1 & L1 & _ & O1); try discriminate.
    exists G1. split; auto. apply op_push; auto. split; auto.
  - exists G. split; [apply gls_refl|]. apply op_push; auto. split; auto.
Qed.

Lemma good_reconnected G s pid : Op G s -> good G (Ok (reconnected s pid)).
Proof. intros HO. destruct (op_reconnected G s pid HO) as (G1 & [L1 _] & O1). exists G1. auto. Qed.

Lemma cvb_ok G s n s' v : Op G s -> wfb cc n -> b_pid n <> p -> check_valid_ballot s n = (s', v) ->
  (v = true /\ s' = s /\ gP G p = n) \/ (v = false /\ exists G1, gls p G G1 /\ Op G1 s').
Proof.
  intros HO Hw Hne. unfold check_valid_ballot. rewrite (op_prom_eq _ _ _ HO).
  pose proof (bcmp_spec (gP G p) n) as Hc. destruct (bcmp (gP G p) n); intros Heq; injection Heq as <- <-.
  - left. split; auto. split; auto. apply (wfb_eq cc); auto using xH0. apply (g_wP _ _ (ok_G _ _ _ HO)).
  - right. split; auto. apply op_reconnected. auto.
  - right. split; auto. exists G. split; [apply gls_refl|]. apply op_push; auto. split; auto.
Qed.

(** ** The delivered message *)
Record Hd (G : ghost) (s : sp) (from : node_id) (m : pmsg) : Prop := {
  hd_in : In from nds;
  hd_m : minv cc G from p m;
  hd_pos : posok G from p m;
  hd_pair : forall m', In m' (nin from) -> (m' = m /\ is_sync m = false) \/ pairok G from p m m' \/
    (pairok G from p m' m /\ (is_sync m = true -> is_sync m' = true -> forall n sq sq', numb m = Some (n, sq) -> numb m' <> Some (n, sq')));
  hd_rcv : rcvok G from p (m :: nin from) (view s);
  hd_snd : forall s0 sq sq', oth from = Some s0 -> s_role s0 = Leader -> s_phase s0 = PhAccept ->
     vget (l_seqs (s_ls s0)) p = Some sq -> numb m = Some (l_n (s_ls s0), sq') ->
     sle sq' sq /\ forall x, vget (l_accmeta (s_ls s0)) p = Some (Some x) -> slt sq' sq
}.

Lemma hd_ne G s from m : Hd G s from m -> from <> p.
Proof. intros H. apply (hd_m _ _ _ _ H). Qed.

(** Sending the reply. *)
Lemma op_lam_push G s n k : Op G s -> minv cc G p (b_pid n) (MAccepted n k) ->
  Op G (push (set_lam s (Some (n, length (s_out s)))) (b_pid n) (MAccepted n k)).
Proof.
  intros HO Hm. assert (O1 : Op G (push s (b_pid n) (MAccepted n k))) by (apply op_push; auto).
  change (push (set_lam s (Some (n, length (s_out s)))) (b_pid n) (MAccepted n k)) with
    (set_lam (push s (b_pid n) (MAccepted n k)) (Some (n, length (s_out s)))).
  set (s1 := push s (b_pid n) (MAccepted n k)) in *.
  assert (Hx : nth_error (s_out s1) (length (s_out s)) = Some (mkPM p (b_pid n) (MAccepted n k))).
  { unfold s1, push. cbn. rewrite nth_error_app2 by lia. rewrite Nat.sub_diag. cbn.
    rewrite (n_pid _ _ _ _ (ok_N _ _ _ HO)). reflexivity. }
  clearbody s1. pose proof (ok_N _ _ _ O1) as HN. destruct O1. constructor; auto.
  eapply (nodeinv_eq G s1); try reflexivity; [exact HN| |exact (n_cprom _ _ _ _ HN)|exact (n_out _ _ _ _ HN)].
  intros b i Hi. cbn in Hi. injection Hi as <- <-. exists k. exact Hx.
Qed.

Lemma lcore_mid G a b l1 l2 m m' rb : numb m' = None -> minv cc G a b m' -> lcore cc G a b (l1 ++ m :: l2) rb ->
  lcore cc G a b (l1 ++ m' :: l2) rb.
Proof.
  intros Hn Hm (A & B & C & D). rewrite Forall_app in A, C. apply FOP_app in B. destruct B as (B1 & B2 & B3).
  destruct A as [A1 A2], C as [C1 C2]. inversion A2; subst. inversion C2; subst. inversion B2; subst.
  assert (Hp : forall y, pairok G a b m' y) by (intros y n s1 s2 _ H _; congruence).
  assert (Hp' : forall y, pairok G a b y m') by (intros y n s1 s2 _ _ H; congruence).
  split; [|split; [|split]].
  - rewrite Forall_app. auto.
  - apply FOP_app. split; auto. split; [constructor; auto; rewrite Forall_forall; auto|].
    intros x y Hx [<-|Hy]; auto. apply B3; auto. right; auto.
  - rewrite Forall_app. split; auto. constructor; auto. intros n sq _ Hx. congruence.
  - intros rv Hrv n Hpn Hpr. destruct (D rv Hrv n Hpn Hpr) as [D1 D2].
    assert (Hin : forall x sq, In x (l1 ++ m' :: l2) -> numb x = Some (n, sq) -> In x (l1 ++ m :: l2)).
    { intros x sq Hx Hnx. apply in_app_iff in Hx. apply in_app_iff. destruct Hx as [Hx|[<-|Hx]]; auto; [congruence|right; right; auto]. }
    split.
    + intros Hph. destruct (D1 Hph) as (E1 & E2 & E3 & E4). split; [exact E1|]. split; [exact E2|]. split; [|exact E4].
      intros x sq Hx Hnx. eapply E3; eauto.
    + intros Har. destruct (D2 Har) as [E1 E2]. split; auto. intros sq x Hx Hnx. eapply E2; eauto.
Qed.

Lemma upd_mid {A} (l1 l2 : list A) x y : upd (l1 ++ x :: l2) (length l1) y = l1 ++ y :: l2.
Proof. induction l1; cbn; [reflexivity|]. unfold upd in *. cbn. f_equal. exact IHl1. Qed.

Lemma reply_ok G s n k : Op G s -> s_role s = Follower -> minv cc G p (b_pid n) (MAccepted n k) ->
  good G (reply_accepted s n k).
Proof.
  intros HO Hr Hm. unfold reply_accepted, get_latest_accepted.
  destruct (s_lam s) as [[b i]|] eqn:Hl; cbn [lift bind]; [|apply good_ok, op_lam_push; auto].
  destruct (beq b n) eqn:Hb; cbn [lift bind]; [|apply good_ok, op_lam_push; auto].
  apply beq_spec in Hb. subst b.
  destruct (n_lam _ _ _ _ (ok_N _ _ _ HO) n i Hl) as [k0 Hk]. rewrite Hk. cbn [pm_msg lift bind].
  apply good_ok. unfold mod_accdec. rewrite Hk. cbn [pm_from pm_to pm_msg reaccept].
  pose proof (ok_N _ _ _ HO) as HN.
  destruct (nth_error_split _ _ Hk) as (l1 & l2 & Hs & Hlen). subst i. rewrite Hs, upd_mid.
  destruct HO as [O1 O2 O3 O4 O5 O6 O7 O8 O9 O10]. constructor; auto; try (intros b Hb H1; cbn in H1; congruence).
  - eapply (nodeinv_eq G s); try reflexivity; [exact HN| |exact (n_cprom _ _ _ _ HN)|].
    + cbn. rewrite Hl. intros b i Hi. injection Hi as <- <-. exists k. rewrite nth_error_app2, Nat.sub_diag by lia. reflexivity.
    + cbn. pose proof (n_out _ _ _ _ HN) as HF. rewrite Hs in HF. rewrite Forall_app in *. destruct HF as [F1 F2].
      split; auto. inversion F2; subst. constructor; auto.
  - intros b Hb. specialize (O5 b Hb). unfold vout in *. cbn [s_out set_out]. rewrite Hs in O5.
    replace (l1 ++ mkPM p (b_pid n) (MAccepted n k) :: l2) with (l1 ++ [mkPM p (b_pid n) (MAccepted n k)] ++ l2) by reflexivity.
    change (mkPM p (b_pid n) (MAccepted n k0) :: l2) with ([mkPM p (b_pid n) (MAccepted n k0)] ++ l2) in O5.
    rewrite !outs_app, !outs_one in *. destruct (Nat.eqb_spec (b_pid n) b) as [<-|]; auto.
    rewrite app_assoc in *. cbn [app] in *. eapply lcore_mid; eauto.
  - eapply room_le; [reflexivity| |exact O10]. unfold pend, lbatch. cbn [s_bprops s_out s_role s_is set_out]. rewrite Hs, !fwd_app. reflexivity.
Qed.

(** ** Sequence numbers *)
Lemma expected_spec c sq : check_msg_status c sq = Expected -> spred sq = c /\ sq_ctr sq = sq_ctr c + 1.
Proof.
  unfold check_msg_status, spred. destruct (sq_sess sq =? sq_sess c) eqn:H1; cbn.
  - destruct (Nat.eqb_spec (sq_ctr sq) (sq_ctr c + 1)) as [H2|H2].
    + intros _. apply Nat.eqb_eq in H1. rewrite H1, H2. destruct c; cbn. split; auto. f_equal. lia.
    + destruct (seq_le sq c); discriminate.
  - destruct (seq_le sq c); discriminate.
Qed.

Lemma plain_is_sync m : plain_sync m = true -> is_sync m = true.
Proof. destruct m; auto. Qed.

(** The other messages of the link: those sent after the delivered one, and those that it
    has overtaken. *)
Lemma hd_rest G s from m n sq : Op G s -> Hd G s from m -> b_pid n = from -> numb m = Some (n, sq) ->
  (is_sync m = true \/ (s_phase s = PhAccept /\ gP G p = n /\ check_msg_status (s_cseq s) sq = Expected)) ->
  forall m' sq', In m' (nin from) -> numb m' = Some (n, sq') ->
    is_sync m' = true -> gN G n p sq <= gN G n p sq' /\ slt sq sq' /\ (has_ss m = true -> plain_sync m' = false).
Proof.
  intros HO H Hp Hn Hk m' sq' Hin Hn' Hs. destruct (hd_pair _ _ _ _ H m' Hin) as [[-> HP]|[HP|[HP HP']]].
  - congruence.
  - destruct (HP n sq sq' Hp Hn Hn') as (A & B & C).
    split; auto. split; auto. destruct B as [B|(_ & B & _)]; auto. destruct m'; discriminate.
  - destruct (HP n sq' sq Hp Hn' Hn) as (A & B & C).
    + exfalso. destruct Hk as [Hk|(K1 & K2 & K3)]; [exact (HP' Hk Hs n sq sq' Hn Hn')|].
      destruct (hd_rcv _ _ _ _ H n Hp) as [R1 _]; [cbn; rewrite (op_prom_eq _ _ _ HO); auto|].
      destruct (R1 K1) as (Q1 & _ & Q3 & _). cbn in Q1, Q3. pose proof (Q3 m' sq' (or_intror Hin) Hn' Hs) as Q4.
      destruct (expected_spec _ _ K3) as [Hsp Hctr].
      assert (Hfrom : In from nds) by apply (hd_in _ _ _ _ H). pose proof (hd_ne _ _ _ _ H) as Hne.
      destruct (ok_in _ _ _ HO from) as [(_ & _ & Cp & _) _]; auto. rewrite Forall_forall in Cp.
      destruct (Cp m' Hin n sq' Hp Hn') as (_ & _ & Cq). destruct m'; try discriminate. destruct Cq as [Cq _].
      assert (Hse : sq_sess sq = sq_sess (s_cseq s)) by (rewrite <- Hsp; reflexivity).
      unfold slt in *. destruct B as [B|(B & _)]; [|subst sq']; lia.
Qed.

(** The entries of the batch together with the next number. *)
Definition bump (s : sp) (sq : seqnum) (es : list T) : sp :=
  set_is (set_cseq s sq) (set_ca (s_is s) (c_set_batch (i_ca (s_is s)) (c_batch (i_ca (s_is s)) ++ es))).

Lemma bump_nil s sq : bump s sq [] = set_cseq s sq.
Proof. unfold bump. rewrite app_nil_r. destruct s as [[st [] tr]]. reflexivity. Qed.

Lemma op_bump G s from m n sq es : Op G s -> Hd G s from m -> s_role s = Follower -> s_phase s = PhAccept ->
  gP G p = n -> numb m = Some (n, sq) -> check_msg_status (s_cseq s) sq = Expected -> b_pid n = from ->
  gN G n p (spred sq) + length es = gN G n p sq ->
  (forall l j e, gM G n = Some l -> nth_error es j = Some e -> at_ l (gN G n p (spred sq) + j) = Some (Ent e)) ->
  (is_accdec m = true \/ es = []) ->
  Op G (bump s sq es).
Proof.
  intros HO HH Hr Hph HP Hnm Hst Hfrom Hlen Hes Hk. destruct (expected_spec _ _ Hst) as [Hsp Hctr].
  pose proof (ok_N _ _ _ HO) as HN. pose proof (ok_G _ _ _ HO) as HG.
  pose proof (n_role _ _ _ _ HN) as HR. rewrite Hr, Hph, HP in HR. destruct HR as [Har Hpp].
  pose proof (op_prom_eq _ _ _ HO) as Hpr.
  destruct (hd_rcv _ _ _ _ HH n Hfrom) as [R1 R2]; [cbn; congruence|].
  destruct (R1 Hph) as (Q1 & Q2 & Q3 & Q4). cbn in Q1, Q4. 
  assert (R2' := R2). cbn in R2'. rewrite (op_arnd_eq _ _ _ HO) in R2'. destruct (R2' Har) as [S1 S2]. clear R2 R2'.
  assert (Hpos : gN G n p sq <= mlen G n) by (apply (hd_pos _ _ _ _ HH n sq Hfrom Hnm)).
  assert (Hss : i_ss (s_is s) = ms_ss (i_st (s_is s))) by apply (co_ss _ _ (n_coh _ _ _ _ HN)).
  assert (Hes0 : ms_ss (i_st (s_is s)) <> None -> es = []).
  { rewrite <- Hss. intros Hs. destruct (i_ss (s_is s)); [|congruence]. cbn in Q4. destruct Q4 as [Q4 _].
    rewrite <- Hsp in Q4. destruct es; auto. cbn in Hlen. lia. }
  assert (Hcs : sq_ctr sq >= 1) by lia.
  eapply (op_recv G s G (bump s sq es) from); auto using gls_refl.
  - destruct HN. constructor; auto; cbn.
    + destruct n_coh. constructor; auto.
    + intros Hs. rewrite (n_bss Hs), (Hes0 Hs). reflexivity.
    + intros _. rewrite HP. auto.
    + rewrite Hph. discriminate.
    + intros _ l j e Hl He. rewrite Har in Hl. destruct (lt_dec j (length (c_batch (i_ca (s_is s))))) as [Hj|Hj].
      * rewrite nth_error_app1 in He by auto. apply n_fb; auto. rewrite Har; auto.
      * rewrite nth_error_app2 in He by lia.
        assert (Hs0 : i_ss (s_is s) = None).
        { rewrite Hss. destruct (ms_ss (i_st (s_is s))) eqn:Hs; auto. rewrite Hes0 in He by congruence.
          destruct (j - length (c_batch (i_ca (s_is s)))); discriminate. }
        rewrite Hs0 in Q4. cbn in Q4. apply (Hes l) in He; auto. rewrite Hsp, <- Q4 in He.
        replace (cnt (i_st (s_is s)) + j) with (cnt (i_st (s_is s)) + length (c_batch (i_ca (s_is s))) + (j - length (c_batch (i_ca (s_is s))))) by lia.
        exact He.
    + rewrite Hr, Hph. rewrite HP. auto.
  - cbn. rewrite <- Hfrom. unfold i_prom in *. congruence.
  - intros n' Hn' Hprm. assert (n' = n) by (cbn in Hprm; unfold i_prom in *; cbn in Hprm; congruence). clear Hprm Hn'. subst n'.
    pose proof (hd_rest _ _ _ _ _ _ HO HH Hfrom Hnm (or_intror (conj Hph (conj HP Hst)))) as Hrest. cbn. unfold i_ss, i_around in *. cbn.
    rewrite app_length. split.
    + intros _. split; [lia|]. split; [exact Q2|]. split.
      * intros m' sq' Hin Hn'' Hs'. apply (Hrest m' sq' Hin Hn'' Hs').
      * destruct (c_ss (i_ca (s_is s))); cbn in *.
        -- destruct Q4 as [Q4 Q5]. split; auto. assert (es = []) by (apply Hes0; congruence). subst es. cbn in Hlen. rewrite Hsp in Hlen. lia.
        -- rewrite <- Hlen, Hsp, <- Q4. lia.
    + intros _. split.
      * destruct (c_ss (i_ca (s_is s))); cbn in *; auto. rewrite Hsp in Hlen. lia.
      * intros sq' m' Hin Hn'' Hps. destruct (S2 sq' m' (or_intror Hin) Hn'' Hps) as [S3 S4]. split; auto.
        destruct (Hrest m' sq' Hin Hn'' (plain_is_sync _ Hps)) as (Hle' & _). unfold i_ss in S3. destruct (c_ss (i_ca (s_is s))); [discriminate|]. cbn in Q4.
        rewrite Hsp in Hlen. lia.
  - intros _ s0 sq0 Hs0 Hl1 Hl2 Hl3 Hsq0. cbn. eapply (hd_snd _ _ _ _ HH); eauto. rewrite Hl3. cbn. unfold i_prom in *. cbn. rewrite Hpr, HP. auto.
  - apply (ok_tr _ _ _ HO).
Qed.

(** ** Decided index *)
Lemma op_setdec G s K d : OpK G s K -> s_phase s = PhAccept -> decok cc G (arnd (i_st (s_is s))) d ->
  (d <= cnt (i_st (s_is s)) \/ ms_ss (i_st (s_is s)) <> None) ->
  OpK G (set_is s (i_set_decided (s_is s) d)) K.
Proof.
  intros HO Hph Hd Hc. pose proof (ok_N _ _ _ HO) as HN. pose proof (ok_G _ _ _ HO) as HG.
  assert (HS : StInv cc G p (ms_set_decided (i_st (s_is s)) d)) by (apply set_dec_st; auto; apply HN).
  eapply (op_upd G s K G _ K); auto using gls_refl.
  - destruct HN. constructor; auto; cbn.
    + destruct n_coh. constructor; auto.
    + rewrite Hph in *. destruct (s_role s); auto. destruct n_role. constructor; auto.
  - apply vle_refl.
  - intros H1 H2. repeat (split; auto). left. auto.
  - cbn. apply Forall_app. split; [apply (ok_tr _ _ _ HO)|]. constructor; [|constructor].
    eapply (op_safe G s K G); eauto using gls_refl; [|rm_g G s HO]. destruct (n_coh _ _ _ _ HN). apply vle_st; cbn.
    + unfold i_prom. rewrite co_prom. reflexivity.
    + unfold i_around. rewrite co_around. reflexivity.
    + unfold i_ss. rewrite co_ss. reflexivity.
    + right. unfold cnt. cbn. lia.
  - rm_eq G s HO.
Qed.

Lemma minv_accepted G s n : Op G s -> arnd (i_st (s_is s)) = n -> b_pid n <> p ->
  minv cc G p (b_pid n) (MAccepted n (i_acc (s_is s))).
Proof.
  intros HO <- Hne. split; auto. split; auto. apply acov_acc; apply (ok_N _ _ _ HO).
Qed.

(** A follower learns the decided index [d]. *)
Lemma op_update_decided G s n d s' r : Op G s -> s_role s = Follower -> s_phase s = PhAccept -> arnd (i_st (s_is s)) = n ->
  decok cc G n d -> update_decided s d = (s', r) ->
  exists G1, gls p G G1 /\ Op G1 s' /\ s_role s' = Follower /\ arnd (i_st (s_is s')) = n /\
    (forall k, acov G p n k -> acov G1 p n k) /\
    match r with Some k => acov G1 p n k | None => True end.
Proof.
  intros HO Hr Hph Har Hd. unfold update_decided.
  destruct (d <=? i_dec (s_is s)); [intros Heq; injection Heq as <- <-; exists G; repeat (split; auto using gls_refl)|].
  destruct (Nat.ltb_spec (i_acc (s_is s)) d) as [Hlt|Hge].
  - destruct (op_flush G s HO Hr) as (G1 & L1 & S1 & O1).
    destruct (flush_batch (s_is s)) as [is1 acc] eqn:Hf. cbn [fst] in O1. intros Heq. injection Heq as <- <-.
    assert (Hacc : acc = i_acc is1) by (unfold flush_batch in Hf; cbn in Hf; injection Hf as <- <-; reflexivity).
    assert (Hst : arnd (i_st is1) = n) by (unfold flush_batch in Hf; cbn in Hf; injection Hf as <- <-; exact Har).
    exists G1. split; auto. 
    assert (Hac : acov G1 p n acc). { rewrite <- Hst, Hacc. apply acov_acc; apply (ok_N _ _ _ O1). }
    split; [|repeat (split; auto); intros k; apply gle_acov; apply L1].
    apply (op_setdec G1 (set_is s is1) knorm); auto; cbn.
    + rewrite Hst. eapply decok_idx; [apply Nat.le_min_l|]. eapply decok_gle; eauto. apply L1.
    + pose proof (co_acc _ _ (n_coh _ _ _ _ (ok_N _ _ _ O1))) as Hco. cbn in Hco. destruct (ms_ss (i_st is1)); [right; discriminate|].
      left. rewrite Hacc. unfold i_acc. lia.
  - intros Heq. injection Heq as <- <-. exists G. split; [apply gls_refl|]. split; [|repeat (split; auto)].
    apply op_setdec; auto.
    + rewrite Har. auto.
    + pose proof (co_acc _ _ (n_coh _ _ _ _ (ok_N _ _ _ HO))) as Hco. destruct (ms_ss (i_st (s_is s))); [right; discriminate|].
      left. unfold i_acc in Hge. lia.
Qed.

Lemma numb_wf G s from m n sq : Op G s -> Hd G s from m -> numb m = Some (n, sq) -> b_pid n = from -> wfb cc n /\ b_pid n <> p.
Proof.
  intros HO HH Hn Hp. split; [|rewrite Hp; eapply hd_ne; eauto].
  apply (g_wM _ _ (ok_G _ _ _ HO)). apply (hd_pos _ _ _ _ HH n sq Hp Hn).
Qed.

(** ** AcceptDecide *)
Lemma acceptdecide_ok G s from n sq d es : Op G s -> Hd G s from (MAcceptDecide n sq d es) ->
  good G (handle_acceptdecide s n sq d es).
Proof.
  intros HO HH. destruct (hd_m _ _ _ _ HH) as [Hne (Hpid & HMn & Hdec)].
  destruct (numb_wf _ _ _ _ n sq HO HH eq_refl Hpid) as [Hw Hpp].
  unfold handle_acceptdecide. destruct (check_valid_ballot s n) as [s0 v] eqn:Hcv.
  destruct (cvb_ok _ _ _ _ _ HO Hw Hpp Hcv) as [(-> & -> & HP)|(-> & G1 & [L1 _] & O1)];
    [|cbn; exists G1; auto]. cbn [andb].
  destruct (s_role s) eqn:Hr; cbn [role_eqb andb]; [|apply good_ok; auto].
  destruct (s_phase s) eqn:Hph; cbn [phase_eqb]; try (apply good_ok; auto).
  unfold handle_sequence_num. destruct (check_msg_status (s_cseq s) sq) eqn:Hst; [|apply good_reconnected; auto|apply good_ok; auto].
  destruct (hd_pos _ _ _ _ HH n sq Hpid eq_refl) as (_ & _ & Hctr & Hlen & Hes).
  assert (O1 : Op G (bump s sq es)). { eapply op_bump; eauto. }
  pose proof (n_role _ _ _ _ (ok_N _ _ _ O1)) as HR. cbn in HR. rewrite Hr, Hph, HP in HR. destruct HR as [Har _].
  (* append *)
  assert (Happ : exists G1 s1 r1, gls p G G1 /\ Op G1 s1 /\ s_role s1 = Follower /\ s_phase s1 = PhAccept /\ arnd (i_st (s_is s1)) = n /\
     match r1 with Some k => acov G1 p n k | None => True end /\
     (let '(is, r1) := append_entries_and_get_accepted_idx (s_is (set_cseq s sq)) es in (set_is (set_cseq s sq) is, r1)) = (s1, r1)).
  { unfold append_entries_and_get_accepted_idx, cache_append_entries, take_entries_if_batch_is_full.
    cbn [s_is set_cseq c_bsize c_batch c_set_batch]. destruct (c_bsize (i_ca (s_is s)) <=? length (c_batch (i_ca (s_is s)) ++ es)).
    - destruct (op_flush G (bump s sq es) O1 Hr) as (G1 & L1 & S1 & O2).
      exists G1, (set_is (bump s sq es) (fst (flush_batch (s_is (bump s sq es))))), (Some (snd (flush_batch (s_is (bump s sq es))))).
      split; auto. split; auto. split; auto. split; auto. split; [exact Har|]. split; [|reflexivity].
      pose proof (acov_acc G1 p _ (n_st _ _ _ _ (ok_N _ _ _ O2)) (n_coh _ _ _ _ (ok_N _ _ _ O2))) as HA.
      rewrite <- Har. exact HA.
    - exists G, (bump s sq es), None. split; [apply gls_refl|]. split; [exact O1|]. repeat (split; auto). }
  destruct Happ as (G1 & s1 & r1 & L1 & O2 & Hr1 & Hph1 & Har1 & Hr1' & Heq).
  destruct (append_entries_and_get_accepted_idx (s_is (set_cseq s sq)) es) as [is r1'].
  injection Heq as Hs1 ->. rewrite Hs1.
  eapply good_trans; [apply L1|].
  destruct (update_decided s1 d) as [s2 r2] eqn:Hu.
  destruct (op_update_decided G1 s1 n d s2 r2 O2 Hr1 Hph1 Har1) as (G2 & L2 & O3 & Hr3 & Har3 & Hmono & Hr2); auto.
  { eapply decok_gle; eauto. apply L1. }
  eapply good_trans; [apply L2|].
  destruct r2 as [k|].
  - apply reply_ok; auto. split; auto.
  - destruct r1 as [k|]; [|apply good_ok; auto]. apply reply_ok; auto. split; auto.
Qed.

(** ** Decide *)
Lemma decide_ok G s from n sq d : Op G s -> Hd G s from (MDecide n sq d) -> good G (handle_decide s n sq d).
Proof.
  intros HO HH. destruct (hd_m _ _ _ _ HH) as [Hne (Hpid & HMn & Hdec)].
  destruct (numb_wf _ _ _ _ n sq HO HH eq_refl Hpid) as [Hw Hpp].
  unfold handle_decide. destruct (check_valid_ballot s n) as [s0 v] eqn:Hcv.
  destruct (cvb_ok _ _ _ _ _ HO Hw Hpp Hcv) as [(-> & -> & HP)|(-> & G1 & [L1 _] & O1)];
    [|cbn; exists G1; auto]. cbn [andb].
  destruct (s_phase s) eqn:Hph; cbn [phase_eqb]; try (apply good_ok; auto).
  unfold handle_sequence_num. destruct (check_msg_status (s_cseq s) sq) eqn:Hst; [|apply good_reconnected; auto|apply good_ok; auto].
  pose proof (n_role _ _ _ _ (ok_N _ _ _ HO)) as HR. rewrite Hph in HR.
  destruct (s_role s) eqn:Hr.
  2:{ exfalso. apply Hpp. rewrite <- HP, <- (la_n _ _ _ _ HR). apply (la_pid _ _ _ _ HR). }
  destruct HR as [Har _]. rewrite HP in Har.
  destruct (expected_spec _ _ Hst) as [Hsp Hctr].
  destruct (hd_rcv _ _ _ _ HH n Hpid) as [R1 _]; [cbn; rewrite (op_prom_eq _ _ _ HO); auto|].
  destruct (R1 Hph) as (Q1 & _). cbn in Q1.
  destruct (hd_pos _ _ _ _ HH n sq Hpid eq_refl) as (_ & _ & Hg). destruct Hg as [Hg|Hg]; [lia|].
  assert (O1 : Op G (set_cseq s sq)).
  { rewrite <- bump_nil. eapply op_bump; eauto; [cbn; lia|]. intros l j e _ Hj. destruct j; discriminate. }
  destruct (update_decided (set_cseq s sq) d) as [s2 r2] eqn:Hu.
  destruct (op_update_decided G _ n d s2 r2 O1 Hr Hph Har Hdec Hu) as (G2 & L2 & O3 & Hr3 & Har3 & Hmono & Hr2).
  eapply good_trans; [apply L2|].
  destruct r2 as [k|]; [|apply good_ok; auto]. apply reply_ok; auto. split; auto.
Qed.

(** ** Forwarding *)
Lemma op_forward_proposals G s K es : OpK G s K -> room G s (cf es) -> OpK G (forward_proposals s es) K.
Proof.
  intros HO Hrm. unfold forward_proposals. rewrite (n_pid _ _ _ _ (ok_N _ _ _ HO)).
  destruct ((0 <? sp_leader s) && negb (p =? sp_leader s)) eqn:H; [|apply op_bprops; auto].
  2:{ eapply roomg_le; [|exact Hrm]. unfold pend, lbatch. cbn [s_bprops s_out s_role s_is set_bprops]. rewrite cf_app. lia. }
  apply op_pushr; auto. split; [|exact I]. apply andb_true_iff in H. destruct H as [_ H].
  apply negb_true_iff, Nat.eqb_neq in H. exact H.
Qed.
Lemma op_forward_stopsign G s K ss : OpK G s K -> OpK G (forward_stopsign s ss) K.
Proof.
  intros HO. unfold forward_stopsign. rewrite (n_pid _ _ _ _ (ok_N _ _ _ HO)).
  destruct ((0 <? sp_leader s) && negb (p =? sp_leader s)) eqn:H.
  - apply op_push; auto. split; [|exact I]. apply andb_true_iff in H. destruct H as [_ H].
    apply negb_true_iff, Nat.eqb_neq in H. exact H.
  - destruct (s_bss s); auto. apply op_bss; auto.
Qed.
Lemma op_forward_buffered G s K : OpK G s K -> OpK G (forward_buffered_proposals s) K.
Proof.
  intros HO. unfold forward_buffered_proposals. pose proof (ok_room _ _ _ HO) as Hrm.
  assert (Hrm' : room G (set_bprops s []) (cf (s_bprops s))).
  { eapply roomg_le; [|exact Hrm]. unfold pend, lbatch. cbn [s_bprops s_out s_role s_is set_bprops]. change (cf []) with 0. lia. }
  assert (Hrm0 : room G (set_bprops s []) 0) by (eapply roomg_le; [|exact Hrm']; lia).
  destruct (s_bprops s); [apply op_bprops; auto|].
  apply op_forward_proposals; [apply op_bprops; auto|]. auto.
Qed.
Lemma fbp_state s r ph sq :
  set_cseq (set_state (forward_buffered_proposals s) r ph) sq = forward_buffered_proposals (set_cseq (set_state s r ph) sq).
Proof.
  unfold forward_buffered_proposals, forward_proposals. cbn [s_bprops set_cseq set_state]. destruct (s_bprops s); [reflexivity|].
  change (sp_leader (set_bprops (set_cseq (set_state s r ph) sq) [])) with (sp_leader (set_bprops s [])).
  change (s_pid (set_bprops (set_cseq (set_state s r ph) sq) [])) with (s_pid (set_bprops s [])).
  destruct ((0 <? sp_leader (set_bprops s [])) && negb (s_pid (set_bprops s []) =? sp_leader (set_bprops s []))); reflexivity.
Qed.
Lemma fbp_is s : s_is (forward_buffered_proposals s) = s_is s.
Proof.
  unfold forward_buffered_proposals, forward_proposals. destruct (s_bprops s); [reflexivity|].
  destruct ((0 <? _) && _); reflexivity.
Qed.

(** ** AcceptSync *)
Lemma acceptsync_ok G s from n sq d sy : Op G s -> Hd G s from (MAcceptSync n sq d sy) ->
  good G (handle_acceptsync s n sq d sy from).
Proof.
  intros HO HH. destruct (hd_m _ _ _ _ HH) as [Hne (Hpid & c & ss & Hsy & HI & Hdec & Hdc)].
  destruct (numb_wf _ _ _ _ n sq HO HH eq_refl Hpid) as [Hw Hpp].
  unfold handle_acceptsync. destruct (check_valid_ballot s n) as [s0 v] eqn:Hcv.
  destruct (cvb_ok _ _ _ _ _ HO Hw Hpp Hcv) as [(-> & -> & HP)|(-> & G1 & [L1 _] & O1)];
    [|cbn; exists G1; auto]. cbn [andb].
  destruct (s_role s) eqn:Hr; cbn [role_eqb andb]; [|apply good_ok; auto].
  destruct (s_phase s) eqn:Hph; cbn [phase_eqb]; try (apply good_ok; auto).
  pose proof (op_prom_eq _ _ _ HO) as Hpr. pose proof (op_arnd_eq _ _ _ HO) as Hae.
  pose proof (ok_G _ _ _ HO) as HG. pose proof (ok_N _ _ _ HO) as HN.
  assert (Hnb : n <> bdef). { intros ->. cbn in Hpid. apply (nd0 from); [apply (hd_in _ _ _ _ HH)|auto]. }
  destruct (hd_pos _ _ _ _ HH n sq Hpid eq_refl) as (HMn & Hml & Hctr & Hpos).
  destruct (hd_rcv _ _ _ _ HH n Hpid) as [_ R2]; [cbn; congruence|].
  assert (Hrest : forall m' sq', In m' (nin from) -> numb m' = Some (n, sq') ->
    is_sync m' = true -> gN G n p sq <= gN G n p sq' /\ slt sq sq' /\ (has_ss (MAcceptSync n sq d sy) = true -> plain_sync m' = false)).
  { apply (hd_rest _ _ _ _ n sq HO HH Hpid eq_refl). left. reflexivity. }
  assert (O1 : Op G (set_cprom s None)) by (apply op_cprom_none; auto).
  set (s1 := set_cprom s None) in *.
  destruct Hsy as (ln & Hln & Hsuf & Hshape & Hbase).
  destruct (stinv_M cc _ _ _ HG (n_st _ _ _ _ HN)) as [la Hla].
  pose proof (op_arnd_le _ _ _ HO) as Hal. rewrite HP in Hal.
  assert (Hx1 : match sy_ss sy with
     | None => sy_idx sy + length (sy_suffix sy) <= len ln /\
         (arnd (i_st (s_is s)) = n -> ms_ss (i_st (s_is s)) = None /\ cnt (i_st (s_is s)) <= sy_idx sy + length (sy_suffix sy)) /\
         d <= sy_idx sy + length (sy_suffix sy) /\ (forall k : nat, ecov (gI G n) k -> k <= sy_idx sy + length (sy_suffix sy))
     | Some ss => forall i : nat, sy_idx sy + length (sy_suffix sy) <= i -> at_ ln i = Some (Stop ss) end).
  { destruct (sy_ss sy) eqn:Hss; [apply Hshape|]. destruct Hshape as (-> & Hc & Hcl). rewrite Hc. split; [exact Hcl|]. split.
    + intros Har. cbn in R2. rewrite Hae in R2. destruct (R2 Har) as [_ R3].
      destruct (R3 sq (MAcceptSync n sq d sy) (or_introl eq_refl) eq_refl) as [R4 R5]; [cbn; rewrite Hss; reflexivity|].
      rewrite Hpos, Hc in R5. split; [|lia]. pose proof (co_ss _ _ (n_coh _ _ _ _ HN)) as Hcs. unfold i_ss in R4. rewrite Hcs in R4.
      destruct (ms_ss (i_st (s_is s))); [discriminate|reflexivity].
    + split; [auto|]. intros k Hk. destruct (HI k Hk); [auto|discriminate]. }
  assert (Hx2 : sy_snap sy = None -> acov G p (arnd (i_st (s_is s))) (sy_idx sy) /\ agree (sy_idx sy) la ln).
  { intros Hsn. destruct (base_use cc xHv xH0 G p n _ (arnd (i_st (s_is s))) la HG (Hbase Hsn) Hla Hal) as [X1 X2]; auto.
    + apply (st_max _ _ _ _ (n_st _ _ _ _ HN)).
    + destruct (st_arnd _ _ _ _ (n_st _ _ _ _ HN)) as [c0 [Hc0 _]]. congruence. }
  pose proof (sync_st cc G p (s_is s) n ln la d sy HG (n_st _ _ _ _ HN) (n_coh _ _ _ _ HN) (n_in _ _ _ _ HN) (eq_sym HP) Hnb Hln Hla Hsuf Hx1 Hx2 Hdec) as HS.
  change (s_is s1) with (s_is s).
  destruct (sync_log (s_is s) n d (Some sy)) as [[is acc]|tr].
  2:{ cbn. rewrite HS. apply (ok_tr _ _ _ HO). }
  cbn [bind].
  destruct HS as (G1 & L1 & HG1 & (EM & EI & EC & EP & EN) & HS1 & HC1 & Har1 & Hss1 & Hcnt1 & Hb1 & Hbs1 & Hpm1 & Htr1 & Hacc1).
  rewrite (n_bprep _ _ _ _ HN Hph) in Hb1.
  set (s2 := set_cseq (set_state (set_is s1 is) Follower PhAccept) sq).
  assert (Hprom : i_prom is = n).
  { unfold i_prom. rewrite (co_prom _ _ HC1), Hpm1. rewrite <- HP. apply (st_prom _ _ _ _ (n_st _ _ _ _ HN)). }
  assert (Haround : i_around is = n) by (unfold i_around; rewrite (co_around _ _ HC1); exact Har1).
  assert (Hiss : i_ss is = sy_ss sy) by (unfold i_ss; rewrite (co_ss _ _ HC1); exact Hss1).
  assert (Hrcv : rcvok G from p (nin from) (view s2)).
  { intros n' _ Hn'. cbn in Hn'. assert (Hn2 : n' = n) by congruence. clear Hn'. subst n'. cbn. rewrite Haround, Hiss, Hb1. cbn [length]. rewrite Nat.add_0_r. split.
    - intros _. split; [lia|]. split; [auto|]. split; [intros m' sq' H1 H2 H3; apply (Hrest m' sq' H1 H2 H3)|].
      destruct (sy_ss sy) eqn:Hss; cbn; auto. rewrite Hcnt1; auto.
    - intros _. split.
      + destruct (sy_ss sy) eqn:Hss; cbn; [tauto|]. rewrite Hcnt1 by auto. lia.
      + intros sq' m' Hin' Hm' Hps. destruct (Hrest m' sq' Hin' Hm' (plain_is_sync _ Hps)) as (Q1 & _ & Q3). cbn in Q3.
        destruct (sy_ss sy) eqn:Hss; cbn; [rewrite Q3 in Hps by auto; discriminate|]. split; auto. rewrite Hcnt1 by auto. lia. }
  assert (O2 : Op G1 s2).
  { eapply (op_recv G s1 G1 s2 from); auto.
    - destruct (ok_N _ _ _ O1). constructor; auto; cbn; try congruence.
      + rewrite Hb1. intros _ l j e _ Hj. destruct j; discriminate.
      + rewrite EP, Har1, HP. auto.
    - cbn. congruence.
    - intros _ s0 sq0 Hs0 Hl1 Hl2 Hl3 Hsq0. cbn. eapply (hd_snd _ _ _ _ HH); eauto. rewrite Hl3. cbn. rewrite Hprom. reflexivity.
    - cbn. rewrite Htr1. apply Forall_app. split; [apply (ok_tr _ _ _ HO)|]. constructor; [|constructor].
      eapply (op_safe_recv G s1 knorm G1 _ from); eauto.
      + rewrite Hpm1. rewrite (st_prom _ _ _ _ (n_st _ _ _ _ HN)), HP. auto.
      + eapply rcvok_vle; [|exact Hrcv]. apply vle_st; cbn.
        * rewrite Hprom, Hpm1, (st_prom _ _ _ _ (n_st _ _ _ _ HN)). auto.
        * congruence.
        * rewrite Hiss, Hss1. reflexivity.
        * right. lia. }
  assert (Har2 : arnd (i_st (s_is s2)) = n) by exact Har1.
  assert (Hacc2 : acc = i_acc (s_is s2)) by exact Hacc1.
  set (s3 := match i_ss (s_is (set_is s1 is)) with None => forward_buffered_proposals (set_is s1 is) | Some _ => set_is s1 is end).
  assert (Hs3 : set_cseq (set_state s3 Follower PhAccept) sq = match i_ss is with None => forward_buffered_proposals s2 | Some _ => s2 end).
  { unfold s3. cbn [s_is set_is]. destruct (i_ss is); [reflexivity|]. apply fbp_state. }
  cbv zeta. rewrite Hs3. clearbody s2. clear s3 Hs3.
  eapply good_trans; [apply L1|]. apply good_ok. rewrite <- Hpid.
  apply op_lam_push.
  - destruct (i_ss is); auto. apply op_forward_buffered. auto.
  - rewrite Hacc2. eapply minv_accepted; eauto.
Qed.

(** ** AcceptStopSign *)
Lemma accept_stopsign_ok G s from n sq ss : Op G s -> Hd G s from (MAcceptStopSign n sq ss) ->
  good G (handle_accept_stopsign s n sq ss).
Proof.
  intros HO HH. destruct (hd_m _ _ _ _ HH) as [Hne (Hpid & HMn)].
  destruct (numb_wf _ _ _ _ n sq HO HH eq_refl Hpid) as [Hw Hpp].
  unfold handle_accept_stopsign. destruct (check_valid_ballot s n) as [s0 v] eqn:Hcv.
  destruct (cvb_ok _ _ _ _ _ HO Hw Hpp Hcv) as [(-> & -> & HP)|(-> & G1 & [L1 _] & O1)];
    [|cbn; exists G1; auto]. cbn [andb].
  destruct (s_role s) eqn:Hr; cbn [role_eqb andb]; [|apply good_ok; auto].
  destruct (s_phase s) eqn:Hph; cbn [phase_eqb]; try (apply good_ok; auto).
  unfold handle_sequence_num. destruct (check_msg_status (s_cseq s) sq) eqn:Hst; [|apply good_reconnected; auto|apply good_ok; auto].
  assert (Hnb : n <> bdef). { intros ->. cbn in Hpid. apply (nd0 from); [apply (hd_in _ _ _ _ HH)|auto]. }
  pose proof (n_role _ _ _ _ (ok_N _ _ _ HO)) as HR. rewrite Hr, Hph, HP in HR. destruct HR as [Har _].
  destruct (expected_spec _ _ Hst) as [Hsp Hctr].
  destruct (hd_rcv _ _ _ _ HH n Hpid) as [R1 _]; [cbn; rewrite (op_prom_eq _ _ _ HO); auto|].
  destruct (R1 Hph) as (Q1 & _). cbn in Q1. clear R1.
  destruct (hd_pos _ _ _ _ HH n sq Hpid eq_refl) as (_ & Hml & ((l & Hl & Hls) & HN1 & Hg)). destruct Hg as [Hg|Hg]; [lia|].
  assert (Hsset : ssset G n) by (exists l; split; auto; congruence).
  assert (Hmn : mlen G n = len l) by (unfold mlen; rewrite Hl; reflexivity).
  assert (O1 : Op G (set_cseq s sq)).
  { rewrite <- bump_nil. eapply op_bump; eauto; [cbn; lia|]. intros l0 j e _ Hj. destruct j; discriminate. }
  (* what was received *)
  assert (Hcnt : i_ss (s_is s) = None -> cnt (i_st (s_is s)) + length (c_batch (i_ca (s_is s))) = len l).
  { intros Hs. destruct (hd_rcv _ _ _ _ HH n Hpid) as [R1 _]; [cbn; rewrite (op_prom_eq _ _ _ HO); auto|].
    destruct (R1 Hph) as (_ & _ & _ & Q4). cbn in Q4. rewrite Hs in Q4. cbn in Q4. rewrite Q4, <- Hsp, Hg. lia. }
  assert (Hrest : forall m' sq', In m' (nin from) -> numb m' = Some (n, sq') ->
    is_sync m' = true -> gN G n p sq <= gN G n p sq' /\ slt sq sq' /\ (has_ss (MAcceptStopSign n sq ss) = true -> plain_sync m' = false)).
  { apply (hd_rest _ _ _ _ n sq HO HH Hpid eq_refl). right. auto. }
  assert (Hlead : forall s0 sq0, oth from = Some s0 -> s_role s0 = Leader -> s_phase s0 = PhAccept ->
     l_n (s_ls s0) = n -> vget (l_seqs (s_ls s0)) p = Some sq0 ->
     sle sq sq0 /\ forall x, vget (l_accmeta (s_ls s0)) p = Some (Some x) -> slt sq sq0).
  { intros s0 sq0 A1 A2 A3 A4 A5. eapply (hd_snd _ _ _ _ HH); eauto. rewrite A4. reflexivity. }
  destruct (op_flush G _ O1 Hr) as (G1 & L1 & (EM & EI & EC & EP & EN) & O2). eapply good_trans; [apply L1|].
  set (s2 := set_is (set_cseq s sq) (fst (flush_batch (s_is (set_cseq s sq))))) in *.
  assert (F1 : s_role s2 = Follower) by exact Hr. assert (F2 : s_phase s2 = PhAccept) by exact Hph.
  assert (F3 : s_cseq s2 = sq) by reflexivity.
  assert (F4 : c_batch (i_ca (s_is s2)) = []) by reflexivity.
  assert (F5 : arnd (i_st (s_is s2)) = n) by exact Har.
  assert (F6 : i_ss (s_is s2) = i_ss (s_is s)) by reflexivity.
  assert (F7 : cnt (i_st (s_is s2)) = cnt (i_st (s_is s)) + length (c_batch (i_ca (s_is s)))).
  { unfold s2, cnt. cbn. rewrite app_length. lia. }
  rewrite <- F6, <- F7 in Hcnt. clear F6 F7. clearbody s2.
  pose proof (ok_N _ _ _ O2) as HN2. pose proof (ok_G _ _ _ O2) as HG2.
  pose proof (n_coh _ _ _ _ HN2) as HC2. pose proof (n_st _ _ _ _ HN2) as HS2.
  assert (Hl1 : gM G1 (arnd (i_st (s_is s2))) = Some l) by (rewrite F5, EM; auto).
  assert (HP2 : gP G1 p = n) by congruence.
  pose proof (op_prom_eq _ _ _ O2) as Hpr2. rewrite HP2 in Hpr2.
  assert (Hsame : forall s0, ms_ss (i_st (s_is s2)) = Some s0 -> s0 = ss).
  { intros s0 Hs0. pose proof (stinv_ss cc G1 p _ l HG2 HS2) as H. rewrite Hs0 in H. assert (ll_ss l = Some s0) by (apply H; congruence). congruence. }
  assert (Hst3 : exists G2, gls p G1 G2 /\ GInv cc G2 /\ sameMP G1 G2 /\ StInv cc G2 p (ms_set_stopsign (i_st (s_is s2)) (Some ss))).
  { destruct (ms_ss (i_st (s_is s2))) as [s0|] eqn:Hs0.
    - rewrite <- (Hsame s0 eq_refl), (set_ss_same _ _ Hs0). exists G1. split; [apply gls_refl|]. split; auto. split; [apply sameMP_refl|auto].
    - eapply (set_ss_st cc G1 p _ l ss); eauto; try congruence; [apply HN2|].
      rewrite Hcnt; [lia|]. unfold i_ss. rewrite (co_ss _ _ HC2). auto. }
  destruct Hst3 as (G2 & L2 & HG3 & (EM2 & EI2 & EC2 & EP2 & EN2) & HS3).
  assert (Hset : exists is, i_set_stopsign (s_is s2) (Some ss) = Ok (is, i_acc is) /\ i_st is = ms_set_stopsign (i_st (s_is s2)) (Some ss) /\
     i_tr is = i_tr (s_is s2) ++ [i_st is] /\ c_batch (i_ca is) = [] /\ i_prom is = n /\ i_around is = n /\ i_ss is = Some ss /\ Coh G2 is).
  { unfold i_set_stopsign. pose proof (co_ss _ _ HC2) as Hcs. pose proof (co_acc _ _ HC2) as Hca.
    assert (Hgen : forall a, (forall l0, gM G2 (arnd (i_st (s_is s2))) = Some l0 -> len l0 < a) ->
      Coh G2 (put_st (set_ca (s_is s2) (c_set_ss (c_set_acc (i_ca (s_is s2)) a) (Some ss))) (ms_set_stopsign (i_st (s_is s2)) (Some ss)))).
    { intros a Ha. destruct HC2. constructor; cbn; auto. }
    assert (Hx : i_prom (s_is s2) = n /\ i_around (s_is s2) = n).
    { split; auto. rewrite (op_arnd_eq _ _ _ O2). auto. }
    destruct Hx as [Hx1 Hx2].
    destruct (c_ss (i_ca (s_is s2))) as [s0|] eqn:Hs0; cbn [bind].
    - rewrite <- Hcs in Hca.
      exists (put_st (set_ca (s_is s2) (c_set_ss (i_ca (s_is s2)) (Some ss))) (ms_set_stopsign (i_st (s_is s2)) (Some ss))).
      repeat (split; [reflexivity || exact Hx1 || exact Hx2 || exact F4|]).
      specialize (Hgen (c_acc (i_ca (s_is s2)))). destruct (i_ca (s_is s2)); apply Hgen. intros l0 Hl0. apply Hca. congruence.
    - rewrite <- Hcs in Hca.
      exists (put_st (set_ca (s_is s2) (c_set_ss (c_set_acc (i_ca (s_is s2)) (i_acc (s_is s2) + 1)) (Some ss))) (ms_set_stopsign (i_st (s_is s2)) (Some ss))).
      repeat (split; [reflexivity || exact Hx1 || exact Hx2 || exact F4|]).
      apply Hgen. intros l0 Hl0. unfold i_acc. rewrite Hca. rewrite Hcnt by auto. assert (l0 = l) by congruence. subst. lia. }
  destruct Hset as (is & -> & J1 & J2 & J3 & J4 & J5 & J6 & J7). cbn [bind].
  assert (Hrcv : rcvok G1 from p (nin from) (view (set_is s2 is))).
  { assert (Hs1 : ssset G1 n). { eapply ssset_gle; eauto. apply L1. }
    assert (Hmn1 : gN G1 n p sq = mlen G1 n). { unfold mlen. rewrite EM, EN. rewrite HN1. reflexivity. }
    intros n' _ Hn'. cbn in Hn'. assert (Hn2 : n' = n) by congruence. clear Hn'. subst n'. cbn. rewrite J5, J6. cbn. split.
    - intros _. rewrite F3. split; [lia|]. split; [rewrite EM; auto|]. split; [|auto].
      intros m' sq' A1 A2 A3. apply (Hrest m' sq' A1 A2 A3).
    - intros _. split; auto. intros sq' m' A1 A2 A3. destruct (Hrest m' sq' A1 A2 (plain_is_sync _ A3)) as (_ & _ & B). cbn in B. rewrite B in A3 by auto. discriminate. }
  assert (HA3 : arnd (i_st is) = n) by (rewrite J1; exact F5).
  assert (O3 : Op G2 (set_is s2 is)).
  { eapply (op_recv G1 s2 G2 (set_is s2 is) from); auto.
    - eapply nodeinv_fis; eauto.
      + apply L2.
      + rewrite J1. exact HS3.
      + intros H. congruence.
      + rewrite J3. intros l0 j e _ Hj. destruct j; discriminate.
      + intros _. rewrite EP2, HP2. auto.
    - cbn. congruence.
    - intros _ s0 sq0 A1 A2 A3 A4 A5. cbn. rewrite F3. cbn in A4. rewrite J4 in A4. eauto.
    - cbn. rewrite J2. apply Forall_app. split; [apply (ok_tr _ _ _ O2)|]. constructor; [|constructor].
      eapply (op_safe_recv G1 s2 knorm G2 _ from); eauto.
      + rewrite J1; auto.
      + rewrite J1. change (b_pid (bal_or_default (ms_prom (i_st (s_is s2)))) = from). rewrite (st_prom _ _ _ _ HS2), HP2. auto.
      + eapply rcvok_vle; [|exact Hrcv]. apply vle_st; cbn.
        * rewrite J1, J4. change (bal_or_default (ms_prom (i_st (s_is s2))) = n). rewrite (st_prom _ _ _ _ HS2), HP2. auto.
        * congruence.
        * rewrite J1, J6. reflexivity.
        * left. congruence. }
  eapply good_trans; [apply L2|]. apply reply_ok; auto.
  eapply (minv_accepted G2 (set_is s2 is)); eauto.
Qed.

(** ** Timeouts of a follower *)
Lemma peers_ne G s K b : OpK G s K -> In b (s_peers s) -> p <> b.
Proof.
  intros HO. rewrite (n_peers _ _ _ _ (ok_N _ _ _ HO)). unfold peers_of. rewrite filter_In. intros [_ H] Heq. subst b.
  rewrite Nat.eqb_refl in H. discriminate.
Qed.

Lemma op_preparereq_all G s : Op G s -> Op G (send_preparereq_to_all_peers s).
Proof.
  intros HO. apply op_push_all; auto. intros b Hb. split; [eapply peers_ne; eauto|exact I].
Qed.

Lemma resend_follower_ok G s : Op G s -> s_role s = Follower -> good G (Ok (resend_messages_follower s)).
Proof.
  intros HO Hr. unfold resend_messages_follower. destruct (s_phase s) eqn:Hph.
  - destruct (s_cprom s) as [pr|] eqn:Hc.
    + apply good_ok, op_push; auto. apply (n_cprom _ _ _ _ (ok_N _ _ _ HO) _ Hc).
    + destruct (op_demote G s PhRecover HO) as (G1 & L1 & _ & O1); try discriminate.
      eapply good_trans; [apply L1|]. apply good_ok, op_preparereq_all; auto.
  - apply good_ok; auto.
  - apply good_ok, op_preparereq_all; auto.
  - apply good_ok; auto.
Qed.

Lemma flush_follower_ok G s : Op G s -> s_role s = Follower -> s_phase s = PhAccept -> good G (flush_batch_follower s).
Proof.
  intros HO Hr Hph. unfold flush_batch_follower. destruct (op_flush G s HO Hr) as (G1 & L1 & S1 & O1).
  pose proof (n_role _ _ _ _ (ok_N _ _ _ O1)) as HR. cbn in HR. rewrite Hr, Hph in HR. destruct HR as [Har Hpp].
  destruct (flush_batch (s_is s)) as [is1 acc] eqn:Hf. cbn [fst] in O1.
  assert (Hacc : acc = i_acc is1) by (unfold flush_batch in Hf; cbn in Hf; injection Hf as <- <-; reflexivity).
  assert (Har1 : arnd (i_st is1) = gP G1 p) by (unfold flush_batch in Hf; cbn in Hf; injection Hf as <- <-; exact Har).
  eapply good_trans; [apply L1|]. destruct (i_acc (s_is s) <? acc); [|apply good_ok; auto].
  apply reply_ok; auto. unfold sp_promise. rewrite (op_prom_eq _ _ _ O1).
  rewrite Hacc. apply (minv_accepted G1 (set_is s is1)); auto.
Qed.

(** ** Compaction *)
Lemma set_is_same (s : sp) : set_is s (s_is s) = s.
Proof. destruct s. reflexivity. Qed.

Lemma op_trimmed G s K new sn m : OpK G s K -> (new <= cnt (i_st (s_is s)) \/ ms_ss (i_st (s_is s)) <> None) ->
  ms_write (i_st (s_is s)) ([OpTrim new; OpSetComp new] ++ sn) = Some m ->
  ((sn = [] /\ (ms_snap (i_st (s_is s)) = None -> trimok cc G new)) \/ (exists x, sn = [OpSetSnapshot (Some x)])) ->
  OpK G (set_is s (set_ca (put_st (s_is s) m) (c_set_comp (i_ca (s_is s)) new))) K.
Proof.
  intros HO Hnew Hw Hsn. pose proof (ok_N _ _ _ HO) as HN. pose proof (ok_G _ _ _ HO) as HG.
  destruct (trim_st cc G p _ _ _ _ (n_st _ _ _ _ HN) Hnew Hw Hsn) as (HS & E1 & E2 & E3 & E4 & E5 & E6 & E7).
  assert (Har : arnd m = arnd (i_st (s_is s))) by (unfold arnd; rewrite E2; reflexivity).
  pose proof (n_coh _ _ _ _ HN) as HC. pose proof (co_ss _ _ HC) as Hcs.
  assert (Hcase : ms_ss (i_st (s_is s)) = None /\ cnt m = cnt (i_st (s_is s)) \/ ms_ss (i_st (s_is s)) <> None).
  { destruct (ms_ss (i_st (s_is s))); [right; discriminate|left; auto]. }
  eapply (op_upd G s K G _ K); auto using gls_refl.
  - destruct HN. constructor; auto; cbn; rewrite ?Har, ?E4; auto.
    + destruct HC. constructor; cbn; rewrite ?Har, ?E1, ?E3, ?E4, ?E5; auto.
      destruct (ms_ss (i_st (s_is s))); auto. rewrite (E6 eq_refl). auto.
    + intros Hr l j e Hl He. destruct Hcase as [[Hc ->]|Hc]; [eauto|]. rewrite n_bss in He by auto. destruct j; discriminate.
    + destruct (s_role s), (s_phase s); auto.
      * destruct n_role. constructor; auto.
      * destruct n_role. constructor; auto. cbn. rewrite E4. destruct la_M as (l & L1 & L2 & L3). exists l.
        split; auto. split; auto. intros H. rewrite (E6 H). auto.
  - split; cbn; intros; repeat (split; auto); unfold i_ss; rewrite Hcs; (destruct Hcase as [[Hc ->]|Hc]; [right; lia|left; destruct (ms_ss (i_st (s_is s))); [reflexivity|congruence]]).
  - intros H1 H2. repeat (split; auto). left. auto.
  - cbn. apply Forall_app. split; [apply (ok_tr _ _ _ HO)|]. constructor; [|constructor].
    eapply (op_safe G s K G); eauto using gls_refl; [|rm_g G s HO]. apply vle_st.
    + unfold i_prom. rewrite (co_prom _ _ HC), E1. reflexivity.
    + unfold i_around. rewrite (co_around _ _ HC). auto.
    + unfold i_ss. rewrite Hcs, E4. reflexivity.
    + unfold i_ss. rewrite Hcs. destruct Hcase as [[Hc ->]|Hc]; [right; lia|left; auto].
  - rm_eq G s HO.
Qed.

Lemma dec_cov G s K d : OpK G s K -> d <= i_dec (s_is s) -> d <= cnt (i_st (s_is s)) \/ ms_ss (i_st (s_is s)) <> None.
Proof.
  intros HO Hd. unfold i_dec in Hd. rewrite (co_dec _ _ (n_coh _ _ _ _ (ok_N _ _ _ HO))) in Hd.
  destruct (st_cov _ _ _ _ (n_st _ _ _ _ (ok_N _ _ _ HO))); auto. left. lia.
Qed.
Lemma logdec_le s d : dec_without_ss s = Some d -> d <= i_dec s.
Proof.
  unfold dec_without_ss, sub_chk. destruct (stopsign_is_decided (i_ca s)).
  - destruct (1 <=? i_dec s); [|discriminate]. intros H. injection H as <-. lia.
  - intros H. injection H as <-. lia.
Qed.

Lemma try_trim_ok G s K i : OpK G s K -> (i <= i_dec (s_is s) -> trimok cc G i) ->
  match try_trim (s_is s) i with
  | Ok (is, r) => OpK G (set_is s is) K /\ (r = None -> i <= i_dec (s_is s))
  | Panic tr => Forall Safe tr
  end.
Proof.
  intros HO Ht. unfold try_trim. destruct (dec_without_ss (s_is s)) as [ld|] eqn:Hld; [|apply (ok_tr _ _ _ HO)].
  apply logdec_le in Hld.
  assert (Hgo : forall new, new <= i -> i <= i_dec (s_is s) ->
    match (if i_comp (s_is s) <? new then
          m <- ilift (s_is s) (ms_write (i_st (s_is s)) [OpTrim new; OpSetComp new]) ;;
          let s := put_st (s_is s) m in Ok (set_ca s (c_set_comp (i_ca s) new), @None compaction_err)
        else Ok (s_is s, None)) with
    | Ok (is, r) => OpK G (set_is s is) K /\ (r = None -> i <= i_dec (s_is s))
    | Panic tr => Forall Safe tr
    end).
  { intros new Hn Hi. destruct (i_comp (s_is s) <? new); [|rewrite set_is_same; auto].
    destruct (ms_write (i_st (s_is s)) [OpTrim new; OpSetComp new]) as [m|] eqn:Hw; cbn [ilift bind]; [|apply (ok_tr _ _ _ HO)].
    split; auto. apply (op_trimmed G s K new []); auto.
    - eapply dec_cov; eauto. lia.
    - left. split; auto. intros _. eapply trimok_le; [exact Hn|auto]. }
  destruct (Nat.compare_spec i (i_dec (s_is s))) as [H|H|H].
  - apply Hgo; lia.
  - apply Hgo; lia.
  - rewrite set_is_same. split; auto. discriminate.
Qed.

Lemma try_snapshot_ok G s K i : OpK G s K ->
  match try_snapshot (s_is s) i with
  | Ok (is, r) => OpK G (set_is s is) K
  | Panic tr => Forall Safe tr
  end.
Proof.
  intros HO. unfold try_snapshot. destruct (dec_without_ss (s_is s)) as [ld|] eqn:Hld; [|apply (ok_tr _ _ _ HO)].
  apply logdec_le in Hld.
  assert (Hgo : forall new, new <= i_dec (s_is s) ->
    match (if i_comp (s_is s) <? new then
          match create_snapshot (s_is s) new with
          | CPanic => ipanic (s_is s)
          | CErr e => Ok (s_is s, Some e)
          | COk sn =>
              m <- ilift (s_is s) (ms_write (i_st (s_is s)) [OpTrim new; OpSetComp new; OpSetSnapshot (Some sn)]) ;;
              let s := put_st (s_is s) m in Ok (set_ca s (c_set_comp (i_ca s) new), None)
          end
        else Ok (s_is s, None)) with
    | Ok (is, r) => OpK G (set_is s is) K
    | Panic tr => Forall Safe tr
    end).
  { intros new Hn. destruct (i_comp (s_is s) <? new); [|rewrite set_is_same; auto].
    destruct (create_snapshot (s_is s) new) as [sn|e|]; [|rewrite set_is_same; auto|apply (ok_tr _ _ _ HO)].
    destruct (ms_write (i_st (s_is s)) [OpTrim new; OpSetComp new; OpSetSnapshot (Some sn)]) as [m|] eqn:Hw; cbn [ilift bind]; [|apply (ok_tr _ _ _ HO)].
    apply (op_trimmed G s K new [OpSetSnapshot (Some sn)]); eauto.
    eapply dec_cov; eauto. }
  destruct i as [i|]; [|apply Hgo; auto].
  destruct (Nat.compare_spec i (i_dec (s_is s))) as [H|H|H].
  - apply Hgo; lia.
  - apply Hgo; lia.
  - rewrite set_is_same. auto.
Qed.

(** A step with a returned value. *)
Definition goodr {A} (G : ghost) (r : res (sp * A)) : Prop := good G ('(s, _) <- r ;; Ok s).

Lemma snapshot_ok G s i lo : Op G s -> goodr G (sp_snapshot s i lo).
Proof.
  intros HO. unfold goodr, sp_snapshot. pose proof (try_snapshot_ok G s knorm i HO) as H.
  destruct (try_snapshot (s_is s) i) as [[is r]|tr]; cbn [bind]; [|exact H].
  destruct r; cbn [bind]; [apply good_ok; auto|]. destruct lo; [apply good_ok; auto|].
  apply good_ok, op_push_all; auto. intros b Hb. split; [eapply (peers_ne G s); eauto|exact I].
Qed.

Lemma compaction_ok G s c from : Op G s -> minv cc G from p (MCompaction c) -> good G (handle_compaction s c).
Proof.
  intros HO [_ Hm]. unfold handle_compaction. destruct c as [i|i].
  - pose proof (try_trim_ok G s knorm i HO (fun _ => Hm)) as H.
    destruct (try_trim (s_is s) i) as [[is r]|tr]; cbn [bind]; [|exact H]. apply good_ok, H.
  - apply snapshot_ok. auto.
Qed.

Lemma min_fold l : forall a, fold_left Nat.min l a <= a /\ forall x, In x l -> fold_left Nat.min l a <= x.
Proof.
  induction l as [|y l IH]; intros a; cbn; [split; [lia|intros x []]|].
  destruct (IH (Nat.min a y)) as [H1 H2]. split; [lia|]. intros x [->|Hx]; [lia|auto].
Qed.

Lemma trim_ok G s i : Op G s -> goodr G (sp_trim s i).
Proof.
  intros HO. unfold goodr, sp_trim. destruct (s_role s) eqn:Hr; [apply good_ok; auto|].
  destruct (get_min_all_accepted_idx (s_ls s)) as [mn|] eqn:Hmn; cbn [lift bind]; [|eapply good_panic; eauto].
  pose proof (ok_N _ _ _ HO) as HN.
  assert (Hall : forall q, In q nds -> exists k, vget (l_accs (s_ls s)) q = Some k /\ mn <= k).
  { intros q Hq. pose proof (n_maxp _ _ _ _ HN q Hq) as Hle. pose proof (nd0 q Hq) as Hq0.
    pose proof (n_laccs _ _ _ _ HN) as Hlen. unfold vget, pid_to_idx, sub_chk. destruct (Nat.leb_spec 1 q); [|lia].
    destruct (nth_error (l_accs (s_ls s)) (q - 1)) as [k|] eqn:Hk.
    - exists k. split; auto. apply nth_error_In in Hk. unfold get_min_all_accepted_idx in Hmn.
      destruct (l_accs (s_ls s)) as [|a r]; [discriminate|]. injection Hmn as <-. destruct (min_fold r a) as [M1 M2].
      destruct Hk as [->|Hk]; auto.
    - apply nth_error_None in Hk. lia. }
  assert (Htr : forall j, j <= mn -> j <= i_dec (s_is s) -> trimok cc G j).
  { intros j Hj Hd. destruct (Nat.eq_dec j 0) as [->|Hj0]; [left; auto|].
    pose proof (n_role _ _ _ _ HN) as HR. rewrite Hr in HR. destruct (s_phase s); try contradiction.
    - exfalso. destruct (Hall p (n_in _ _ _ _ HN)) as (k & Hk & Hle). apply (lp_accs _ _ _ _ HR) in Hk. lia.
    - right. unfold i_dec in Hd. rewrite (co_dec _ _ (n_coh _ _ _ _ HN)) in Hd.
      destruct (decok_idx _ _ _ _ _ Hd (st_dec _ _ _ _ (n_st _ _ _ _ HN))) as [Hd0|(b' & Hb' & Hch)]; [lia|].
      exists (l_n (s_ls s)), b'. rewrite <- (op_arnd_eq _ _ _ HO), (la_arnd _ _ _ _ HR) in Hb'. split; auto. split; auto.
      intros q Hq. destruct (Hall q Hq) as (k & Hk & Hle). destruct (la_accs _ _ _ _ HR q k Hk) as [Hk0|Hac]; [lia|].
      eapply acov_le; [|exact Hac]. lia. }
  assert (Hgo : forall j, j <= mn -> good G ('(s, _) <- ('(is, r) <- try_trim (s_is s) j ;;
        let s := set_is s is in
        match r with
        | None => Ok (push_all s (s_peers s) (MCompaction (CmpTrim j)), None)
        | Some e => Ok (s, Some e)
        end) ;; Ok s)).
  { intros j Hj. pose proof (try_trim_ok G s knorm j HO (Htr j Hj)) as H.
    destruct (try_trim (s_is s) j) as [[is r]|tr]; cbn [bind]; [|exact H]. destruct H as [H1 H2].
    destruct r; cbn [bind]; [apply good_ok; auto|]. apply good_ok, op_push_all; auto.
    intros b Hb. split; [eapply (peers_ne G s); eauto|]. apply Htr; auto. }
  destruct i as [i|]; [|apply Hgo; auto]. destruct (Nat.leb_spec i mn); [apply Hgo; auto|apply good_ok; auto].
Qed.

End WithCtx.
