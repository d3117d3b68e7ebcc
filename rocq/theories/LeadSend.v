(** * Messages with numbers sent by the leader *)
From Coq Require Import List Arith Bool Lia.
Import ListNotations.
From Verif Require Import Types Config MemStore Internal LeaderState SeqPaxos Basics Ghost GhostOps Inv StoreOps SyncOps Op LeadLinks.

Section WithCtx.
Context {E : EntryT} {X : octx}.
Notation cc := xcc.
Notation p := xp.
Notation oth := xoth.
Notation nin := xnin.
Notation nout := xnout.
Notation nds := (nds cc).

Definition kset (K : node_id -> mode) (b : node_id) (k : mode) : node_id -> mode := fun c => if c =? b then k else K c.

(** The parts of the leader's state that sending does not change. *)
Record lsame (l l' : leader_state) : Prop := {
  lsm_n : l_n l' = l_n l;
  lsm_proms : l_proms l' = l_proms l;
  lsm_accs : l_accs l' = l_accs l;
  lsm_max : l_maxmeta l' = l_maxmeta l;
  lsm_q : l_quorum l' = l_quorum l;
  lsm_mp : l_maxpid l' = l_maxpid l
}.
Lemma lsame_refl l : lsame l l.
Proof. constructor; reflexivity. Qed.
Lemma lsame_trans a b c : lsame a b -> lsame b c -> lsame a c.
Proof. intros [] []. constructor; congruence. Qed.

Lemma stinv_same G G1 st : GInv cc G -> gle G G1 -> gP G1 = gP G -> gA G1 = gA G -> StInv cc G p st -> StInv cc G1 p st.
Proof. intros HG HL HP HA. apply stinv_gle; auto; [rewrite HP; reflexivity|intros; rewrite HA; reflexivity]. Qed.

Lemma nodeinv_acc G G1 s s1 : GInv cc G -> NodeInv cc G p s -> s_role s = Leader -> s_phase s = PhAccept ->
  gle G G1 -> gM G1 = gM G -> gI G1 = gI G -> gP G1 = gP G -> gA G1 = gA G ->
  s_is s1 = s_is s -> s_pid s1 = s_pid s -> s_peers s1 = s_peers s -> s_role s1 = Leader -> s_phase s1 = PhAccept ->
  l_n (s_ls s1) = l_n (s_ls s) -> l_quorum (s_ls s1) = l_quorum (s_ls s) -> l_maxpid (s_ls s1) = l_maxpid (s_ls s) ->
  length (l_accs (s_ls s1)) = length (l_accs (s_ls s)) -> l_maxmeta (s_ls s1) = l_maxmeta (s_ls s) ->
  (forall q m, vget (l_proms (s_ls s1)) q = Some (Promised m) -> q <> p -> mok cc G (l_n (s_ls s)) q m) ->
  (forall q k, vget (l_accs (s_ls s1)) q = Some k -> k = 0 \/ acov G q (l_n (s_ls s)) k) ->
  (forall b i, s_lam s1 = Some (b, i) -> exists k, nth_error (s_out s1) i = Some (mkPM p (b_pid b) (MAccepted b k))) ->
  (forall pr, s_cprom s1 = Some pr -> minv cc G p (b_pid (pr_n pr)) (MPromise pr)) ->
  Forall (fun m => pm_from m = p /\ pm_to m <> p) (s_out s1) ->
  NodeInv cc G1 p s1.
Proof.
  intros HG HN Hr Hph HL HM HI HP HA E1 E2 E3 E4 E5 E6 E7 E8 E9 E10 Hpr Hac Hlam Hcp Hout.
  pose proof (n_role _ _ _ _ HN) as HR. rewrite Hr, Hph in HR.
  destruct HN. constructor; rewrite ?E1, ?E2, ?E3; auto.
  - eapply stinv_same; eauto.
  - eapply (coh_gle cc G); eauto.
  - congruence.
  - rewrite E8. auto.
  - congruence.
  - rewrite HP. auto.
  - rewrite E5. discriminate.
  - rewrite E4. discriminate.
  - rewrite E4, E5. destruct HR. constructor; rewrite ?E1, ?E6, ?E10, ?HM, ?HI, ?HP; auto.
    + intros q m Hm Hq. eapply mok_gle; eauto.
    + intros q k Hk. destruct (Hac q k Hk); auto. right. eapply gle_acov; eauto.
  - intros pr Hpr'. eapply minv_gle; eauto.
Qed.

Lemma nodeinv_lsame G G1 s s1 : GInv cc G -> NodeInv cc G p s -> s_role s = Leader -> s_phase s = PhAccept ->
  gle G G1 -> gM G1 = gM G -> gI G1 = gI G -> gP G1 = gP G -> gA G1 = gA G ->
  s_is s1 = s_is s -> s_pid s1 = s_pid s -> s_peers s1 = s_peers s -> s_role s1 = Leader -> s_phase s1 = PhAccept ->
  lsame (s_ls s) (s_ls s1) -> s_cprom s1 = s_cprom s ->
  (forall b i, s_lam s1 = Some (b, i) -> exists k, nth_error (s_out s1) i = Some (mkPM p (b_pid b) (MAccepted b k))) ->
  Forall (fun m => pm_from m = p /\ pm_to m <> p) (s_out s1) ->
  NodeInv cc G1 p s1.
Proof.
  intros HG HN Hr Hph HL HM HI HP HA E1 E2 E3 E4 E5 [] E6 Hlam Hout.
  pose proof (n_role _ _ _ _ HN) as HR. rewrite Hr, Hph in HR.
  apply (nodeinv_acc G G1 s); auto.
  - congruence.
  - rewrite lsm_proms0. apply (la_proms _ _ _ _ HR).
  - rewrite lsm_accs0. apply (la_accs _ _ _ _ HR).
  - rewrite E6. apply (n_cprom _ _ _ _ HN).
Qed.

(** A message with a new number. *)
Lemma op_send G s K b m ls1 sq sq1 k1 (n := l_n (s_ls s)) (G1 := setN G n b sq1 (mlen G n)) (s1 := push (set_ls s ls1) b m) :
  OpK G s K -> b <> p -> s_role s = Leader -> s_phase s = PhAccept ->
  vget (l_seqs (s_ls s)) b = Some sq -> numb m = Some (n, sq1) -> slt sq sq1 ->
  lsame (s_ls s) ls1 ->
  (forall q, vget (l_seqs ls1) q = if q =? b then Some sq1 else vget (l_seqs (s_ls s)) q) ->
  (forall q, q <> b -> vget (l_accmeta ls1) q = vget (l_accmeta (s_ls s)) q) ->
  minv cc G p b m -> posok G1 p b m -> (ssset G n -> plain_sync m = false) ->
  sndm G1 b s1 (vout s b ++ [m]) k1 -> amok G1 p b s1 k1 ->
  glp p G G1 /\ OpK G1 s1 (kset K b k1).
Proof.
  intros HO Hb Hr Hph Hsq Hm Hlt HS Hseq Hmeta Hmi Hpo Hps Hsnd Ham.
  pose proof (n_role _ _ _ _ (ok_N _ _ _ HO)) as HR. rewrite Hr, Hph in HR. pose proof (la_pid _ _ _ _ HR) as Hpid. fold n in Hpid.
  destruct (setN_ok cc G p n b sq1 (mlen G n) (ok_G _ _ _ HO) Hpid) as [HL HG1]. fold G1 in HL, HG1.
  split; auto. destruct HO as [O1 O2 O3 O4 O5 O6 O7 O8 O9 O10].
  assert (Hvo : forall c, vout s1 c = if b =? c then vout s c ++ [m] else vout s c).
  { intros c. unfold s1, vout, push. cbn [s_out set_out set_ls]. rewrite outs_app, outs_one.
    destruct (b =? c); rewrite ?app_nil_r, ?app_assoc; reflexivity. }
  assert (Hn1 : l_n ls1 = n) by apply (lsm_n _ _ HS).
  assert (Hprd : forall c, promd s1 c -> promd s c) by (intros c; unfold promd; cbn; rewrite (lsm_proms _ _ HS); auto).
  destruct (O6 b Hb Hr Hph sq Hsq) as [S1 S2].
  constructor; auto.
  - eapply glp_trans; eauto.
  - apply (nodeinv_lsame G G1 s); auto; try reflexivity.
    + apply HL.
    + intros b0 i Hi. destruct (n_lam _ _ _ _ O3 b0 i Hi) as [k Hk]. exists k. cbn. rewrite nth_error_app1; auto. apply nth_error_Some. congruence.
    + cbn. rewrite Forall_app. split; [apply (n_out _ _ _ _ O3)|]. constructor; [|constructor]. cbn. split; [apply (n_pid _ _ _ _ O3)|auto].
  - intros a Ha. eapply linv_fr; [exact HL|exact Ha|apply xHoth|]. exact (O4 a Ha).
  - intros c Hc. rewrite Hvo. destruct (Nat.eqb_spec b c) as [<-|Hbc].
    + apply lcore_send; auto.
      * intros m0 Hm0 s0 Hs0. eapply sle_slt_trans; [|exact Hlt]. eapply S1; eauto.
      * intros rv Hrv Hpr Hpa. eapply sle_slt_trans; [|exact Hlt]. apply (S2 rv Hrv Hpr Hpa).
    + eapply lcore_gle; [apply HL| |auto]. intros n' Hn'. unfold G1.
      cbn. apply Nat.eqb_neq in Hbc. rewrite Nat.eqb_sym in Hbc. rewrite Hbc, andb_false_r. reflexivity.
  - intros c Hc _ _ sq0. rewrite Hvo. change (s_ls s1) with ls1. rewrite Hseq, Hn1. rewrite (Nat.eqb_sym c b). destruct (Nat.eqb_spec b c) as [<-|Hbc].
    + intros H. injection H as <-. split.
      * intros m0 s' Hin Hm0. apply in_app_iff in Hin. destruct Hin as [Hin|[<-|[]]].
        -- left. eapply sle_slt_trans; [|exact Hlt]. eapply S1; eauto.
        -- right. congruence.
      * intros rv Hrv Hpr Hpa. assert (Hx : slt (rv_cseq rv) sq1) by (eapply sle_slt_trans; [|exact Hlt]; apply (S2 rv Hrv Hpr Hpa)).
        split; [left; exact Hx|intros _ _; exact Hx].
    + intros H. rewrite Hmeta by auto. exact (O6 c Hc Hr Hph sq0 H).
  - intros c Hc. rewrite Hvo. unfold kset. rewrite (Nat.eqb_sym c b). destruct (Nat.eqb_spec b c) as [<-|Hbc]; [exact Hsnd|].
    intros _ _ Hpd sq0. change (s_ls s1) with ls1. rewrite Hseq, Hn1. destruct (Nat.eqb_spec c b) as [->|_]; [congruence|]. intros Hs0.
    pose proof (O7 c Hc Hr Hph (Hprd c Hpd) sq0 Hs0) as A. cbn zeta in *. fold n in A.
    assert (HN : forall s', gN G1 n c s' = gN G n c s') by (intros; apply setN_dst; auto).
    destruct (K c); rewrite ?HN; exact A.
  - intros c Hc. unfold kset. destruct (Nat.eqb_spec c b) as [->|Hbc]; [exact Ham|].
    intros _ _ n0 i. change (s_ls s1) with ls1. rewrite Hmeta, Hn1 by auto. intros Hi.
    destruct (O8 c Hc Hr Hph n0 i Hi) as [-> (sq0 & d & es & B1 & B2)]. split; auto. exists sq0, d, es. split.
    + unfold s1. cbn. rewrite nth_error_app1; auto. apply nth_error_Some. congruence.
    + intros Hpd. specialize (B2 (Hprd c Hpd)). rewrite Hseq. destruct (Nat.eqb_spec c b) as [->|_]; [congruence|]. exact B2.
  - unfold room, s1. rewrite pend_push, (pendm_numb _ _ Hm). rewrite Nat.add_0_r. exact (roomg_M G G1 _ eq_refl O10).
Qed.

(** A message with the last number, sent again. *)
Lemma op_resend G s K b m sq (n := l_n (s_ls s)) :
  OpK G s K -> K b = Norm -> b <> p -> s_role s = Leader -> s_phase s = PhAccept -> promd s b ->
  vget (l_seqs (s_ls s)) b = Some sq -> numb m = Some (n, sq) -> resendable m = true -> ssset G n ->
  minv cc G p b m -> posok G p b m -> OpK G (push s b m) K.
Proof.
  intros HO HKb Hb Hr Hph Hpd Hsq Hm Hre Hss Hmi Hpo.
  pose proof (n_role _ _ _ _ (ok_N _ _ _ HO)) as HR. rewrite Hr, Hph in HR. pose proof (la_pid _ _ _ _ HR) as Hpid. fold n in Hpid.
  destruct HO as [O1 O2 O3 O4 O5 O6 O7 O8 O9 O10].
  set (s1 := push s b m).
  assert (Hvo : forall c, vout s1 c = if b =? c then vout s c ++ [m] else vout s c).
  { intros c. unfold s1, vout, push. cbn [s_out set_out set_ls]. rewrite outs_app, outs_one.
    destruct (b =? c); rewrite ?app_nil_r, ?app_assoc; reflexivity. }
  destruct (O6 b Hb Hr Hph sq Hsq) as [S1 S2]. pose proof (O7 b Hb Hr Hph Hpd sq Hsq) as HN0. rewrite HKb in HN0. destruct HN0 as (N1 & N2 & N3). fold n in N2, N3. destruct (N3 Hss) as [N4 N5].
  assert (Hna : is_accdec m = false /\ plain_sync m = false) by (destruct m; try discriminate; auto). destruct Hna as [Hna Hps].
  constructor; auto.
  - apply (nodeinv_lsame G G s); auto; try reflexivity.
    + apply gle_refl.
    + apply lsame_refl.
    + intros b0 i Hi. destruct (n_lam _ _ _ _ O3 b0 i Hi) as [k Hk]. exists k. cbn. rewrite nth_error_app1; auto. apply nth_error_Some. congruence.
    + cbn. rewrite Forall_app. split; [apply (n_out _ _ _ _ O3)|]. constructor; [|constructor]. cbn. split; [apply (n_pid _ _ _ _ O3)|auto].
  - intros c Hc. rewrite Hvo. destruct (Nat.eqb_spec b c) as [<-|Hbc]; [|auto].
    apply (lcore_snocn _ _ _ _ _ _ n sq); auto.
    + intros m0 s0 Hin Hs0. destruct (S1 m0 s0 Hin Hs0) as [|Heq]; auto. right. subst s0. split; auto.
    + intros rv Hrv Hpr Hpa. destruct (S2 rv Hrv Hpr Hpa) as [[|Heq] _]; auto.
  - intros c Hc _ _ sq0 Hs0. rewrite Hvo. change (s_ls s1) with (s_ls s) in *. destruct (O6 c Hc Hr Hph sq0 Hs0) as [T1 T2].
    destruct (Nat.eqb_spec b c) as [<-|Hbc]; split; auto.
    intros m0 s' Hin Hm0. apply in_app_iff in Hin. destruct Hin as [Hin|[<-|[]]]; [eauto|right; fold n in Hm0; congruence].
  - intros c Hc _ _ Hpd0 sq0 Hs0. rewrite Hvo. change (s_ls s1) with (s_ls s) in *.
    pose proof (O7 c Hc Hr Hph Hpd0 sq0 Hs0) as HT. cbn zeta in HT.
    destruct (Nat.eqb_spec b c) as [<-|Hbc]; [|exact HT]. rewrite HKb in *. destruct HT as (T1 & T2 & T3). split; auto. split; auto. intros Hs. destruct (T3 Hs) as [T4 T5]. split; auto.
    intros m0 Hin Hm0. apply in_app_iff in Hin. destruct Hin as [Hin|[<-|[]]]; auto.
  - intros c Hc _ _ n0 i Hi. change (s_ls s1) with (s_ls s) in *.
    destruct (O8 c Hc Hr Hph n0 i Hi) as [-> (sq0 & d & es & B1 & B2)]. split; auto. exists sq0, d, es. split; [|exact B2].
    unfold s1. cbn. rewrite nth_error_app1; auto. apply nth_error_Some. congruence.
  - unfold room, s1. rewrite pend_push, (pendm_numb _ _ Hm). rewrite Nat.add_0_r. exact O10.
Qed.

(** *** A change of a message that is not fetched *)
Lemma upd_mid_eq (l1 l2 : list pmessage) x y : upd (l1 ++ x :: l2) (length l1) y = l1 ++ y :: l2.
Proof. induction l1 as [|h l1 IH]; cbn; [reflexivity|rewrite IH; reflexivity]. Qed.

Lemma split_nth {A} (l : list A) : forall i x, nth_error l i = Some x -> exists l1 l2, l = l1 ++ x :: l2 /\ length l1 = i.
Proof. intros i x H. apply nth_error_split in H. exact H. Qed.

Lemma op_modmsg G s K b i n0 sq d es d' es' k1 (n := l_n (s_ls s)) (G1 := setN G n b sq (mlen G n))
    (s1 := set_out s (upd (s_out s) i (mkPM p b (MAcceptDecide n sq d' (es ++ es'))))) :
  OpK G s K -> b <> p -> s_role s = Leader -> s_phase s = PhAccept -> promd s b ->
  vget (l_accmeta (s_ls s)) b = Some (Some (n0, i)) ->
  nth_error (s_out s) i = Some (mkPM p b (MAcceptDecide n sq d es)) ->
  decok cc G n d' ->
  ((es' = [] /\ K b = k1) \/
   (vget (l_seqs (s_ls s)) b = Some sq /\ mlen G n = gN G n b sq + length es' /\
    (forall l, gM G n = Some l -> forall j e, nth_error es' j = Some e -> at_ l (gN G n b sq + j) = Some (Ent e)) /\
    k1 = Old (mlen G n))) ->
  exists G', glp p G G' /\ gle G G' /\ gM G' = gM G /\ gI G' = gI G /\ gC G' = gC G /\ gP G' = gP G /\ gA G' = gA G /\ OpK G' s1 (kset K b k1).
Proof.
  intros HO Hb Hr Hph Hpd Hmeta Hnth Hd Hcase.
  pose proof (n_role _ _ _ _ (ok_N _ _ _ HO)) as HR. rewrite Hr, Hph in HR. pose proof (la_pid _ _ _ _ HR) as Hpid. fold n in Hpid.
  destruct (split_nth _ _ _ Hnth) as (l1 & l2 & Hout & Hlen).
  assert (Hout1 : s_out s1 = l1 ++ mkPM p b (MAcceptDecide n sq d' (es ++ es')) :: l2).
  { unfold s1. cbn. rewrite Hout, <- Hlen. apply upd_mid_eq. }
  assert (Hvb : vout s b = (nout b ++ outs b l1) ++ MAcceptDecide n sq d es :: outs b l2).
  { unfold vout. rewrite Hout, outs_app. change (mkPM p b (MAcceptDecide n sq d es) :: l2) with ([mkPM p b (MAcceptDecide n sq d es)] ++ l2).
    rewrite outs_app, outs_one, Nat.eqb_refl, <- app_assoc. reflexivity. }
  assert (Hvb1 : vout s1 b = (nout b ++ outs b l1) ++ MAcceptDecide n sq d' (es ++ es') :: outs b l2).
  { unfold vout. rewrite Hout1, outs_app. change (mkPM p b (MAcceptDecide n sq d' (es ++ es')) :: l2) with ([mkPM p b (MAcceptDecide n sq d' (es ++ es'))] ++ l2).
    rewrite outs_app, outs_one, Nat.eqb_refl, <- app_assoc. reflexivity. }
  assert (Hvc : forall c, c <> b -> vout s1 c = vout s c).
  { intros c Hc. unfold vout. rewrite Hout, Hout1, !outs_app. do 2 f_equal. unfold outs. cbn. apply not_eq_sym in Hc. apply Nat.eqb_neq in Hc. rewrite Hc. reflexivity. }
  assert (Hnb : forall m s', In m (vout s1 b) -> numb m = Some (n, s') -> exists m0, In m0 (vout s b) /\ numb m0 = Some (n, s') /\ is_accdec m = is_accdec m0).
  { intros m s'. rewrite Hvb, Hvb1. intros Hin Hs. apply in_app_iff in Hin. destruct Hin as [Hin|[<-|Hin]].
    - exists m. split; auto. apply in_app_iff. auto.
    - eexists. split; [apply in_app_iff; right; left; reflexivity|]. split; [exact Hs|reflexivity].
    - exists m. split; auto. apply in_app_iff. right. right. auto. }
  destruct HO as [O1 O2 O3 O4 O5 O6 O7 O8 O9 O10].
  assert (Hin1 : exists x, nth_error (s_out s1) i = Some x) by (eexists; rewrite Hout1, nth_error_app2 by lia; replace (i - length l1) with 0 by lia; reflexivity).
  assert (Hnth1 : forall j, nth_error (s_out s1) j = if j =? i then Some (mkPM p b (MAcceptDecide n sq d' (es ++ es'))) else nth_error (s_out s) j).
  { intros j. unfold s1. cbn. apply upd_nth. apply nth_error_Some. congruence. }
  (* the ghost state *)
  assert (HGG : exists G', glp p G G' /\ GInv cc G' /\ gle G G' /\ gM G' = gM G /\ gI G' = gI G /\ gC G' = gC G /\ gP G' = gP G /\ gA G' = gA G /\
     (forall c, c <> b -> gN G' n c = gN G n c) /\ lcore cc G' p b (vout s1 b) (rb b) /\
     (forall c, c <> b -> nsame p c G G') /\ sndm G' b s1 (vout s1 b) k1 /\ amok G' p b s1 k1).
  { destruct Hcase as [[-> Hk]|(Hsq & Hml & Hat & ->)].
    - rewrite app_nil_r in *. exists G. split; [apply glp_refl|]. split; auto. split; [apply gle_refl|]. do 5 (split; [reflexivity|]). split; auto.
      split; [|split; [|split]].
      + rewrite Hvb1. eapply lcore_redec; [|exact Hd]. rewrite <- Hvb. auto.
      + intros c Hc n' Hn'. reflexivity.
      + intros H1 H2 H3 sq0 Hs0. pose proof (O7 b Hb H1 H2 H3 sq0 Hs0) as A. cbn zeta in *. rewrite Hk in A. destruct k1; auto.
        destruct A as (A1 & A2 & A3). split; auto. split; auto. intros Hss. destruct (A3 Hss) as [A4 A5]. split; auto.
        intros m Hin Hm. destruct (Hnb m sq0 Hin Hm) as (m0 & I1 & I2 & ->). auto.
      + intros H1 H2 n1 i1 Hi1. destruct (O8 b Hb H1 H2 n1 i1 Hi1) as [-> (sq0 & d0 & es0 & B1 & B2)]. split; auto.
        change (s_ls s1) with (s_ls s) in Hi1. assert (i1 = i) by congruence. subst i1. rewrite Hnth1, Nat.eqb_refl.
        exists sq, d', es. split; auto. rewrite Hnth in B1. injection B1 as <- _ _. rewrite Hk in B2. exact B2.
    - destruct (setN_ok cc G p n b sq (mlen G n) O2 Hpid) as [HL HG1]. fold G1 in HL, HG1.
      exists G1. split; auto. split; auto. split; [apply HL|]. do 5 (split; [reflexivity|]).
      destruct (O6 b Hb Hr Hph sq Hsq) as [S1 S2]. destruct (O5 b Hb) as (C1 & C2 & C3 & C4).
      split; [|split; [|split; [|split]]].
      + intros c Hc. unfold G1. cbn. apply Nat.eqb_neq in Hc. rewrite Hc, andb_false_r. reflexivity.
      + rewrite Hvb1. eapply lcore_ext; auto; [| |].
        * rewrite <- Hvb. apply O5; auto.
        * rewrite <- Hvb. exact S1.
        * intros rv Hrv Hpr Hpa. destruct (S2 rv Hrv Hpr Hpa) as [_ S3]. exact (S3 _ Hmeta).
      + intros c Hc n' Hn'. unfold G1. cbn. apply Nat.eqb_neq in Hc. rewrite Hc, andb_false_r. reflexivity.
      + intros H1 H2 H3 sq0 Hs0. change (s_ls s1) with (s_ls s) in *. assert (sq0 = sq) by congruence. subst sq0. cbn zeta. split.
        * rewrite Hvb in C3. rewrite Forall_app in C3. destruct C3 as [_ C3]. inversion C3 as [|? ? C5 _]; subst.
          destruct (C5 n sq Hpid eq_refl) as (_ & _ & C6 & _). lia.
        * unfold G1. apply setN_same.
      + intros H1 H2 n1 i1 Hi1. change (s_ls s1) with (s_ls s) in *. destruct (O8 b Hb H1 H2 n1 i1 Hi1) as [-> _]. split; auto.
        assert (i1 = i) by congruence. subst i1. rewrite Hnth1, Nat.eqb_refl. exists sq, d', (es ++ es'). split; auto. }
  destruct HGG as (G' & HL & HG' & HLe & HM & HI & HC & HP & HA & HNc & Hcore & Hns & Hsnd & Ham).
  exists G'. split; auto. split; auto. do 5 (split; auto). constructor; auto.
  - eapply glp_trans; eauto.
  - apply (nodeinv_lsame G G' s); auto; try reflexivity.
    + apply lsame_refl.
    + intros b0 j Hj. change (s_lam s1) with (s_lam s) in Hj. destruct (n_lam _ _ _ _ O3 b0 j Hj) as [k Hk]. exists k. rewrite Hnth1.
      destruct (Nat.eqb_spec j i) as [->|]; auto. congruence.
    + pose proof (n_out _ _ _ _ O3) as HF. rewrite Hout in HF. rewrite Hout1. rewrite Forall_app in *. destruct HF as [F1 F2]. split; auto.
      inversion F2 as [|? ? F3 F4]; subst. constructor; auto.
  - intros a Ha. eapply linv_fr; [exact HL|exact Ha|apply xHoth|]. exact (O4 a Ha).
  - intros c Hc. destruct (Nat.eq_dec c b) as [->|Hcb]; auto. rewrite Hvc by auto. eapply lcore_gle; [exact HLe|auto|auto].
  - intros c Hc H1 H2 sq0 Hs0. destruct (O6 c Hc H1 H2 sq0 Hs0) as [T1 T2]. split; auto.
    destruct (Nat.eq_dec c b) as [->|Hcb]; [|rewrite Hvc by auto; auto]. intros m s' Hin Hm.
    destruct (Hnb m s' Hin Hm) as (m0 & I1 & I2 & _). eauto.
  - intros c Hc. unfold kset. destruct (Nat.eqb_spec c b) as [->|Hcb]; auto. rewrite Hvc by auto.
    intros H1 H2 H3 sq0 Hs0. pose proof (O7 c Hc H1 H2 H3 sq0 Hs0) as A. cbn zeta in *. unfold ssset, mlen in *. rewrite HM.
    change (l_n (s_ls s1)) with n in *. change (l_n (s_ls s)) with n in A. rewrite HNc by auto. exact A.
  - intros c Hc. unfold kset. destruct (Nat.eqb_spec c b) as [->|Hcb]; auto. intros H1 H2 n1 j Hj.
    destruct (O8 c Hc H1 H2 n1 j Hj) as [-> (sq0 & d0 & es0 & B1 & B2)]. split; auto. exists sq0, d0, es0. rewrite Hnth1. split.
    + destruct (Nat.eqb_spec j i) as [->|]; auto. rewrite Hnth in B1. injection B1 as HH. congruence.
    + unfold ssset in *. rewrite HM. exact B2.
  - apply (room_le G _ s); [exact HM| |exact O10]. unfold pend, lbatch. rewrite Hout, Hout1, !fwd_app. reflexivity.
Qed.

End WithCtx.
