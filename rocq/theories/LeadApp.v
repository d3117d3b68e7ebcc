(** * A leader that extends its log *)
From Coq Require Import List Arith Bool Lia.
Import ListNotations.
From Verif Require Import Types Config MemStore Internal LeaderState SeqPaxos Basics Ghost GhostOps Inv StoreOps SyncOps Op FollowerOps
  LeadLinks LeadSend LeadLoop.

Section WithCtx.
Context {E : EntryT} {X : octx}.
Notation cc := xcc.
Notation p := xp.
Notation oth := xoth.
Notation nin := xnin.
Notation nout := xnout.
Notation nds := (nds cc).

(** ** The incoming links of a server that has promised its own ballot *)
Lemma linv_own G a sa vl v v' : a <> p -> (forall s, sa = Some s -> lead_pid a s) -> b_pid (rv_prom v') = p ->
  linv cc G a p sa vl (Some v) -> linv cc G a p sa vl (Some v').
Proof.
  intros Ha Hl Hp [(A1 & A2 & A3 & A4) B]. split.
  - split; [exact A1|]. split; [exact A2|]. split; [exact A3|]. intros rv Hrv n Hn Hpr. injection Hrv as <-. exfalso. congruence.
  - intros s Hs. destruct (B s Hs) as [B1 B2]. split; auto. intros H1 H2 sq Hsq. destruct (B1 H1 H2 sq Hsq) as [C1 C2].
    split; auto. intros rv Hrv Hpr Hph. injection Hrv as <-. exfalso. apply Ha. rewrite <- (Hl s Hs H1 H2), <- Hpr. exact Hp.
Qed.

Lemma op_safe_own G s K G1 st : OpK G s K -> gls p G G1 -> GInv cc G1 -> StInv cc G1 p st ->
  b_pid (bal_or_default (ms_prom st)) = p -> roomg G1 0 -> Safe st.
Proof.
  intros HO [HL HN] HG1 HS HV Hrm. exists G1. split; [eapply glp_trans; [apply (ok_glp _ _ _ HO)|exact HL]|].
  split; auto. split; auto. split; [|split; [|exact Hrm]].
  - intros a Ha. eapply linv_own; [exact Ha|apply xHoth|exact HV|]. eapply linv_fr; [exact HL|exact Ha|apply xHoth|]. apply (ok_in _ _ _ HO); auto.
  - intros b Hb. destruct HL as [HL _]. eapply lcore_gle; [exact HL|intros n Hn; rewrite HN; reflexivity|].
    eapply lcore_prefix. apply (ok_out _ _ _ HO); auto.
Qed.

Lemma op_updl G s K G1 s1 K1 : OpK G s K -> gls p G G1 -> GInv cc G1 -> NodeInv cc G1 p s1 -> b_pid (i_prom (s_is s1)) = p ->
  s_out s1 = s_out s ->
  (s_role s1 = Leader -> s_phase s1 = PhAccept ->
     s_role s = Leader /\ s_phase s = PhAccept /\ l_n (s_ls s1) = l_n (s_ls s) /\ l_seqs (s_ls s1) = l_seqs (s_ls s) /\
     forall b, b <> p -> modeok G G1 (l_n (s_ls s)) (K b) (K1 b) /\ (promd s1 b -> promd s b) /\
       (forall x, vget (l_accmeta (s_ls s1)) b = Some (Some x) -> vget (l_accmeta (s_ls s)) b = Some (Some x))) ->
  Forall Safe (i_tr (s_is s1)) -> room G1 s1 0 ->
  OpK G1 s1 K1.
Proof.
  intros HO [HL HN] HG1 HNI HV Hout Hld Htr Hrm. destruct HO as [O1 O2 O3 O4 O5 O6 O7 O8 O9 O10].
  assert (Hvo : forall b, vout s1 b = vout s b) by (intros b; unfold vout; rewrite Hout; reflexivity).
  constructor; auto.
  - eapply glp_trans; eauto.
  - intros a Ha. eapply linv_own; [exact Ha|apply xHoth|exact HV|]. eapply linv_fr; [exact HL|exact Ha|apply xHoth|auto].
  - intros b Hb. rewrite Hvo. destruct HL as [HL _]. eapply lcore_gle; [exact HL|intros n Hn; rewrite HN; reflexivity|auto].
  - intros b Hb. rewrite Hvo. intros H1 H2. destruct (Hld H1 H2) as (E1 & E2 & E3 & E4 & E5). rewrite E3, E4. intros sq Hsq.
    destruct (O6 b Hb E1 E2 sq Hsq) as [C1 C2]. split; [exact C1|]. intros rv Hrv Hpr Hph. destruct (C2 rv Hrv Hpr Hph) as [C3 C4].
    split; [exact C3|]. intros x Hx. destruct (E5 b Hb) as (_ & _ & P'). exact (C4 x (P' x Hx)).
  - intros b Hb. rewrite Hvo. intros H1 H2 H3. destruct (Hld H1 H2) as (E1 & E2 & E3 & E4 & E5). rewrite E3, E4.
    destruct (E5 b Hb) as (M & P & _). intros sq Hsq. pose proof (O7 b Hb E1 E2 (P H3) sq Hsq) as A. cbn zeta in *.
    rewrite HN. destruct M as [[-> M]|[(M1 & -> & M3)|[M1 ->]]]; auto.
    + unfold ssset, mlen in *. rewrite M. exact A.
    + rewrite M1 in A. tauto.
  - intros b Hb H1 H2 n i Hi. destruct (Hld H1 H2) as (E1 & E2 & E3 & E4 & E5).
    destruct (E5 b Hb) as (M & P & P'). destruct (O8 b Hb E1 E2 n i (P' _ Hi)) as [-> (sq & d & es & B1 & B2)].
    rewrite E3, E4, Hout. split; auto. exists sq, d, es. split; auto. intros H3. specialize (B2 (P H3)).
    destruct M as [[-> M]|[(M1 & -> & M3)|[M1 ->]]]; auto.
    + unfold ssset in *. rewrite M. exact B2.
    + rewrite M1 in B2. auto.
    + rewrite M1 in B2. auto.
Qed.

(** ** Changes of the storage *)
Lemma op_lead_is G s K G1 is1 K1 : OpK G s K -> s_role s = Leader -> s_phase s = PhAccept ->
  gls p G G1 -> GInv cc G1 -> gP G1 p = gP G p -> StInv cc G1 p (i_st is1) -> Coh G1 is1 ->
  i_prom is1 = i_prom (s_is s) -> arnd (i_st is1) = arnd (i_st (s_is s)) ->
  (ms_ss (i_st is1) <> None -> c_batch (i_ca is1) = []) ->
  (exists l, gM G1 (l_n (s_ls s)) = Some l /\ ll_ss l = ms_ss (i_st is1) /\ (ms_ss (i_st is1) = None -> len l = cnt (i_st is1))) ->
  (forall b, b <> p -> modeok G G1 (l_n (s_ls s)) (K b) (K1 b)) ->
  Forall Safe (i_tr is1) -> room G1 (set_is s is1) 0 -> OpK G1 (set_is s is1) K1.
Proof.
  intros HO Hr Hph HL HG1 HP HS HC Hprom Harnd Hb HM HK Htr Hrm.
  pose proof (ok_N _ _ _ HO) as HN. pose proof (n_role _ _ _ _ HN) as HR. rewrite Hr, Hph in HR.
  assert (Har : arnd (i_st (s_is s)) = l_n (s_ls s)) by (rewrite <- (op_arnd_eq _ _ _ HO); apply (la_arnd _ _ _ _ HR)).
  pose proof HL as [[Hle _] _].
  eapply (op_updl G s K G1); eauto.
  - destruct HN. constructor; auto.
    + intros _. change (arnd (i_st is1) = gP G1 p). rewrite Harnd, Har, HP. apply (la_n _ _ _ _ HR).
    + change (s_phase (set_is s is1)) with (s_phase s). rewrite Hph. discriminate.
    + change (s_role (set_is s is1)) with (s_role s). rewrite Hr. discriminate.
    + change (s_role (set_is s is1)) with (s_role s). change (s_phase (set_is s is1)) with (s_phase s). rewrite Hr, Hph.
      destruct HR. constructor; auto; cbn [s_ls s_is set_is].
      * congruence.
      * unfold i_around. rewrite (co_around _ _ HC). congruence.
      * intros q m Hm Hq. eapply mok_gle; eauto.
      * destruct la_max as [B1 (lm & B2 & B3)]. split; auto. destruct (le_M _ _ Hle _ _ B2) as [lm' [B4 B5]]. exists lm'. split; auto.
        rewrite (le_I _ _ Hle). 2:{ destruct la_M as (x & Hx & _). congruence. }
        eapply agree_mono; [exact B5|apply lle_refl|exact B3].
      * intros q k Hk. destruct (la_accs q k Hk); auto. right. eapply gle_acov; eauto.
    + intros pr Hpr. eapply minv_gle; eauto.
  - change (b_pid (i_prom is1) = p). rewrite Hprom, (op_prom_eq _ _ _ HO), <- (la_n _ _ _ _ HR). apply (la_pid _ _ _ _ HR).
  - cbn. intros _ _. repeat (split; auto).
Qed.

Lemma op_set_accs G s K q k ls1 : OpK G s K -> s_role s = Leader -> s_phase s = PhAccept ->
  set_accepted_idx (s_ls s) q k = Some ls1 -> (k = 0 \/ acov G q (l_n (s_ls s)) k) -> OpK G (set_ls s ls1) K.
Proof.
  intros HO Hr Hph Hset Hk. unfold set_accepted_idx in Hset. destruct (vset (l_accs (s_ls s)) q k) as [v|] eqn:Hv; [|discriminate].
  cbn in Hset. injection Hset as <-. pose proof (ok_N _ _ _ HO) as HN. pose proof (n_role _ _ _ _ HN) as HR. rewrite Hr, Hph in HR.
  eapply (op_upd G s K G _ K); auto.
  - apply gls_refl.
  - apply (ok_G _ _ _ HO).
  - apply (nodeinv_acc G G s); auto; try reflexivity.
    + apply (ok_G _ _ _ HO).
    + apply gle_refl.
    + cbn. apply (vset_len _ _ _ _ Hv).
    + apply (la_proms _ _ _ _ HR).
    + cbn. intros q0 k0. rewrite (vget_vset _ _ _ _ q0 Hv). destruct (Nat.eqb_spec q0 q) as [->|].
      * intros H. injection H as <-. exact Hk.
      * apply (la_accs _ _ _ _ HR).
    + apply (n_lam _ _ _ _ HN).
    + apply (n_cprom _ _ _ _ HN).
    + apply (n_out _ _ _ _ HN).
  - apply vle_refl.
  - intros _ _. split; auto. split; auto. split; auto. split; auto. intros b Hb. split; [left; auto|]. split; auto.
  - apply (ok_tr _ _ _ HO).
  - rm_eq G s HO.
Qed.

(** Entries appended to the log, the batch emptied. *)
Definition app_is (s : istore) (es : list T) : istore :=
  mkIS (ms_append_entries (i_st s) es) (c_set_acc (c_set_batch (i_ca s) []) (c_acc (i_ca s) + length es)) (i_tr s ++ [ms_append_entries (i_st s) es]).

Lemma set_batch_nil c : c_batch c = [] -> c_set_batch c [] = c.
Proof. destruct c. cbn. intros ->. reflexivity. Qed.
Lemma cnt_app st es : cnt (ms_append_entries st es) = cnt st + length es.
Proof. unfold cnt. cbn. rewrite app_length. lia. Qed.

Lemma lead_nb G s K : OpK G s K -> s_role s = Leader -> s_phase s = PhAccept -> l_n (s_ls s) <> bdef.
Proof.
  intros HO Hr Hph Hb. pose proof (n_role _ _ _ _ (ok_N _ _ _ HO)) as HR. rewrite Hr, Hph in HR.
  pose proof (la_pid _ _ _ _ HR) as Hq. rewrite Hb in Hq. cbn in Hq. apply (nd0 p); [apply (n_in _ _ _ _ (ok_N _ _ _ HO))|auto].
Qed.

(** What waits at the leader outside its batch. *)
Definition pend0 (s : sp) : nat := cf (s_bprops s) + fwd (s_out s).
Lemma room_lead_app G G1 s is1 n l l' es : s_role s = Leader -> gM G n = Some l -> gM G1 = gM (setM G n l') -> ll_es l' = ll_es l ++ es ->
  c_batch (i_ca is1) = [] -> roomg G (pend0 s + cf es) -> room G1 (set_is s is1) 0.
Proof.
  intros Hr Hl HM Hl' Hb Hrm b lb. rewrite HM. cbn [gM setM]. unfold pend, lbatch. cbn [s_role s_is set_is s_bprops s_out]. rewrite Hr, Hb.
  change (cf []) with 0. unfold pend0 in Hrm. destruct (beq b n).
  - intros Hx. injection Hx as <-. rewrite Hl'. apply bq_app. eapply bq_le; [|exact (Hrm n l Hl)]. fold (cf es). lia.
  - intros Hx. eapply bq_le; [|exact (Hrm b lb Hx)]. lia.
Qed.

Definition kapp (G : ghost) (n : ballot) (K K1 : node_id -> mode) : Prop :=
  forall b, b <> p -> (K b = Norm /\ K1 b = Old (mlen G n)) \/ (K b = Fresh /\ K1 b = Fresh).

Lemma lead_append G s K K1 es : OpK G s K -> s_role s = Leader -> s_phase s = PhAccept -> ms_ss (i_st (s_is s)) = None ->
  kapp G (l_n (s_ls s)) K K1 -> roomg G (pend0 s + cf es) ->
  exists G1, gls p G G1 /\ OpK G1 (set_is s (app_is (s_is s) es)) K1 /\
    mlen G1 (l_n (s_ls s)) = mlen G (l_n (s_ls s)) + length es /\ ents_at G1 (l_n (s_ls s)) (mlen G (l_n (s_ls s))) es /\
    ~ ssset G1 (l_n (s_ls s)).
Proof.
  intros HO Hr Hph Hss HK Hrm. pose proof (ok_N _ _ _ HO) as HN. pose proof (ok_G _ _ _ HO) as HG. pose proof (n_role _ _ _ _ HN) as HR. rewrite Hr, Hph in HR.
  set (n := l_n (s_ls s)) in *. destruct (la_M _ _ _ _ HR) as (l & Hl & Hs & Hlen). fold n in Hl. rewrite Hss in Hs. specialize (Hlen Hss).
  pose proof (lead_nb _ _ _ HO Hr Hph) as Hnb. fold n in Hnb.
  set (l' := mkLL (ll_es l ++ es) None).
  assert (Hll : lle l l') by (left; split; auto; unfold l'; cbn; eauto).
  destruct (setM_ok cc G p n l l' HG) as [L1 HG1]; auto; [apply (la_pid _ _ _ _ HR)|apply (la_n _ _ _ _ HR)|].
  assert (HM1 : gM (setM G n l') n = Some l') by (cbn; rewrite beq_refl; reflexivity).
  assert (Har : arnd (i_st (s_is s)) = n) by (rewrite <- (op_arnd_eq _ _ _ HO); apply (la_arnd _ _ _ _ HR)).
  assert (Hns : ~ ssset G n) by (intros (l0 & A & B); congruence).
  assert (Hml : mlen G n = len l) by (unfold mlen; rewrite Hl; reflexivity).
  assert (Hat : forall j e, nth_error es j = Some e -> at_ l' (len l + j) = Some (Ent e)).
  { intros j e He. unfold at_, l', len. cbn. rewrite nth_error_app2 by lia. replace (length (ll_es l) + j - length (ll_es l)) with j by lia. rewrite He. reflexivity. }
  assert (HS1 : StInv cc (setM G n l') p (i_st (s_is s))) by (apply (stinv_gle cc G); auto; [apply L1|apply HN]).
  destruct (append_st cc (setM G n l') p (i_st (s_is s)) es l' HG1 HS1) as (G1 & L2 & HG2 & (EM & EI & EC & EP & EN) & HSt).
  { apply HN. }
  { rewrite Har. exact HM1. }
  { intros _. split; auto. rewrite Har. apply (la_n _ _ _ _ HR). }
  { intros j e He. rewrite <- Hlen. auto. }
  assert (L : gls p G G1) by (eapply gls_trans; eauto).
  assert (HM2 : gM G1 n = Some l') by congruence.
  assert (Hrm1 : room G1 (set_is s (app_is (s_is s) es)) 0) by (eapply (room_lead_app G G1 s _ n l l' es); eauto).
  exists G1. split; [exact L|]. split; [|split; [|split]].
  - apply (op_lead_is G s K G1); auto.
    + rewrite EP. reflexivity.
    + apply (coh_append (setM G n l') G1 (s_is s) es); auto. eapply (coh_gle cc G); eauto; [apply L1|apply HN|apply HN].
    + exists l'. split; auto. split; [symmetry; exact Hss|]. intros _. unfold app_is. cbn [i_st]. rewrite cnt_app. unfold l', len in *. cbn. rewrite app_length. lia.
    + intros b Hb. destruct (HK b Hb) as [[-> ->]|[-> ->]]; [right; left; auto|right; right; auto].
    + cbn. apply Forall_app. split; [apply (ok_tr _ _ _ HO)|]. constructor; [|constructor].
      eapply (op_safe_own G s K G1); eauto; [|exact (room_g _ _ _ Hrm1)]. cbn. rewrite (st_prom _ _ _ _ (n_st _ _ _ _ HN)), <- (la_n _ _ _ _ HR). apply (la_pid _ _ _ _ HR).
  - unfold mlen at 1. rewrite HM2. unfold l', len in *. cbn. rewrite app_length. lia.
  - intros l0 Hl0 j e He. assert (l0 = l') by congruence. subst l0. rewrite Hml. auto.
  - intros (l0 & A & B). rewrite HM2 in A. injection A as <-. apply B. reflexivity.
Qed.

(** The stop sign appended, after the batch. *)
Definition app_ss (s : istore) (ss : stopsign) : istore := fst (i_append_stopsign s ss).

Lemma lead_append_ss G s K K1 ss (es := c_batch (i_ca (s_is s))) : OpK G s K -> s_role s = Leader -> s_phase s = PhAccept -> ms_ss (i_st (s_is s)) = None ->
  kapp G (l_n (s_ls s)) K K1 ->
  exists G1, gls p G G1 /\ OpK G1 (set_is s (app_ss (s_is s) ss)) K1 /\
    mlen G1 (l_n (s_ls s)) = mlen G (l_n (s_ls s)) + length es /\ ents_at G1 (l_n (s_ls s)) (mlen G (l_n (s_ls s))) es /\
    (exists l, gM G1 (l_n (s_ls s)) = Some l /\ ll_ss l = Some ss).
Proof.
  intros HO Hr Hph Hss HK. assert (Hrm : roomg G (pend0 s + cf es)).
  { eapply roomg_le; [|apply (ok_room _ _ _ HO)]. unfold pend, pend0, lbatch. rewrite Hr. fold es. lia. }
  pose proof (ok_N _ _ _ HO) as HN. pose proof (ok_G _ _ _ HO) as HG. pose proof (n_role _ _ _ _ HN) as HR. rewrite Hr, Hph in HR.
  set (n := l_n (s_ls s)) in *. destruct (la_M _ _ _ _ HR) as (l & Hl & Hs & Hlen). fold n in Hl. rewrite Hss in Hs. specialize (Hlen Hss).
  pose proof (lead_nb _ _ _ HO Hr Hph) as Hnb. fold n in Hnb.
  set (l' := mkLL (ll_es l ++ es) (Some ss)).
  assert (Hll : lle l l') by (left; split; auto; unfold l'; cbn; eauto).
  destruct (setM_ok cc G p n l l' HG) as [L1 HG1]; auto; [apply (la_pid _ _ _ _ HR)|apply (la_n _ _ _ _ HR)|].
  assert (HM1 : gM (setM G n l') n = Some l') by (cbn; rewrite beq_refl; reflexivity).
  assert (Har : arnd (i_st (s_is s)) = n) by (rewrite <- (op_arnd_eq _ _ _ HO); apply (la_arnd _ _ _ _ HR)).
  assert (Hns : ~ ssset G n) by (intros (l0 & A & B); congruence).
  assert (Hml : mlen G n = len l) by (unfold mlen; rewrite Hl; reflexivity).
  assert (Hat : forall j e, nth_error es j = Some e -> at_ l' (len l + j) = Some (Ent e)).
  { intros j e He. unfold at_, l', len. cbn. rewrite nth_error_app2 by lia. replace (length (ll_es l) + j - length (ll_es l)) with j by lia. rewrite He. reflexivity. }
  assert (Hl'len : len l' = len l + length es) by (unfold l', len; cbn; rewrite app_length; lia).
  assert (HS1 : StInv cc (setM G n l') p (i_st (s_is s))) by (apply (stinv_gle cc G); auto; [apply L1|apply HN]).
  assert (HC1 : Coh (setM G n l') (s_is s)) by (eapply (coh_gle cc G); eauto; [apply L1|apply HN|apply HN]).
  destruct (append_st cc (setM G n l') p (i_st (s_is s)) es l' HG1 HS1) as (G1 & L2 & HG2 & (EM & EI & EC & EP & EN) & HSt).
  { apply HN. }
  { rewrite Har. exact HM1. }
  { intros _. split; auto. rewrite Har. apply (la_n _ _ _ _ HR). }
  { intros j e He. rewrite <- Hlen. auto. }
  assert (HM2 : gM G1 n = Some l') by congruence.
  destruct (set_ss_st cc G1 p (ms_append_entries (i_st (s_is s)) es) l' ss HG2 HSt) as (G2 & L3 & HG3 & (EM2 & EI2 & EC2 & EP2 & EN2) & HSt2).
  { apply HN. }
  { change (gM G1 (arnd (i_st (s_is s))) = Some l'). rewrite Har. exact HM2. }
  { change (arnd (i_st (s_is s)) = gP G1 p). rewrite Har, EP. apply (la_n _ _ _ _ HR). }
  { reflexivity. }
  { rewrite cnt_app. lia. }
  { change (arnd (i_st (s_is s)) <> bdef). rewrite Har. exact Hnb. }
  assert (L12 : gls p G G1) by (eapply gls_trans; eauto).
  assert (L : gls p G G2) by (eapply gls_trans; eauto).
  assert (HM3 : gM G2 n = Some l') by congruence.
  assert (Hpp : b_pid (bal_or_default (ms_prom (i_st (s_is s)))) = p).
  { rewrite (st_prom _ _ _ _ (n_st _ _ _ _ HN)), <- (la_n _ _ _ _ HR). apply (la_pid _ _ _ _ HR). }
  assert (Est : i_st (app_ss (s_is s) ss) = ms_set_stopsign (ms_append_entries (i_st (s_is s)) es) (Some ss)).
  { unfold app_ss, i_append_stopsign, cache_append_stopsign, es. cbn [c_set_ss c_batch].
    destruct (c_batch (i_ca (s_is s))) eqn:Hbt; [|cbn; rewrite Hbt; reflexivity].
    cbn [flush_if_full_batch fst i_st set_ca put_st]. rewrite ms_append_nil. reflexivity. }
  assert (Eca : i_ca (app_ss (s_is s) ss) = c_set_acc (c_set_ss (c_set_batch (i_ca (s_is s)) []) (Some ss)) (c_acc (i_ca (s_is s)) + length es + 1)).
  { unfold app_ss, i_append_stopsign, cache_append_stopsign, es. cbn [c_set_ss c_batch].
    destruct (c_batch (i_ca (s_is s))) eqn:Hbt; [|cbn; rewrite Hbt; reflexivity].
    cbn [flush_if_full_batch fst i_ca set_ca put_st length c_set_ss c_set_batch c_set_acc c_bsize c_prom c_around c_dec c_acc c_comp c_ss c_batch i_acc].
    unfold i_acc. cbn [i_ca set_ca put_st c_set_ss c_acc]. rewrite (set_batch_nil _ Hbt), Nat.add_0_r. reflexivity. }
  assert (Hrm2 : room G2 (set_is s (app_ss (s_is s) ss)) 0).
  { eapply (room_lead_app G G2 s _ n l l' es); eauto; [congruence|]. rewrite Eca. reflexivity. }
  assert (Hrm1 : roomg G1 0) by (eapply roomg_M; [|exact (room_g _ _ _ Hrm2)]; congruence).
  exists G2. split; [exact L|]. split; [|split; [|split]].
  - apply (op_lead_is G s K G2); auto.
    + rewrite EP2, EP. reflexivity.
    + rewrite Est. exact HSt2.
    + destruct HC1. constructor; rewrite ?Est, ?Eca; auto. cbn.
      change (arnd (ms_set_stopsign (ms_append_entries (i_st (s_is s)) es) (Some ss))) with (arnd (i_st (s_is s))). rewrite Har, HM3.
      intros l0 Hl0. injection Hl0 as <-. rewrite Hss in co_acc. rewrite co_acc. lia.
    + unfold i_prom. rewrite Eca. reflexivity.
    + rewrite Est. reflexivity.
    + rewrite Eca. reflexivity.
    + exists l'. split; auto. rewrite Est. split; [reflexivity|]. cbn. discriminate.
    + intros b Hb. destruct (HK b Hb) as [[-> ->]|[-> ->]]; [right; left; auto|right; right; auto].
    + assert (Htr : i_tr (app_ss (s_is s) ss) = i_tr (s_is s) ++ [ms_set_stopsign (ms_append_entries (i_st (s_is s)) es) (Some ss)] \/
         i_tr (app_ss (s_is s) ss) = (i_tr (s_is s) ++ [ms_append_entries (i_st (s_is s)) es]) ++ [ms_set_stopsign (ms_append_entries (i_st (s_is s)) es) (Some ss)]).
      { unfold app_ss, i_append_stopsign, cache_append_stopsign, es. cbn [c_set_ss c_batch].
        destruct (c_batch (i_ca (s_is s))) eqn:Hbt; [left|right; cbn; rewrite Hbt; reflexivity].
        cbn [flush_if_full_batch fst i_st i_tr set_ca put_st]. rewrite ms_append_nil. reflexivity. }
      assert (Sa : Safe (ms_append_entries (i_st (s_is s)) es)) by (eapply (op_safe_own G s K G1); eauto).
      assert (Sb : Safe (ms_set_stopsign (ms_append_entries (i_st (s_is s)) es) (Some ss))) by (eapply (op_safe_own G s K G2); eauto; exact (room_g _ _ _ Hrm2)).
      destruct Htr as [-> | ->]; rewrite ?Forall_app; repeat split; auto; apply (ok_tr _ _ _ HO).
  - unfold mlen at 1. rewrite HM3. lia.
  - intros l0 Hl0 j e He. assert (l0 = l') by congruence. subst l0. rewrite Hml. auto.
  - exists l'. split; auto.
Qed.

(** ** [accept_entry_leader], [accept_entries_leader], [flush_batch_leader] *)
Lemma accept_full G s es ls1 : Op G s -> s_role s = Leader -> s_phase s = PhAccept -> ms_ss (i_st (s_is s)) = None ->
  set_accepted_idx (s_ls s) (s_pid s) (c_acc (i_ca (s_is s)) + length es) = Some ls1 -> roomg G (pend0 s + cf es) ->
  good G (send_acceptdecide (set_ls (set_is s (app_is (s_is s) es)) ls1) es).
Proof.
  intros HO Hr Hph Hss Hset Hrm.
  destruct (lead_append G s knorm (fun _ => Old (mlen G (l_n (s_ls s)))) es HO Hr Hph Hss) as (G1 & L1 & O1 & E1 & E2 & E3).
  { intros b Hb. left. auto. }
  { exact Hrm. }
  set (s1 := set_is s (app_is (s_is s) es)) in *.
  pose proof (ok_N _ _ _ O1) as HN1. assert (HR1 : LeadAcc cc G1 p s1) by (pose proof (n_role _ _ _ _ HN1) as H; change (s_role s1) with (s_role s) in H; change (s_phase s1) with (s_phase s) in H; rewrite Hr, Hph in H; exact H).
  assert (Har : arnd (i_st (s_is s1)) = l_n (s_ls s)) by (rewrite <- (op_arnd_eq _ _ _ O1); apply (la_arnd _ _ _ _ HR1)).
  assert (O2 : OpK G1 (set_ls s1 ls1) (fun _ => Old (mlen G (l_n (s_ls s))))).
  { eapply (op_set_accs G1 s1); [exact O1|exact Hr|exact Hph|exact Hset|]. right. change (l_n (s_ls s1)) with (l_n (s_ls s)). rewrite (n_pid _ _ _ _ (ok_N _ _ _ HO)), <- Har.
    apply (acov_acc G1 p (s_is s1)); apply HN1. }
  assert (Hn : l_n ls1 = l_n (s_ls s)).
  { unfold set_accepted_idx in Hset. destruct (vset _ _ _); [|discriminate]. injection Hset as <-. reflexivity. }
  eapply good_trans; [apply L1|].
  pose proof (send_acceptdecide_ok es (mlen G (l_n (s_ls s))) G1 (set_ls s1 ls1) O2 Hr Hph) as HB.
  change (l_n (s_ls (set_ls s1 ls1))) with (l_n ls1) in HB. rewrite Hn in HB. specialize (HB E1 E2).
  assert (Hd : decok cc G1 (l_n (s_ls s)) (i_dec (s_is (set_ls s1 ls1)))).
  { rewrite <- Har. unfold i_dec. change (s_is (set_ls s1 ls1)) with (s_is s1). rewrite (co_dec _ _ (n_coh _ _ _ _ HN1)). apply (st_dec _ _ _ _ (n_st _ _ _ _ HN1)). }
  specialize (HB Hd). unfold body in HB. unfold good. destruct (send_acceptdecide (set_ls s1 ls1) es) as [s2|tr]; auto.
  destruct HB as (G2 & L2 & O3 & F). exists G2. split; auto. eapply op_mode; [exact O3|].
  intros b Hb _ _ _. right. rewrite (lsm_n _ _ (f_ls _ _ _ _ F)). change (l_n (s_ls (set_ls s1 ls1))) with (l_n ls1). rewrite Hn.
  unfold ssset, mlen in *. rewrite (f_M _ _ _ _ F). split; [rewrite E1; reflexivity|]. split; auto.
Qed.

Lemma accept_full_b G s es : Op G s -> s_role s = Leader -> s_phase s = PhAccept -> ms_ss (i_st (s_is s)) = None ->
  roomg G (pend0 s + cf es) ->
  good G (ls <- lift (set_is s (app_is (s_is s) es)) (set_accepted_idx (s_ls s) (s_pid s) (c_acc (i_ca (s_is s)) + length es)) ;;
          send_acceptdecide (set_ls (set_is s (app_is (s_is s) es)) ls) es).
Proof.
  intros HO Hr Hph Hss Hrm. destruct (set_accepted_idx _ _ _) as [ls1|] eqn:Hset; cbn [lift bind].
  - apply accept_full; auto.
  - destruct (lead_append G s knorm (fun _ => Old (mlen G (l_n (s_ls s)))) es HO Hr Hph Hss) as (G1 & L1 & O2 & _).
    { intros b Hb. left. auto. }
    { exact Hrm. }
    eapply good_panic; eauto.
Qed.

Lemma op_batch_lead G s x : Op G s -> s_role s = Leader -> s_phase s = PhAccept -> ms_ss (i_st (s_is s)) = None ->
  roomg G (pend0 s + cf x) ->
  Op G (set_is s (set_ca (s_is s) (c_set_batch (i_ca (s_is s)) x))).
Proof.
  intros HO Hr Hph Hss Hrm. pose proof (ok_N _ _ _ HO) as HN. pose proof (n_role _ _ _ _ HN) as HR. rewrite Hr, Hph in HR.
  apply (op_lead_is G s knorm G); auto.
  - apply gls_refl.
  - apply (ok_G _ _ _ HO).
  - apply HN.
  - destruct (n_coh _ _ _ _ HN). constructor; auto.
  - cbn. congruence.
  - apply (la_M _ _ _ _ HR).
  - intros b Hb. left. auto.
  - apply (ok_tr _ _ _ HO).
  - eapply roomg_le; [|exact Hrm]. unfold pend, pend0, lbatch. cbn [s_role s_is set_is s_bprops s_out i_ca set_ca c_batch c_set_batch]. rewrite Hr. lia.
Qed.

Lemma accept_entries_leader_ok G s es : Op G s -> s_role s = Leader -> s_phase s = PhAccept -> i_ss (s_is s) = None ->
  room G s (cf es) ->
  good G (accept_entries_leader s es).
Proof.
  intros HO Hr Hph Hss Hrm. assert (Hrm' : roomg G (pend0 s + cf (c_batch (i_ca (s_is s)) ++ es))).
  { eapply roomg_le; [|exact Hrm]. unfold pend, pend0, lbatch. rewrite Hr, cf_app. lia. }
  unfold i_ss in Hss. rewrite (co_ss _ _ (n_coh _ _ _ _ (ok_N _ _ _ HO))) in Hss.
  unfold accept_entries_leader, append_entries_with_batching, cache_append_entries, take_entries_if_batch_is_full.
  set (es' := c_batch (i_ca (s_is s)) ++ es). cbn [c_set_batch c_bsize c_batch].
  pose proof (op_batch_lead G s es' HO Hr Hph Hss Hrm') as O1.
  destruct (c_bsize (i_ca (s_is s)) <=? length es').
  2:{ apply good_ok. exact O1. }
  cbn [take_batched_entries flush_if_full_batch append_entries_without_batching].
  exact (accept_full_b G s es' HO Hr Hph Hss Hrm').
Qed.

Lemma accept_entry_leader_ok G s e : Op G s -> s_role s = Leader -> s_phase s = PhAccept -> i_ss (s_is s) = None ->
  room G s (cf [e]) ->
  good G (accept_entry_leader s e).
Proof.
  intros HO Hr Hph Hss Hrm. exact (accept_entries_leader_ok G s [e] HO Hr Hph Hss Hrm).
Qed.

Lemma flush_batch_leader_ok G s : Op G s -> s_role s = Leader -> s_phase s = PhAccept -> good G (flush_batch_leader s).
Proof.
  intros HO Hr Hph. unfold flush_batch_leader, flush_batch_and_get_entries. 
  destruct (c_batch (i_ca (s_is s))) as [|e es0] eqn:Hb.
  { apply good_ok. cbn. destruct s; exact HO. }
  assert (Hss : ms_ss (i_st (s_is s)) = None).
  { destruct (ms_ss (i_st (s_is s))) eqn:Hs; auto. rewrite (n_bss _ _ _ _ (ok_N _ _ _ HO)) in Hb; [discriminate|congruence]. }
  cbn [take_batched_entries flush_if_full_batch append_entries_without_batching]. rewrite Hb.
  set (es := e :: es0) in *.
  apply (accept_full_b G s es HO Hr Hph Hss). eapply roomg_le; [|apply (ok_room _ _ _ HO)].
  unfold pend, pend0, lbatch. rewrite Hr, Hb. lia.
Qed.

(** ** [accept_stopsign_leader] *)
Lemma stopsign_tail G s ss : OpK G s (fun _ => Old (mlen G (l_n (s_ls s)))) -> s_role s = Leader -> s_phase s = PhAccept ->
  (exists l, gM G (l_n (s_ls s)) = Some l /\ ll_ss l = Some ss) ->
  good G (ls <- lift s (set_accepted_idx (s_ls s) (s_pid s) (i_acc (s_is s))) ;;
          let s := set_ls s ls in
          ps <- lift s (get_promised_followers (s_ls s)) ;;
          for_each s ps (send_accept_stopsign ss false)).
Proof.
  intros HO Hr Hph HM. pose proof (ok_N _ _ _ HO) as HN. pose proof (n_role _ _ _ _ HN) as HR. rewrite Hr, Hph in HR.
  destruct (set_accepted_idx (s_ls s) (s_pid s) (i_acc (s_is s))) as [ls1|] eqn:Hset; cbn [lift bind]; [|eapply good_panic; eauto].
  cbn zeta.
  assert (Har : arnd (i_st (s_is s)) = l_n (s_ls s)) by (rewrite <- (op_arnd_eq _ _ _ HO); apply (la_arnd _ _ _ _ HR)).
  assert (Hn : l_n ls1 = l_n (s_ls s)).
  { unfold set_accepted_idx in Hset. destruct (vset _ _ _); [|discriminate]. injection Hset as <-. reflexivity. }
  assert (O2 : OpK G (set_ls s ls1) (fun _ => Old (mlen G (l_n (s_ls s))))).
  { eapply (op_set_accs G s); eauto. right. rewrite (n_pid _ _ _ _ HN), <- Har. apply (acov_acc G p (s_is s)); apply HN. }
  apply (body_good G (set_ls s ls1)).
  apply (ploop_ok _ (Old (mlen G (l_n (s_ls s)))) Norm (fun G' s' => (exists l, gM G' (l_n (s_ls s')) = Some l /\ ll_ss l = Some ss) /\ mlen G' (l_n (s_ls s')) = mlen G (l_n (s_ls s)))); auto.
  - intros G1 s1 G2 s2 F [H1 H2]. rewrite (lsm_n _ _ (f_ls _ _ _ _ F)). unfold mlen in *. rewrite (f_M _ _ _ _ F). auto.
  - intros G1 s1 K b O1 Hr1 Hph1 [HI1 HI2] Hb Hpd HK. apply accss_to_ok; auto. rewrite HI2. exact HK.
  - cbn [s_ls set_ls]. rewrite Hn. auto.
Qed.

Lemma accept_stopsign_leader_ok G s ss : Op G s -> s_role s = Leader -> s_phase s = PhAccept -> i_ss (s_is s) = None ->
  good G (accept_stopsign_leader s ss).
Proof.
  intros HO Hr Hph Hss. unfold i_ss in Hss. rewrite (co_ss _ _ (n_coh _ _ _ _ (ok_N _ _ _ HO))) in Hss.
  destruct (lead_append_ss G s knorm (fun _ => Old (mlen G (l_n (s_ls s)))) ss HO Hr Hph Hss) as (G1 & L1 & O1 & E1 & E2 & E3).
  { intros b Hb. left. auto. }
  unfold accept_stopsign_leader.
  assert (Hcase : i_append_stopsign (s_is s) ss = (app_ss (s_is s) ss, None) /\ c_batch (i_ca (s_is s)) = [] \/
     exists acc, i_append_stopsign (s_is s) ss = (app_ss (s_is s) ss, Some (acc, c_batch (i_ca (s_is s))))).
  { unfold app_ss, i_append_stopsign, cache_append_stopsign. cbn [c_set_ss c_batch]. destruct (c_batch (i_ca (s_is s))) eqn:Hb.
    - left. split; reflexivity.
    - right. cbn. rewrite Hb. eexists. reflexivity. }
  set (s1 := set_is s (app_ss (s_is s) ss)) in *. eapply good_trans; [apply L1|].
  destruct Hcase as [[-> Hb]|[acc ->]].
  - cbn [bind]. rewrite Hb in E1. cbn [length] in E1. rewrite Nat.add_0_r in E1.
    apply stopsign_tail; auto. change (l_n (s_ls (set_is s (app_ss (s_is s) ss)))) with (l_n (s_ls s)). rewrite E1. exact O1.
  - fold s1. pose proof (ok_N _ _ _ O1) as HN1.
    assert (HR1 : LeadAcc cc G1 p s1) by (pose proof (n_role _ _ _ _ HN1) as H; change (s_role s1) with (s_role s) in H; change (s_phase s1) with (s_phase s) in H; rewrite Hr, Hph in H; exact H).
    assert (Har : arnd (i_st (s_is s1)) = l_n (s_ls s)) by (rewrite <- (op_arnd_eq _ _ _ O1); apply (la_arnd _ _ _ _ HR1)).
    pose proof (send_acceptdecide_ok (c_batch (i_ca (s_is s))) (mlen G (l_n (s_ls s))) G1 s1 O1 Hr Hph E1 E2) as HB.
    assert (Hd : decok cc G1 (l_n (s_ls s1)) (i_dec (s_is s1))).
    { change (l_n (s_ls s1)) with (l_n (s_ls s)). rewrite <- Har. unfold i_dec. rewrite (co_dec _ _ (n_coh _ _ _ _ HN1)). apply (st_dec _ _ _ _ (n_st _ _ _ _ HN1)). }
    specialize (HB Hd). unfold body in HB. destruct (send_acceptdecide s1 (c_batch (i_ca (s_is s)))) as [s2|tr]; cbn [bind]; [|exact HB].
    destruct HB as (G2 & L2 & O2 & F). eapply good_trans; [exact L2|].
    assert (Hn2 : l_n (s_ls s2) = l_n (s_ls s)) by (rewrite (lsm_n _ _ (f_ls _ _ _ _ F)); reflexivity).
    apply stopsign_tail.
    + rewrite Hn2. unfold mlen. rewrite (f_M _ _ _ _ F). fold (mlen G1 (l_n (s_ls s))). rewrite E1. exact O2.
    + rewrite (f_role _ _ _ _ F). exact Hr.
    + rewrite (f_phase _ _ _ _ F). exact Hph.
    + rewrite Hn2, (f_M _ _ _ _ F). exact E3.
Qed.

End WithCtx.
