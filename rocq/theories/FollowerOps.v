(** * Steps of a follower *)
From Coq Require Import List Arith Bool Lia.
Import ListNotations.
From Verif Require Import Types Config MemStore Internal LeaderState SeqPaxos Basics Ghost GhostOps Inv StoreOps SyncOps Op.

Section WithCtx.
Context {E : EntryT} {X : octx}.
Notation cc := xcc.
Notation p := xp.
Notation oth := xoth.
Notation nin := xnin.
Notation nout := xnout.
Notation nds := (nds cc).

Lemma nd0 q : In q nds -> q <> 0.
Proof. intros H ->. apply (xH0 H). Qed.

Lemma op_prom_eq G s K : OpK G s K -> i_prom (s_is s) = gP G p.
Proof. intros HO. destruct (ok_N _ _ _ HO). unfold i_prom. rewrite (co_prom _ _ n_coh). apply (st_prom _ _ _ _ n_st). Qed.
Lemma op_arnd_eq G s K : OpK G s K -> i_around (s_is s) = arnd (i_st (s_is s)).
Proof. intros HO. destruct (ok_N _ _ _ HO). apply (co_around _ _ n_coh). Qed.
Lemma op_arnd_le G s K : OpK G s K -> ble_ (arnd (i_st (s_is s))) (gP G p).
Proof.
  intros HO. destruct (ok_N _ _ _ HO). destruct (st_arnd _ _ _ _ n_st) as [c [Hc _]]. apply (g_acc _ _ (ok_G _ _ _ HO) _ _ _ _ Hc).
Qed.

(** What the accepted index of a server stands for. *)
Lemma acov_acc G q s : StInv cc G q (i_st s) -> Coh G s -> acov G q (arnd (i_st s)) (i_acc s).
Proof.
  intros HS HC. destruct (st_arnd _ _ _ _ HS) as [c [Hc Hc']]. unfold acov. rewrite Hc.
  pose proof (co_acc _ _ HC) as Ha. unfold i_acc. destruct (ms_ss (i_st s)); [right; reflexivity|].
  left. rewrite Ha, Hc'; auto.
Qed.
Lemma acov_dec G q s : StInv cc G q (i_st s) -> Coh G s -> acov G q (arnd (i_st s)) (i_dec s).
Proof.
  intros HS HC. destruct (st_arnd _ _ _ _ HS) as [c [Hc Hc']]. unfold acov. rewrite Hc.
  unfold i_dec. rewrite (co_dec _ _ HC). destruct (st_cov _ _ _ _ HS) as [H|H].
  - destruct (ms_ss (i_st s)); [right; reflexivity|]. left. rewrite Hc'; auto.
  - destruct (ms_ss (i_st s)); [right; reflexivity|congruence].
Qed.

(** ** Giving up leadership *)
Lemma op_demote G s ph : Op G s -> ph <> PhAccept -> ph <> PhPrepare ->
  exists G1, gls p G G1 /\ gP G1 = gP G /\ Op G1 (set_state s Follower ph).
Proof.
  intros HO Hp1 Hp2. pose proof (ok_N _ _ _ HO) as HN. pose proof (ok_G _ _ _ HO) as HG.
  assert (Hvle : vle (view s) (view (set_state s Follower ph))).
  { split; cbn; [intros; congruence|]. intros H. repeat (split; auto). }
  assert (Hcase : (s_role s = Follower \/ s_phase s = PhPrepare) \/ (s_role s = Leader /\ s_phase s = PhAccept)).
  { pose proof (n_role _ _ _ _ HN) as H. destruct (s_role s), (s_phase s); auto; contradiction. }
  destruct Hcase as [Hc|[Hr Hph]].
  - exists G. split; [apply gls_refl|]. split; [reflexivity|].
    eapply (op_upd G s knorm G (set_state s Follower ph) knorm); auto using gls_refl; cbn; try discriminate.
    + destruct HN. constructor; auto; cbn.
      * intros _ l j e Hl He. destruct Hc as [Hc|Hc]; [eapply n_fb; eauto|]. rewrite (n_bprep Hc) in He. destruct j; discriminate.
      * destruct ph; auto; congruence.
    + apply (ok_tr _ _ _ HO).
    + rm_fol G s HO.
  - pose proof (n_role _ _ _ _ HN) as HR. rewrite Hr, Hph in HR. destruct (la_M _ _ _ _ HR) as (l & Hl & Hs & Hlen).
    set (n := l_n (s_ls s)) in *. set (st := i_st (s_is s)) in *.
    assert (Har : arnd st = n). { unfold st. rewrite <- (op_arnd_eq _ _ _ HO). apply (la_arnd _ _ _ _ HR). }
    set (l' := mkLL (ll_es l ++ c_batch (i_ca (s_is s))) (ll_ss l)).
    assert (Hll : lle l l').
    { destruct (ll_ss l) eqn:Hss.
      - right. unfold l'. rewrite (n_bss _ _ _ _ HN), app_nil_r by (fold st; congruence). destruct l; cbn in *; subst; reflexivity.
      - left. split; auto. unfold l'. cbn. eauto. }
    assert (Hnb : n <> bdef).
    { intros Hb. pose proof (la_pid _ _ _ _ HR) as Hq. fold n in Hq. rewrite Hb in Hq. cbn in Hq. apply (nd0 p); [apply HN|auto]. }
    destruct (setM_ok cc G p n l l' HG) as [HL HG1]; auto.
    { apply (la_pid _ _ _ _ HR). }
    { apply (la_n _ _ _ _ HR). }
    exists (setM G n l'). split; [exact HL|]. split; [reflexivity|].
    eapply (op_upd G s knorm (setM G n l') (set_state s Follower ph) knorm); auto; cbn; try discriminate.
    + pose proof HL as [[HL' _] _]. destruct HN. constructor; auto; cbn.
      * apply (stinv_gle cc G); auto.
      * eapply (coh_gle cc G); eauto.
      * fold st. rewrite Har, beq_refl. intros _ l0 j e Hl0 He. injection Hl0 as <-.
        assert (Hss : ms_ss st = None).
        { destruct (ms_ss st) eqn:Hss; auto. exfalso. rewrite n_bss in He; [destruct j; discriminate|fold st; congruence]. }
        unfold at_. unfold l'. cbn. rewrite nth_error_app2; rewrite <- (Hlen Hss); unfold len; [|lia].
        replace (length (ll_es l) + j - length (ll_es l)) with j by lia. rewrite He. reflexivity.
      * destruct ph; auto; congruence.
      * intros pr Hpr. eapply minv_gle; eauto.
    + apply (ok_tr _ _ _ HO).
    + pose proof (ok_room _ _ _ HO) as Hrm. intros b lb Hb. cbn in Hb. unfold room, roomg, pend, lbatch in *. rewrite Hr in Hrm. cbn [s_bprops s_out s_role set_state].
      destruct (beq b n) eqn:Hbn.
      * injection Hb as <-. unfold l'. cbn [ll_es]. apply bq_app. eapply bq_le; [|exact (Hrm n l Hl)]. fold (cf (c_batch (i_ca (s_is s)))). lia.
      * eapply bq_le; [|exact (Hrm b lb Hb)]. lia.
Qed.

(** ** Storage steps of a follower *)
Lemma nodeinv_fis G s G1 is1 : NodeInv cc G p s -> s_role s = Follower -> gle G G1 ->
  StInv cc G1 p (i_st is1) -> Coh G1 is1 ->
  (ms_ss (i_st is1) <> None -> c_batch (i_ca is1) = []) ->
  (c_batch (i_ca is1) <> [] -> arnd (i_st is1) = gP G1 p) ->
  (s_phase s = PhPrepare -> c_batch (i_ca is1) = []) ->
  (forall l j e, gM G1 (arnd (i_st is1)) = Some l ->
           nth_error (c_batch (i_ca is1)) j = Some e -> at_ l (cnt (i_st is1) + j) = Some (Ent e)) ->
  (s_phase s = PhAccept -> arnd (i_st is1) = gP G1 p /\ b_pid (gP G1 p) <> p) ->
  NodeInv cc G1 p (set_is s is1).
Proof.
  intros HN Hr HL HS HC B1 B2 B3 B4 B5. destruct HN. constructor; auto; cbn.
  - rewrite Hr. destruct (s_phase s); auto.
  - intros pr Hpr. eapply minv_gle; eauto.
Qed.

Lemma vle_st s st : bal_or_default (ms_prom st) = i_prom (s_is s) -> arnd st = i_around (s_is s) ->
  issome (ms_ss st) = issome (i_ss (s_is s)) ->
  (i_ss (s_is s) <> None \/ cnt st <= cnt (i_st (s_is s)) + length (c_batch (i_ca (s_is s)))) ->
  vle (view s) (stview st).
Proof.
  intros E1 E2 E3 E4. split; cbn; [discriminate|]. intros _. rewrite E1, E2, E3. repeat (split; auto).
  destruct E4 as [E4|E4]; auto. left. destruct (i_ss (s_is s)); [reflexivity|congruence].
Qed.

Lemma coh_append G G1 s es : Coh G s -> gM G1 = gM G ->
  (es <> [] -> ms_ss (i_st s) = None) ->
  Coh G1 (mkIS (ms_append_entries (i_st s) es) (c_set_acc (c_set_batch (i_ca s) []) (c_acc (i_ca s) + length es)) (i_tr s ++ [ms_append_entries (i_st s) es])).
Proof.
  intros [] HM Hne. constructor; auto; cbn.
  change (arnd (ms_append_entries (i_st s) es)) with (arnd (i_st s)). rewrite HM.
  destruct (ms_ss (i_st s)) eqn:Hs.
  - destruct es; [|exfalso; assert (Some s0 = None) by (apply Hne; discriminate); discriminate].
    intros l Hl. cbn. specialize (co_acc l Hl). lia.
  - unfold cnt in *. cbn. rewrite app_length. lia.
Qed.

Lemma op_flush G s : Op G s -> s_role s = Follower ->
  exists G1, gls p G G1 /\ sameMP G G1 /\ Op G1 (set_is s (fst (flush_batch (s_is s)))).
Proof.
  intros HO Hr. pose proof (ok_N _ _ _ HO) as HN. pose proof (ok_G _ _ _ HO) as HG.
  destruct (stinv_M cc _ _ _ HG (n_st _ _ _ _ HN)) as [l Hl].
  set (es := c_batch (i_ca (s_is s))).
  assert (Hss : es <> [] -> ms_ss (i_st (s_is s)) = None).
  { intros He. destruct (ms_ss (i_st (s_is s))) eqn:Hs; auto. exfalso. apply He. apply (n_bss _ _ _ _ HN). congruence. }
  destruct (append_st cc G p (i_st (s_is s)) es l) as (G1 & HL & HG1 & HS1 & HSt); auto.
  { apply HN. }
  { apply HN. }
  { intros He. split; auto. apply (n_barnd _ _ _ _ HN). exact He. }
  { intros j e He. eapply (n_fb _ _ _ _ HN); eauto. }
  exists G1. split; [exact HL|]. split; [exact HS1|]. pose proof HS1 as (EM & EI & EC & EP & EN).
  assert (Hcnt : cnt (ms_append_entries (i_st (s_is s)) es) = cnt (i_st (s_is s)) + length es).
  { unfold cnt. cbn. rewrite app_length. lia. }
  eapply (op_upd G s knorm G1 _ knorm); auto.
  - eapply nodeinv_fis; eauto.
    + apply HL.
    + apply (coh_append G G1 (s_is s) es); auto. apply HN.
    + intros H. cbn in H. congruence.
    + cbn. intros l0 j e _ Hj. destruct j; discriminate.
    + intros Hph. pose proof (n_role _ _ _ _ HN) as HR. rewrite Hr, Hph in HR. rewrite EP. exact HR.
  - unfold view. cbn [fst flush_batch take_batched_entries append_entries_without_batching set_is s_is set_ca put_st i_st i_ca].
    unfold i_prom, i_around, i_ss. cbn [i_ca i_st c_prom c_around c_batch c_set_acc c_set_batch c_ss length s_phase s_cseq].
    fold es. rewrite Hcnt. rewrite Nat.add_0_r. apply vle_refl.
  - cbn. congruence.
  - cbn. apply Forall_app. split; [apply (ok_tr _ _ _ HO)|]. constructor; [|constructor].
    eapply (op_safe G s knorm G1); eauto; [|rm_g G s HO]. destruct (n_coh _ _ _ _ HN). apply vle_st; cbn.
    + unfold i_prom. rewrite co_prom. reflexivity.
    + unfold i_around. rewrite co_around. reflexivity.
    + unfold i_ss. rewrite co_ss. reflexivity.
    + right. unfold cnt in *. cbn in *. fold es. lia.
  - rm_fol G s HO.
Qed.

Lemma op_setprom G s n : Op G s -> s_role s = Follower -> s_phase s <> PhAccept -> c_batch (i_ca (s_is s)) = [] ->
  wfb cc n -> ble_ (gP G p) n ->
  gls p G (setP G p n) /\ Op (setP G p n) (set_is s (i_set_promise (s_is s) n)).
Proof.
  intros HO Hr Hph Hb Hw Hle. pose proof (ok_N _ _ _ HO) as HN. pose proof (ok_G _ _ _ HO) as HG.
  destruct (set_prom_st cc xH0 G p (i_st (s_is s)) n) as (HL & HG1 & HS); auto; try apply HN.
  split; [exact HL|]. pose proof (n_coh _ _ _ _ HN) as HC.
  assert (Hv : forall v', rv_prom v' = n -> rv_arnd v' = i_around (s_is s) -> rv_phase v' <> PhAccept ->
     rv_ss v' = issome (i_ss (s_is s)) -> rv_cnt v' <= rv_cnt (view s) -> vle (view s) v').
  { intros v' E1 E2 E3 E4 E5. split; [congruence|]. rewrite E1, E2, E4. intros Heq.
    assert (Hn : n = gP G p).
    { apply ble_antisym; auto. rewrite <- Heq. rewrite (op_arnd_eq _ _ _ HO). apply (op_arnd_le _ _ _ HO). }
    cbn. split; [rewrite (op_prom_eq _ _ _ HO); auto|]. split; auto. }
  eapply (op_upd G s knorm (setP G p n) _ knorm); auto.
  - eapply nodeinv_fis; eauto.
    + apply HL.
    + destruct HC. constructor; auto.
    + cbn. intros H. congruence.
    + cbn. rewrite Hb. intros l j e _ Hj. destruct j; discriminate.
    + congruence.
  - cbn. congruence.
  - cbn. apply Forall_app. split; [apply (ok_tr _ _ _ HO)|]. constructor; [|constructor].
    eapply (op_safe G s knorm (setP G p n)); eauto; [|exact (room_g _ _ _ (ok_room _ _ _ HO))]. apply Hv; cbn; auto; try discriminate.
    + unfold i_around. rewrite (co_around _ _ HC). reflexivity.
    + unfold i_ss. rewrite (co_ss _ _ HC). reflexivity.
    + unfold cnt. cbn. lia.
  - exact (ok_room _ _ _ HO).
Qed.

Lemma not_bgt_le G a b : GInv cc G -> wfb cc a -> wfb cc b -> bgt a b = false -> ble_ a b.
Proof.
  intros HG Ha Hb H. apply (wfb_le cc); auto using xH0. intros Hlt. rewrite bgt_blt in H. apply blt_spec in Hlt. congruence.
Qed.

(** ** Prepare *)

(** The state a server is in when it answers a Prepare of the ballot [n]. *)
Lemma op_prepare_state G s n : Op G s -> wfb cc n -> ble_ (gP G p) n ->
  exists G1, gls p G G1 /\ gP G1 p = n /\
    Op G1 (set_cseq (set_state (set_is (set_is s (fst (flush_batch (s_is s)))) (i_set_promise (fst (flush_batch (s_is s))) n)) Follower PhPrepare) seq0).
Proof.
  intros HO Hw Hle. destruct (op_demote G s PhNone HO) as (G1 & L1 & P1 & O1); try discriminate.
  destruct (op_flush G1 _ O1) as (G2 & L2 & (_ & _ & _ & P2 & _) & O2); [reflexivity|].
  assert (HP : gP G2 = gP G) by congruence.
  destruct (op_setprom G2 _ n O2) as (L3 & O3); auto; try discriminate; try reflexivity; [rewrite HP; auto|].
  exists (setP G2 p n). split; [eapply gls_trans; [exact L1|eapply gls_trans; eauto]|].
  split; [cbn; rewrite Nat.eqb_refl; reflexivity|].
  eapply (op_upd _ _ knorm (setP G2 p n) _ knorm O3); auto using gls_refl.
  - apply (ok_G _ _ _ O3).
  - pose proof (ok_N _ _ _ O3) as HN. destruct HN. constructor; auto.
  - split; cbn; [discriminate|]. intros; repeat (split; auto).
  - cbn. discriminate.
  - apply (ok_tr _ _ _ O3).
  - exact (ok_room _ _ _ O3).
Qed.

Lemma prepare_ok G s n dec na ac from : Op G s -> minv cc G from p (MPrepare n dec na ac) -> In from nds ->
  good G (handle_prepare s n dec na ac from).
Proof.
  intros HO Hm Hf. unfold handle_prepare.
  pose proof (op_prom_eq _ _ _ HO) as HP.
  destruct (blt (i_prom (s_is s)) n || (beq (i_prom (s_is s)) n && phase_eqb (s_phase s) PhRecover)) eqn:Hc; [|apply good_ok; auto].
  assert (Hle : ble_ (gP G p) n).
  { rewrite HP in Hc. apply orb_true_iff in Hc. destruct Hc as [Hc|Hc]; [left; apply blt_spec; auto|].
    apply andb_true_iff in Hc. right. apply beq_spec. tauto. }
  destruct Hm as [Hne [Hpid Hcase]].
  assert (Hnb : n <> bdef). { intros ->. cbn in Hpid. apply (nd0 from); auto. }
  assert (HC : gC G n <> None).
  { destruct Hcase as [H|[_ H]]; [congruence|]. apply (g_est _ _ (ok_G _ _ _ HO)); auto. }
  assert (Hw : wfb cc n) by (right; apply (g_wC _ _ (ok_G _ _ _ HO)); auto).
  destruct (op_prepare_state G s n HO Hw Hle) as (G1 & L1 & P1 & O1).
  set (s1 := set_cseq (set_state (set_is (set_is s (fst (flush_batch (s_is s)))) (i_set_promise (fst (flush_batch (s_is s))) n)) Follower PhPrepare) seq0) in *.
  change (good G (sy <- (if bgt (i_around (s_is s1)) na then
             sy <- lift s1 (create_log_sync s1 dec dec) ;; Ok (Some sy)
           else if beq (i_around (s_is s1)) na && (ac <? i_acc (s_is s1)) then
             sy <- lift s1 (create_log_sync s1 ac dec) ;; Ok (Some sy)
           else Ok None) ;;
    let p := mkProm n (i_around (s_is s1)) (i_dec (s_is s1)) (i_acc (s_is s1)) sy in
    let s := set_cprom s1 (Some p) in
    Ok (push s from (MPromise p)))).
  clearbody s1. eapply good_trans; [apply L1|].
  assert (HC1 : gC G1 n <> None) by (eapply Cn_gle; [apply L1|auto]).
  assert (Hcase1 : gC G1 n = Some (na, ac, dec) \/ gM G1 n <> None).
  { destruct L1 as [[L1 _] _]. destruct Hcase as [H|[_ H]]; [left; apply (le_C _ _ L1); auto|right; eapply Mn_gle; eauto]. }
  clear HO HP Hc Hle Hcase HC L1 G s. rename G1 into G, s1 into s, O1 into HO.
  pose proof (ok_G _ _ _ HO) as HG. pose proof (ok_N _ _ _ HO) as HN.
  destruct (stinv_M cc _ _ _ HG (n_st _ _ _ _ HN)) as [l Hl].
  pose proof (n_st _ _ _ _ HN) as HS. pose proof (n_coh _ _ _ _ HN) as HCo.
  pose proof (op_arnd_eq _ _ _ HO) as Har. pose proof (op_arnd_le _ _ _ HO) as Hal. rewrite P1 in Hal.
  set (st := i_st (s_is s)) in *.
  assert (Hwa : wfb cc (arnd st)) by (apply (g_wM _ _ HG); congruence).
  assert (Fin : forall sy,
     (gM G n = None -> match sy with None => lexle (arnd st) (i_acc (s_is s)) na ac
        | Some sy => syncok cc G (b_pid n) (arnd st) sy (cnt st) (issome (ms_ss st)) /\ sy_ss sy = ms_ss st end) ->
     good G (let p := mkProm n (i_around (s_is s)) (i_dec (s_is s)) (i_acc (s_is s)) sy in
             Ok (push (set_cprom s (Some p)) from (MPromise p)))).
  { intros sy Hsy. cbn zeta. set (pr := mkProm n _ _ _ sy).
    assert (Hmi : minv cc G p from (MPromise pr)).
    { split; [auto|]. split; [cbn; auto|]. unfold promok. cbn. rewrite Har. split; auto.
      split; [unfold i_dec; rewrite (co_dec _ _ HCo); apply (st_dec _ _ _ _ HS)|].
      split; [apply acov_dec; auto|]. split; [apply HN|].
      destruct Hal as [Hal|Hal].
      2:{ left. split; auto. rewrite <- Hal. apply acov_acc; auto. }
      right. destruct (st_arnd _ _ _ _ HS) as [c [Hc Hc']]. split.
      { split; [rewrite P1; apply ble_refl_|]. split; auto. split; [apply HN|].
        exists c, (issome (ms_ss st)), l. split; auto. split; auto. split.
        - pose proof (co_acc _ _ HCo) as Ha. fold st in Ha. unfold i_acc. destruct (ms_ss st) eqn:Hss; cbn.
          + split; [|apply Ha; auto]. rewrite (stinv_ss cc _ _ _ l HG HS); congruence.
          + rewrite Ha, Hc'; auto.
        - intros b Hb _. destruct (gA G p b) eqn:Hg; auto. exfalso. apply (lt_not_ble _ _ Hb). apply (st_max _ _ _ _ HS). congruence. }
      destruct (gM G n) eqn:HMn; [left; discriminate|right]. specialize (Hsy eq_refl). destruct sy as [sy|].
      - destruct Hsy as [Hsy Hss]. exists c, (issome (ms_ss st)). split; auto.
        destruct Hsy as (l1 & Q1 & Q2 & Q3 & Q4). exists l1. split; auto. split; auto. split; auto.
        rewrite Hss in *. destruct (ms_ss st); auto. rewrite (Hc' eq_refl). auto.
      - destruct Hcase1 as [H|H]; [|congruence]. exists na, ac, dec. auto. }
    apply good_ok. 
    assert (O2 : Op G (set_cprom s (Some pr))).
    { destruct HO. constructor; auto. eapply (nodeinv_eq G s); try reflexivity; [exact HN|exact (n_lam _ _ _ _ HN)| |exact (n_out _ _ _ _ HN)].
      intros pr' Hpr'. cbn in Hpr'. injection Hpr' as <-. change (minv cc G p (b_pid n) (MPromise pr)). rewrite Hpid. exact Hmi. }
    apply op_push; auto. }
  assert (Hsyn : gM G n = None -> forall cp sy, base cc G (b_pid n) (arnd st) cp -> acov G p (arnd st) cp ->
     create_log_sync s cp dec = Some sy ->
     syncok cc G (b_pid n) (arnd st) sy (cnt st) (issome (ms_ss st)) /\ sy_ss sy = ms_ss st).
  { intros _ cp sy Hb Ha Hcr. eapply (cls_ok cc G p s (b_pid n) cp dec sy l); eauto; try apply HN. rewrite Hpid; auto. }
  destruct (bgt (i_around (s_is s)) na) eqn:Hg.
  - destruct (create_log_sync s dec dec) as [sy|] eqn:Hcr; cbn [lift bind]; [|eapply good_panic; eauto].
    apply Fin. intros HMn. destruct Hcase1 as [Hc1|]; [|congruence].
    destruct (g_cand _ _ HG _ _ _ _ Hc1) as (Hpf & Hd & Hda).
    rewrite Har in Hg. rewrite bgt_blt in Hg. apply blt_spec in Hg.
    assert (Hd' : dec = 0 \/ exists b, ble_ b na /\ chosen cc G b dec) by exact Hd.
    apply (Hsyn HMn dec); auto.
    + destruct Hd' as [Hd'|(b & Hb1 & Hb2)]; [left; auto|]. right; right; right. exists b, na. repeat (split; auto). left; auto.
    + destruct Hd' as [Hd'|(b & Hb1 & Hb2)].
      * unfold acov. destruct (st_arnd _ _ _ _ HS) as [c [Hc Hc']]. rewrite Hc. left. lia.
      * apply (g_init _ _ HG); [destruct (st_arnd _ _ _ _ HS) as [c [Hc Hc']]; congruence|].
        destruct (chosen_M cc xHv _ _ _ HG Hb2) as [lb [Hlb _]].
        eapply agree_ecov_r. eapply (chosen_agree cc xHv xH0 G HG (arnd st) b); eauto; [congruence|]. eapply ble_lt_trans; eauto.
  - destruct (beq (i_around (s_is s)) na && (ac <? i_acc (s_is s))) eqn:Hg2.
    + apply andb_true_iff in Hg2. destruct Hg2 as [Hg2 Hg3]. apply beq_spec in Hg2. apply Nat.ltb_lt in Hg3.
      destruct (create_log_sync s ac dec) as [sy|] eqn:Hcr; cbn [lift bind]; [|eapply good_panic; eauto].
      apply Fin. intros HMn. destruct Hcase1 as [Hc1|]; [|congruence].
      destruct (g_cand _ _ HG _ _ _ _ Hc1) as (Hpf & Hd & Hda).
      assert (Hna : na = arnd st) by congruence.
      apply (Hsyn HMn ac); auto.
      * right; left. destruct Hpf as (_ & _ & _ & c & ss & l0 & F1 & F2 & F3 & F4). unfold acov. rewrite <- Hna, F1.
        destruct ss; [right; reflexivity|left; lia].
      * eapply acov_le; [|apply acov_acc; auto]. lia.
    + cbn [bind]. apply Fin. intros HMn. destruct Hcase1 as [Hc1|]; [|congruence].
      destruct (g_cand _ _ HG _ _ _ _ Hc1) as (Hpf & Hd & Hda). rewrite Har in *.
      assert (Hwna : wfb cc na). { destruct Hpf as (_ & _ & _ & c & ss & l0 & F1 & F2 & F3 & F4). apply (g_wM _ _ HG). congruence. }
      destruct (not_bgt_le G _ _ HG Hwa Hwna Hg) as [Hlt|Heq]; [left; auto|]. right. split; auto.
      rewrite Heq, beq_refl in Hg2. cbn in Hg2. apply Nat.ltb_ge in Hg2. exact Hg2.
Qed.

End WithCtx.
