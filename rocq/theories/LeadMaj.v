(** * Becoming leader *)
From Coq Require Import List Arith Bool Lia.
Import ListNotations.
From Verif Require Import Types Config MemStore Internal LeaderState SeqPaxos Basics Ghost GhostOps Inv StoreOps SyncOps Op FollowerOps RecvOps
  LeadLinks LeadSend LeadLoop LeadApp LeadRecv.

Section WithCtx.
Context {E : EntryT} {X : octx}.
Notation cc := xcc.
Notation p := xp.
Notation oth := xoth.
Notation nin := xnin.
Notation nout := xnout.
Notation nds := (nds cc).

Lemma not_ble_lt a b : ble a b = false -> bal_lt b a.
Proof.
  intros H. apply blt_spec. rewrite <- bgt_blt. unfold ble in H. unfold bgt. destruct (bcmp a b); auto; discriminate.
Qed.

Lemma lexle_refl a k : lexle a k a k.
Proof. right. auto. Qed.
Lemma lexle_trans a k b k1 c k2 : lexle a k b k1 -> lexle b k1 c k2 -> lexle a k c k2.
Proof.
  intros [H|[-> H]] [H'|[<- H']]; unfold lexle; auto.
  - left. eapply bal_lt_trans; eauto.
  - right. split; auto. lia.
Qed.

(** What a server that has promised [n] can say about itself. *)
Lemma pf_self G s K n : OpK G s K -> gP G p = n -> bal_lt (i_around (s_is s)) n -> pf cc G n p (i_around (s_is s)) (i_acc (s_is s)).
Proof.
  intros HO HP Hlt. pose proof (ok_N _ _ _ HO) as HN. pose proof (ok_G _ _ _ HO) as HG. pose proof (n_st _ _ _ _ HN) as HS. pose proof (n_coh _ _ _ _ HN) as HCo.
  destruct (stinv_M cc _ _ _ HG HS) as [l Hl]. destruct (st_arnd _ _ _ _ HS) as [c [Hc Hc']].
  pose proof (op_arnd_eq _ _ _ HO) as Har. rewrite Har in *.
  split; [rewrite HP; apply ble_refl_|]. split; auto. split; [apply HN|].
  exists c, (issome (ms_ss (i_st (s_is s)))), l. split; auto. split; auto. split.
  - pose proof (co_acc _ _ HCo) as Ha. unfold i_acc. destruct (ms_ss (i_st (s_is s))) eqn:Hss; cbn.
    + split; [|apply Ha; auto]. rewrite (stinv_ss cc _ _ _ l HG HS); congruence.
    + rewrite Ha, Hc'; auto.
  - intros b Hb _. destruct (gA G p b) eqn:Hg; auto. exfalso. apply (lt_not_ble _ _ Hb). apply (st_max _ _ _ _ HS). congruence.
Qed.

Lemma op_wfa G s K : OpK G s K -> wfb cc (i_around (s_is s)).
Proof.
  intros HO. rewrite (op_arnd_eq _ _ _ HO). destruct (stinv_M cc _ _ _ (ok_G _ _ _ HO) (n_st _ _ _ _ (ok_N _ _ _ HO))) as [l Hl].
  apply (g_wM _ _ (ok_G _ _ _ HO)). congruence.
Qed.

(** [meta_gt] *)
Lemma meta_gt_false G m m' : GInv cc G -> wfb cc (pmt_na m) -> wfb cc (pmt_na m') -> meta_gt m m' = false ->
  lexle (pmt_na m) (pmt_acc m) (pmt_na m') (pmt_acc m').
Proof.
  intros HG W1 W2. unfold meta_gt. destruct (_ && _ && _) eqn:Heq.
  - intros _. rewrite !andb_true_iff in Heq. destruct Heq as [[H1 H2] _]. apply beq_spec in H1. apply Nat.eqb_eq in H2. right. split; auto. lia.
  - intros H. apply orb_false_iff in H. destruct H as [H1 H2]. destruct (not_bgt_le G _ _ HG W1 W2 H1) as [Hlt|He]; [left; auto|].
    right. split; auto. rewrite He, beq_refl in H2. cbn in H2. apply Nat.ltb_ge in H2. exact H2.
Qed.
Lemma meta_gt_true m m' : meta_gt m m' = true ->
  bal_lt (pmt_na m') (pmt_na m) \/ (pmt_na m = pmt_na m' /\ pmt_acc m' < pmt_acc m).
Proof.
  unfold meta_gt. destruct (_ && _ && _); [discriminate|]. intros H. apply orb_true_iff in H. destruct H as [H|H].
  - left. apply blt_spec. rewrite <- bgt_blt. exact H.
  - apply andb_true_iff in H. destruct H as [H1 H2]. apply beq_spec in H1. apply Nat.ltb_lt in H2. auto.
Qed.

(** ** [handle_leader] *)
Lemma handle_leader_ok G s n : Op G s -> b_pid n = p -> b_cfg n = cc_id cc -> good G (handle_leader s n).
Proof.
  intros HO Hpid Hcfg. unfold handle_leader. destruct (ble n (l_n (s_ls s)) || ble n (i_prom (s_is s))) eqn:Hc; [apply good_ok; auto|].
  apply orb_false_iff in Hc. destruct Hc as [_ Hc]. apply not_ble_lt in Hc. rewrite (op_prom_eq _ _ _ HO) in Hc.
  assert (Hsp : s_pid s = p) by apply (ok_N _ _ _ HO). rewrite Hsp, Hpid, Nat.eqb_refl.
  assert (Hin : In p nds) by apply (ok_N _ _ _ HO).
  assert (Hw : wfb cc n) by (right; split; [auto|congruence]).
  assert (Hnb : n <> bdef). { intros H. rewrite H in Hpid. cbn in Hpid. apply (nd0 p Hin). auto. }
  destruct (op_demote G s PhNone HO) as (G1 & L1 & P1 & O1); try discriminate.
  assert (HC1 : gC G1 n = None).
  { destruct (gC G1 n) as [[[na ac] d]|] eqn:Hx; auto. exfalso.
    destruct (g_cand _ _ (ok_G _ _ _ O1) _ _ _ _ Hx) as ((Hle & _) & _). rewrite Hpid, P1 in Hle. exact (lt_not_ble _ _ Hc Hle). }
  assert (HM1 : gM G1 n = None).
  { destruct (gM G1 n) eqn:Hx; auto. exfalso. destruct (g_est _ _ (ok_G _ _ _ O1) n) as [_ H]; congruence. }
  destruct (op_flush G1 _ O1) as (G2 & L2 & (EM & EI & EC & EP & EN) & O2); [reflexivity|].
  destruct (op_setprom G2 _ n O2) as (L3 & O3); auto; try discriminate; try reflexivity.
  { rewrite EP, P1. left. exact Hc. }
  set (s3 := set_is _ (i_set_promise _ n)) in O3. set (G3 := setP G2 p n) in *.
  assert (HP3 : gP G3 p = n) by (cbn; rewrite Nat.eqb_refl; reflexivity).
  assert (HM3 : gM G3 n = None) by (cbn; congruence).
  assert (HC3 : gC G3 n = None) by (cbn; congruence).
  assert (Hlt : bal_lt (i_around (s_is s3)) n).
  { pose proof (op_arnd_le _ _ _ O3) as H. rewrite HP3, <- (op_arnd_eq _ _ _ O3) in H. destruct H as [H|H]; auto. exfalso.
    destruct (stinv_M cc _ _ _ (ok_G _ _ _ O3) (n_st _ _ _ _ (ok_N _ _ _ O3))) as [l Hl]. rewrite <- (op_arnd_eq _ _ _ O3), H in Hl. congruence. }
  pose proof (pf_self _ _ _ n O3 HP3 Hlt) as Hpf.
  assert (Hdec : decok cc G3 (i_around (s_is s3)) (i_dec (s_is s3))).
  { rewrite (op_arnd_eq _ _ _ O3). unfold i_dec. rewrite (co_dec _ _ (n_coh _ _ _ _ (ok_N _ _ _ O3))). apply (st_dec _ _ _ _ (n_st _ _ _ _ (ok_N _ _ _ O3))). }
  assert (Hda : acov G3 p (i_around (s_is s3)) (i_dec (s_is s3))).
  { rewrite (op_arnd_eq _ _ _ O3). apply acov_dec; apply (ok_N _ _ _ O3). }
  destruct (setC_ok cc G3 p n (i_around (s_is s3)) (i_acc (s_is s3)) (i_dec (s_is s3))) as [L4 HG4]; auto; [apply (ok_G _ _ _ O3)|].
  set (G4 := setC G3 n _) in *.
  assert (HC4 : gC G4 n = Some (i_around (s_is s3), i_acc (s_is s3), i_dec (s_is s3))) by (cbn; rewrite beq_refl; reflexivity).
  cbn zeta.
  change (s_is (set_is (set_is (set_ls s (ls_with n (l_maxpid (s_ls s)) (l_quorum (s_ls s)))) _) _)) with (s_is s3).
  cbn [s_ls s_is set_ls set_is].
  change (i_set_promise (fst (flush_batch (s_is s))) n) with (s_is s3).
  set (my := mkProm n _ _ _ None).
  assert (Hwa : wfb cc (i_around (s_is s3))) by (eapply op_wfa; eauto).
  assert (Hset : forall ls maj, ls_set_promise (ls_with n (l_maxpid (s_ls s)) (l_quorum (s_ls s))) my p true = Some (ls, maj) ->
    l_n ls = n /\ l_seqs ls = repeat seq0 (l_maxpid (s_ls s)) /\ l_accs ls = repeat 0 (l_maxpid (s_ls s)) /\
    l_accmeta ls = repeat None (l_maxpid (s_ls s)) /\ l_maxpid ls = l_maxpid (s_ls s) /\ l_quorum ls = l_quorum (s_ls s) /\ l_maxsync ls = None /\
    (pmt_na (l_maxmeta ls) = i_around (s_is s3) /\ pmt_acc (l_maxmeta ls) = i_acc (s_is s3)) /\
    (forall q m, vget (l_proms ls) q = Some (Promised m) -> q = p /\ m = mkMeta (i_around (s_is s3)) (i_acc (s_is s3)) (i_dec (s_is s3)) p)).
  { intros ls maj. unfold ls_set_promise. cbn zeta. cbn [andb my pr_na pr_acc pr_dec pr_sync].
    set (m := mkMeta _ _ _ p).
    set (l0 := ls_with n _ _).
    set (l1 := if meta_gt m (l_maxmeta l0) then l_set_max l0 m None else l0).
    assert (A : l_n l1 = n /\ l_seqs l1 = l_seqs l0 /\ l_accs l1 = l_accs l0 /\ l_accmeta l1 = l_accmeta l0 /\ l_maxpid l1 = l_maxpid l0 /\
       l_quorum l1 = l_quorum l0 /\ l_maxsync l1 = None /\ l_proms l1 = l_proms l0 /\
       (pmt_na (l_maxmeta l1) = pmt_na m /\ pmt_acc (l_maxmeta l1) = pmt_acc m)).
    { unfold l1. destruct (meta_gt m (l_maxmeta l0)) eqn:Hg; [repeat (split; [reflexivity|]); auto|].
      repeat (split; [reflexivity|]). apply (meta_gt_false G3) in Hg; auto; [|apply (ok_G _ _ _ O3)|left; reflexivity].
      cbn in Hg. destruct Hg as [Hg|[Hg1 Hg2]]; [exfalso; unfold bal_lt in Hg; cbn in Hg; lia|]. cbn. split; [auto|lia]. }
    destruct A as (A1 & A2 & A3 & A4 & A5 & A6 & A7 & A8 & A9). clearbody l1.
    destruct (vset (l_proms l1) p (Promised m)) as [v|] eqn:Hv; [|discriminate]. intros H. injection H as <- _. cbn [l_n l_seqs l_accs l_accmeta l_maxpid l_quorum l_maxsync l_maxmeta l_proms l_set_proms].
    repeat (split; [assumption|]). intros q m0. rewrite (vget_vset _ _ _ _ q Hv), A8. destruct (Nat.eqb_spec q p) as [->|].
    - intros H. injection H as <-. auto.
    - cbn. intros H. apply vget_repeat in H. discriminate. }
  match goal with |- context [ls_set_promise _ my ?q true] => change q with (s_pid s); rewrite Hsp end.
  destruct (ls_set_promise _ my p true) as [[ls maj]|] eqn:Hls; cbn [lift bind]; [|eapply (good_panic G3 s3); eauto].
  destruct (Hset ls maj eq_refl) as (A1 & A2 & A3 & A4 & A5 & A6 & A7 & [A8 A9] & A10). clear Hset Hls.
  set (s4 := set_state (set_ls s3 ls) Leader PhPrepare).
  change (good G (Ok (push_all s4 (s_peers s4) (MPrepare n (i_dec (s_is s4)) (i_around (s_is s4)) (i_acc (s_is s4)))))).
  assert (O4 : Op G4 s4).
  { eapply (op_upd G3 s3 knorm G4 s4 knorm O3 L4 HG4); auto.
    - pose proof (nodeinv_gls := ok_N _ _ _ O3).
      assert (HS4 : StInv cc G4 p (i_st (s_is s3))) by (apply (stinv_gle cc G3); auto; [apply (ok_G _ _ _ O3)|apply L4|apply nodeinv_gls]).
      assert (HCo4 : Coh G4 (s_is s3)) by (eapply (coh_gle cc G3); [apply (ok_G _ _ _ O3)|apply L4|apply nodeinv_gls|apply nodeinv_gls]).
      destruct nodeinv_gls. constructor; auto.
      + change (l_quorum ls = quorum_of cc p). rewrite A6. exact n_q.
      + change (forall q, In q nds -> q <= l_maxpid ls). rewrite A5. exact n_maxp.
      + change (length (l_accs ls) = l_maxpid ls). rewrite A3, A5, repeat_length. reflexivity.
      + change (LeadPrep cc G4 p s4). constructor; cbn [s4 s_ls set_state set_ls s_is]; rewrite ?A1; auto.
        * intros q k. rewrite A3. apply vget_repeat.
        * intros q x. rewrite A4. apply vget_repeat.
        * intros q x. rewrite A2. apply vget_repeat.
        * intros q m Hm. destruct (A10 q m Hm) as [-> ->]. cbn [pmt_na pmt_acc]. rewrite A8, A9.
          assert (Hpf4 : pf cc G4 n p (i_around (s_is s3)) (i_acc (s_is s3))) by (eapply pf_gle; [apply L4|exact Hpf]).
          split; [|split; [exact Hpf4|apply lexle_refl]].
          split; [eapply decok_gle; [apply L4|exact Hdec]|]. split; [exact Hda|]. split; [exact Hin|]. split; [reflexivity|]. right. exact Hpf4.
        * exists p. rewrite A8, A9, A7. split; [eapply pf_gle; [apply L4|exact Hpf]|]. split; [apply lexle_refl|]. auto.
      + intros pr Hpr. eapply minv_gle; [apply L4|]. apply n_cprom. exact Hpr.
    - split; cbn; [discriminate|]. intros; repeat (split; auto).
    - cbn. discriminate.
    - apply (ok_tr _ _ _ O3).
    - apply (room_le G3 _ s3); [reflexivity| |exact (ok_room _ _ _ O3)]. unfold pend. change (lbatch s4) with (cf []). apply Nat.add_le_mono; [apply Nat.le_refl|apply Nat.le_0_l]. }
  exists G4. split.
  - eapply glp_trans; [apply L1|]. eapply glp_trans; [apply L2|]. eapply glp_trans; [apply L3|]. apply L4.
  - apply op_push_all; auto. intros b Hb. change (minv cc G4 p b (MPrepare n (i_dec (s_is s4)) (i_around (s_is s4)) (i_acc (s_is s4)))).
    replace n with (l_n (s_ls s4)) by exact A1. eapply minv_prepare; [exact O4|reflexivity|]. intros ->. exact (peers_ne _ _ _ _ O4 Hb eq_refl).
Qed.

(** ** [handle_majority_promises] *)
Lemma bq_es_cut l c ss k : bq xB xt (ll_es l) k -> bq xB xt (ll_es (cut l c ss)) k.
Proof. unfold cut. destruct ss; [auto|]. apply bq_cut. Qed.

Lemma agree_cut l c ss k : c <= len l \/ ss = true -> k <= c \/ ss = true -> ecov l k -> agree k l (cut l c ss).
Proof.
  intros Hc Hk He i Hi. destruct (proj1 (at_ecov l k) He i Hi) as [x Hx]. exists x. split; auto.
  rewrite cut_at; auto. destruct Hk as [Hk|Hk]; [right; lia|auto].
Qed.

Lemma max_dec_in (ls : leader_state) : get_max_decided_idx ls = 0 \/
  exists q m, vget (l_proms ls) q = Some (Promised m) /\ get_max_decided_idx ls = pmt_dec m.
Proof.
  unfold get_max_decided_idx.
  assert (H : forall v a, fold_left (fun a p => match p with Promised m => Nat.max a (pmt_dec m) | _ => a end) v a = a \/
     exists j m, nth_error v j = Some (Promised m) /\ fold_left (fun a p => match p with Promised m => Nat.max a (pmt_dec m) | _ => a end) v a = pmt_dec m).
  { induction v as [|x v IH]; intros a; cbn; auto. destruct x as [|m|].
    - destruct (IH a) as [|(j & m & A & B)]; auto. right. exists (S j), m. auto.
    - destruct (IH (Nat.max a (pmt_dec m))) as [->|(j & m' & A & B)].
      + destruct (Nat.max_spec a (pmt_dec m)) as [[_ ->]|[_ ->]]; auto. right. exists 0, m. auto.
      + right. exists (S j), m'. auto.
    - destruct (IH a) as [|(j & m & A & B)]; auto. right. exists (S j), m. auto. }
  destruct (H (l_proms ls) 0) as [|(j & m & A & B)]; auto. right. exists (S j), m. split; auto. apply vget_nth. exact A.
Qed.

(** The log with which the leader of ballot [n] starts. *)
Record start (G : ghost) (s : sp) (n : ballot) (lm : llog) (c : nat) (ss : bool) (q0 : node_id) : Prop := {
  sa_A : gA G q0 (pmt_na (l_maxmeta (s_ls s))) = Some (c, ss);
  sa_M : gM G (pmt_na (l_maxmeta (s_ls s))) = Some lm;
  sa_ac : if ss then ll_ss lm <> None /\ len lm < pmt_acc (l_maxmeta (s_ls s)) else pmt_acc (l_maxmeta (s_ls s)) = c;
  sa_lt : bal_lt (pmt_na (l_maxmeta (s_ls s))) n;
  sa_c : c <= len lm \/ ss = true;
  sa_ss : ss = true -> ll_ss lm <> None
}.

Lemma est_start G s lm c ss q0 (n := l_n (s_ls s)) : Op G s -> s_role s = Leader -> s_phase s = PhPrepare ->
  is_prepare_quorum (l_quorum (s_ls s)) (length (filter is_promised (l_proms (s_ls s)))) = true ->
  start G s n lm c ss q0 -> est cc (setMI G n (cut lm c ss)) n.
Proof.
  intros HO Hr Hph Hq [S1 S2 S3 S4 S5 S6]. pose proof (ok_N _ _ _ HO) as HN. pose proof (ok_G _ _ _ HO) as HG.
  pose proof (n_role _ _ _ _ HN) as HR. rewrite Hr, Hph in HR.
  destruct (filter_vget is_promised (l_proms (s_ls s))) as (R & R1 & R2 & R3).
  assert (HRp : forall q, In q R -> exists m, vget (l_proms (s_ls s)) q = Some (Promised m)).
  { intros q Hin. destruct (R3 q Hin) as (k & Hk & Hf). destruct k as [|m|]; try discriminate. eauto. }
  set (bm := pmt_na (l_maxmeta (s_ls s))) in *.
  assert (Hbn : bm <> n) by (intros Hx; rewrite Hx in S4; exact (bal_lt_irrefl _ S4)).
  exists R, p, bm, lm. split; auto. split; [|split; [apply HN|split; [|split; [exact S4|split; [|split]]]]].
  - intros q Hin. destruct (HRp q Hin) as [m Hm]. destruct (lp_proms _ _ _ _ HR q m Hm) as [(_ & _ & H & _) _]. exact H.
  - rewrite R2, <- (n_q _ _ _ _ HN). exact Hq.
  - cbn. rewrite beq_neq; auto.
  - intros q Hin. destruct (HRp q Hin) as [m Hm]. destruct (lp_proms _ _ _ _ HR q m Hm) as (_ & Hpf & Hle).
    destruct Hpf as (P1 & P2 & P3 & c' & ss' & l' & P4 & P5 & P6 & P7). fold n in P1, P2, P7. fold bm in Hle.
    split; [exact P1|]. split.
    + intros b Hb1 Hb2. cbn. apply P7; auto. destruct Hle as [Hle|[Hle _]]; [eapply bal_lt_trans; eauto|rewrite Hle; auto].
    + intros k Hk. change (acov G q bm k) in Hk. cbn. rewrite beq_refl. destruct (acov_M _ _ _ _ _ HG Hk) as [l0 [Hl0 Hek]].
      assert (l0 = lm) by congruence. subst l0. apply agree_cut; auto.
      destruct Hle as [Hle|[Hle Hac]]; [exfalso; unfold acov in Hk; rewrite P7 in Hk; auto|].
      destruct ss; [right; reflexivity|left]. rewrite Hle in *. assert (l' = lm) by congruence. subst l'.
      unfold acov in Hk. rewrite P4 in Hk. destruct ss'; [destruct S5; [lia|discriminate]|]. destruct Hk; [lia|discriminate].
  - intros k Hk. cbn in *. rewrite (beq_neq bm n) in Hk by auto. rewrite beq_refl, (beq_neq bm n) by auto.
    assert (Hac : acov G q0 bm k) by (apply (g_init _ _ HG); auto; congruence).
    eapply agree_trans; [apply lle_agree; [apply (g_le _ _ HG _ _ S2)|exact Hk]|]. apply agree_cut; auto.
    + unfold acov in Hac. rewrite S1 in Hac. exact Hac.
    + eapply lle_ecov; [apply (g_le _ _ HG _ _ S2)|exact Hk].
Qed.

Lemma sync_panic s n d o tr : sync_log s n d o = Panic tr -> tr = i_tr s.
Proof.
  assert (HI : forall (A : Type) (x : option A) is1 t, ilift is1 x = Panic t -> t = i_tr is1).
  { intros A x is1 t. destruct x; cbn; [discriminate|]. intros H. injection H as <-. reflexivity. }
  unfold sync_log. destruct o as [sy|].
  2:{ match goal with |- bind ?x _ = _ -> _ => destruct x eqn:Hx end; cbn [bind]; [discriminate|].
      intros H. injection H as <-. apply HI in Hx. exact Hx. }
  match goal with |- bind ?x _ = _ -> _ => destruct x as [[s1 o1]|t1] eqn:H1 end; cbn [bind].
  - assert (Ht : i_tr s1 = i_tr s).
    { destruct (sy_snap sy) as [[c|dd]|]; [injection H1 as <- _; reflexivity| |injection H1 as <- _; reflexivity].
      destruct (create_decided_snapshot _) as [sn| |]; try discriminate. destruct (s_merge sn dd); [|discriminate]. injection H1 as <- _; reflexivity. }
    destruct (match sy_ss sy with Some _ => _ | None => _ end) as [s3 o3] eqn:H3.
    assert (Ht3 : i_tr s3 = i_tr s1).
    { destruct (sy_ss sy); [injection H3 as <- _; reflexivity|]. destruct (i_ss _); injection H3 as <- _; reflexivity. }
    match goal with |- bind ?x _ = _ -> _ => destruct x eqn:Hx end; cbn [bind]; [discriminate|].
    intros H. injection H as <-. apply HI in Hx. congruence.
  - intros H. injection H as <-. destruct (sy_snap sy) as [[c|dd]|]; try discriminate.
    destruct (create_decided_snapshot _) as [sn| |]; [|injection H1 as <-; reflexivity|injection H1 as <-; reflexivity].
    destruct (s_merge sn dd); [discriminate|]. injection H1 as <-. reflexivity.
Qed.

Lemma fresh_start G s is' acc :
  Op G s -> s_role s = Leader -> s_phase s = PhPrepare ->
  is_prepare_quorum (l_quorum (s_ls s)) (length (filter is_promised (l_proms (s_ls s)))) = true ->
  sync_log (s_is s) (l_n (s_ls s)) (get_max_decided_idx (s_ls s)) (l_maxsync (s_ls s)) = Ok (is', acc) ->
  exists G1, glp p G G1 /\ OpK G1 (set_state (set_is (set_ls s (l_set_max (s_ls s) (l_maxmeta (s_ls s)) None)) is') Leader PhAccept) (fun _ => Fresh) /\
    acc = i_acc is' /\ c_batch (i_ca is') = [].
Proof.
  intros HO Hr Hph Hq. pose proof (ok_N _ _ _ HO) as HN. pose proof (ok_G _ _ _ HO) as HG.
  pose proof (n_role _ _ _ _ HN) as HR. rewrite Hr, Hph in HR.
  pose proof (n_st _ _ _ _ HN) as HS. pose proof (n_coh _ _ _ _ HN) as HCo. pose proof (n_in _ _ _ _ HN) as Hin.
  set (n := l_n (s_ls s)) in *. set (dec := get_max_decided_idx (s_ls s)).
  pose proof (lp_n _ _ _ _ HR) as Hn. fold n in Hn. pose proof (lp_pid _ _ _ _ HR) as Hpid. fold n in Hpid.
  pose proof (lp_M _ _ _ _ HR) as HMn. fold n in HMn. pose proof (lp_C _ _ _ _ HR) as HCn. fold n in HCn.
  assert (Hp0 : p <> 0) by (intros H; apply (nd0 p Hin H)).
  assert (Hnb : n <> bdef). { intros H. rewrite H in Hpid. cbn in Hpid. auto. }
  destruct (lp_max _ _ _ _ HR) as (q0 & Hpf & Hlex & Hsync). fold n in Hpf.
  destruct Hpf as (Q1 & Q2 & Q3 & c & ss & lm & Q4 & Q5 & Q6 & Q7).
  set (bm := pmt_na (l_maxmeta (s_ls s))) in *.
  assert (Hst : start G s n lm c ss q0).
  { constructor; auto.
    - destruct (g_acc _ _ HG _ _ _ _ Q4) as [_ [l [Hl Hcl]]]. assert (l = lm) by congruence. subst l. destruct ss; auto.
    - intros ->. apply Q6. }
  pose proof (est_start G s lm c ss q0 HO Hr Hph Hq Hst) as Hest. fold n in Hest.
  set (ln := cut lm c ss) in *.
  destruct (setMI_ok cc G p n ln) as [L1 HG1]; auto; [congruence|].
  set (G1 := setMI G n ln) in *.
  assert (HM1 : gM G1 n = Some ln) by (cbn; rewrite beq_refl; reflexivity).
  assert (HI1 : gI G1 n = ln) by (cbn; rewrite beq_refl; reflexivity).
  assert (HS1 : StInv cc G1 p (i_st (s_is s))) by (apply (stinv_gle cc G); auto; apply L1).
  assert (HC1 : Coh G1 (s_is s)) by (eapply (coh_gle cc G); eauto; apply L1).
  assert (Hmm : forall b, b <> n -> gM G1 b = gM G b) by (intros b Hb; cbn; rewrite beq_neq; auto).
  assert (Hbn : bm <> n) by (intros Hx; rewrite Hx in Q2; exact (bal_lt_irrefl _ Q2)).
  destruct (stinv_M cc _ _ _ HG HS) as [la Hla].
  assert (Han : arnd (i_st (s_is s)) <> n) by (intros Hx; rewrite Hx in Hla; congruence).
  assert (HAn : gA G1 p n = None).
  { change (gA G p n = None). destruct (gA G p n) as [[c0 s0]|] eqn:Hx; auto. exfalso.
    destruct (g_acc _ _ HG _ _ _ _ Hx) as [_ [l [Hl _]]]. congruence. }
  assert (Hlss : ll_ss ln = if ss then ll_ss lm else None) by (unfold ln, cut; destruct ss; reflexivity).
  assert (Hllen : ss = false -> len ln = c).
  { intros Hss. unfold ln. rewrite Hss. apply cut_len. destruct (sa_c _ _ _ _ _ _ _ Hst); [auto|congruence]. }
  assert (Hdec : decok cc G1 n dec /\ (ss = false -> dec <= c)).
  { destruct (max_dec_in (s_ls s)) as [H0|(q & m & Hm & Hd)]; [unfold dec; rewrite H0; split; [left; reflexivity|lia]|].
    destruct (lp_proms _ _ _ _ HR q m Hm) as ((D1 & D2 & _) & (_ & D3 & _) & _). fold n in D3. fold dec in Hd. rewrite <- Hd in D1.
    assert (D1' : decok cc G1 (pmt_na m) dec) by (eapply decok_gle; [apply L1|exact D1]).
    split; [eapply decok_le; [|exact D1']; left; auto|]. intros Hss.
    destruct D1' as [D0|(b & B1 & B2)]; [lia|].
    destruct (chosen_M cc xHv _ _ _ HG1 B2) as [lb [Hlb _]].
    assert (A : agree dec lb (gI G1 n)) by (eapply (chosen_agree cc xHv xH0 G1 HG1 n b); eauto; [congruence|eapply ble_lt_trans; eauto]).
    apply agree_ecov_r in A. rewrite HI1 in A. destruct A as [A|A]; [rewrite Hllen in A; auto|]. rewrite Hlss, Hss in A. congruence. }
  destruct Hdec as [Hdec Hdc].
  (* the state after the synchronisation of the log *)
  assert (Fin : forall is' G2, gls p G1 G2 -> GInv cc G2 -> sameMP G1 G2 -> StInv cc G2 p (i_st is') -> Coh G2 is' ->
    arnd (i_st is') = n -> ms_ss (i_st is') = ll_ss ln -> (ms_ss (i_st is') = None -> cnt (i_st is') = c /\ ss = false) ->
    c_batch (i_ca is') = c_batch (i_ca (s_is s)) -> ms_prom (i_st is') = ms_prom (i_st (s_is s)) -> i_tr is' = i_tr (s_is s) ++ [i_st is'] ->
    glp p G G2 /\ OpK G2 (set_state (set_is (set_ls s (l_set_max (s_ls s) (l_maxmeta (s_ls s)) None)) is') Leader PhAccept) (fun _ => Fresh)).
  { intros is1 G2 L2 HG2 (EM & EI & EC & EP & EN) HS2 HC2 E1 E2 E3 E4 E5 E6.
    assert (L : gls p G G2) by (eapply gls_trans; eauto). split; [apply L|].
    set (s2 := set_state _ Leader PhAccept).
    assert (HP2 : gP G2 p = n) by (rewrite EP; auto).
    assert (HLA : LeadAcc cc G2 p s2).
    { constructor; cbn [s2 s_ls s_is set_state set_is set_ls l_set_max l_n l_proms l_maxmeta l_accs]; fold n.
      - auto.
      - exact Hpid.
      - unfold i_around. rewrite (co_around _ _ HC2). exact E1.
      - exists ln. split; [congruence|]. split; auto. intros H. destruct (E3 H) as [H1 H2]. rewrite H1. auto.
      - intros q m Hm _. destruct (lp_proms _ _ _ _ HR q m Hm) as [H _]. eapply mok_gle; [apply L|exact H].
      - fold bm. split; [exact Q2|]. exists lm. split; [rewrite EM, Hmm; auto|]. rewrite EI, HI1. unfold ln. apply agree_cut.
        + apply (sa_c _ _ _ _ _ _ _ Hst).
        + destruct ss; [right; reflexivity|left; lia].
        + destruct ss; [right; apply Q6|]. left. destruct (sa_c _ _ _ _ _ _ _ Hst); [lia|discriminate].
      - intros q k Hk. left. eapply lp_accs; eauto. }
    assert (Hnm : forall b m sq, b <> p -> In m (vout s b) -> numb m <> Some (n, sq)).
    { intros b m sq Hb Hi Hm. destruct (ok_out _ _ _ HO b Hb) as (_ & _ & A & _). rewrite Forall_forall in A.
      destruct (A m Hi n sq Hpid Hm) as [A1 _]. congruence. }
    assert (Hnr : forall b rv, b <> p -> rb b = Some rv -> rv_prom rv = n -> rv_phase rv = PhAccept -> False).
    { intros b rv Hb Hrv H1 H2. destruct (ok_out _ _ _ HO b Hb) as (_ & _ & _ & A). destruct (A rv Hrv n Hpid H1) as [B _].
      destruct (B H2) as (_ & B1 & _). congruence. }
    assert (Hpr : bal_or_default (ms_prom (i_st is1)) = n) by (rewrite E5, (st_prom _ _ _ _ HS); auto).
    pose proof HO as [O1 O2 O3 O4 O5 O6 O7 O8 O9 O10].
    assert (Hrm : room G2 s2 0).
    { assert (Hp : pend s2 <= pend s).
      { unfold pend, lbatch. cbn [s2 s_bprops s_out s_role s_is set_state set_is set_ls]. rewrite Hr, E4. apply Nat.le_refl. }
      intros b lb. rewrite EM. cbn [gM G1 setMI]. destruct (beq b n).
      - intros Hx. injection Hx as <-. unfold ln. eapply bq_le; [|apply bq_es_cut; exact (O10 bm lm Q5)]. lia.
      - intros Hx. eapply bq_le; [|exact (O10 b lb Hx)]. lia. }
    constructor; auto.
    - eapply glp_trans; [exact O1|apply L].
    - destruct HN. constructor; auto.
      + cbn. intros _. change (c_batch (i_ca is1) = []). rewrite E4. auto.
      + cbn. intros H. exfalso. apply H. rewrite E4. auto.
      + cbn. discriminate.
      + cbn. discriminate.
      + intros pr Hpr0. eapply minv_gle; [apply L|]. apply n_cprom. exact Hpr0.
    - intros a Ha. eapply linv_own; [exact Ha|apply xHoth| |].
      + change (b_pid (i_prom is1) = p). unfold i_prom. rewrite (co_prom _ _ HC2), Hpr. exact Hpid.
      + eapply linv_fr; [apply L|exact Ha|apply xHoth|]. apply O4; auto.
    - intros b Hb. change (vout s2 b) with (vout s b). eapply lcore_gle; [apply L| |apply O5; auto]. intros m _. destruct L as [_ ->]. reflexivity.
    - intros b Hb _ _ sq Hsq. change (vout s2 b) with (vout s b). split.
      + intros m s' Hi Hm. destruct (Hnm b m s' Hb Hi Hm).
      + intros rv Hrv H1 H2. destruct (Hnr b rv Hb Hrv H1 H2).
    - intros b Hb _ _ _ sq Hsq. exact I.
    - intros b Hb _ _ m i Hi. cbn in Hi. apply (lp_meta _ _ _ _ HR) in Hi. discriminate.
    - change (Forall Safe (i_tr is1)). rewrite E6. apply Forall_app. split; [exact O9|]. constructor; [|constructor].
      eapply (op_safe_own G s knorm G2); eauto; [|exact (room_g _ _ _ Hrm)]. rewrite Hpr. exact Hpid. }
  intros Hsl. destruct (l_maxsync (s_ls s)) as [sy|] eqn:Hsy.
  - (* from another server *)
    destruct Hsync as (c0 & ss0 & Y1 & Y2). fold bm in Y1, Y2. assert (c0 = c /\ ss0 = ss) by (split; congruence). destruct H as [-> ->].
    assert (Y2' : syncok cc G1 p bm sy c ss) by (eapply syncok_gle; [apply L1|exact Y2]).
    destruct Y2' as (l0 & Y3 & Y4 & Y5 & Y6). rewrite Hmm in Y3 by auto. assert (l0 = lm) by congruence. subst l0.
    pose proof (sync_st cc G1 p (s_is s) n ln la dec sy) as HX. rewrite Hsl in HX.
    destruct HX as (G2 & L2 & HG2 & E0 & HS2 & HC2 & E1 & E2 & E3 & E4 & E5 & E6 & E7 & E8); auto.
    + rewrite Hmm; auto.
    + intros j e He. pose proof (Y4 j e He) as Ha. unfold ln. rewrite cut_at; [exact Ha|apply (sa_c _ _ _ _ _ _ _ Hst)|].
      destruct (sy_ss sy); [left; apply Y5|]. destruct Y5 as (_ & Y5 & _). right.
      assert (j < length (sy_suffix sy)) by (apply nth_error_Some; congruence). lia.
    + destruct (sy_ss sy) as [s0|].
      * destruct Y5 as [-> Y5]. exact Y5.
      * destruct Y5 as (Yss & Y5 & Y7). rewrite (Hllen Yss), Y5. split; [lia|]. split; [congruence|]. split; [auto|].
        intros k. rewrite HI1. intros [Hk|Hk]; [rewrite (Hllen Yss) in Hk; lia|]. rewrite Hlss, Yss in Hk. congruence.
    + intros Hsn. destruct (base_use cc xHv xH0 G1 p bm (sy_idx sy) (arnd (i_st (s_is s))) la) as [B1 B2]; auto.
      * rewrite Hmm; auto.
      * rewrite <- (op_arnd_eq _ _ _ HO). destruct Hlex as [H|[H _]]; [left; auto|right; auto].
      * intros b Hb. apply (st_max _ _ _ _ HS1); auto.
      * destruct (st_arnd _ _ _ _ HS1) as [c1 [Hc1 _]]. congruence.
      * rewrite Hmm; auto. congruence.
      * split; auto. specialize (B2 lm). rewrite Hmm in B2 by auto. specialize (B2 Q5). eapply agree_trans; [exact B2|].
        apply agree_cut; [apply (sa_c _ _ _ _ _ _ _ Hst)| |eapply agree_ecov_r; eauto].
        destruct (sy_ss sy); [right; apply Y5|left; lia].
    + exists G2. destruct (Fin is' G2) as [F1 F2]; auto.
      * rewrite E2, Hlss. destruct (sy_ss sy) as [s0|]; [|destruct Y5 as [-> _]; reflexivity].
        destruct Y5 as [-> Y5]. destruct (at_stop _ _ _ (Y5 _ (Nat.le_refl _))) as [_ H]. auto.
      * intros H. rewrite E2 in H. rewrite (E3 H), H in *. destruct Y5 as (Y5 & Y7 & _). auto.
      * split; auto. split; auto. split; auto. rewrite E4. apply (n_bprep _ _ _ _ HN). exact Hph.
  - (* from its own log *)
    destruct Hsync as (-> & Z1 & Z2). fold bm in Z1.
    pose proof (op_arnd_eq _ _ _ HO) as Har. rewrite Har in Z1.
    destruct (st_arnd _ _ _ _ HS) as [c0 [Hc0 Hc0']]. rewrite <- Z1 in *. assert (c0 = c /\ ss = issome (ms_ss (i_st (s_is s)))) by (split; congruence). destruct H as [-> Hss0].
    assert (la = lm) by congruence. subst la.
    pose proof (sync_none_st cc G1 p (s_is s) n ln lm dec c) as HX. rewrite Hsl in HX.
    destruct HX as (G2 & L2 & HG2 & E0 & HS2 & HC2 & E1 & E2 & E3 & E4 & E5 & E6 & E7 & E8); auto.
    + rewrite <- Z1, Hmm; auto.
    + rewrite <- Z1. change (gA G p bm = Some (c, issome (ms_ss (i_st (s_is s))))). exact Hc0.
    + rewrite <- Hss0. reflexivity.
    + intros H. apply Hdc. rewrite Hss0, H. reflexivity.
    + exists G2. destruct (Fin is' G2) as [F1 F2]; auto.
      * rewrite E2, Hlss, Hss0. destruct (ms_ss (i_st (s_is s))) as [s0|] eqn:Hms; [|reflexivity]. cbn.
        symmetry. rewrite <- Hms. apply (stinv_ss cc G p); auto; [congruence|]. rewrite <- Z1. exact Hla.
      * intros H. rewrite E2 in H. rewrite E3, Hss0, H. split; [|reflexivity]. symmetry. auto.
      * split; auto. split; auto. split; auto. rewrite E4. apply (n_bprep _ _ _ _ HN). exact Hph.
Qed.

Lemma maj_tail G s : OpK G s (fun _ => Fresh) -> s_role s = Leader -> s_phase s = PhAccept ->
  good G (ls <- lift s (set_accepted_idx (s_ls s) (s_pid s) (i_acc (s_is s))) ;;
          let s := set_ls s ls in
          ps <- lift s (get_promised_followers (s_ls s)) ;;
          for_each s ps send_accsync).
Proof.
  intros HO Hr Hph. destruct (set_accepted_idx _ _ _) as [ls|] eqn:Hls; cbn [lift bind]; [|eapply good_panic; eauto].
  assert (O1 : OpK G (set_ls s ls) (fun _ => Fresh)).
  { eapply op_set_accs; eauto. right. rewrite (n_pid _ _ _ _ (ok_N _ _ _ HO)), <- (lead_arnd _ _ _ HO Hr Hph).
    apply acov_acc; apply (ok_N _ _ _ HO) || apply (ok_G _ _ _ HO). }
  cbn zeta. apply (body_good G (set_ls s ls)).
  apply (ploop_ok send_accsync Fresh Norm (fun _ _ => True)); auto.
  intros. apply accsync_to_ok; auto.
Qed.

Lemma app_wb is es : c_batch (i_ca is) = [] ->
  append_entries_without_batching is es = (app_is is es, i_acc (app_is is es)).
Proof.
  intros Hb. unfold append_entries_without_batching, app_is. rewrite (set_batch_nil _ Hb). reflexivity.
Qed.

Lemma majority_ok G s : Op G s -> s_role s = Leader -> s_phase s = PhPrepare ->
  is_prepare_quorum (l_quorum (s_ls s)) (length (filter is_promised (l_proms (s_ls s)))) = true ->
  good G (handle_majority_promises s).
Proof.
  intros HO Hr Hph Hq. unfold handle_majority_promises, take_max_promise_sync.
  change (get_max_decided_idx (s_ls (set_ls s (l_set_max (s_ls s) (l_maxmeta (s_ls s)) None)))) with (get_max_decided_idx (s_ls s)).
  change (l_n (s_ls (set_ls s (l_set_max (s_ls s) (l_maxmeta (s_ls s)) None)))) with (l_n (s_ls s)).
  change (s_is (set_ls s (l_set_max (s_ls s) (l_maxmeta (s_ls s)) None))) with (s_is s).
  destruct (sync_log (s_is s) (l_n (s_ls s)) (get_max_decided_idx (s_ls s)) (l_maxsync (s_ls s))) as [[is' acc]|tr] eqn:Hsl; cbn [bind].
  2:{ apply sync_panic in Hsl. rewrite Hsl. apply (ok_tr _ _ _ HO). }
  destruct (fresh_start G s is' acc HO Hr Hph Hq Hsl) as (G1 & L1 & O1 & -> & Hb).
  eapply good_trans; [exact L1|]. clear L1 HO Hq Hsl.
  set (s1 := set_is (set_ls s (l_set_max (s_ls s) (l_maxmeta (s_ls s)) None)) is') in *.
  set (s2 := set_state s1 Leader PhAccept) in *.
  assert (Hb2 : c_batch (i_ca (s_is s2)) = []) by exact Hb.
  assert (Hb' : s_bprops s1 = s_bprops s2 /\ s_bss s1 = s_bss s2) by (split; reflexivity). destruct Hb' as [Hp' Hs'].
  destruct (accepted_reconfiguration s1) eqn:Ha; [exact (maj_tail G1 s2 O1 eq_refl eq_refl)|].
  apply accrec_none in Ha.
  assert (Hss : ms_ss (i_st (s_is s2)) = None). { rewrite <- (co_ss _ _ (n_coh _ _ _ _ (ok_N _ _ _ O1))). exact Ha. }
  assert (HK : forall G n, kapp G n (fun _ => Fresh) (fun _ => Fresh)) by (intros G0 n b Hb0; right; auto).
  (* the buffered entries *)
  assert (H1 : exists G2 s3, glp p G1 G2 /\ OpK G2 s3 (fun _ => Fresh) /\ s_role s3 = Leader /\ s_phase s3 = PhAccept /\
     ms_ss (i_st (s_is s3)) = None /\ s_bss s3 = s_bss s2 /\ 
     exists s3', s3 = set_state s3' Leader PhAccept /\ s_bss s3' = s_bss s3 /\
     (match s_bprops s1 with
      | [] => (s1, i_acc is')
      | es => let s := set_bprops s1 [] in
              let '(is, acc) := append_entries_without_batching (s_is s) es in (set_is s is, acc)
      end) = (s3', i_acc (s_is s3'))).
  { assert (Hrb : roomg G1 (pend0 (set_bprops s2 []) + cf (s_bprops s1))).
    { eapply roomg_le; [|exact (ok_room _ _ _ O1)]. unfold pend, pend0, lbatch. cbn [s_bprops s_out set_bprops]. rewrite Hp'. change (s_role s2) with Leader. rewrite Hb2. change (cf []) with 0. lia. }
    assert (Hrb0 : room G1 (set_bprops s2 []) 0).
    { eapply roomg_le; [|exact Hrb]. unfold pend, pend0, lbatch. change (s_role (set_bprops s2 [])) with Leader. change (s_is (set_bprops s2 [])) with (s_is s2). rewrite Hb2. change (cf []) with 0. lia. }
    destruct (s_bprops s1) as [|e es].
    - exists G1, s2. split; [apply glp_refl|]. repeat (split; [auto|]). exists s1. auto.
    - destruct (lead_append G1 (set_bprops s2 []) (fun _ => Fresh) (fun _ => Fresh) (e :: es)) as (G2 & L2 & O2 & _); auto.
      { apply op_bprops; auto. }
      exists G2, (set_is (set_bprops s2 []) (app_is (s_is s2) (e :: es))). split; [apply L2|]. split; [exact O2|]. repeat (split; [reflexivity|]).
      split; [exact Hss|]. split; [reflexivity|]. exists (set_is (set_bprops s1 []) (app_is (s_is s1) (e :: es))). split; [reflexivity|]. split; [reflexivity|].
      cbn zeta. change (s_is (set_bprops s1 [])) with (s_is s1). rewrite (app_wb (s_is s1)) by exact Hb. reflexivity. }
  destruct H1 as (G2 & s3 & L2 & O2 & Hr3 & Hph3 & Hss3 & Hbs3 & s3' & E3 & Hbs3' & H4).
  eapply good_trans; [exact L2|]. cbn zeta in *. rewrite H4. clear H4.
  destruct (s_bss s3') as [ss|] eqn:Hbss.
  - destruct (lead_append_ss G2 (set_bss s3 None) (fun _ => Fresh) (fun _ => Fresh) ss) as (G3 & L3 & O3 & _); auto.
    { apply op_bss; auto. }
    eapply good_trans; [apply L3|]. rewrite E3 in O3. 
    exact (maj_tail G3 _ O3 eq_refl eq_refl).
  - rewrite E3 in O2. exact (maj_tail G2 _ O2 eq_refl eq_refl).
Qed.

Lemma set_promise_spec ls pr from chk ls' maj : ls_set_promise ls pr from chk = Some (ls', maj) ->
  let m := mkMeta (pr_na pr) (pr_acc pr) (pr_dec pr) from in
  l_n ls' = l_n ls /\ l_seqs ls' = l_seqs ls /\ l_accs ls' = l_accs ls /\ l_accmeta ls' = l_accmeta ls /\ l_maxpid ls' = l_maxpid ls /\ l_quorum ls' = l_quorum ls /\
  (forall q, vget (l_proms ls') q = if q =? from then Some (Promised m) else vget (l_proms ls) q) /\
  maj = is_prepare_quorum (l_quorum ls') (length (filter is_promised (l_proms ls'))) /\
  (if chk && meta_gt m (l_maxmeta ls) then l_maxmeta ls' = m /\ l_maxsync ls' = pr_sync pr else l_maxmeta ls' = l_maxmeta ls /\ l_maxsync ls' = l_maxsync ls).
Proof.
  unfold ls_set_promise. cbn zeta. set (m := mkMeta _ _ _ from). destruct (chk && meta_gt m (l_maxmeta ls)).
  - destruct (vset (l_proms (l_set_max ls m (pr_sync pr))) from (Promised m)) as [v|] eqn:Hv; [|discriminate]. intros H. injection H as <- <-. cbn.
    repeat (split; [reflexivity|]). split; [intros q; apply (vget_vset _ _ _ _ q Hv)|]. auto.
  - destruct (vset (l_proms ls) from (Promised m)) as [v|] eqn:Hv; [|discriminate]. intros H. injection H as <- <-. cbn.
    repeat (split; [reflexivity|]). split; [intros q; apply (vget_vset _ _ _ _ q Hv)|]. auto.
Qed.

Lemma promise_prepare_ok G s pr from : Op G s -> s_role s = Leader -> s_phase s = PhPrepare ->
  minv cc G from p (MPromise pr) -> good G (handle_promise_prepare s pr from).
Proof.
  intros HO Hr Hph [Hf [Hpid Hpr]]. unfold handle_promise_prepare. destruct (beq (pr_n pr) (l_n (s_ls s))) eqn:Hn; [|apply good_ok; auto].
  apply beq_spec in Hn. destruct (ls_set_promise (s_ls s) pr from true) as [[ls maj]|] eqn:Hls; cbn [lift bind]; [|eapply good_panic; eauto].
  apply set_promise_spec in Hls. cbn zeta in Hls. destruct Hls as (A1 & A2 & A3 & A4 & A5 & A6 & A7 & A8 & A9).
  pose proof (ok_N _ _ _ HO) as HN. pose proof (ok_G _ _ _ HO) as HG. pose proof (n_role _ _ _ _ HN) as HR. rewrite Hr, Hph in HR.
  pose proof (promise_mok _ _ _ _ Hpr Hn) as Hmok. destruct Hpr as (_ & R2 & R3 & R4 & R5). rewrite Hn in R5.
  assert (Hpf : pf cc G (l_n (s_ls s)) from (pr_na pr) (pr_acc pr) /\
     match pr_sync pr with
     | None => lexle (pr_na pr) (pr_acc pr) (i_around (s_is s)) (i_acc (s_is s))
     | Some sy => exists c ss, gA G from (pr_na pr) = Some (c, ss) /\ syncok cc G p (pr_na pr) sy c ss
     end).
  { pose proof (lp_M _ _ _ _ HR) as HM. destruct R5 as [[_ R5]|[R5 R6]].
    - exfalso. destruct (acov_M _ _ _ _ _ HG R5) as [l [Hl _]]. congruence.
    - split; auto. destruct R6 as [R6|R6]; [congruence|]. destruct (pr_sync pr) as [sy|].
      + rewrite Hpid, Hn. exact R6.
      + destruct R6 as (cna & cac & cd & B1 & B2). rewrite (lp_C _ _ _ _ HR) in B1. injection B1 as <- <- <-. exact B2. }
  destruct Hpf as [Hpf Hsy]. destruct (lp_max _ _ _ _ HR) as (q0 & M1 & M2 & M3).
  assert (Hw1 : wfb cc (pr_na pr)). { destruct Hpf as (_ & _ & _ & c & ss & l0 & F1 & F2 & _). apply (g_wM _ _ HG). congruence. }
  assert (Hw2 : wfb cc (pmt_na (l_maxmeta (s_ls s)))). { destruct M1 as (_ & _ & _ & c & ss & l0 & F1 & F2 & _). apply (g_wM _ _ HG). congruence. }
  assert (Hmax : lexle (pmt_na (l_maxmeta (s_ls s))) (pmt_acc (l_maxmeta (s_ls s))) (pmt_na (l_maxmeta ls)) (pmt_acc (l_maxmeta ls)) /\
     lexle (pr_na pr) (pr_acc pr) (pmt_na (l_maxmeta ls)) (pmt_acc (l_maxmeta ls)) /\
     exists q, pf cc G (l_n (s_ls s)) q (pmt_na (l_maxmeta ls)) (pmt_acc (l_maxmeta ls)) /\
     match l_maxsync ls with
     | None => q = p /\ pmt_na (l_maxmeta ls) = i_around (s_is s) /\ pmt_acc (l_maxmeta ls) = i_acc (s_is s)
     | Some sy => exists c ss, gA G q (pmt_na (l_maxmeta ls)) = Some (c, ss) /\ syncok cc G p (pmt_na (l_maxmeta ls)) sy c ss
     end).
  { cbn [andb] in A9. destruct (meta_gt _ (l_maxmeta (s_ls s))) eqn:Hg; destruct A9 as [-> ->].
    - apply meta_gt_true in Hg. cbn in *. split; [|split; [apply lexle_refl|]].
      + destruct Hg as [Hg|[Hg1 Hg2]]; [left; auto|right; split; [auto|lia]].
      + exists from. split; auto. destruct (pr_sync pr); auto. exfalso. pose proof (lexle_trans _ _ _ _ _ _ Hsy M2) as H.
        destruct Hg as [Hg|[Hg1 Hg2]].
        * apply (lt_not_ble _ _ Hg). destruct H as [H|[H _]]; [left; auto|right; auto].
        * rewrite Hg1 in H. destruct H as [H|[_ H]]; [exact (bal_lt_irrefl _ H)|lia].
    - apply (meta_gt_false G) in Hg; auto. split; [apply lexle_refl|]. split; [exact Hg|]. exists q0. auto. }
  destruct Hmax as (X1 & X2 & q1 & X3 & X4).
  assert (O1 : Op G (set_ls s ls)).
  { eapply (op_upd G s knorm G _ knorm); auto.
    - apply gls_refl.
    - destruct HN. constructor; auto; cbn [s_ls set_ls].
      + congruence.
      + rewrite A5. auto.
      + congruence.
      + change (s_role (set_ls s ls)) with (s_role s). change (s_phase (set_ls s ls)) with (s_phase s). rewrite Hr, Hph.
        destruct HR. constructor; cbn [s_ls set_ls s_is] in *; rewrite ?A1, ?A2, ?A3, ?A4; auto.
        * intros q m. rewrite A7. destruct (Nat.eqb_spec q from) as [->|].
          -- intros H. injection H as <-. split; [exact Hmok|]. split; [exact Hpf|exact X2].
          -- intros H. destruct (lp_proms q m H) as (B1 & B2 & B3). split; auto. split; auto. eapply lexle_trans; eauto.
        * exists q1. split; [exact X3|]. split; [eapply lexle_trans; eauto|exact X4].
    - apply vle_refl.
    - change (s_phase (set_ls s ls)) with (s_phase s). rewrite Hph. discriminate.
    - apply (ok_tr _ _ _ HO).
    - rm_eq G s HO. }
  destruct maj; [|apply good_ok; auto]. apply majority_ok; auto.
Qed.

End WithCtx.
