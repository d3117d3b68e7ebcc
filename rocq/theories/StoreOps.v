(** * Storage operations and the invariant *)
From Coq Require Import List Arith Bool Lia.
Import ListNotations.
From Verif Require Import Types Config MemStore Internal LeaderState SeqPaxos Basics Ghost GhostOps Inv.

Section WithEntry.
Context {E : EntryT}.
Context (cc : cluster_config).
Notation nds := (nds cc).
Context (Hv : cluster_validate cc = true) (H0 : ~ In 0 nds).

(** Only the accepted positions of [p] changed. *)
Definition sameMP (G G' : ghost) : Prop :=
  gM G' = gM G /\ gI G' = gI G /\ gC G' = gC G /\ gP G' = gP G /\ gN G' = gN G.
Lemma sameMP_refl G : sameMP G G.
Proof. unfold sameMP; auto. Qed.
Lemma sameMP_setA G p n x : sameMP G (setA G p n x).
Proof. unfold sameMP; auto. Qed.

Lemma ms_append_nil st : ms_append_entries st [] = st.
Proof. destruct st. unfold ms_append_entries. cbn. rewrite app_nil_r. reflexivity. Qed.

Lemma append_st G p st es l : GInv cc G -> StInv cc G p st -> In p nds -> gM G (arnd st) = Some l ->
  (es <> [] -> ms_ss st = None /\ arnd st = gP G p) ->
  (forall j e, nth_error es j = Some e -> at_ l (cnt st + j) = Some (Ent e)) ->
  exists G1, gls p G G1 /\ GInv cc G1 /\ sameMP G G1 /\ StInv cc G1 p (ms_append_entries st es).
Proof.
  intros HG HS Hin Hl Hne Hes. destruct es as [|e0 es0].
  { exists G. rewrite ms_append_nil. split; [apply gls_refl|]. split; auto. split; [apply sameMP_refl|auto]. }
  set (es := e0 :: es0) in *. destruct Hne as [Hss Har]; [discriminate|].
  destruct (st_arnd _ _ _ _ HS) as [c [Hc Hc']]. rewrite Hss in Hc. cbn in Hc. specialize (Hc' Hss). subst c.
  assert (Hlen : cnt st + length es <= len l).
  { assert (H : exists e, nth_error es (length es - 1) = Some e).
    { destruct (nth_error es (length es - 1)) eqn:H; eauto. apply nth_error_None in H. unfold es in H. cbn in H. lia. }
    destruct H as [e H]. apply Hes in H. apply at_len in H. unfold es in *. cbn [length] in *. lia. }
  assert (Hnb : arnd st <> bdef).
  { intros Hb. rewrite Hb, (g_bM _ _ HG) in Hl. injection Hl as <-. unfold es in Hlen. cbn in Hlen. lia. }
  destruct (setA_ok cc G p (arnd st) l (cnt st + length es) false) as [HL HG1]; auto.
  { intros a Ha. rewrite Hc in Ha. injection Ha as <-. right. cbn. split; [auto|lia]. }
  { intros Hn. congruence. }
  exists (setA G p (arnd st) (cnt st + length es, false)). split; [exact HL|]. split; [exact HG1|]. split; [apply sameMP_setA|].
  destruct HL as [[HL _] _]. destruct HS. constructor.
  - assumption.
  - cbn. unfold cnt, arnd in *. cbn. rewrite Nat.eqb_refl, beq_refl. cbn. rewrite Hss. cbn.
    exists (ms_trim st + length (ms_log st) + length es). rewrite app_length. split; auto. intros _. lia.
  - intros b. cbn. destruct (beq b (arnd st)) eqn:Hb.
    + apply beq_spec in Hb. subst. intros _. apply ble_refl_.
    + rewrite andb_false_r. apply st_max.
  - intros l1 j e Hl1 He. unfold arnd in *. cbn in *. assert (l1 = l) by congruence. subst l1.
    destruct (lt_dec j (length (ms_log st))) as [Hj|Hj].
    + rewrite nth_error_app1 in He by auto. eauto.
    + rewrite nth_error_app2 in He by lia. apply Hes in He. unfold cnt in He.
      replace (ms_trim st + j) with (ms_trim st + length (ms_log st) + (j - length (ms_log st))) by lia. exact He.
  - intros l1 s i _ Hs. cbn in Hs. congruence.
  - eapply decok_gle; eauto.
  - cbn. destruct st_cov as [H|H]; auto. left. unfold cnt in *. cbn. rewrite app_length. lia.
  - intros Hs. eapply trimok_gle; eauto.
  - assumption.
Qed.

Lemma set_prom_st G p st n : GInv cc G -> StInv cc G p st -> In p nds -> wfb cc n -> ble_ (gP G p) n ->
  gls p G (setP G p n) /\ GInv cc (setP G p n) /\ StInv cc (setP G p n) p (ms_set_promise st n).
Proof.
  intros HG HS Hin Hw Hle. assert (Hp0 : p <> 0) by (intros ->; auto).
  destruct (setP_ok cc G p n HG Hw Hle Hp0) as [HL HG1]. split; [exact HL|]. split; [exact HG1|].
  destruct HL as [[HL _] _]. destruct HS. constructor; try assumption.
  - cbn. rewrite Nat.eqb_refl. reflexivity.
Qed.

Lemma set_dec_st G p st d : StInv cc G p st -> decok cc G (arnd st) d -> (d <= cnt st \/ ms_ss st <> None) ->
  StInv cc G p (ms_set_decided st d).
Proof. intros [] Hd Hc. constructor; assumption. Qed.

Lemma set_ss_same st s : ms_ss st = Some s -> ms_set_stopsign st (Some s) = st.
Proof. destruct st. cbn. intros ->. reflexivity. Qed.

Lemma set_ss_st G p st l s : GInv cc G -> StInv cc G p st -> In p nds -> gM G (arnd st) = Some l ->
  arnd st = gP G p -> ll_ss l = Some s -> len l <= cnt st -> arnd st <> bdef ->
  exists G1, gls p G G1 /\ GInv cc G1 /\ sameMP G G1 /\ StInv cc G1 p (ms_set_stopsign st (Some s)).
Proof.
  intros HG HS Hin Hl Har Hs Hlen Hnb.
  destruct (st_arnd _ _ _ _ HS) as [c [Hc Hc']].
  destruct (setA_ok cc G p (arnd st) l (cnt st) true) as [HL HG1]; auto.
  { intros a Ha. left. reflexivity. }
  { congruence. }
  exists (setA G p (arnd st) (cnt st, true)). split; [exact HL|]. split; [exact HG1|]. split; [apply sameMP_setA|].
  destruct HL as [[HL _] _]. destruct HS. constructor.
  - assumption.
  - cbn. unfold arnd. cbn. rewrite Nat.eqb_refl, beq_refl. cbn. eexists. split; [reflexivity|]. discriminate.
  - intros b. cbn. destruct (beq b (arnd st)) eqn:Hb.
    + apply beq_spec in Hb. subst. intros _. apply ble_refl_.
    + rewrite andb_false_r. apply st_max.
  - assumption.
  - intros l1 s1 i Hl1 Hs1 Hi. cbn in Hs1. injection Hs1 as <-.
    change (arnd (ms_set_stopsign st (Some s))) with (arnd st) in Hl1. cbn in Hl1.
    assert (l1 = l) by congruence. subst l1. change (cnt (ms_set_stopsign st (Some s))) with (cnt st) in Hi.
    unfold at_. replace (nth_error (ll_es l) i) with (@None T); [rewrite Hs; reflexivity|].
    symmetry. apply nth_error_None. unfold len in Hlen. lia.
  - eapply decok_gle; eauto.
  - right. cbn. discriminate.
  - intros Hsn. eapply trimok_gle; eauto.
  - assumption.
Qed.

Lemma nth_error_skipn {A} (l : list A) n j : nth_error (skipn n l) j = nth_error l (n + j).
Proof. revert l; induction n; intros l; cbn; auto. destruct l; cbn; auto. destruct j; reflexivity. Qed.

(** Trimming, as in [try_trim] and [try_snapshot]. *)
Lemma trim_st G p st new sn m : StInv cc G p st ->
  (new <= cnt st \/ ms_ss st <> None) ->
  ms_write st ([OpTrim new; OpSetComp new] ++ sn) = Some m ->
  ((sn = [] /\ (ms_snap st = None -> trimok cc G new)) \/ (exists x, sn = [OpSetSnapshot (Some x)])) ->
  StInv cc G p m /\ ms_prom m = ms_prom st /\ ms_around m = ms_around st /\ ms_dec m = ms_dec st /\
  ms_ss m = ms_ss st /\ ms_comp m = new /\ (ms_ss st = None -> cnt m = cnt st) /\ cnt st <= cnt m.
Proof.
  intros HS Hnew Hw Hsn. cbn [ms_write app ms_op] in Hw. unfold ms_do_trim in Hw.
  unfold sub_chk in Hw. destruct (Nat.leb_spec (ms_trim st) new) as [Hle|]; [|discriminate].
  set (k := new - ms_trim st) in *.
  set (m0 := ms_set_comp (mkMS (skipn (Nat.min k (length (ms_log st))) (ms_log st)) (ms_prom st) (ms_around st)
                 (ms_dec st) new (ms_comp st) (ms_snap st) (ms_ss st)) new) in *.
  assert (Hm : ms_log m = ms_log m0 /\ ms_prom m = ms_prom st /\ ms_around m = ms_around st /\ ms_dec m = ms_dec st /\
               ms_ss m = ms_ss st /\ ms_comp m = new /\ ms_trim m = new /\
               (ms_snap m = None -> trimok cc G new)).
  { destruct Hsn as [[-> Ht]|[x ->]]; cbn in Hw; injection Hw as <-; cbn; repeat (split; auto). discriminate. }
  clear Hw Hsn. destruct Hm as (E1 & E2 & E3 & E4 & E5 & E6 & E7 & E8).
  assert (Hcnt : cnt st <= cnt m /\ (new <= cnt st -> cnt m = cnt st)).
  { unfold cnt. rewrite E7, E1. cbn. rewrite skipn_length. unfold k. lia. }
  assert (Hlog : forall j, nth_error (ms_log m) j = nth_error (ms_log st) (Nat.min k (length (ms_log st)) + j)).
  { intros j. rewrite E1. cbn. apply nth_error_skipn. }
  split; [|repeat (split; [assumption|]); split; [|tauto]].
  2:{ intros Hs. apply Hcnt. destruct Hnew; [auto|congruence]. }
  destruct HS. unfold arnd in *. constructor; unfold arnd; rewrite ?E2, ?E3, ?E4, ?E5, ?E6, ?E7; auto.
  - destruct st_arnd as [c [Hc Hc']]. exists c. split; auto. intros Hs. rewrite (Hc' Hs). symmetry. apply Hcnt. destruct Hnew; [auto|congruence].
  - intros l j e Hl He. rewrite Hlog in He. assert (Hj := He).
    assert (Hj' : Nat.min k (length (ms_log st)) + j < length (ms_log st)) by (apply nth_error_Some; congruence).
    replace (new + j) with (ms_trim st + (Nat.min k (length (ms_log st)) + j)) by (unfold k in *; lia). eauto.
  - intros l s i Hl Hs Hi. apply st_ss; auto. lia.
  - destruct st_cov; auto. left. lia.
Qed.

Lemma ms_write_app m a b :
  ms_write m (a ++ b) = match ms_write m a with Some m' => ms_write m' b | None => None end.
Proof. revert m. induction a as [|o r IH]; intros m; cbn; auto. destruct (ms_op m o); auto. Qed.

(** Writing a synchronised log in a round whose log is [ln]. *)
Lemma sync_st G p s n ln la dec sy :
  GInv cc G -> StInv cc G p (i_st s) -> Coh G s -> In p nds ->
  n = gP G p -> n <> bdef -> gM G n = Some ln -> gM G (arnd (i_st s)) = Some la ->
  (forall j e, nth_error (sy_suffix sy) j = Some e -> at_ ln (sy_idx sy + j) = Some (Ent e)) ->
  match sy_ss sy with
  | None => sy_idx sy + length (sy_suffix sy) <= len ln /\
            (arnd (i_st s) = n -> ms_ss (i_st s) = None /\ cnt (i_st s) <= sy_idx sy + length (sy_suffix sy)) /\
            dec <= sy_idx sy + length (sy_suffix sy) /\
            (forall k, ecov (gI G n) k -> k <= sy_idx sy + length (sy_suffix sy))
  | Some ss => forall i, sy_idx sy + length (sy_suffix sy) <= i -> at_ ln i = Some (Stop ss)
  end ->
  (sy_snap sy = None -> acov G p (arnd (i_st s)) (sy_idx sy) /\ agree (sy_idx sy) la ln) ->
  decok cc G n dec ->
  match sync_log s n dec (Some sy) with
  | Panic tr => tr = i_tr s
  | Ok (s', acc) => exists G1, gls p G G1 /\ GInv cc G1 /\ sameMP G G1 /\ StInv cc G1 p (i_st s') /\ Coh G1 s' /\
      arnd (i_st s') = n /\ ms_ss (i_st s') = sy_ss sy /\
      (sy_ss sy = None -> cnt (i_st s') = sy_idx sy + length (sy_suffix sy)) /\
      c_batch (i_ca s') = c_batch (i_ca s) /\ c_bsize (i_ca s') = c_bsize (i_ca s) /\
      ms_prom (i_st s') = ms_prom (i_st s) /\
      i_tr s' = i_tr s ++ [i_st s'] /\ acc = i_acc s'
  end.
Proof.
  intros HG HS HC Hin Hn Hnb Hln Hla Hsuf Hss Hbase Hdec.
  (* the new store, described *)
  assert (Key : forall st',
    ms_prom st' = ms_prom (i_st s) -> ms_around st' = Some n -> ms_dec st' = dec -> ms_ss st' = sy_ss sy ->
    ms_comp st' = ms_trim st' ->
    (exists t, ((sy_snap sy = None /\ ms_trim st' = ms_trim (i_st s) /\ ms_snap st' = ms_snap (i_st s) /\
                 ms_trim (i_st s) <= sy_idx sy /\ t = firstn (sy_idx sy - ms_trim (i_st s)) (ms_log (i_st s))) \/
                (t = [] /\ ms_trim st' = sy_idx sy /\ ms_snap st' <> None)) /\ ms_log st' = t ++ sy_suffix sy) ->
    exists G1, gls p G G1 /\ GInv cc G1 /\ sameMP G G1 /\ StInv cc G1 p st' /\
      (sy_ss sy = None -> cnt st' = sy_idx sy + length (sy_suffix sy))).
  { intros st' E1 E2 E3 E4 E5 (t & Ht & E6).
    (* positions *)
    assert (Hpos : (sy_ss sy = None -> cnt st' = sy_idx sy + length (sy_suffix sy)) /\
                   (forall j e, nth_error (ms_log st') j = Some e -> at_ ln (ms_trim st' + j) = Some (Ent e)) /\
                   (forall ss i, sy_ss sy = Some ss -> cnt st' <= i -> at_ ln i = Some (Stop ss))).
    { destruct Ht as [(Hs1 & Ht1 & Hs2 & Htr & ->)|(-> & Ht1 & Hs2)].
      - destruct (Hbase Hs1) as [Hac Hag].
        destruct (le_lt_dec (sy_idx sy) (cnt (i_st s))) as [Hidx|Hidx].
        + assert (Hfl : length (firstn (sy_idx sy - ms_trim (i_st s)) (ms_log (i_st s))) = sy_idx sy - ms_trim (i_st s)).
          { rewrite firstn_length. unfold cnt in Hidx. lia. }
          assert (Hcnt : cnt st' = sy_idx sy + length (sy_suffix sy)).
          { unfold cnt. rewrite Ht1, E6, app_length, Hfl. lia. }
          split; [auto|]. split.
          * intros j e He. rewrite E6 in He. rewrite Ht1.
            destruct (lt_dec j (sy_idx sy - ms_trim (i_st s))) as [Hj|Hj].
            -- rewrite nth_error_app1 in He by lia. rewrite nth_error_firstn in He by lia.
               pose proof (st_log _ _ _ _ HS _ _ _ Hla He) as H1.
               destruct (Hag (ms_trim (i_st s) + j)) as [x [Hx1 Hx2]]; [lia|]. congruence.
            -- rewrite nth_error_app2 in He by lia. rewrite Hfl in He. apply Hsuf in He.
               replace (ms_trim (i_st s) + j) with (sy_idx sy + (j - (sy_idx sy - ms_trim (i_st s)))) by lia. exact He.
          * intros ss i Hs Hi. rewrite Hs in Hss. apply Hss. lia.
        + (* the prefix ends behind the stop sign *)
          assert (Hs0 : exists s0, ms_ss (i_st s) = Some s0).
          { unfold acov in Hac. destruct (st_arnd _ _ _ _ HS) as [c [Hc Hc']]. rewrite Hc in Hac.
            destruct (ms_ss (i_st s)) as [s0|]; [eauto|]. rewrite (Hc' eq_refl) in Hac. cbn in Hac. destruct Hac; [lia|discriminate]. }
          destruct Hs0 as [s0 Hs0].
          pose proof (st_ss _ _ _ _ HS _ _ (cnt (i_st s)) Hla Hs0 (le_n _)) as Ha.
          destruct (Hag (cnt (i_st s)) Hidx) as [x [Hx1 Hx2]]. assert (x = Stop s0) by congruence. subst x.
          destruct (at_stop _ _ _ Hx2) as [Hl1 Hl2].
          assert (Hsuf0 : sy_suffix sy = []).
          { destruct (sy_suffix sy) as [|e r] eqn:Hsf; auto. pose proof (Hsuf 0 e eq_refl) as He. apply at_len in He. lia. }
          assert (Hlog : ms_log st' = ms_log (i_st s)).
          { rewrite E6, Hsuf0, app_nil_r. apply firstn_all2. unfold cnt in Hidx. lia. }
          assert (Hcnt : cnt st' = cnt (i_st s)) by (unfold cnt; congruence).
          split; [|split].
          * intros Hs. rewrite Hs in Hss. rewrite Hsuf0 in Hss. cbn in Hss. lia.
          * intros j e He. rewrite Hlog in He. rewrite Ht1. pose proof (st_log _ _ _ _ HS _ _ _ Hla He) as H1.
            assert (Hj : j < length (ms_log (i_st s))) by (apply nth_error_Some; congruence).
            destruct (Hag (ms_trim (i_st s) + j)) as [y [Hy1 Hy2]]; [unfold cnt in *; lia|]. congruence.
          * intros ss i Hs Hi. rewrite Hs in Hss.
            assert (Hst : at_ ln (sy_idx sy + length (sy_suffix sy)) = Some (Stop ss)) by (apply Hss; lia).
            destruct (at_stop _ _ _ Hst) as [_ Hl3]. assert (ss = s0) by congruence. subst.
            eapply at_stop_ge; [exact Hx2|lia].
      - assert (Hcnt : cnt st' = sy_idx sy + length (sy_suffix sy)) by (unfold cnt; rewrite Ht1, E6; reflexivity).
        split; [auto|]. split.
        + intros j e He. rewrite E6 in He. rewrite Ht1. apply Hsuf. exact He.
        + intros ss i Hs Hi. rewrite Hs in Hss. apply Hss. lia. }
    destruct Hpos as (Hcnt & Hlog & Hstop).
    assert (Hle : ble_ (arnd (i_st s)) n).
    { subst n. destruct (st_arnd _ _ _ _ HS) as [c [Hc _]]. apply (g_acc _ _ HG _ _ _ _ Hc). }
    assert (Hold : forall a, gA G p n = Some a -> arnd (i_st s) = n).
    { intros a Ha. apply ble_antisym; auto. apply (st_max _ _ _ _ HS). congruence. }
    destruct (setA_ok cc G p n ln (cnt st') (issome (sy_ss sy))) as [HL HG1]; auto.
    { intros a Ha. pose proof (Hold a Ha) as Har. destruct (st_arnd _ _ _ _ HS) as [c [Hc Hc']]. rewrite Har in Hc.
      assert (a = (c, issome (ms_ss (i_st s)))) by congruence. subst a.
      destruct (sy_ss sy) as [ss|]; [left; reflexivity|]. destruct Hss as (_ & Hss & _). destruct (Hss Har) as [Hss1 Hss2].
      right. cbn. rewrite Hss1. split; auto. rewrite (Hc' Hss1). rewrite Hcnt; auto. }
    { destruct (sy_ss sy) as [ss|]; cbn.
      - pose proof (Hstop ss (cnt st') eq_refl (le_n _)) as Hx. apply at_stop in Hx. destruct Hx. congruence.
      - rewrite Hcnt; auto. tauto. }
    { intros _ k Hk. destruct (sy_ss sy) as [ss|]; [right; reflexivity|]. left. rewrite Hcnt; auto. apply Hss. exact Hk. }
    exists (setA G p n (cnt st', issome (sy_ss sy))). split; [exact HL|]. split; [exact HG1|]. split; [apply sameMP_setA|].
    split; [|exact Hcnt].
    assert (Har : arnd st' = n) by (unfold arnd; rewrite E2; reflexivity).
    destruct HL as [[HL _] _]. constructor; rewrite ?Har.
    - rewrite E1. apply (st_prom _ _ _ _ HS).
    - rewrite E4. cbn. rewrite Nat.eqb_refl, beq_refl. cbn. eexists. split; [reflexivity|]. auto.
    - intros b. cbn. destruct (beq b n) eqn:Hb.
      + apply beq_spec in Hb. subst. intros _. apply ble_refl_.
      + rewrite andb_false_r. intros Hb'. eapply ble_trans; [apply (st_max _ _ _ _ HS); eauto|auto].
    - cbn. intros l j e Hl He. assert (l = ln) by congruence. subst. auto.
    - cbn. intros l ss i Hl Hs Hi. assert (l = ln) by congruence. subst. apply Hstop; auto. congruence.
    - rewrite E3. eapply decok_gle; eauto.
    - rewrite E3, E4. destruct (sy_ss sy); [right; discriminate|]. left. rewrite Hcnt; auto. tauto.
    - intros Hsn. eapply trimok_gle; [exact HL|]. destruct Ht as [(_ & -> & Hs2 & _)|(_ & _ & Hs2)]; [|congruence].
      apply (st_trim _ _ _ _ HS). congruence.
    - auto. }
  (* now the code *)
  unfold sync_log. cbn [i_st i_ca i_tr set_ca].
  destruct HC as [C1 C2 C3 C4 C5 C6].
  set (s0 := set_ca s (c_set_dec (c_set_around (i_ca s) n) dec)).
  assert (Hcoh : forall st' s', i_st s' = st' -> ms_ss st' = sy_ss sy -> arnd st' = n ->
     i_acc s' = match sy_ss sy with Some _ => sy_idx sy + length (sy_suffix sy) + 1 | None => sy_idx sy + length (sy_suffix sy) end ->
     (sy_ss sy = None -> cnt st' = sy_idx sy + length (sy_suffix sy)) ->
     forall G1, sameMP G G1 ->
     match ms_ss st' with None => c_acc (i_ca s') = cnt st' | Some _ => forall l, gM G1 (arnd st') = Some l -> len l < c_acc (i_ca s') end).
  { intros st' s' _ Hs' Har Hacc Hcn G1 (HM & _). rewrite Hs'. unfold i_acc in Hacc. rewrite Hacc.
    destruct (sy_ss sy) as [ss|]; [|rewrite Hcn; auto]. intros l Hl. rewrite Har, HM, Hln in Hl. injection Hl as <-.
    pose proof (Hss _ (le_n _)) as Hx. apply at_stop in Hx. lia. }
  (* write without a snapshot *)
  assert (Hsnap : forall (s1 : istore) ops, 
    (sy_snap sy = None /\ s1 = s0 /\ ops = [] \/
     exists c, s1 = set_ca s0 (c_set_comp (i_ca s0) (sy_idx sy)) /\ ops = [OpTrim (sy_idx sy); OpSetComp (sy_idx sy); OpSetSnapshot (Some c)]) ->
    let s2 := set_ca s1 (c_set_acc (i_ca s1) (sy_idx sy + length (sy_suffix sy))) in
    let ops2 := ([OpSetAround n; OpSetDecided dec] ++ ops) ++ [OpAppendOnPrefix (sy_idx sy) (sy_suffix sy)] in
    match (let '(s, ops3) :=
        match sy_ss sy with
        | Some ss =>
            (set_ca s2 (c_set_acc (c_set_ss (i_ca s2) (Some ss)) (i_acc s2 + 1)),
             ops2 ++ [OpSetStopsign (Some ss)])
        | None =>
            match i_ss s2 with
            | Some _ => (set_ca s2 (c_set_ss (i_ca s2) None), ops2 ++ [OpSetStopsign None])
            | None => (s2, ops2)
            end
        end in
      m <- ilift s (ms_write (i_st s) ops3) ;;
      let s := put_st s m in Ok (s, i_acc s)) with
    | Panic tr => tr = i_tr s
    | Ok (s', acc) => exists G1, gls p G G1 /\ GInv cc G1 /\ sameMP G G1 /\ StInv cc G1 p (i_st s') /\ Coh G1 s' /\
      arnd (i_st s') = n /\ ms_ss (i_st s') = sy_ss sy /\
      (sy_ss sy = None -> cnt (i_st s') = sy_idx sy + length (sy_suffix sy)) /\
      c_batch (i_ca s') = c_batch (i_ca s) /\ c_bsize (i_ca s') = c_bsize (i_ca s) /\
      ms_prom (i_st s') = ms_prom (i_st s) /\
      i_tr s' = i_tr s ++ [i_st s'] /\ acc = i_acc s'
    end).
  { intros s1 ops Hs1 s2 ops2.
    assert (Hst1 : i_st s1 = i_st s /\ i_tr s1 = i_tr s).
    { destruct Hs1 as [(_ & -> & _)|(c & -> & _)]; auto. }
    destruct Hst1 as [Hst1 Htr1].
    destruct (ms_write (i_st s) ops2) as [m2|] eqn:Hw.
    2:{ assert (Hw' : forall x, ms_write (i_st s) (ops2 ++ x) = None).
        { intros x. rewrite ms_write_app, Hw. reflexivity. }
        clearbody ops2. destruct (sy_ss sy); [|destruct (i_ss s2)]; cbn; rewrite Hst1, ?Hw', ?Hw; cbn; auto. }
    assert (Hwapp : forall x, ms_write (i_st s) (ops2 ++ x) = ms_write m2 x).
    { intros x. rewrite ms_write_app, Hw. reflexivity. }
    (* description of m2 *)
    assert (Hm2 : ms_prom m2 = ms_prom (i_st s) /\ ms_around m2 = Some n /\ ms_dec m2 = dec /\ ms_ss m2 = ms_ss (i_st s) /\
       ms_comp m2 = ms_trim m2 /\ c_comp (i_ca s1) = ms_comp m2 /\
       exists t, ((sy_snap sy = None /\ ms_trim m2 = ms_trim (i_st s) /\ ms_snap m2 = ms_snap (i_st s) /\
                 ms_trim (i_st s) <= sy_idx sy /\ t = firstn (sy_idx sy - ms_trim (i_st s)) (ms_log (i_st s))) \/
                (t = [] /\ ms_trim m2 = sy_idx sy /\ ms_snap m2 <> None)) /\ ms_log m2 = t ++ sy_suffix sy).
    { pose proof (st_comp _ _ _ _ HS) as Hcp. unfold ops2 in Hw. destruct Hs1 as [(Hsn & -> & ->)|(c & -> & ->)].
      - cbn in Hw. unfold ms_append_on_prefix in Hw. cbn in Hw. unfold sub_chk in Hw.
        destruct (Nat.leb_spec (ms_trim (i_st s)) (sy_idx sy)) as [Hle|]; [|discriminate]. injection Hw as <-. cbn.
        repeat (split; [auto; congruence|]). eexists. split; [left; repeat (split; [auto|]); reflexivity|reflexivity].
      - cbn in Hw. unfold ms_do_trim, ms_append_on_prefix in Hw. cbn in Hw. unfold sub_chk in Hw.
        destruct (Nat.leb_spec (ms_trim (i_st s)) (sy_idx sy)) as [Hle|]; [|discriminate]. cbn in Hw.
        rewrite Nat.leb_refl in Hw. injection Hw as <-. cbn.
        repeat (split; [auto; congruence|]). exists []. split; [right; repeat split; discriminate|]. 
        rewrite Nat.sub_diag. reflexivity. }
    destruct Hm2 as (E1 & E2 & E3 & E4 & E5 & E5' & E6).
    assert (Fin : forall st' s3, ms_prom st' = ms_prom m2 -> ms_around st' = ms_around m2 -> ms_dec st' = ms_dec m2 ->
       ms_comp st' = ms_comp m2 -> ms_trim st' = ms_trim m2 -> ms_snap st' = ms_snap m2 -> ms_log st' = ms_log m2 ->
       ms_ss st' = sy_ss sy ->
       i_st s3 = st' -> i_tr s3 = i_tr s ++ [st'] -> 
       c_prom (i_ca s3) = c_prom (i_ca s) -> c_around (i_ca s3) = n -> c_dec (i_ca s3) = dec -> c_comp (i_ca s3) = c_comp (i_ca s1) ->
       c_ss (i_ca s3) = sy_ss sy -> c_batch (i_ca s3) = c_batch (i_ca s) -> c_bsize (i_ca s3) = c_bsize (i_ca s) ->
       i_acc s3 = match sy_ss sy with Some _ => sy_idx sy + length (sy_suffix sy) + 1 | None => sy_idx sy + length (sy_suffix sy) end ->
       exists G1, gls p G G1 /\ GInv cc G1 /\ sameMP G G1 /\ StInv cc G1 p (i_st s3) /\ Coh G1 s3 /\
      arnd (i_st s3) = n /\ ms_ss (i_st s3) = sy_ss sy /\
      (sy_ss sy = None -> cnt (i_st s3) = sy_idx sy + length (sy_suffix sy)) /\
      c_batch (i_ca s3) = c_batch (i_ca s) /\ c_bsize (i_ca s3) = c_bsize (i_ca s) /\
      ms_prom (i_st s3) = ms_prom (i_st s) /\
      i_tr s3 = i_tr s ++ [i_st s3] /\ i_acc s3 = i_acc s3).
    { intros st' s3 F1 F2 F3 F4 F5 F6 F7 F8 F9 F10 F11 F12 F13 F14 F15 F16 F17 F18.
      assert (Har : arnd st' = n) by (unfold arnd; rewrite F2, E2; reflexivity).
      destruct (Key st') as (G1 & K1 & K2 & K3 & K4 & K5); try congruence.
      { destruct E6 as (t & Ht & Hl). exists t. rewrite F5, F6, F7. auto. }
      exists G1. rewrite F9. repeat (split; [assumption|]). split; [|repeat (split; auto)].
      - constructor; rewrite ?F9.
        + congruence.
        + congruence.
        + congruence.
        + congruence.
        + congruence.
        + eapply Hcoh; eauto.
      - congruence. }
    clearbody ops2.
    assert (Hs2st : i_st s2 = i_st s) by exact Hst1.
    assert (Hs2tr : i_tr s2 = i_tr s) by exact Htr1.
    assert (Hca : c_prom (i_ca s2) = c_prom (i_ca s) /\ c_around (i_ca s2) = n /\ c_dec (i_ca s2) = dec /\
      c_comp (i_ca s2) = c_comp (i_ca s1) /\ c_ss (i_ca s2) = c_ss (i_ca s) /\ c_batch (i_ca s2) = c_batch (i_ca s) /\
      c_bsize (i_ca s2) = c_bsize (i_ca s) /\ c_acc (i_ca s2) = sy_idx sy + length (sy_suffix sy)).
    { unfold s2. destruct Hs1 as [(_ & -> & _)|(c & -> & _)]; cbn; auto 10. }
    clearbody s2. destruct Hca as (D1 & D2 & D3 & D4 & D5 & D6 & D7 & D8).
    destruct (sy_ss sy) as [ss|] eqn:Hsy.
    - cbn [set_ca i_st]. unfold ilift. rewrite Hs2st, Hwapp. cbn [ms_write ms_op bind].
      eapply (Fin (ms_set_stopsign m2 (Some ss))); try reflexivity; cbn; unfold i_acc; cbn; try assumption; rewrite ?Hs2tr, ?D8; reflexivity.
    - destruct (i_ss s2) eqn:Hi2.
      + cbn [set_ca i_st]. unfold ilift. rewrite Hs2st, Hwapp. cbn [ms_write ms_op bind].
        eapply (Fin (ms_set_stopsign m2 None)); try reflexivity; cbn; unfold i_acc; cbn; try assumption; rewrite ?Hs2tr, ?D8; reflexivity.
      + unfold ilift. rewrite Hs2st, Hw. cbn [bind]. unfold i_ss in Hi2.
        eapply (Fin m2); try reflexivity; cbn; unfold i_acc; cbn; try assumption; rewrite ?Hs2tr, ?D8; try reflexivity; congruence. }
  destruct (sy_snap sy) as [[c|d]|] eqn:Hsn.
  - cbn [bind]. apply (Hsnap _ _ (or_intror (ex_intro _ c (conj eq_refl eq_refl)))).
  - (* Delta *)
    destruct (create_decided_snapshot s0) as [sn| |]; cbn [bind]; [|reflexivity|reflexivity].
    destruct (s_merge sn d) as [sn'|]; cbn [bind]; [|reflexivity].
    apply (Hsnap _ _ (or_intror (ex_intro _ sn' (conj eq_refl eq_refl)))).
  - cbn [bind]. apply (Hsnap s0 [] (or_introl (conj eq_refl (conj eq_refl eq_refl)))).
Qed.
End WithEntry.
