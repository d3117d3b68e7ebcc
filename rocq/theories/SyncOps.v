(** * Log synchronisation and the invariant *)
From Coq Require Import List Arith Bool Lia.
Import ListNotations.
From Verif Require Import Types Config MemStore Internal LeaderState SeqPaxos Basics Ghost GhostOps Inv StoreOps.

Section WithEntry.
Context {E : EntryT}.
Context (cc : cluster_config).
Notation nds := (nds cc).
Context (Hv : cluster_validate cc = true) (H0 : ~ In 0 nds).

(** A leader that starts with its own log. *)
Lemma sync_none_st G p s n ln la dec c :
  GInv cc G -> StInv cc G p (i_st s) -> Coh G s -> In p nds ->
  n = gP G p -> n <> bdef -> gM G n = Some ln -> gM G (arnd (i_st s)) = Some la ->
  gA G p (arnd (i_st s)) = Some (c, issome (ms_ss (i_st s))) ->
  ln = cut la c (issome (ms_ss (i_st s))) -> gI G n = ln -> gA G p n = None ->
  decok cc G n dec -> (ms_ss (i_st s) = None -> dec <= c) ->
  match sync_log s n dec None with
  | Panic _ => False
  | Ok (s', acc) => exists G1, gls p G G1 /\ GInv cc G1 /\ sameMP G G1 /\ StInv cc G1 p (i_st s') /\ Coh G1 s' /\
      arnd (i_st s') = n /\ ms_ss (i_st s') = ms_ss (i_st s) /\ cnt (i_st s') = cnt (i_st s) /\
      c_batch (i_ca s') = c_batch (i_ca s) /\ c_bsize (i_ca s') = c_bsize (i_ca s) /\
      ms_prom (i_st s') = ms_prom (i_st s) /\
      i_tr s' = i_tr s ++ [i_st s'] /\ acc = i_acc s'
  end.
Proof.
  intros HG HS HC Hin Hn Hnb Hln Hla Ha Hcut HI HAn Hdec Hdc.
  unfold sync_log. cbn [ms_write ms_op ilift bind].
  set (st' := ms_set_decided (ms_set_around (i_st s) n) dec).
  destruct (st_arnd _ _ _ _ HS) as [c' [Hc Hc']]. rewrite Ha in Hc. injection Hc as <-.
  assert (Hcl : if issome (ms_ss (i_st s)) then ll_ss ln <> None else c <= len ln).
  { destruct (g_acc _ _ HG _ _ _ _ Ha) as [_ [l [Hl Hcl]]]. assert (l = la) by congruence. subst l.
    destruct (issome (ms_ss (i_st s))); subst ln; [exact Hcl|]. rewrite (cut_len la c) by auto. lia. }
  destruct (setA_ok cc G p n ln c (issome (ms_ss (i_st s)))) as [HL HG1]; auto.
  { intros a Hx. congruence. }
  { intros _ k Hk. rewrite HI in Hk. subst ln. destruct (ms_ss (i_st s)); [right; reflexivity|]. left. change (issome None) with false in *.
    destruct Hk as [Hk|Hk]; [|cbn in Hk; congruence].
    destruct (g_acc _ _ HG _ _ _ _ Ha) as [_ [l [Hl Hcl2]]]. cbn in Hcl2. assert (l = la) by congruence. subst l.
    rewrite (cut_len la c) in Hk; auto. }
  exists (setA G p n (c, issome (ms_ss (i_st s)))).
  split; [exact HL|]. split; [exact HG1|]. split; [apply sameMP_setA|].
  destruct HL as [[HL _] _].
  assert (Hle : ble_ (arnd (i_st s)) n). { subst n. apply (g_acc _ _ HG _ _ _ _ Ha). }
  split; [|split; [|repeat (split; [reflexivity|]); reflexivity]].
  - change (StInv cc (setA G p n (c, issome (ms_ss (i_st s)))) p st').
    assert (Har : arnd st' = n) by reflexivity.
    assert (Hat : forall i x, at_ la i = Some x -> (exists e, x = Ent e) -> i < cnt (i_st s) \/ ms_ss (i_st s) <> None -> at_ ln i = Some x).
    { intros i x Hx [e ->] Hi. subst ln. rewrite cut_at; auto.
      - destruct (g_acc _ _ HG _ _ _ _ Ha) as [_ [l [Hl Hcl2]]]. assert (l = la) by congruence. subst l.
        destruct (ms_ss (i_st s)); cbn in *; auto.
      - destruct (ms_ss (i_st s)) eqn:Hss; cbn; auto. right. rewrite Hc' by auto. destruct Hi; [auto|congruence]. }
    destruct HS. constructor; rewrite ?Har.
    + assumption.
    + cbn. rewrite Nat.eqb_refl, beq_refl. cbn. eexists. split; [reflexivity|]. exact Hc'.
    + intros b. cbn. destruct (beq b n) eqn:Hb.
      * apply beq_spec in Hb. subst. intros _. apply ble_refl_.
      * rewrite andb_false_r. intros Hb'. eapply ble_trans; [apply st_max; eauto|auto].
    + cbn. intros l j e Hl He. assert (l = ln) by congruence. subst l. apply Hat; eauto.
      unfold cnt. left. assert (j < length (ms_log (i_st s))) by (apply nth_error_Some; congruence). lia.
    + cbn. intros l ss i Hl Hs Hi. assert (l = ln) by congruence. subst l. rewrite Hcut, Hs. cbn. eapply st_ss; eauto.
    + cbn. eapply decok_gle; eauto.
    + cbn. unfold cnt in *. cbn. destruct (ms_ss (i_st s)) eqn:Hss; [right; discriminate|].
      left. rewrite <- (Hc' eq_refl). auto.
    + intros Hsn. eapply trimok_gle; [exact HL|]. auto.
    + assumption.
  - destruct HC as [C1 C2 C3 C4 C5 C6]. constructor; cbn; auto.
    change (cnt (ms_set_decided (ms_set_around (i_st s) n) dec)) with (cnt (i_st s)).
    destruct (ms_ss (i_st s)) eqn:Hss; auto. intros l Hl. unfold arnd in Hl. cbn in Hl.
    assert (l = ln) by congruence. subst l. rewrite Hcut. cbn. auto.
Qed.

(** Reading a suffix. *)
Lemma suffix_spec st k suf : ms_get_suffix st k = Some suf ->
  ms_trim st <= k /\ suf = skipn (k - ms_trim st) (ms_log st).
Proof.
  unfold ms_get_suffix, sub_chk. destruct (Nat.leb_spec (ms_trim st) k) as [H|]; [|discriminate].
  intros Heq. injection Heq as <-. split; auto. unfold slice_get.
  destruct (Nat.leb_spec (k - ms_trim st) (length (ms_log st))) as [H1|H1]; cbn.
  - rewrite Nat.leb_refl. apply firstn_all2. rewrite skipn_length. lia.
  - symmetry. apply skipn_all2. lia.
Qed.

Lemma suffix_at G p st l k suf : StInv cc G p st -> gM G (arnd st) = Some l -> ms_get_suffix st k = Some suf ->
  (forall j e, nth_error suf j = Some e -> at_ l (k + j) = Some (Ent e)) /\
  (k <= cnt st -> k + length suf = cnt st) /\ (cnt st <= k -> suf = []).
Proof.
  intros HS Hl Hs. apply suffix_spec in Hs. destruct Hs as [Ht ->]. split; [|split].
  - intros j e He. rewrite nth_error_skipn in He. pose proof (st_log _ _ _ _ HS _ _ _ Hl He) as H.
    replace (k + j) with (ms_trim st + (k - ms_trim st + j)) by lia. exact H.
  - intros Hk. rewrite skipn_length. unfold cnt in *. lia.
  - intros Hk. apply skipn_all2. unfold cnt in *. lia.
Qed.

Lemma trim_base G p st F k : StInv cc G p st -> In p nds -> In F nds -> trimok cc G k -> base cc G F (arnd st) k.
Proof.
  intros HS Hp HF [->|(b & b' & H1 & H2 & H3)]; [left; auto|]. right; right; right. exists b', b.
  split; auto. split; [|split; auto]. apply (st_max _ _ _ _ HS). specialize (H3 p Hp). unfold acov in H3.
  destruct (gA G p b); [discriminate|tauto].
Qed.

Lemma base_idx G F m v v' : base cc G F m v -> v' <= v -> base cc G F m v'.
Proof.
  intros [?|[?|[(a & la & H1 & H2 & H3 & H4 & H5 & H6 & H7)|(b & a & ? & ? & ? & ?)]]] Hle.
  - left; lia.
  - right; left. eapply acov_le; eauto.
  - right; right; left. exists a, la. repeat (split; auto). + eapply acov_le; eauto. + eapply agree_le; eauto.
  - right; right; right. exists b, a. split; auto. split; auto. split; [eapply chosen_le; eauto|eapply acov_le; eauto].
Qed.

Lemma cls_ok G p s F cp od sy l :
  GInv cc G -> StInv cc G p (i_st (s_is s)) -> Coh G (s_is s) -> gM G (arnd (i_st (s_is s))) = Some l ->
  In p nds -> In F nds ->
  base cc G F (arnd (i_st (s_is s))) cp -> acov G p (arnd (i_st (s_is s))) cp ->
  create_log_sync s cp od = Some sy ->
  syncok cc G F (arnd (i_st (s_is s))) sy (cnt (i_st (s_is s))) (issome (ms_ss (i_st (s_is s)))) /\
  sy_ss sy = ms_ss (i_st (s_is s)).
Proof.
  intros HG HS HC Hl Hp HF Hb Hac Hcr. unfold create_log_sync in Hcr.
  destruct (st_arnd _ _ _ _ HS) as [c [Hc Hc']].
  destruct (g_acc _ _ HG _ _ _ _ Hc) as [_ [l1 [Hl1 Hcl]]]. assert (l1 = l) by congruence. subst l1. clear Hl1.
  set (st := i_st (s_is s)) in *. pose proof (co_ss _ _ HC) as Hss. pose proof (co_dec _ _ HC) as Hdec.
  pose proof (co_acc _ _ HC) as Hacc. fold st in Hss, Hdec, Hacc.
  unfold i_ss in Hcr. rewrite Hss in Hcr.
  assert (Hplain : forall k suf, ms_get_suffix st k = Some suf -> (k <= cnt st \/ ms_ss st <> None) ->
     match ms_ss st with
     | None => issome (ms_ss st) = false /\ k + length suf = cnt st /\ cnt st <= len l
     | Some s1 => issome (ms_ss st) = true /\ forall i, k + length suf <= i -> at_ l i = Some (Stop s1)
     end).
  { intros k suf Hsuf Hk. destruct (suffix_at _ _ _ _ _ _ HS Hl Hsuf) as (_ & S2 & S3).
    destruct (ms_ss st) as [s1|] eqn:Hms; cbn.
    - split; auto. intros i Hi. apply (st_ss _ _ _ _ HS l s1 i Hl Hms). fold st.
      destruct (le_lt_dec k (cnt st)); [rewrite <- S2; auto|lia].
    - split; auto. destruct Hk as [Hk|]; [|congruence]. split; auto. cbn in Hcl. rewrite <- (Hc' eq_refl). auto. }
  destruct (use_snapshots && (cp <? i_dec (s_is s))).
  - destruct (create_diff_snapshot (s_is s) od) as [[snap d]| |] eqn:Hcd; [|discriminate|discriminate].
    fold st in Hcr. unfold i_dec in Hcr. rewrite Hdec in Hcr.
    destruct (ms_get_suffix st (ms_dec st)) as [suf|] eqn:Hsuf; [|discriminate]. injection Hcr as <-.
    cbn [sy_ss]. split; auto.
    destruct (suffix_at _ _ _ _ _ _ HS Hl Hsuf) as (S1 & _ & _).
    (* the snapshot index *)
    assert (Hd : dec_without_ss (s_is s) = Some d /\ (snap = None -> d <= ms_trim st /\ ms_snap st = None)).
    { unfold create_diff_snapshot in Hcd. destruct (dec_without_ss (s_is s)) as [d0|]; [|discriminate].
      assert (Hcp : i_comp (s_is s) = ms_trim st) by (unfold i_comp; rewrite (co_comp _ _ HC); apply (st_comp _ _ _ _ HS)).
      rewrite Hcp in Hcd.
      destruct (od <=? ms_trim st).
      - destruct (Nat.ltb_spec (ms_trim st) d0).
        + destruct (create_snapshot (s_is s) d0); [|discriminate|discriminate]. injection Hcd as <- <-. split; auto. discriminate.
        + injection Hcd as <- <-. split; auto. fold st. destruct (ms_snap st); [discriminate|]. auto.
      - destruct (ms_get_entries (i_st (s_is s)) od d0); [|discriminate].
        destruct (s_create l0); [|discriminate]. injection Hcd as <- <-. split; auto. discriminate. }
    destruct Hd as [Hd Hsn]. unfold dec_without_ss, stopsign_is_decided, i_dec in Hd. rewrite Hss, Hdec in Hd.
    exists l. split; auto. cbn [sy_suffix sy_idx sy_ss sy_snap].
    assert (Hbs : snap = None -> base cc G F (arnd st) d).
    { intros Hx. destruct (Hsn Hx) as [Hx1 Hx2]. eapply base_idx; [|exact Hx1].
      apply (trim_base G p); auto. apply (st_trim _ _ _ _ HS). exact Hx2. }
    destruct (ms_ss st) as [s1|] eqn:Hms.
    + destruct (Nat.eqb_spec (ms_dec st) (c_acc (i_ca (s_is s)))) as [Heq|Hne].
      * (* the stop sign is decided *)
        unfold sub_chk in Hd. destruct (Nat.leb_spec 1 (ms_dec st)); [|discriminate]. injection Hd as <-.
        pose proof (Hacc l Hl) as Hlt.
        assert (Hsf : suf = []).
        { destruct suf as [|e r]; auto. pose proof (S1 0 e eq_refl) as He. apply at_len in He. lia. }
        subst suf. split; [intros [|j] e He; discriminate He|]. split; [|exact Hbs]. split; [reflexivity|].
        intros i Hi. cbn in Hi. assert (Hll : ll_ss l = Some s1).
        { rewrite (stinv_ss cc G p st l HG HS); congruence. }
        unfold at_. replace (nth_error (ll_es l) i) with (@None T); [rewrite Hll; reflexivity|].
        symmetry. apply nth_error_None. unfold len in Hlt. lia.
      * injection Hd as <-. split; [exact S1|]. split; [|exact Hbs]. apply (Hplain _ _ Hsuf). right. discriminate.
    + injection Hd as <-. split; [exact S1|]. split; [|exact Hbs]. apply (Hplain _ _ Hsuf).
      destruct (st_cov _ _ _ _ HS) as [H|H]; [left; exact H|right]. fold st in H. congruence.
  - destruct (ms_get_suffix st cp) as [suf|] eqn:Hsuf; [|discriminate]. injection Hcr as <-.
    cbn [sy_ss]. split; auto. exists l. split; auto. cbn [sy_suffix sy_idx sy_ss sy_snap].
    destruct (suffix_at _ _ _ _ _ _ HS Hl Hsuf) as (S1 & _ & _). split; [exact S1|]. split; [|auto].
    apply (Hplain _ _ Hsuf). unfold acov in Hac. rewrite Hc in Hac. destruct (ms_ss st) eqn:Hms; [right; discriminate|].
    left. rewrite <- (Hc' eq_refl). destruct Hac; [auto|discriminate].
Qed.

End WithEntry.
