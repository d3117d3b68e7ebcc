(** * Vectors of the leader; links with numbered messages *)
From Coq Require Import List Arith Bool Lia.
Import ListNotations.
From Verif Require Import Types Config MemStore Internal LeaderState SeqPaxos Basics Ghost GhostOps Inv StoreOps SyncOps Op.

(** ** Vectors *)
Section Vec.
Context {A : Type}.

Lemma upd_nth (l : list A) : forall i j x, i < length l -> nth_error (upd l i x) j = if j =? i then Some x else nth_error l j.
Proof.
  induction l as [|h t IH]; intros [|i] [|j] x H; cbn in *; try lia; auto.
  rewrite IH by lia. reflexivity.
Qed.
Lemma upd_len (l : list A) : forall i x, length (upd l i x) = length l.
Proof. induction l as [|h t IH]; intros [|i] x; cbn; auto. Qed.

Lemma vset_some (l : list A) q x l' : vset l q x = Some l' -> q <> 0 /\ q - 1 < length l /\ l' = upd l (q - 1) x.
Proof.
  unfold vset, pid_to_idx, sub_chk. destruct (1 <=? q) eqn:H; [|discriminate]. apply Nat.leb_le in H.
  destruct (Nat.ltb_spec (q - 1) (length l)); [|discriminate]. intros H1. injection H1 as <-. repeat split; auto. lia.
Qed.
Lemma vset_len (l : list A) q x l' : vset l q x = Some l' -> length l' = length l.
Proof. intros H. apply vset_some in H. destruct H as (_ & _ & ->). apply upd_len. Qed.
Lemma vget_vset (l : list A) q x l' r : vset l q x = Some l' -> vget l' r = if r =? q then Some x else vget l r.
Proof.
  intros H. apply vset_some in H. destruct H as (H1 & H2 & ->). unfold vget, pid_to_idx, sub_chk.
  destruct (Nat.leb_spec 1 r).
  - rewrite upd_nth by auto. destruct (Nat.eqb_spec r q) as [->|].
    + rewrite Nat.eqb_refl. reflexivity.
    + destruct (Nat.eqb_spec (r - 1) (q - 1)); auto. lia.
  - destruct (Nat.eqb_spec r q); auto. lia.
Qed.
Lemma vget_repeat (x : A) k q y : vget (repeat x k) q = Some y -> y = x.
Proof.
  unfold vget, pid_to_idx, sub_chk. destruct (1 <=? q); [|discriminate]. intros H. apply nth_error_In in H. apply repeat_spec in H. auto.
Qed.
Lemma vget_in (l : list A) q x : vget l q = Some x -> q <> 0 /\ nth_error l (q - 1) = Some x.
Proof.
  unfold vget, pid_to_idx, sub_chk. destruct (Nat.leb_spec 1 q); [|discriminate]. intros ->. split; auto. lia.
Qed.
Lemma vget_nth (l : list A) j x : nth_error l j = Some x -> vget l (S j) = Some x.
Proof. unfold vget, pid_to_idx, sub_chk. cbn. rewrite Nat.sub_0_r. auto. Qed.
End Vec.

Section WithEntry.
Context {E : EntryT}.

Lemma promised_from_in ps : forall i ld b, In b (promised_from ps i ld) <->
  b <> ld /\ exists j m, b = i + j + 1 /\ nth_error ps j = Some (Promised m).
Proof.
  induction ps as [|x ps IH]; intros i ld b; cbn.
  - split; [intros []|intros [_ (j & m & _ & H)]; destruct j; discriminate].
  - destruct (is_promised x && negb (i + 1 =? ld)) eqn:Hx.
    + apply andb_true_iff in Hx. destruct Hx as [Hx1 Hx2]. apply negb_true_iff, Nat.eqb_neq in Hx2. destruct x as [|m|]; try discriminate.
      cbn. rewrite IH. split.
      * intros [<-|(H1 & j & m0 & -> & H2)].
        -- split; auto. exists 0, m. split; [lia|auto].
        -- split; auto. exists (S j), m0. split; auto. lia.
      * intros (H1 & j & m0 & -> & H2). destruct j as [|j]; [left; lia|right]. split; auto. exists j, m0. split; auto. lia.
    + rewrite IH. split.
      * intros (H1 & j & m & -> & H2). split; auto. exists (S j), m. split; auto. lia.
      * intros (H1 & j & m & -> & H2). split; auto. destruct j as [|j].
        -- cbn in H2. injection H2 as ->. cbn in Hx. apply negb_false_iff, Nat.eqb_eq in Hx. lia.
        -- exists j, m. split; auto. lia.
Qed.

Lemma promised_from_nodup ps : forall i ld, NoDup (promised_from ps i ld).
Proof.
  induction ps as [|x ps IH]; intros i ld; cbn; [constructor|]. destruct (is_promised x && negb (i + 1 =? ld)); auto.
  constructor; auto. intros H. apply promised_from_in in H. destruct H as [_ (j & m & H & _)]. lia.
Qed.

Lemma gpf_spec ls ps : get_promised_followers ls = Some ps ->
  NoDup ps /\ forall b, In b ps <-> (b <> b_pid (l_n ls) /\ exists m, vget (l_proms ls) b = Some (Promised m)).
Proof.
  unfold get_promised_followers. destruct ((b_pid (l_n ls) =? 0) && existsb is_promised (l_proms ls)); [discriminate|].
  intros H. injection H as <-. split; [apply promised_from_nodup|]. intros b. rewrite promised_from_in. split.
  - intros (H1 & j & m & -> & H2). split; auto. exists m. replace (0 + j + 1) with (S j) by lia. apply vget_nth. auto.
  - intros (H1 & m & H2). split; auto. apply vget_in in H2. destruct H2 as [H2 H3]. exists (b - 1), m. split; auto. lia.
Qed.

(** ** Links *)
Context (cc : cluster_config).
Notation nds := (nds cc).

Lemma seq_eqb_neq a b : a <> b -> seq_eqb a b = false.
Proof. intros H. destruct (seq_eqb a b) eqn:Hs; auto. apply seq_eqb_spec in Hs. congruence. Qed.

Lemma setN_same G n f sq v : gN (setN G n f sq v) n f sq = v.
Proof. cbn. rewrite beq_refl, Nat.eqb_refl. assert (seq_eqb sq sq = true) as -> by (apply seq_eqb_spec; auto). reflexivity. Qed.
Lemma setN_other G n f sq v s : s <> sq -> gN (setN G n f sq v) n f s = gN G n f s.
Proof. intros H. cbn. rewrite (seq_eqb_neq _ _ H), andb_false_r. reflexivity. Qed.
Lemma setN_bal G n f sq v n' f' s : n' <> n -> gN (setN G n f sq v) n' f' s = gN G n' f' s.
Proof. intros H. cbn. rewrite (beq_neq _ _ H). reflexivity. Qed.
Lemma setN_dst G n f sq v n' f' s : f' <> f -> gN (setN G n f sq v) n' f' s = gN G n' f' s.
Proof. intros H. cbn. apply Nat.eqb_neq in H. rewrite H, andb_false_r. reflexivity. Qed.

Lemma slt_ne a b : slt a b -> a <> b.
Proof. intros H ->. exact (slt_irrefl _ H). Qed.
Lemma spred_slt a b : slt a b -> slt (spred a) b.
Proof. unfold slt, spred. cbn. lia. Qed.

(** All numbers of ballot [n] in a message are below [sq]. *)
Definition nlt (n : ballot) (sq : seqnum) (m : pmsg) : Prop := forall s, numb m = Some (n, s) -> slt s sq.

Lemma setN_lt G n f sq v n' s : (n' = n -> slt s sq) -> gN (setN G n f sq v) n' f s = gN G n' f s.
Proof.
  intros H. destruct (beq_dec n' n) as [->|Hn]; [|apply setN_bal; auto]. apply setN_other. apply slt_ne. auto.
Qed.

Lemma pairok_setN G a b n sq v x y : nlt n sq x -> nlt n sq y -> pairok G a b x y -> pairok (setN G n b sq v) a b x y.
Proof.
  intros Hx Hy HP n' s1 s2 Hp H1 H2. destruct (HP n' s1 s2 Hp H1 H2) as (A & B & C).
  rewrite !setN_lt; [|intros ->; auto|intros ->; auto]. split; [exact A|]. split; [exact B|exact C].
Qed.
Lemma posok_setN G a b n sq v x : nlt n sq x -> posok G a b x -> posok (setN G n b sq v) a b x.
Proof.
  intros Hx HP n' s Hp Hm. destruct (HP n' s Hp Hm) as (A & B & C).
  assert (Hs : n' = n -> slt s sq) by (intros ->; auto).
  assert (Hs' : n' = n -> slt (spred s) sq) by (intros Hn; apply spred_slt; auto).
  rewrite !(setN_lt _ _ _ _ _ _ s Hs). split; [exact A|]. split; [exact B|].
  destruct x; auto; rewrite !(setN_lt _ _ _ _ _ _ (spred s) Hs'); exact C.
Qed.
Lemma rcvok_setN G a b n sq v vl rv : (rv_prom rv = n -> rv_phase rv = PhAccept -> slt (rv_cseq rv) sq) ->
  (forall m, In m vl -> plain_sync m = true -> nlt n sq m) -> rcvok G a b vl rv -> rcvok (setN G n b sq v) a b vl rv.
Proof.
  intros Hc Hm HR n' Hp Hpr. destruct (HR n' Hp Hpr) as [A B]. split.
  - intros Hph. destruct (A Hph) as (A1 & A2 & A3 & A4). split; [exact A1|]. split; [exact A2|]. split; [exact A3|].
    rewrite setN_lt; [exact A4|]. intros ->. auto.
  - intros Har. destruct (B Har) as [B1 B2]. split; [exact B1|]. intros s m Hi Hs Hps. destruct (B2 s m Hi Hs Hps) as [B3 B4].
    split; auto. rewrite setN_lt; auto. intros ->. eapply Hm; eauto.
Qed.

Lemma setN_gle G n f sq v : gle G (setN G n f sq v).
Proof. constructor; cbn; eauto using lle_refl, ale_refl, ble_refl_. Qed.

Lemma has_ss_set G a b m n sq : posok G a b m -> b_pid n = a -> numb m = Some (n, sq) -> has_ss m = true -> ssset G n.
Proof.
  intros HP Hp Hm Hs. destruct (HP n sq Hp Hm) as (_ & _ & C). destruct m; try discriminate; cbn in Hs.
  - destruct (sy_ss sy); [|discriminate]. tauto.
  - destruct C as ((l & C1 & C2) & _). exists l. split; auto. congruence.
Qed.

(** A further numbered message at the end. *)
Lemma lcore_snocn G a b vl rb n sq m : lcore cc G a b vl rb -> b_pid n = a -> numb m = Some (n, sq) ->
  (forall m0 s0, In m0 vl -> numb m0 = Some (n, s0) ->
     slt s0 sq \/ (s0 = sq /\ resendable m = true /\ is_accdec m0 = false /\ ssset G n)) ->
  (forall rv, rb = Some rv -> rv_prom rv = n -> rv_phase rv = PhAccept ->
     slt (rv_cseq rv) sq \/ (rv_cseq rv = sq /\ resendable m = true /\ ssset G n)) ->
  gN G n b sq = mlen G n -> (ssset G n -> plain_sync m = false) ->
  minv cc G a b m -> posok G a b m -> lcore cc G a b (vl ++ [m]) rb.
Proof.
  intros (A & B & C & D) Hp Hm H1 H2 H3 H4 Hmi Hpo. split; [|split; [|split]].
  - rewrite Forall_app. auto.
  - apply FOP_app. split; auto. split; [constructor; constructor|]. intros x y Hx [<-|[]] n' s1 s2 Hp' Hs1 Hs2.
    assert (E1 : n' = n) by congruence. assert (E2 : s2 = sq) by congruence. subst n' s2.
    rewrite Forall_forall in C. pose proof (C x Hx) as Cx. destruct (Cx n s1 Hp' Hs1) as (_ & Hle & _).
    split; [rewrite H3; exact Hle|]. split; [eauto|]. intros Hss. apply H4. eapply has_ss_set; eauto.
  - rewrite Forall_app. auto.
  - intros rv Hrv n' Hp' Hpr. destruct (D rv Hrv n' Hp' Hpr) as [D1 D2]. split.
    + intros Hph. destruct (D1 Hph) as (A1 & A2 & A3 & A4). split; [exact A1|]. split; [exact A2|]. split; [|exact A4].
      intros m0 s0 Hin Hm0. apply in_app_iff in Hin. destruct Hin as [Hin|[<-|[]]]; [eauto|].
      assert (E1 : n' = n) by congruence. assert (E2 : s0 = sq) by congruence. subst s0.
      destruct (H2 rv Hrv) as [H5|(H5 & H6 & _)]; [congruence|auto|auto|].
      intros H7; destruct m; discriminate.
    + intros Har. destruct (D2 Har) as [B1 B2]. split; auto. intros s0 m0 Hin Hm0 Hps. apply in_app_iff in Hin.
      destruct Hin as [Hin|[<-|[]]]; [eauto|]. assert (E1 : n' = n) by congruence. assert (E2 : s0 = sq) by congruence. subst s0. rewrite E1 in *.
      assert (Hns : ~ ssset G n) by (intros Hs; rewrite H4 in Hps; auto; discriminate).
      rewrite H3. destruct (rv_ss rv); [tauto|split; [reflexivity|exact B1]].
Qed.

(** A message with a new number. *)
Lemma lcore_send G a b vl rb n sq m : lcore cc G a b vl rb -> b_pid n = a -> numb m = Some (n, sq) ->
  (forall m0, In m0 vl -> nlt n sq m0) ->
  (forall rv, rb = Some rv -> rv_prom rv = n -> rv_phase rv = PhAccept -> slt (rv_cseq rv) sq) ->
  (ssset G n -> plain_sync m = false) ->
  minv cc G a b m -> posok (setN G n b sq (mlen G n)) a b m -> lcore cc (setN G n b sq (mlen G n)) a b (vl ++ [m]) rb.
Proof.
  intros (A & B & C & D) Hp Hm H1 H2 H4 Hmi Hpo. apply (lcore_snocn _ _ _ _ _ n sq); auto.
  - split; [|split; [|split]].
    + eapply Forall_impl; [|exact A]. intros x. apply minv_gle. apply setN_gle.
    + assert (H1' : Forall (nlt n sq) vl) by (apply Forall_forall; auto). clear - B H1'. induction B as [|x l Hx HB IH]; constructor.
      * inversion H1'; subst. rewrite Forall_forall in *. intros y Hy. apply pairok_setN; auto.
      * inversion H1'; subst. auto.
    + rewrite Forall_forall in *. intros x Hx. apply posok_setN; auto.
    + intros rv Hrv. apply rcvok_setN; auto.
  - intros m0 s0 Hin Hs. left. eapply H1; eauto.
  - apply setN_same.
Qed.

Lemma FOP_repl {A} (P Q : A -> A -> Prop) l1 l2 x x' : ForallOrdPairs P (l1 ++ x :: l2) ->
  (forall y z, In y l1 -> In z l1 -> P y z -> Q y z) -> (forall y z, In y l2 -> In z l2 -> P y z -> Q y z) ->
  (forall y z, In y l1 -> In z l2 -> P y z -> Q y z) ->
  (forall y, In y l1 -> P y x -> Q y x') -> (forall y, In y l2 -> P x y -> Q x' y) ->
  ForallOrdPairs Q (l1 ++ x' :: l2).
Proof.
  intros H A1 A2 A3 A4 A5. apply FOP_app in H. destruct H as (B1 & B2 & B3). inversion B2 as [|? ? B4 B5]; subst.
  apply FOP_app. split; [|split].
  - clear - B1 A1. induction B1 as [|y l Hy Hl IH]; constructor.
    + rewrite Forall_forall in *. intros z Hz. apply A1; cbn; auto.
    + apply IH. intros u v Hu Hv. apply A1; cbn; auto.
  - constructor.
    + rewrite Forall_forall in *. auto.
    + clear - B5 A2. induction B5 as [|y l Hy Hl IH]; constructor.
      * rewrite Forall_forall in *. intros z Hz. apply A2; cbn; auto.
      * apply IH. intros u v Hu Hv. apply A2; cbn; auto.
  - intros y z Hy [<-|Hz].
    + apply A4; auto. apply B3; cbn; auto.
    + apply A3; auto. apply B3; cbn; auto.
Qed.

Lemma rcvok_repl G a b l1 l2 x x' rv : numb x' = numb x -> is_sync x' = is_sync x -> is_accdec x' = is_accdec x -> plain_sync x' = plain_sync x ->
  rcvok G a b (l1 ++ x :: l2) rv -> rcvok G a b (l1 ++ x' :: l2) rv.
Proof.
  intros E1 E2 E2' E3 HR n Hp Hpr. destruct (HR n Hp Hpr) as [A B].
  assert (HI : forall m, In m (l1 ++ x' :: l2) -> exists m', In m' (l1 ++ x :: l2) /\ numb m = numb m' /\ is_sync m = is_sync m' /\ is_accdec m = is_accdec m' /\ plain_sync m = plain_sync m').
  { intros m Hm. apply in_app_iff in Hm. destruct Hm as [Hm|[<-|Hm]].
    - exists m. split; auto. apply in_app_iff. auto.
    - exists x. split; auto. apply in_app_iff. right. left. auto.
    - exists m. split; auto. apply in_app_iff. right. right. auto. }
  split.
  - intros Hph. destruct (A Hph) as (A1 & A2 & A3 & A4). split; [exact A1|]. split; [exact A2|]. split; [|exact A4].
    intros m sq Hm Hn. destruct (HI m Hm) as (m' & I1 & I2 & I3 & I3' & I4). rewrite I3. apply A3; auto. congruence.
  - intros Har. destruct (B Har) as [B1 B2]. split; auto. intros sq m Hm Hn Hs. destruct (HI m Hm) as (m' & I1 & I2 & I3 & I3' & I4).
    apply (B2 sq m'); auto; congruence.
Qed.

(** A changed decided index. *)
Lemma lcore_redec G a b l1 l2 rb n sq d d' es : lcore cc G a b (l1 ++ MAcceptDecide n sq d es :: l2) rb ->
  decok cc G n d' -> lcore cc G a b (l1 ++ MAcceptDecide n sq d' es :: l2) rb.
Proof.
  intros (A & B & C & D) Hd. split; [|split; [|split]].
  - rewrite Forall_app in *. destruct A as [A1 A2]. inversion A2 as [|? ? A3 A4]; subst. split; auto. constructor; auto.
    destruct A3 as (A5 & A6 & A7 & A8). split; auto.
  - eapply FOP_repl; [exact B|auto|auto|auto| |]; auto.
  - rewrite Forall_app in *. destruct C as [A1 A2]. inversion A2 as [|? ? A3 A4]; subst. split; auto.
  - intros rv Hrv. apply (rcvok_repl _ _ _ _ _ (MAcceptDecide n sq d es)); try reflexivity. auto.
Qed.

(** More entries in the last numbered message. *)
Lemma lcore_ext G a b l1 l2 rb n sq d d' es es' : lcore cc G a b (l1 ++ MAcceptDecide n sq d es :: l2) rb ->
  b_pid n = a -> decok cc G n d' ->
  (forall m0 s0, In m0 (l1 ++ MAcceptDecide n sq d es :: l2) -> numb m0 = Some (n, s0) -> sle s0 sq) ->
  (forall rv, rb = Some rv -> rv_prom rv = n -> rv_phase rv = PhAccept -> slt (rv_cseq rv) sq) ->
  mlen G n = gN G n b sq + length es' ->
  (forall l, gM G n = Some l -> forall j e, nth_error es' j = Some e -> at_ l (gN G n b sq + j) = Some (Ent e)) ->
  lcore cc (setN G n b sq (mlen G n)) a b (l1 ++ MAcceptDecide n sq d' (es ++ es') :: l2) rb.
Proof.
  intros (A & B & C & D) Hp Hd Hle Hrle Hlen Hes.
  assert (H1 : forall m, In m l1 -> nlt n sq m).
  { intros m Hm s Hs. apply FOP_app in B. destruct B as (_ & _ & B3).
    destruct (B3 m (MAcceptDecide n sq d es) Hm (or_introl eq_refl) n s sq Hp Hs eq_refl) as (_ & [B4|(_ & B4 & _)] & _); auto. discriminate. }
  assert (H2 : forall m s, In m l2 -> numb m = Some (n, s) -> False).
  { intros m s Hm Hs. apply FOP_app in B. destruct B as (_ & B2 & _). inversion B2 as [|? ? B4 B5]; subst.
    rewrite Forall_forall in B4. destruct (B4 m Hm n sq s eq_refl eq_refl Hs) as (_ & [B6|(_ & _ & B6 & _)] & _); [|discriminate].
    assert (B7 : sle s sq) by (eapply Hle; [|exact Hs]; apply in_app_iff; right; right; auto).
    apply (slt_irrefl sq). destruct B7 as [B7| ->]; auto. eapply slt_trans; eauto. }
  assert (H2' : forall m, In m l2 -> nlt n sq m) by (intros m Hm s Hs; destruct (H2 m s Hm Hs)).
  assert (Cm : posok G a b (MAcceptDecide n sq d es)).
  { rewrite Forall_app in C. destruct C as [_ C]. inversion C; auto. }
  destruct (Cm n sq Hp eq_refl) as (M1 & M2 & M3 & M4 & M5).
  assert (Hpre : gN (setN G n b sq (mlen G n)) n b (spred sq) = gN G n b (spred sq)).
  { apply setN_other. intros HH. unfold spred in HH. destruct sq as [x y]. cbn in *. injection HH as HH. lia. }
  split; [|split; [|split]].
  - rewrite Forall_app in *. destruct A as [A1 A2]. inversion A2 as [|? ? A3 A4]; subst. split; [|constructor].
    + eapply Forall_impl; [|exact A1]. intros m. apply minv_gle, setN_gle.
    + destruct A3 as (A5 & A6 & A7 & A8). split; auto.
    + eapply Forall_impl; [|exact A4]. intros m. apply minv_gle, setN_gle.
  - eapply FOP_repl; [exact B| | | | |].
    + intros y z Hy Hz. apply pairok_setN; auto.
    + intros y z Hy Hz. apply pairok_setN; auto.
    + intros y z Hy Hz. apply pairok_setN; auto.
    + intros y Hy HP n' s1 s2 Hp' Hs1 Hs2. cbn in Hs2. injection Hs2 as <- <-. destruct (HP n s1 sq Hp' Hs1 eq_refl) as (P1 & P2 & P3).
      split; [|split; [exact P2|auto]]. rewrite setN_same, setN_other; [|apply slt_ne; apply (H1 y Hy); auto]. lia.
    + intros y Hy HP n' s1 s2 Hp' Hs1 Hs2. cbn in Hs1. injection Hs1 as <- <-. destruct (H2 y s2 Hy Hs2).
  - rewrite Forall_app in *. destruct C as [A1 A2]. inversion A2 as [|? ? A3 A4]; subst. split; [|constructor].
    + rewrite Forall_forall in *. intros x Hx. apply posok_setN; auto.
    + intros n' s Hp' Hs. cbn in Hs. injection Hs as <- <-. rewrite setN_same. split; [exact M1|]. split; [apply Nat.le_refl|].
      split; [exact M3|]. rewrite Hpre. split; [rewrite app_length; lia|]. intros l Hl j e He.
      destruct (Nat.lt_ge_cases j (length es)) as [Hj|Hj].
      * rewrite nth_error_app1 in He by auto. apply (M5 l Hl); auto.
      * rewrite nth_error_app2 in He by auto. pose proof (Hes l Hl _ _ He) as H.
        replace (gN G n b (spred sq) + j) with (gN G n b sq + (j - length es)) by lia. exact H.
    + rewrite Forall_forall in *. intros x Hx. apply posok_setN; auto.
  - intros rv Hrv. apply (rcvok_repl _ _ _ _ _ (MAcceptDecide n sq d es)); try reflexivity. apply rcvok_setN; auto.
    + intros m Hm Hps. apply in_app_iff in Hm. destruct Hm as [Hm|[<-|Hm]]; auto. discriminate.
Qed.

End WithEntry.
