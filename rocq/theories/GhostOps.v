(** * Elementary changes of the ghost history *)
From Coq Require Import List Arith Bool Lia.
Import ListNotations.
From Verif Require Import Types Config Basics Ghost.

Section WithEntry.
Context {E : EntryT}.

(** Only the part of the ghost state that belongs to the server [p] differs, and rounds below what [p] had
    promised are as they were ([fr_O]). *)
Record gfr (p : node_id) (G G' : ghost) : Prop := {
  fr_M : forall n, b_pid n <> p -> gM G' n = gM G n;
  fr_I : forall n, b_pid n <> p -> gI G' n = gI G n;
  fr_C : forall n, b_pid n <> p -> gC G' n = gC G n;
  fr_N : forall n, b_pid n <> p -> gN G' n = gN G n;
  fr_P : forall q, q <> p -> gP G' q = gP G q;
  fr_A : forall q, q <> p -> gA G' q = gA G q;
  fr_O : forall n, bal_lt n (gP G p) -> gM G' n = gM G n
}.

(** Steps of the server [p]. *)
Definition glp (p : node_id) (G G' : ghost) : Prop := gle G G' /\ gfr p G G'.

(** ... that do not touch the numbering. *)
Definition gls (p : node_id) (G G' : ghost) : Prop := glp p G G' /\ gN G' = gN G.

Lemma gfr_refl p G : gfr p G G.
Proof. constructor; reflexivity. Qed.
Lemma gfr_trans p G1 G2 G3 : gle G1 G2 -> gfr p G1 G2 -> gfr p G2 G3 -> gfr p G1 G3.
Proof.
  intros HL [A1 A2 A3 A4 A5 A6 A7] [B1 B2 B3 B4 B5 B6 B7]; constructor; intros.
  - rewrite B1, A1; auto.
  - rewrite B2, A2; auto.
  - rewrite B3, A3; auto.
  - rewrite B4, A4; auto.
  - rewrite B5, A5; auto.
  - rewrite B6, A6; auto.
  - rewrite B7, A7; auto. destruct (le_P _ _ HL p) as [K|<-]; eauto using bal_lt_trans.
Qed.
Lemma glp_refl p G : glp p G G.
Proof. split; [apply gle_refl|apply gfr_refl]. Qed.
Lemma glp_trans p G1 G2 G3 : glp p G1 G2 -> glp p G2 G3 -> glp p G1 G3.
Proof. intros [A1 A2] [B1 B2]. split; [eapply gle_trans; eauto|eapply gfr_trans; eauto]. Qed.
Lemma gls_refl p G : gls p G G.
Proof. split; [apply glp_refl|reflexivity]. Qed.
Lemma gls_trans p G1 G2 G3 : gls p G1 G2 -> gls p G2 G3 -> gls p G1 G3.
Proof. intros [A1 A2] [B1 B2]. split; [eapply glp_trans; eauto|congruence]. Qed.

Definition setP (G : ghost) (p : node_id) (n : ballot) : ghost :=
  mkG (gM G) (gI G) (gC G) (fun q => if q =? p then n else gP G q) (gA G) (gN G).
Definition setC (G : ghost) (n : ballot) x : ghost :=
  mkG (gM G) (gI G) (fun b => if beq b n then Some x else gC G b) (gP G) (gA G) (gN G).
Definition setM (G : ghost) (n : ballot) (l : llog) : ghost :=
  mkG (fun b => if beq b n then Some l else gM G b) (gI G) (gC G) (gP G) (gA G) (gN G).
Definition setMI (G : ghost) (n : ballot) (l : llog) : ghost :=
  mkG (fun b => if beq b n then Some l else gM G b) (fun b => if beq b n then l else gI G b)
      (gC G) (gP G) (gA G) (gN G).
Definition setA (G : ghost) (p : node_id) (n : ballot) (x : nat * bool) : ghost :=
  mkG (gM G) (gI G) (gC G) (gP G)
      (fun q b => if (q =? p) && beq b n then Some x else gA G q b) (gN G).
Definition seq_eqb (a b : seqnum) : bool := (sq_sess a =? sq_sess b) && (sq_ctr a =? sq_ctr b).
Definition setN (G : ghost) (n : ballot) (f : node_id) (sq : seqnum) (v : nat) : ghost :=
  mkG (gM G) (gI G) (gC G) (gP G) (gA G)
      (fun b q s => if beq b n && (q =? f) && seq_eqb s sq then v else gN G b q s).

Lemma seq_eqb_spec a b : seq_eqb a b = true <-> a = b.
Proof.
  unfold seq_eqb. rewrite andb_true_iff, !Nat.eqb_eq. destruct a, b; cbn. split; [intros []|intros H; inversion H]; subst; auto.
Qed.
Lemma beq_neq a b : a <> b -> beq a b = false.
Proof. intros H. destruct (beq a b) eqn:Hb; auto. apply beq_spec in Hb. congruence. Qed.
Lemma beq_dec (a b : ballot) : {a = b} + {a <> b}.
Proof. destruct (beq a b) eqn:H; [left; apply beq_spec; auto|right; intros ->; rewrite beq_refl in H; discriminate]. Qed.

Context (cc : cluster_config).
Notation nds := (nds cc).

Context (Hv : cluster_validate cc = true) (H0 : ~ In 0 nds).

(** What is left to show for [GInv] after a step. *)
Lemma ginv_step G G' : GInv cc G -> gle G G' ->
  (forall b, gM G' b <> None -> gM G b = None -> wfb cc b /\ b <> bdef /\ est cc G' b /\ gC G' b <> None) ->
  (forall p b, gA G' p b <> None -> gA G p b = None -> In p nds) ->
  (forall p, gP G' p <> gP G p -> wfb cc (gP G' p)) ->
  (forall b na ac d, gC G' b = Some (na, ac, d) -> gC G b = None ->
     (b_cfg b = cc_id cc /\ In (b_pid b) nds) /\
     pf cc G' b (b_pid b) na ac /\ decok cc G' na d /\ acov G' (b_pid b) na d) ->
  (forall p b c ss, gA G' p b = Some (c, ss) -> gA G p b <> Some (c, ss) ->
     ble_ b (gP G' p) /\ exists l, gM G' b = Some l /\ (if ss then ll_ss l <> None else c <= len l)) ->
  (forall p b k, gA G' p b <> None -> gA G p b = None -> ecov (gI G' b) k -> acov G' p b k) ->
  (forall b l, gM G' b = Some l -> gM G b <> Some l -> lle (gI G' b) l) ->
  (forall p, gA G' p bdef = Some (0, false)) -> gM G' bdef = Some ll0 ->
  GInv cc G'.
Proof.
  intros HG HL Hm Ha Hp Hc Hacc Hini Hle HbA HbM.
  assert (HI : forall b, gM G b <> None -> gI G' b = gI G b) by (apply (le_I _ _ HL)).
  assert (HMn : forall b, gM G b <> None -> gM G' b <> None).
  { intros b H. destruct (gM G b) eqn:Hb; [|congruence]. destruct (le_M _ _ HL _ _ Hb) as [? [-> _]]. discriminate. }
  constructor.
  - auto.
  - rewrite HI; [apply (g_bI _ _ HG)|]. rewrite (g_bM _ _ HG). discriminate.
  - auto.
  - intros b H. destruct (gM G b) eqn:Hb.
    + apply (g_wM _ _ HG). congruence.
    + apply (Hm b H Hb).
  - intros p b H. destruct (gA G p b) eqn:Hb.
    + apply (g_wA _ _ HG). congruence.
    + right. eauto.
  - intros p. assert (Hd : gP G' p = gP G p \/ gP G' p <> gP G p).
    { destruct (beq_dec (gP G' p) (gP G p)); auto. }
    destruct Hd as [->|Hd]; [apply (g_wP _ _ HG)|auto].
  - intros b H. destruct (gC G b) eqn:Hb; [apply (g_wC _ _ HG); congruence|].
    destruct (gC G' b) as [[[na ac] d]|] eqn:Hb'; [|congruence]. apply (Hc b na ac d Hb' Hb).
  - intros p b c ss H. destruct (gA G p b) as [[c0 ss0]|] eqn:Hb; [|apply (Hacc p b c ss H); congruence].
    assert (Hd : (c0, ss0) = (c, ss) \/ (c0, ss0) <> (c, ss)).
    { destruct (Nat.eq_dec c0 c), (Bool.bool_dec ss0 ss); [left; congruence|right; congruence|right; congruence|right; congruence]. }
    destruct Hd as [Hd|Hd]; [|apply (Hacc p b c ss H); congruence]. injection Hd as -> ->.
    destruct (g_acc _ _ HG _ _ _ _ Hb) as [H1 [l [H2 H3]]]. split; [eapply ble_trans; [exact H1|apply (le_P _ _ HL)]|].
    destruct (le_M _ _ HL _ _ H2) as [l' [H2' L]]. exists l'. split; auto. destruct ss.
    + rewrite <- (lle_ss _ _ L H3). exact H3.
    + pose proof (lle_len _ _ L). lia.
  - intros p b k H Hk. destruct (gA G p b) eqn:Hb.
    + eapply gle_acov; eauto. apply (g_init _ _ HG); [congruence|]. rewrite HI in Hk; auto.
      destruct p0 as [c ss]. destruct (g_acc _ _ HG _ _ _ _ Hb) as [_ [l [-> _]]]. discriminate.
    + eauto.
  - intros b H Hne. destruct (gM G b) eqn:Hb.
    + destruct (g_est _ _ HG b) as [He Hc']; auto; [congruence|]. split.
      * eapply est_gle; eauto. congruence.
      * destruct (gC G b) eqn:Hcb; [|congruence]. rewrite (le_C _ _ HL _ _ Hcb). discriminate.
    + destruct (Hm b H Hb) as (_ & _ & He & Hc'). auto.
  - intros b l H. destruct (gM G b) as [l0|] eqn:Hb; [|apply Hle; auto; congruence].
    destruct (le_M _ _ HL _ _ Hb) as [l' [H' L]]. rewrite HI by congruence.
    assert (l' = l) by congruence. subst. eapply lle_trans; [apply (g_le _ _ HG _ _ Hb)|exact L].
  - intros b na ac d H. destruct (gC G b) as [x|] eqn:Hb.
    + pose proof (le_C _ _ HL _ _ Hb) as H'. assert (x = (na, ac, d)) by congruence. subst.
      destruct (g_cand _ _ HG _ _ _ _ Hb) as [H1 [H2 H3]]. split; [|split].
      * eapply pf_gle; eauto.
      * eapply decok_gle; eauto.
      * eapply gle_acov; eauto.
    + apply (Hc b na ac d H Hb).
Qed.

Lemma setP_ok G p n : GInv cc G -> wfb cc n -> ble_ (gP G p) n -> p <> 0 ->
  gls p G (setP G p n) /\ GInv cc (setP G p n).
Proof.
  intros HG Hw Hle Hp.
  assert (HL : gle G (setP G p n)).
  { constructor; cbn; eauto using lle_refl, ale_refl.
    intros q. destruct (Nat.eqb_spec q p); subst; auto using ble_refl_. }
  split; [split; [split|]|].
  - exact HL.
  - constructor; cbn; auto. intros q Hq. apply Nat.eqb_neq in Hq. rewrite Hq. reflexivity.
  - reflexivity.
  - apply (ginv_step G); cbn; auto; try (intros; exfalso; congruence).
    + intros q. destruct (Nat.eqb_spec q p); subst; auto. congruence.
    + apply (g_bA _ _ HG).
    + apply (g_bM _ _ HG).
Qed.

Lemma setC_ok G p n na ac d : GInv cc G -> b_pid n = p -> b_cfg n = cc_id cc -> In p nds -> gC G n = None ->
  pf cc G n p na ac -> decok cc G na d -> acov G p na d ->
  gls p G (setC G n (na, ac, d)) /\ GInv cc (setC G n (na, ac, d)).
Proof.
  intros HG Hp Hcf Hin Hn Hpf Hd Hac.
  assert (HL : gle G (setC G n (na, ac, d))).
  { constructor; cbn; eauto using lle_refl, ale_refl, ble_refl_.
    intros b x H. destruct (beq b n) eqn:Hb; auto. apply beq_spec in Hb. subst b. congruence. }
  split; [split; [split|]|].
  - exact HL.
  - constructor; cbn; auto. intros b Hb. rewrite beq_neq; auto. congruence.
  - reflexivity.
  - apply (ginv_step G); cbn; auto; try (intros; exfalso; congruence).
    + intros b na0 ac0 d0 H H'. destruct (beq b n) eqn:Hb; [|congruence]. apply beq_spec in Hb. subst b.
      injection H as <- <- <-. split; [rewrite Hp; auto|]. rewrite Hp.
      exact (conj (pf_gle _ _ _ _ _ _ _ HL Hpf) (conj (decok_gle _ _ _ _ _ HL Hd) Hac)).
    + apply (g_bA _ _ HG).
    + apply (g_bM _ _ HG).
Qed.

Lemma setM_ok G p n l l' : GInv cc G -> b_pid n = p -> n = gP G p -> n <> bdef -> gM G n = Some l -> lle l l' ->
  gls p G (setM G n l') /\ GInv cc (setM G n l').
Proof.
  intros HG Hp HP Hne Hn Hl.
  assert (HL : gle G (setM G n l')).
  { constructor; cbn; eauto using lle_refl, ale_refl, ble_refl_.
    intros b x H. destruct (beq b n) eqn:Hb; eauto using lle_refl. apply beq_spec in Hb. subst b.
    assert (x = l) by congruence. subst. eauto. }
  split; [split; [split|]|].
  - exact HL.
  - constructor; cbn; auto; intros b Hb; rewrite beq_neq; auto; try congruence. intros ->. rewrite HP in Hb. destruct (bal_lt_irrefl _ Hb).
  - reflexivity.
  - apply (ginv_step G); cbn; auto; try (intros; exfalso; congruence).
    + intros b H H'. exfalso. destruct (beq b n) eqn:Hb; [|congruence]. apply beq_spec in Hb. congruence.
    + intros b x H H'. destruct (beq b n) eqn:Hb; [|congruence]. apply beq_spec in Hb. subst b.
      injection H as <-. eapply lle_trans; [apply (g_le _ _ HG _ _ Hn)|exact Hl].
    + apply (g_bA _ _ HG).
    + rewrite beq_neq by auto. apply (g_bM _ _ HG).
Qed.

Lemma setMI_ok G p n l : GInv cc G -> b_pid n = p -> n = gP G p -> p <> 0 -> gM G n = None -> gC G n <> None ->
  est cc (setMI G n l) n ->
  gls p G (setMI G n l) /\ GInv cc (setMI G n l).
Proof.
  intros HG Hp HP Hp0 Hn HC He.
  assert (HL : gle G (setMI G n l)).
  { constructor; cbn; eauto using lle_refl, ale_refl, ble_refl_.
    - intros b x H. destruct (beq b n) eqn:Hb; eauto using lle_refl. apply beq_spec in Hb. congruence.
    - intros b H. destruct (beq b n) eqn:Hb; auto. apply beq_spec in Hb. congruence. }
  assert (Hnb : n <> bdef). { intros ->. cbn in Hp. auto. }
  split; [split; [split|]|].
  - exact HL.
  - constructor; cbn; auto; intros b Hb; rewrite beq_neq; auto; try congruence. intros ->. rewrite HP in Hb. destruct (bal_lt_irrefl _ Hb).
  - reflexivity.
  - apply (ginv_step G); cbn; auto; try (intros; exfalso; congruence).
    + intros b H H'. destruct (beq b n) eqn:Hb; [|congruence]. apply beq_spec in Hb. subst b.
      split; [right; apply (g_wC _ _ HG); auto|]. auto.
    + intros b x H H'. destruct (beq b n) eqn:Hb; [|congruence]. injection H as <-. apply lle_refl.
    + apply (g_bA _ _ HG).
    + rewrite beq_neq by auto. apply (g_bM _ _ HG).
Qed.

Lemma setA_ok G p n l c ss : GInv cc G -> In p nds -> n = gP G p -> n <> bdef -> gM G n = Some l ->
  (forall a, gA G p n = Some a -> ale a (c, ss)) ->
  (if ss then ll_ss l <> None else c <= len l) ->
  (gA G p n = None -> forall k, ecov (gI G n) k -> k <= c \/ ss = true) ->
  gls p G (setA G p n (c, ss)) /\ GInv cc (setA G p n (c, ss)).
Proof.
  intros HG Hin Hn Hne Hl Hold Hc Hk.
  assert (HL : gle G (setA G p n (c, ss))).
  { constructor; cbn; eauto using lle_refl, ale_refl, ble_refl_.
    - intros q b x H. destruct (Nat.eqb_spec q p); cbn; eauto using ale_refl. subst q.
      destruct (beq b n) eqn:Hb; eauto using ale_refl. apply beq_spec in Hb. subst b. eauto.
    - intros q b H. destruct (Nat.eqb_spec q p); cbn; auto. subst q.
      destruct (beq b n) eqn:Hb; auto. apply beq_spec in Hb. subst b. subst n. destruct (bal_lt_irrefl _ H). }
  split; [split; [split|]|].
  - exact HL.
  - constructor; cbn; auto. intros q Hq. apply Nat.eqb_neq in Hq. rewrite Hq. reflexivity.
  - reflexivity.
  - apply (ginv_step G); cbn; auto; try (intros; exfalso; congruence).
    + intros q b H H'. destruct (Nat.eqb_spec q p); cbn in *; [subst; auto|congruence].
    + intros q b c0 ss0 H H'. destruct (Nat.eqb_spec q p); cbn in *; [|congruence]. subst q.
      destruct (beq b n) eqn:Hb; [|congruence]. apply beq_spec in Hb. subst b. injection H as <- <-.
      split; [right; auto|]. eauto.
    + intros q b k H H' Hk'. unfold acov. cbn. destruct (Nat.eqb_spec q p); cbn in *; [|congruence]. subst q.
      destruct (beq b n) eqn:Hb; [|congruence]. apply beq_spec in Hb. subst b. apply Hk; auto.
    + intros q. rewrite (beq_neq bdef n) by auto. rewrite andb_false_r. apply (g_bA _ _ HG).
    + apply (g_bM _ _ HG).
Qed.

Lemma setN_ok G p n f sq v : GInv cc G -> b_pid n = p ->
  glp p G (setN G n f sq v) /\ GInv cc (setN G n f sq v).
Proof.
  intros HG Hp.
  assert (HL : gle G (setN G n f sq v)).
  { constructor; cbn; eauto using lle_refl, ale_refl, ble_refl_. }
  split; [split|].
  - exact HL.
  - constructor; cbn; auto. intros b Hb. rewrite (beq_neq b n) by congruence. reflexivity.
  - apply (ginv_step G); cbn; auto; try (intros; exfalso; congruence).
    + apply (g_bA _ _ HG).
    + apply (g_bM _ _ HG).
Qed.

End WithEntry.
