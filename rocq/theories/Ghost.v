(** * Ghost history of the cluster and the core agreement argument

    The ghost state records, for every ballot, the log of its leader, and for
    every server and ballot how much of that log the server has stored.  It is
    only used in proofs. *)
From Coq Require Import List Arith Bool Lia Wellfounded.
Import ListNotations.
From Verif Require Import Types Config Basics.

(** ** Ballots of a configuration *)

Definition ble_ (a b : ballot) : Prop := bal_lt a b \/ a = b.

Lemma bal_lt_irrefl a : ~ bal_lt a a.
Proof. unfold bal_lt. lia. Qed.
Lemma bal_lt_trans a b c : bal_lt a b -> bal_lt b c -> bal_lt a c.
Proof. unfold bal_lt. lia. Qed.
Lemma ble_trans a b c : ble_ a b -> ble_ b c -> ble_ a c.
Proof. unfold ble_. intros [H| ->] [H'| ->]; auto. left. eapply bal_lt_trans; eauto. Qed.
Lemma ble_lt_trans a b c : ble_ a b -> bal_lt b c -> bal_lt a c.
Proof. intros [H| ->] H'; auto. eapply bal_lt_trans; eauto. Qed.
Lemma lt_ble_trans a b c : bal_lt a b -> ble_ b c -> bal_lt a c.
Proof. intros H [H'| <-]; auto. eapply bal_lt_trans; eauto. Qed.
Lemma ble_refl_ a : ble_ a a.
Proof. right. reflexivity. Qed.
Lemma ble_antisym a b : ble_ a b -> ble_ b a -> a = b.
Proof. intros [H|H] [H'|H']; auto. exfalso. eapply bal_lt_irrefl, bal_lt_trans; eauto. Qed.
Lemma lt_not_ble a b : bal_lt a b -> ~ ble_ b a.
Proof. intros H [H'| ->]; [eapply bal_lt_irrefl, bal_lt_trans; eauto|eapply bal_lt_irrefl; eauto]. Qed.

Lemma bal_lt_wf : well_founded bal_lt.
Proof.
  assert (H : forall n, forall x y b, b_n b = n -> b_prio b = x -> b_pid b = y -> Acc bal_lt b).
  { intros n. induction n as [n IHn] using lt_wf_ind. intros x. induction x as [x IHx] using lt_wf_ind.
    intros y. induction y as [y IHy] using lt_wf_ind. intros b Hn Hx Hy. constructor. intros c Hc.
    unfold bal_lt in Hc. rewrite Hn, Hx, Hy in Hc.
    destruct Hc as [Hc|[Hc [Hc'|[Hc' Hc'']]]].
    - eapply IHn; eauto.
    - eapply IHx; eauto.
    - eapply IHy; eauto. }
  intros b. eapply H; eauto.
Qed.

(** ** Logical logs *)

Section WithEntry.
Context {E : EntryT}.

Inductive cell := Ent (e : T) | Stop (s : stopsign).
(** A log of normal entries, possibly closed by a stop sign. *)
Record llog := mkLL { ll_es : list T; ll_ss : option stopsign }.
Definition ll0 := mkLL [] None.

(** What is at an index; after the normal entries the stop sign, forever. *)
Definition at_ (l : llog) (i : nat) : option cell :=
  match nth_error (ll_es l) i with
  | Some e => Some (Ent e)
  | None => option_map Stop (ll_ss l)
  end.
Definition len (l : llog) := length (ll_es l).
(** The log reaches to index [k]. *)
Definition ecov (l : llog) (k : nat) : Prop := k <= len l \/ ll_ss l <> None.
(** [l'] extends [l]. *)
Definition lle (l l' : llog) : Prop :=
  (ll_ss l = None /\ exists t, ll_es l' = ll_es l ++ t) \/ l = l'.
(** Both logs reach to [k] and are the same below it. *)
Definition agree (k : nat) (l l' : llog) : Prop :=
  forall i, i < k -> exists x, at_ l i = Some x /\ at_ l' i = Some x.
(** The part of [l] with [c] normal entries, or all of it. *)
Definition cut (l : llog) (c : nat) (ss : bool) : llog :=
  if ss then l else mkLL (firstn c (ll_es l)) None.

Lemma lle_refl l : lle l l.
Proof. right. reflexivity. Qed.
Lemma lle_trans a b c : lle a b -> lle b c -> lle a c.
Proof.
  intros [[H [t Ht]]| ->] [[H' [t' Ht']]| <-]; try (right; reflexivity).
  - left. split; auto. exists (t ++ t'). rewrite Ht', Ht, app_assoc. reflexivity.
  - left. split; eauto.
  - left. split; eauto.
Qed.
Lemma lle_at a b i x : lle a b -> at_ a i = Some x -> at_ b i = Some x.
Proof.
  intros [[H [t Ht]]| ->]; auto. unfold at_. rewrite Ht, H.
  destruct (nth_error (ll_es a) i) eqn:Hn; [|discriminate].
  rewrite nth_error_app1, Hn; auto. apply nth_error_Some. congruence.
Qed.
Lemma lle_len a b : lle a b -> len a <= len b.
Proof. unfold len. intros [[H [t Ht]]| ->]; [|lia]. rewrite Ht, app_length. lia. Qed.
Lemma lle_ss a b : lle a b -> ll_ss a <> None -> a = b.
Proof. intros [[H _]|H]; [congruence|auto]. Qed.
Lemma lle_ecov a b k : lle a b -> ecov a k -> ecov b k.
Proof.
  intros Hl [H|H]; [left; pose proof (lle_len _ _ Hl); lia|]. right. rewrite <- (lle_ss _ _ Hl H). exact H.
Qed.
Lemma agree_le k k' l l' : k' <= k -> agree k l l' -> agree k' l l'.
Proof. intros H A i Hi. apply A. lia. Qed.
Lemma agree_trans k a b c : agree k a b -> agree k b c -> agree k a c.
Proof. intros H H' i Hi. destruct (H i Hi) as [x [? ?]], (H' i Hi) as [y [? ?]]. exists x. split; congruence. Qed.
Lemma agree_sym k a b : agree k a b -> agree k b a.
Proof. intros H i Hi. destruct (H i Hi) as [x [? ?]]. eauto. Qed.
Lemma agree_mono k a a' b b' : lle a a' -> lle b b' -> agree k a b -> agree k a' b'.
Proof. intros Ha Hb H i Hi. destruct (H i Hi) as [x [? ?]]. exists x. split; eapply lle_at; eauto. Qed.
Lemma at_len l i e : at_ l i = Some (Ent e) -> i < len l.
Proof.
  unfold at_. destruct (nth_error (ll_es l) i) eqn:H.
  - intros _. apply nth_error_Some. congruence.
  - destruct (ll_ss l); discriminate.
Qed.
Lemma at_stop l i s : at_ l i = Some (Stop s) -> len l <= i /\ ll_ss l = Some s.
Proof.
  unfold at_. destruct (nth_error (ll_es l) i) eqn:H; [discriminate|].
  destruct (ll_ss l); cbn; [|discriminate]. intros H'. injection H' as ->. split; auto. apply nth_error_None. exact H.
Qed.
Lemma at_stop_ge l i j s : at_ l i = Some (Stop s) -> i <= j -> at_ l j = Some (Stop s).
Proof.
  intros H Hij. apply at_stop in H. destruct H as [H H']. unfold at_, len in *.
  destruct (nth_error (ll_es l) j) eqn:Hn.
  - assert (j < length (ll_es l)) by (apply nth_error_Some; congruence). lia.
  - rewrite H'. reflexivity.
Qed.
Lemma at_ecov l k : ecov l k <-> forall i, i < k -> exists x, at_ l i = Some x.
Proof.
  split.
  - intros H i Hi. unfold at_. destruct (nth_error (ll_es l) i) as [e|] eqn:Hn; eauto.
    apply nth_error_None in Hn. unfold ecov, len in H. destruct (ll_ss l); cbn; eauto. destruct H; [lia|congruence].
  - intros H. unfold ecov. destruct (le_lt_dec k (len l)) as [|Hk]; auto. right.
    destruct (H _ Hk) as [x Hx]. unfold at_, len in Hx.
    replace (nth_error (ll_es l) (length (ll_es l))) with (@None T) in Hx by (symmetry; apply nth_error_None; lia).
    destruct (ll_ss l); [discriminate|]. discriminate.
Qed.
Lemma agree_ecov_l k l l' : agree k l l' -> ecov l k.
Proof. intros H. apply at_ecov. intros i Hi. destruct (H i Hi) as [x [? _]]. eauto. Qed.
Lemma agree_ecov_r k l l' : agree k l l' -> ecov l' k.
Proof. intros H. apply agree_sym in H. eapply agree_ecov_l; eauto. Qed.
Lemma agree_refl k l : ecov l k -> agree k l l.
Proof. rewrite at_ecov. intros H i Hi. destruct (H i Hi) as [x ?]. eauto. Qed.
Lemma lle_agree k l l' : lle l l' -> ecov l k -> agree k l l'.
Proof. intros H Hk. eapply agree_mono; [apply lle_refl|exact H|]. apply agree_refl. exact Hk. Qed.

Lemma nth_error_firstn {A} (l : list A) c i : i < c -> nth_error (firstn c l) i = nth_error l i.
Proof.
  revert l i. induction c as [|c IH]; intros l i Hi; [lia|]. destruct l as [|x l]; cbn; [destruct i; reflexivity|].
  destruct i; cbn; auto. apply IH. lia.
Qed.
Lemma cut_at l c ss i : c <= len l \/ ss = true -> (ss = true \/ i < c) -> at_ (cut l c ss) i = at_ l i.
Proof.
  intros Hc Hi. unfold cut. destruct ss; auto. destruct Hi as [|Hi]; [discriminate|].
  destruct Hc as [Hc|]; [|discriminate].
  unfold at_. cbn [ll_es ll_ss]. rewrite nth_error_firstn by auto.
  destruct (nth_error (ll_es l) i) eqn:Hn; auto. apply nth_error_None in Hn. unfold len in Hc. lia.
Qed.
Lemma cut_len l c : c <= len l -> len (cut l c false) = c.
Proof. unfold len, cut. cbn. intros H. rewrite firstn_length. lia. Qed.

(** ** Ghost state *)

Record ghost := mkG {
  gM : ballot -> option llog;                     (* the log of the leader of the ballot *)
  gI : ballot -> llog;                            (* that log when the leader was established *)
  gC : ballot -> option (ballot * nat * nat);     (* accepted round, accepted and decided index of the candidate *)
  gP : node_id -> ballot;                         (* promise of the server *)
  gA : node_id -> ballot -> option (nat * bool);  (* entries stored in the ballot; stop sign stored *)
  gN : ballot -> node_id -> seqnum -> nat         (* position in the log after the message with this number *)
}.

Definition acov (G : ghost) (p : node_id) (b : ballot) (k : nat) : Prop :=
  match gA G p b with Some (c, ss) => k <= c \/ ss = true | None => False end.

Definition ale (a a' : nat * bool) : Prop := snd a' = true \/ (snd a = false /\ fst a <= fst a').

(** Later ghost states. *)
Record gle (G G' : ghost) : Prop := {
  le_M : forall b l, gM G b = Some l -> exists l', gM G' b = Some l' /\ lle l l';
  le_I : forall b, gM G b <> None -> gI G' b = gI G b;
  le_C : forall b x, gC G b = Some x -> gC G' b = Some x;
  le_P : forall p, ble_ (gP G p) (gP G' p);
  le_A : forall p b a, gA G p b = Some a -> exists a', gA G' p b = Some a' /\ ale a a';
  le_F : forall p b, bal_lt b (gP G p) -> gA G' p b = gA G p b
}.

Lemma ale_refl a : ale a a.
Proof. unfold ale. destruct (snd a); auto. Qed.
Lemma ale_trans a b c : ale a b -> ale b c -> ale a c.
Proof. unfold ale. intros [H|[H H1]] [H'|[H' H1']]; auto; try congruence. right. split; auto. lia. Qed.

Lemma gle_refl G : gle G G.
Proof.
  constructor; eauto using lle_refl, ale_refl, ble_refl_.
Qed.
Lemma gle_trans G1 G2 G3 : gle G1 G2 -> gle G2 G3 -> gle G1 G3.
Proof.
  intros [A1 A2 A3 A4 A5 A6] [B1 B2 B3 B4 B5 B6]. constructor.
  - intros b l H. destruct (A1 _ _ H) as [l' [H' L]]. destruct (B1 _ _ H') as [l'' [H'' L']]. eauto using lle_trans.
  - intros b H. rewrite B2; [auto|]. destruct (gM G1 b) eqn:Hm; [|congruence]. destruct (A1 _ _ Hm) as [? [-> _]]. discriminate.
  - eauto.
  - eauto using ble_trans.
  - intros p b a H. destruct (A5 _ _ _ H) as [a' [H' L]]. destruct (B5 _ _ _ H') as [a'' [H'' L']]. eauto using ale_trans.
  - intros p b H. rewrite B6, A6; auto. eapply lt_ble_trans; eauto.
Qed.

Lemma gle_acov G G' p b k : gle G G' -> acov G p b k -> acov G' p b k.
Proof.
  intros H. unfold acov. destruct (gA G p b) as [[c ss]|] eqn:Ha; [|tauto].
  destruct (le_A _ _ H _ _ _ Ha) as [[c' ss'] [-> L]]. unfold ale in L. cbn in L. intuition; try lia; subst; auto; discriminate.
Qed.
Lemma acov_le G p b k k' : k' <= k -> acov G p b k -> acov G p b k'.
Proof. unfold acov. destruct (gA G p b) as [[c ss]|]; auto. intuition lia. Qed.

Context (cc : cluster_config).
Definition nds := cc_nodes cc.

(** Ballots of the configuration, and the default ballot. *)
Definition wfb (b : ballot) : Prop := b = bdef \/ (b_cfg b = cc_id cc /\ In (b_pid b) nds).

(** Index [k] was reached by a write quorum in ballot [b]. *)
Definition chosen (G : ghost) (b : ballot) (k : nat) : Prop :=
  exists W p, NoDup W /\ incl W nds /\ In p nds /\
    is_accept_quorum (quorum_of cc p) (length W) = true /\ forall q, In q W -> acov G q b k.

(** The evidence with which the leader of [b'] was established. *)
Definition est (G : ghost) (b' : ballot) : Prop :=
  exists R p bm lm, NoDup R /\ incl R nds /\ In p nds /\
    is_prepare_quorum (quorum_of cc p) (length R) = true /\
    bal_lt bm b' /\ gM G bm = Some lm /\
    (forall q, In q R -> ble_ b' (gP G q) /\
       (forall b, bal_lt bm b -> bal_lt b b' -> gA G q b = None) /\
       (forall k, acov G q bm k -> agree k lm (gI G b'))) /\
    (forall k, ecov (gI G bm) k -> agree k (gI G bm) (gI G b')).

(** A decided index [d] known to a server that accepted in round [a]. *)
Definition decok (G : ghost) (a : ballot) (d : nat) : Prop :=
  d = 0 \/ exists b, ble_ b a /\ chosen G b d.

(** The server [q] promised [n]; before, it accepted up to [ac] in the round [na]. *)
Definition pf (G : ghost) (n : ballot) (q : node_id) (na : ballot) (ac : nat) : Prop :=
  ble_ n (gP G q) /\ bal_lt na n /\ In q nds /\
  exists c ss l, gA G q na = Some (c, ss) /\ gM G na = Some l /\
    (if ss then ll_ss l <> None /\ len l < ac else ac = c) /\
    forall b, bal_lt na b -> bal_lt b n -> gA G q b = None.

Record GInv (G : ghost) : Prop := {
  g_bM : gM G bdef = Some ll0;
  g_bI : gI G bdef = ll0;
  g_bA : forall p, gA G p bdef = Some (0, false);
  g_wM : forall b, gM G b <> None -> wfb b;
  g_wA : forall p b, gA G p b <> None -> b = bdef \/ In p nds;
  g_wP : forall p, wfb (gP G p);
  g_wC : forall b, gC G b <> None -> b_cfg b = cc_id cc /\ In (b_pid b) nds;
  g_acc : forall p b c ss, gA G p b = Some (c, ss) ->
            ble_ b (gP G p) /\ exists l, gM G b = Some l /\ (if ss then ll_ss l <> None else c <= len l);
  g_init : forall p b k, gA G p b <> None -> ecov (gI G b) k -> acov G p b k;
  g_est : forall b, gM G b <> None -> b <> bdef -> est G b /\ gC G b <> None;
  g_le : forall b l, gM G b = Some l -> lle (gI G b) l;
  g_cand : forall b na ac d, gC G b = Some (na, ac, d) ->
             pf G b (b_pid b) na ac /\ decok G na d /\ acov G (b_pid b) na d
}.

Lemma chosen_le G b k k' : k' <= k -> chosen G b k -> chosen G b k'.
Proof. intros H (W & p & ? & ? & ? & ? & HW). exists W, p. repeat (split; auto). intros q Hq. eapply acov_le; eauto. Qed.
Lemma chosen_gle G G' b k : gle G G' -> chosen G b k -> chosen G' b k.
Proof. intros H (W & p & ? & ? & ? & ? & HW). exists W, p. repeat (split; auto). intros q Hq. eapply gle_acov; eauto. Qed.

Lemma est_gle G G' b : gle G G' -> gM G b <> None -> est G b -> est G' b.
Proof.
  intros H Hb (R & p & bm & lm & HR & HI & Hp & Hq & Hlt & Hm & HF & Hi).
  destruct (le_M _ _ H _ _ Hm) as [lm' [Hm' Hl]].
  exists R, p, bm, lm'. repeat (split; [assumption|]). split.
  - intros q Hin. destruct (HF q Hin) as [H1 [H2 H3]]. split; [|split].
    + eapply ble_trans; [exact H1|]. apply (le_P _ _ H).
    + intros b0 Hb1 Hb2. rewrite (le_F _ _ H); auto. eapply lt_ble_trans; eauto.
    + intros k Hk. rewrite (le_I _ _ H) by auto. eapply agree_mono; [exact Hl|apply lle_refl|].
      apply H3. unfold acov in *. rewrite (le_F _ _ H) in Hk; auto. eapply lt_ble_trans; eauto.
  - intros k. rewrite !(le_I _ _ H); auto. congruence.
Qed.

Lemma wfb_eq a b : ~ In 0 nds -> wfb a -> wfb b -> bal_same a b -> a = b.
Proof.
  intros H0 Ha Hb [H1 [H2 H3]]. destruct Ha as [->|[Ha1 Ha2]], Hb as [->|[Hb1 Hb2]]; auto.
  - exfalso. apply H0. rewrite <- H3 in Hb2. exact Hb2.
  - exfalso. apply H0. rewrite H3 in Ha2. exact Ha2.
  - destruct a, b; cbn in *. congruence.
Qed.
Lemma wfb_tri a b : ~ In 0 nds -> wfb a -> wfb b -> bal_lt a b \/ a = b \/ bal_lt b a.
Proof.
  intros H0 Ha Hb. pose proof (bcmp_spec a b) as H. destruct (bcmp a b); auto.
  right. left. apply wfb_eq; auto.
Qed.
Lemma wfb_le a b : ~ In 0 nds -> wfb a -> wfb b -> ~ bal_lt b a -> ble_ a b.
Proof. intros H0 Ha Hb H. destruct (wfb_tri a b H0 Ha Hb) as [|[->|]]; [left; auto|right; auto|tauto]. Qed.

Context (Hv : cluster_validate cc = true) (H0 : ~ In 0 nds).

Lemma acov_M G p b k : GInv G -> acov G p b k -> exists l, gM G b = Some l /\ ecov l k.
Proof.
  intros HG H. unfold acov in H. destruct (gA G p b) as [[c ss]|] eqn:Ha; [|tauto].
  destruct (g_acc _ HG _ _ _ _ Ha) as [_ [l [Hl Hc]]]. exists l. split; auto. unfold ecov.
  destruct ss; auto. destruct H; [left; lia|discriminate].
Qed.

Lemma quorum_nonempty_w (W : list node_id) p : is_accept_quorum (quorum_of cc p) (length W) = true -> exists q, In q W.
Proof.
  destruct W as [|q W]; [|intros; exists q; left; reflexivity].
  unfold quorum_of, quorum_with. pose proof Hv as Hv'. unfold cluster_validate in Hv'. destruct (cc_flex cc) as [f|]; cbn [is_accept_quorum fq_write length]; intros H.
  - apply andb_true_iff in Hv'. destruct Hv' as [_ Hv']. rewrite !andb_true_iff in Hv'. destruct Hv' as [[[_ _] [Hw _]] _].
    apply Nat.leb_le in H, Hw. lia.
  - apply Nat.leb_le in H. lia.
Qed.

Lemma chosen_M G b k : GInv G -> chosen G b k -> exists l, gM G b = Some l /\ ecov l k.
Proof.
  intros HG (W & p & _ & _ & _ & Hq & HW). destruct (quorum_nonempty_w _ _ Hq) as [q Hin].
  eapply acov_M; eauto.
Qed.

(** A later leader started with everything that was chosen before. *)
Theorem chosen_agree G : GInv G -> forall b' b k l,
  gM G b' <> None -> bal_lt b b' -> chosen G b k -> gM G b = Some l -> agree k l (gI G b').
Proof.
  intros HG b'. induction b' as [b' IH] using (well_founded_induction bal_lt_wf).
  intros b k l Hb' Hlt Hch Hl.
  assert (Hne : b' <> bdef).
  { intros ->. unfold bal_lt in Hlt. cbn in Hlt. lia. }
  destruct (g_est _ HG _ Hb' Hne) as [(R & p & bm & lm & HR & HI & Hp & Hq & Hbm & Hlm & HF & Hi) _].
  destruct Hch as (W & p' & HW & HWI & Hp' & Hq' & HWc).
  destruct (quorum_overlap cc p p' R W Hv Hp Hp' HR HW HI HWI Hq Hq') as [q [HqR HqW]].
  destruct (HF q HqR) as [_ [Hno Hag]]. pose proof (HWc q HqW) as Hac.
  assert (Hw : wfb b) by (apply (g_wM _ HG); congruence).
  assert (Hwm : wfb bm) by (apply (g_wM _ HG); congruence).
  destruct (wfb_tri b bm H0 Hw Hwm) as [Hlt'|[->|Hgt]].
  - assert (A : agree k l (gI G bm)).
    { apply (IH bm Hbm b k l); auto; [congruence|]. exists W, p'. auto. }
    eapply agree_trans; [exact A|]. apply Hi. eapply agree_ecov_r; eauto.
  - assert (lm = l) by congruence. subst lm. apply Hag. exact Hac.
  - exfalso. unfold acov in Hac. rewrite (Hno b Hgt Hlt) in Hac. exact Hac.
Qed.

Corollary chosen_agree_M G b b' k l l' : GInv G -> ble_ b b' ->
  chosen G b k -> gM G b = Some l -> gM G b' = Some l' -> agree k l l'.
Proof.
  intros HG [Hlt| ->] Hch Hl Hl'.
  - eapply agree_mono; [apply lle_refl|apply (g_le _ HG _ _ Hl')|]. eapply chosen_agree; eauto. congruence.
  - assert (l = l') by congruence. subst. apply agree_refl. destruct (chosen_M _ _ _ HG Hch) as [l2 [? ?]]. congruence.
Qed.

(** Any two chosen indexes are about the same log. *)
Corollary chosen_chosen G b b' k k' l l' : GInv G ->
  chosen G b k -> chosen G b' k' -> gM G b = Some l -> gM G b' = Some l' ->
  agree (Nat.min k k') l l'.
Proof.
  intros HG Hc Hc' Hl Hl'.
  assert (Hw : wfb b) by (apply (g_wM _ HG); congruence).
  assert (Hw' : wfb b') by (apply (g_wM _ HG); congruence).
  destruct (wfb_tri b b' H0 Hw Hw') as [H|[H|H]].
  - eapply agree_le; [apply Nat.le_min_l|]. apply (chosen_agree_M G b b' k l l'); auto. left; auto.
  - eapply agree_le; [apply Nat.le_min_l|]. apply (chosen_agree_M G b b' k l l'); auto. right; auto.
  - eapply agree_le; [apply Nat.le_min_r|]. apply agree_sym. apply (chosen_agree_M G b' b k' l' l); auto. left; auto.
Qed.

(** ** Derived predicates used in the invariants *)

(** An index that may be trimmed without keeping a snapshot. *)
Definition trimok (G : ghost) (k : nat) : Prop :=
  k = 0 \/ exists b b', ble_ b' b /\ chosen G b' k /\ forall q, In q nds -> acov G q b k.

(** Whatever round up to [m] the server [F] has accepted in when it uses it: its log
    reaches to [v] and is below [v] the same as the log of [m]. *)
Definition base (G : ghost) (F : node_id) (m : ballot) (v : nat) : Prop :=
  v = 0 \/ acov G F m v \/
  (exists a la, bal_lt a m /\ ble_ m (gP G F) /\ gM G a = Some la /\ acov G F a v /\ gM G m <> None /\
     (forall b, bal_lt a b -> bal_lt b m -> gA G F b = None) /\ agree v la (gI G m)) \/
  (exists b a, ble_ b a /\ ble_ a m /\ chosen G b v /\ acov G F a v).

(** The log synchronisation [sy] for the server [F] describes the log of [m] cut to
    [c] entries (or closed by the stop sign). *)
Definition syncok (G : ghost) (F : node_id) (m : ballot) (sy : log_sync) (c : nat) (ss : bool) : Prop :=
  exists l, gM G m = Some l /\
    (forall j e, nth_error (sy_suffix sy) j = Some e -> at_ l (sy_idx sy + j) = Some (Ent e)) /\
    match sy_ss sy with
    | None => ss = false /\ sy_idx sy + length (sy_suffix sy) = c /\ c <= len l
    | Some s => ss = true /\ forall i, sy_idx sy + length (sy_suffix sy) <= i -> at_ l i = Some (Stop s)
    end /\
    (sy_snap sy = None -> base G F m (sy_idx sy)).

Lemma decok_gle G G' a d : gle G G' -> decok G a d -> decok G' a d.
Proof. intros H [?|[b [? ?]]]; [left; auto|right; eauto using chosen_gle]. Qed.
Lemma decok_le G a a' d : ble_ a a' -> decok G a d -> decok G a' d.
Proof. intros H [?|[b [? ?]]]; [left; auto|right; eauto using ble_trans]. Qed.
Lemma decok_idx G a d d' : d' <= d -> decok G a d -> decok G a d'.
Proof. intros H [?|[b [? ?]]]; [left; lia|right; eauto using chosen_le]. Qed.
Lemma trimok_gle G G' k : gle G G' -> trimok G k -> trimok G' k.
Proof. intros H [?|(b & b' & ? & ? & ?)]; [left; auto|right; exists b, b'; split; [assumption|split; [eapply chosen_gle; eauto|intros; eapply gle_acov; eauto]]]. Qed.
Lemma trimok_le G k k' : k' <= k -> trimok G k -> trimok G k'.
Proof. intros H [?|(b & b' & ? & ? & ?)]; [left; lia|right; exists b, b'; split; [assumption|split; [eapply chosen_le; eauto|intros; eapply acov_le; eauto]]]. Qed.
Lemma base_gle G G' F m v : gle G G' -> base G F m v -> base G' F m v.
Proof.
  intros H [?|[?|[(a & la & H1 & H2 & H3 & H4 & H5 & H6 & H7)|(b & a & ? & ? & ? & ?)]]].
  - left; auto.
  - right; left. eauto using gle_acov.
  - right; right; left. destruct (le_M _ _ H _ _ H3) as [la' [H3' L]].
    exists a, la'. split; [exact H1|]. split; [eapply ble_trans; [exact H2|apply (le_P _ _ H)]|].
    split; [exact H3'|]. split; [eapply gle_acov; eauto|]. split; [|split].
    + destruct (gM G m) eqn:Hm; [|congruence]. destruct (le_M _ _ H _ _ Hm) as [? [-> _]]. discriminate.
    + intros b Hb1 Hb2. rewrite (le_F _ _ H); auto. eapply lt_ble_trans; eauto.
    + rewrite (le_I _ _ H) by auto. eapply agree_mono; [exact L|apply lle_refl|auto].
  - right; right; right. exists b, a. split; [assumption|]. split; [assumption|].
    split; [eapply chosen_gle; eauto|eapply gle_acov; eauto].
Qed.
Lemma syncok_gle G G' F m sy c ss : gle G G' -> syncok G F m sy c ss -> syncok G' F m sy c ss.
Proof.
  intros H (l & Hl & H1 & H2 & H3). destruct (le_M _ _ H _ _ Hl) as [l' [Hl' L]].
  exists l'. split; auto. split; [eauto using lle_at|]. split; [|eauto using base_gle].
  destruct (sy_ss sy) as [s|].
  - destruct H2 as [? H2]. split; auto. intros i Hi. eapply lle_at; eauto.
  - destruct H2 as [? [? ?]]. repeat split; auto. pose proof (lle_len _ _ L). lia.
Qed.
Lemma pf_gle G G' n q na ac : gle G G' -> pf G n q na ac -> pf G' n q na ac.
Proof.
  intros H (H1 & H2 & H3 & c & ss & l & Ha & Hl & Hs & Hn). destruct (le_M _ _ H _ _ Hl) as [l' [Hl' L]].
  split; [eapply ble_trans; eauto; apply (le_P _ _ H)|]. split; auto. split; auto.
  exists c, ss, l'. split; [rewrite (le_F _ _ H); auto; eapply lt_ble_trans; eauto|]. split; auto. split.
  - destruct ss; auto. destruct Hs as [Hs Hs']. rewrite <- (lle_ss _ _ L Hs). auto.
  - intros b Hb1 Hb2. rewrite (le_F _ _ H); auto. eapply lt_ble_trans; eauto.
Qed.

(** Use of [base]: the server accepted in [a], nothing later. *)
Lemma base_use G F m v a la : GInv G -> base G F m v -> gM G a = Some la -> ble_ a m ->
  (forall b, gA G F b <> None -> ble_ b a) -> gA G F a <> None ->
  gM G m <> None ->
  acov G F a v /\ forall lm, gM G m = Some lm -> agree v la lm.
Proof.
  intros HG HB Hla Ham Hmax Hja Hm.
  destruct HB as [->|[Hac|[(a0 & l0 & H1 & H2 & H3 & H4 & H5 & H6 & H7)|(b & a0 & Hb1 & Hb2 & Hch & Hac)]]].
  - split; [|intros lm _ i Hi; lia]. unfold acov. destruct (gA G F a) as [[c ss]|]; [left; lia|congruence].
  - assert (a = m). { apply ble_antisym; auto. apply Hmax. unfold acov in Hac. destruct (gA G F m); [discriminate|tauto]. }
    subst m. split; auto. intros lm Hlm. assert (la = lm) by congruence. subst. apply agree_refl.
    destruct (acov_M _ _ _ _ HG Hac) as [l2 [? ?]]. congruence.
  - assert (Ha0 : ble_ a0 a). { apply Hmax. unfold acov in H4. destruct (gA G F a0); [discriminate|tauto]. }
    destruct Ha0 as [Ha0| ->].
    + destruct Ham as [Ham| ->].
      * exfalso. apply Hja. auto.
      * (* joined m *)
        assert (Hac : acov G F m v).
        { apply (g_init _ HG); auto. eapply agree_ecov_r; eauto. }
        split; auto. intros lm Hlm. assert (la = lm) by congruence. subst. apply agree_refl.
        destruct (acov_M _ _ _ _ HG Hac) as [l2 [? ?]]. congruence.
    + split; auto. intros lm Hlm. assert (la = l0) by congruence. subst.
      eapply agree_mono; [apply lle_refl|apply (g_le _ HG _ _ Hlm)|auto].
  - assert (Haa : ble_ a0 a). { apply Hmax. unfold acov in Hac. destruct (gA G F a0); [discriminate|tauto]. }
    assert (Hba : ble_ b a) by eauto using ble_trans.
    destruct (chosen_M _ _ _ HG Hch) as [lb [Hlb _]].
    assert (Hag : agree v lb la) by (eapply chosen_agree_M; eauto).
    split.
    + destruct Hba as [Hba| ->].
      * apply (g_init _ HG); auto. eapply agree_ecov_r. eapply chosen_agree; eauto. congruence.
      * assert (a = a0) by (apply ble_antisym; auto). subst. auto.
    + intros lm Hlm. eapply agree_trans; [apply agree_sym; exact Hag|]. eapply (chosen_agree_M G b m); eauto.
      eapply ble_trans; eauto.
Qed.

End WithEntry.
