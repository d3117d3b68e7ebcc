(** * Rounds of heartbeats over a fixed set of links: the argument on ballots, views and flags *)
From Coq Require Import List Arith Bool Lia.
Import ListNotations.
From Verif Require Import Types Basics Ble Converge.

Lemma meet (Q a b : list node_id) : NoDup a -> NoDup b -> incl a Q -> incl b Q -> length Q < length a + length b -> exists x, In x a /\ In x b.
Proof.
  intros Na Nb Ia Ib Hl. destruct (existsb (fun x => if in_dec Nat.eq_dec x b then true else false) a) eqn:E.
  - apply existsb_exists in E. destruct E as (x & X1 & X2). destruct (in_dec Nat.eq_dec x b); [eauto|discriminate].
  - exfalso. assert (D : forall x, In x a -> ~ In x b).
    { intros x X1 X2. enough (X : false = true) by discriminate. rewrite <- E. apply existsb_exists. exists x. split; auto. destruct (in_dec Nat.eq_dec x b); auto. }
    assert (N : NoDup (a ++ b)).
    { clear - Na Nb D. induction a as [|x l IH]; [exact Nb|]. cbn. inversion Na; subst. constructor.
      - rewrite in_app_iff. intros [X|X]; [contradiction|]. apply (D x (or_introl eq_refl) X).
      - apply IH; auto. intros y Hy. apply D. right; auto. }
    assert (L : length (a ++ b) <= length Q). { apply NoDup_incl_length; auto. intros x Hx. apply in_app_iff in Hx. destruct Hx; auto. }
    rewrite app_length in L. lia.
Qed.

Lemma first_or (P : nat -> Prop) : (forall t, P t \/ ~ P t) -> forall s K, (exists k, k < K /\ P (s + k) /\ forall j, j < k -> ~ P (s + j)) \/ (forall k, k < K -> ~ P (s + k)).
Proof.
  intros D s K. induction K as [|K IH]; [right; intros k Hk; lia|]. destruct IH as [(k & H1 & H2 & H3)|IH]; [left; exists k; auto|]. destruct (D (s + K)) as [X|X].
  - left. exists K. auto.
  - right. intros k Hk. destruct (Nat.eq_dec k K) as [->|]; auto. apply IH. lia.
Qed.

Section Rounds.
(** The servers [Q], whom each of them hears, their ballots, views and flags after each election timeout; [thr] many are a quorum. *)
Context (Q : list node_id) (nb : node_id -> list node_id) (B V : nat -> node_id -> ballot) (H : nat -> node_id -> bool) (thr cfg : nat).
Context (Hnd : forall q, In q Q -> NoDup (nb q)) (Hnb : forall q c, In q Q -> In c (nb q) -> In c Q /\ c <> q /\ In q (nb c)).
Context (Hmaj : length Q < thr + thr) (h : node_id) (Hh : In h Q) (Hhq : thr <= length (nb h) + 1).

Definition foll (t : nat) (q : node_id) (x : ballot) : nat := length (filter (fun c => ble (V t c) x) (nb q)) + 1.

(** One election timeout of [q] after it has heard its neighbours. *)
Definition step_of (t : nat) (q : node_id) : Prop :=
  exists v1 h1,
    bal_le (V t q) v1 /\ (forall c, In c (nb q) -> bal_le (B t c) v1) /\ (v1 = V t q \/ exists c, In c (nb q) /\ v1 = B t c) /\
    (h1 = true <-> (v1 = B t q /\ (thr <= foll t q (B t q) \/ exists c, In c (nb q) /\ bal_lt (B t q) (V t c) /\ H t c = true))
                   \/ (v1 <> B t q /\ exists c, In c (nb q) /\ B t c = v1 /\ H t c = true)) /\
    ((h1 = false /\ (forall c, In c (nb q) -> H t c = false) /\ thr <= length (nb q) + 1 /\ B (t + 1) q = set_n (B t q) (b_n v1 + 1) /\ V (t + 1) q = B (t + 1) q /\ H (t + 1) q = true) \/
     ((h1 = true \/ (exists c, In c (nb q) /\ H t c = true) \/ length (nb q) + 1 < thr) /\ B (t + 1) q = B t q /\ V (t + 1) q = v1 /\ H (t + 1) q = h1)).
Context (Htr : forall t q, In q Q -> step_of t q).

Definition inv (t : nat) : Prop := forall q, In q Q -> b_pid (B t q) = q /\ b_cfg (B t q) = cfg /\ b_cfg (V t q) = cfg /\ bal_le (B t q) (V t q).
Context (Hinv : inv 0).

Lemma inv_step t : inv t -> inv (t + 1).
Proof.
  intros I q Hq. destruct (I q Hq) as (I1 & I2 & I3 & I4). destruct (Htr t q Hq) as (v1 & h1 & A1 & A2 & A3 & A4 & A5).
  destruct A5 as [(_ & _ & _ & E1 & E2 & _)|(_ & E1 & E2 & _)].
  - rewrite E2, E1. cbn. repeat split; auto. apply le_refl.
  - rewrite E2, E1. split; auto. split; auto. split; [|eapply le_trans; eauto]. destruct A3 as [->|(c & Hc & ->)]; auto. apply I. apply (Hnb q c Hq Hc).
Qed.
Lemma inv_all t : inv t.
Proof. induction t as [|t IH]; [exact Hinv|]. rewrite <- Nat.add_1_r. apply inv_step, IH. Qed.
Lemma cfgB t q : In q Q -> b_cfg (B t q) = cfg.
Proof. intros Hq. apply (inv_all t q Hq). Qed.
Lemma cfgV t q : In q Q -> b_cfg (V t q) = cfg.
Proof. intros Hq. apply (inv_all t q Hq). Qed.
Lemma pidB t q : In q Q -> b_pid (B t q) = q.
Proof. intros Hq. apply (inv_all t q Hq). Qed.
Lemma leBV t q : In q Q -> bal_le (B t q) (V t q).
Proof. intros Hq. apply (inv_all t q Hq). Qed.
Lemma bal_dec (a b : ballot) : a = b \/ a <> b.
Proof. destruct (beq a b) eqn:E; [left; apply beq_spec, E|right; intros ->; rewrite beq_refl in E; discriminate]. Qed.

(** [q] and those it hears. *)
Definition star (q : node_id) : list node_id := q :: nb q.
Lemma star_nd q : In q Q -> NoDup (star q).
Proof. intros Hq. constructor; auto. intros X. destruct (Hnb q q Hq X) as (_ & Y & _). congruence. Qed.
Lemma star_in q : In q Q -> incl (star q) Q.
Proof. intros Hq x [<-|Hx]; auto. apply (Hnb q x Hq Hx). Qed.

(** [q] takes over. *)
Definition over (t : nat) (q : node_id) : Prop := In q Q /\ B (t + 1) q <> B t q.
Lemma over_why t q : over t q -> exists v1, bal_le (V t q) v1 /\ (forall c, In c (nb q) -> H t c = false) /\ thr <= length (nb q) + 1 /\ B (t + 1) q = set_n (B t q) (b_n v1 + 1) /\ V (t + 1) q = B (t + 1) q /\ H (t + 1) q = true
  /\ (v1 = B t q -> foll t q (B t q) < thr).
Proof.
  intros [Hq Hne]. destruct (Htr t q Hq) as (v1 & h1 & A1 & A2 & A3 & A4 & A5). destruct A5 as [(E0 & E1 & E2 & E3 & E4 & E5)|(_ & E & _)]; [|contradiction].
  exists v1. split; auto. split; auto. split; auto. split; auto. split; auto. split; auto. intros X. destruct (Nat.le_gt_cases thr (foll t q (B t q))); auto. enough (h1 = true) by congruence. apply A4. left. auto.
Qed.
Lemma over_up t q : over t q -> b_n (V t q) < b_n (B (t + 1) q) /\ b_n (V t q) < b_n (V (t + 1) q).
Proof. intros O. destruct (over_why t q O) as (v1 & A1 & _ & _ & E1 & E2 & _). rewrite E2, E1. cbn. apply le_n_le in A1. lia. Qed.
Lemma not_over t q : In q Q -> ~ over t q -> exists v1 h1,
    bal_le (V t q) v1 /\ (forall c, In c (nb q) -> bal_le (B t c) v1) /\ (v1 = V t q \/ exists c, In c (nb q) /\ v1 = B t c) /\
    (h1 = true <-> (v1 = B t q /\ (thr <= foll t q (B t q) \/ exists c, In c (nb q) /\ bal_lt (B t q) (V t c) /\ H t c = true))
                   \/ (v1 <> B t q /\ exists c, In c (nb q) /\ B t c = v1 /\ H t c = true)) /\
    (h1 = true \/ (exists c, In c (nb q) /\ H t c = true) \/ length (nb q) + 1 < thr) /\ B (t + 1) q = B t q /\ V (t + 1) q = v1 /\ H (t + 1) q = h1.
Proof.
  intros Hq NO. destruct (Htr t q Hq) as (v1 & h1 & A1 & A2 & A3 & A4 & A5). exists v1, h1. destruct A5 as [(_ & _ & _ & E1 & _)|A5].
  - exfalso. apply NO. split; auto. intros X. rewrite X in E1. assert (Y : b_n (B t q) = b_n v1 + 1) by (rewrite E1; reflexivity). apply le_n_le in A1. pose proof (le_n_le _ _ (leBV t q Hq)). lia.
  - destruct A5 as (X1 & X2 & X3 & X4). repeat (split; [assumption|]). assumption.
Qed.
Lemma over_dec t q : over t q \/ ~ over t q.
Proof.
  destruct (in_dec Nat.eq_dec q Q) as [Hq|Hq]; [|right; intros [X _]; contradiction]. destruct (bal_dec (B (t + 1) q) (B t q)) as [E|E].
  - right. intros [_ X]. contradiction.
  - left. split; auto.
Qed.

(** [p] leads the quorum [F] of servers it hears. *)
Definition leads (t : nat) (p : node_id) (F : list node_id) : Prop :=
  In p Q /\ In p F /\ NoDup F /\ incl F (star p) /\ thr <= length F /\
  forall c, In c F -> V t c = B t p /\ H t c = true /\ forall d, In d (nb c) -> bal_le (B t d) (B t p).

Lemma foll_star t p F x : In p Q -> NoDup F -> In p F -> incl F (star p) -> (forall c, In c F -> ble (V t c) x = true) -> length F <= foll t p x.
Proof.
  intros Hp ND Hi HF HV. unfold foll. pose (G := p :: filter (fun c => ble (V t c) x) (nb p)). change (length F <= length (filter (fun c => ble (V t c) x) (nb p)) + 1).
  replace (length (filter (fun c => ble (V t c) x) (nb p)) + 1) with (length G) by (unfold G; cbn; lia). apply NoDup_incl_length; auto. intros c Hc. destruct (HF c Hc) as [<-|X]; [left; auto|right]. apply filter_In. split; auto.
Qed.

Lemma leads_quiet t p F : leads t p F -> forall q, ~ over t q.
Proof.
  intros (L1 & L2 & L3 & L4 & L5 & L6) q O. pose proof O as [Hq _]. destruct (over_why t q O) as (v1 & A1 & A2 & A3 & A4 & _ & _ & A5).
  assert (Iq : forall c, In c F -> In c Q) by (intros c Hc; apply (star_in p L1), L4; auto).
  destruct (meet Q F (star q) L3 (star_nd q Hq) Iq (star_in q Hq)) as (f & F1 & [<-|F2]); [unfold star; cbn; lia| |].
  - destruct (L4 q F1) as [<-|X].
    + destruct (Htr t p L1) as (v2 & h2 & C1 & C2 & C3 & C4 & C5). destruct (L6 p L2) as (V1 & V2 & V3). assert (E : v2 = B t p).
      { destruct C3 as [->|(c & Hc & ->)]; auto. apply le_antisym; [apply V3; exact Hc|]. rewrite <- V1. exact C1. }
      assert (h2 = true). { apply C4. left. split; auto. left. eapply Nat.le_trans; [exact L5|]. apply (foll_star t p F); auto. intros c Hc. destruct (L6 c Hc) as (-> & _). apply ble_le; [reflexivity|apply le_refl]. }
      destruct C5 as [(Y & _)|(_ & Y & _)]; [congruence|]. destruct O as [_ O]. contradiction.
    + destruct (Hnb p q L1 X) as (_ & _ & Y). specialize (A2 p Y). destruct (L6 p L2) as (_ & Z & _). congruence.
  - specialize (A2 f F2). destruct (L6 f F1) as (_ & Z & _). congruence.
Qed.
Lemma leads_step t p F : leads t p F -> leads (t + 1) p F /\ (forall q, In q Q -> B (t + 1) q = B t q).
Proof.
  intros L. pose proof (leads_quiet t p F L) as NO. destruct L as (L1 & L2 & L3 & L4 & L5 & L6).
  assert (BB : forall q, In q Q -> B (t + 1) q = B t q) by (intros q Hq; destruct (not_over t q Hq (NO q)) as (v1 & h1 & X); apply X).
  split; auto. split; auto. split; auto. split; auto. split; auto. split; auto. intros c Hc. pose proof (star_in p L1 c (L4 c Hc)) as Hq. destruct (L6 c Hc) as (C1 & C2 & C3). rewrite (BB p L1).
  destruct (not_over t c Hq (NO c)) as (v1 & h1 & A1 & A2 & A3 & A4 & A5 & A6 & A7 & A8).
  assert (E : v1 = B t p). { destruct A3 as [->|(d & Hd & ->)]; auto. apply le_antisym; [apply C3; exact Hd|]. rewrite <- C1. exact A1. }
  split; [congruence|]. split.
  - rewrite A8. apply A4. destruct (L4 c Hc) as [<-|X].
    + left. split; auto. left. eapply Nat.le_trans; [exact L5|]. apply (foll_star t p F); auto. intros d Hd. destruct (L6 d Hd) as (-> & _). apply ble_le; [reflexivity|apply le_refl].
    + right. destruct (Hnb p c L1 X) as (_ & Y & Z). split; [|exists p; split; auto; split; auto; apply (L6 p L2)]. intros W. apply Y. rewrite <- (pidB t c Hq), <- (pidB t p L1). congruence.
  - intros d Hd. rewrite BB; [apply C3; exact Hd|]. apply (Hnb c d Hq Hd).
Qed.
Lemma leads_stays t p F : leads t p F -> forall k, leads (t + k) p F /\ forall q, In q Q -> B (t + k) q = B t q.
Proof.
  intros L k. induction k as [|k (IH1 & IH2)]; [rewrite Nat.add_0_r; auto|]. destruct (leads_step _ _ _ IH1) as (X1 & X2). replace (t + S k) with (t + k + 1) by lia. split; auto. intros q Hq. rewrite X2; auto.
Qed.

(** A happy leader with a quorum of links and the greatest ballot. *)
Definition top (t : nat) (p : node_id) : Prop :=
  In p Q /\ thr <= length (nb p) + 1 /\ V t p = B t p /\ H t p = true /\ forall q, In q Q -> bal_le (V t q) (B t p).

Lemma top_step t p : top t p -> (forall c, In c (star p) -> ~ over t c) /\ B (t + 1) p = B t p /\ forall c, In c (star p) -> V (t + 1) c = B t p /\ H (t + 1) c = true.
Proof.
  intros (T1 & T2 & T3 & T4 & T5). assert (BT : forall q, In q Q -> bal_le (B t q) (B t p)) by (intros q Hq; eapply le_trans; [apply leBV; auto|auto]).
  assert (Fp : thr <= foll t p (B t p)). { unfold foll. rewrite filter_all; [exact T2|]. intros c Hc. destruct (Hnb p c T1 Hc) as (X & _). apply ble_le; [rewrite cfgV, cfgB; auto|auto]. }
  assert (NO : forall c, In c (star p) -> ~ over t c).
  { intros c [<-|Hc] O; destruct (over_why t _ O) as (v1 & A1 & A2 & A3 & A4 & A5 & A6 & A7).
    - destruct (Htr t p T1) as (v2 & h2 & C1 & C2 & C3 & C4 & C5). assert (E : v2 = B t p). { destruct C3 as [->|(c & Hc & ->)]; auto. apply le_antisym; [apply BT, (Hnb p c T1 Hc)|]. rewrite <- T3. exact C1. }
      assert (h2 = true) by (apply C4; left; auto). destruct C5 as [(Y & _)|(_ & Y & _)]; [congruence|]. destruct O as [_ O]. contradiction.
    - destruct (Hnb p c T1 Hc) as (_ & _ & Y). specialize (A2 p Y). congruence. }
  assert (BP : B (t + 1) p = B t p) by (destruct (not_over t p T1 (NO p (or_introl eq_refl))) as (v1 & h1 & X); apply X).
  split; auto. split; auto. intros c Hc. pose proof (star_in p T1 c Hc) as Hq. destruct (not_over t c Hq (NO c Hc)) as (v1 & h1 & A1 & A2 & A3 & A4 & A5 & A6 & A7 & A8).
  assert (LE : bal_le v1 (B t p)). { destruct A3 as [->|(d & Hd & ->)]; [auto|]. apply BT, (Hnb c d Hq Hd). }
  assert (E : v1 = B t p). { apply le_antisym; auto. destruct Hc as [<-|Hc]; [rewrite <- T3; exact A1|]. apply A2. apply (Hnb p c T1 Hc). }
  split; [congruence|]. rewrite A8. apply A4. destruct Hc as [<-|Hc]; [left; auto|right]. destruct (Hnb p c T1 Hc) as (_ & Y & Z). split; [|exists p; auto]. intros W. apply Y. rewrite <- (pidB t c Hq), <- (pidB t p T1). congruence.
Qed.

Lemma Q0 : Q <> [].
Proof. intros X. rewrite X in Hh. destruct Hh. Qed.
Lemma greatest_view t : exists p, In p Q /\ forall q, In q Q -> bal_le (V t q) (V t p).
Proof.
  assert (X : forall l, l <> [] -> incl l Q -> exists p, In p l /\ forall q, In q l -> bal_le (V t q) (V t p)).
  { induction l as [|q l IH]; [contradiction|]. intros _ HI. destruct l as [|q' l].
    - exists q. split; [left; auto|]. intros x [<-|[]]. apply le_refl.
    - destruct IH as (p & P1 & P2); [discriminate|intros x Hx; apply HI; right; auto|]. destruct (le_total (V t p) (V t q)) as [X|X].
      + rewrite !cfgV; auto; apply HI; [left; auto|right; auto].
      + exists q. split; [left; auto|]. intros x [<-|Hx]; [apply le_refl|]. left. eapply le_lt_trans; eauto.
      + exists p. split; [right; auto|]. intros x [<-|Hx]; auto. }
  destruct (X Q Q0 (fun x Hx => Hx)) as (p & P1 & P2). eauto.
Qed.
(** Without takeovers nobody sees anything new. *)
Lemma view_old t q : In q Q -> ~ over t q -> V (t + 1) q = V t q \/ exists c, In c (nb q) /\ V (t + 1) q = B t c.
Proof. intros Hq NO. destruct (not_over t q Hq NO) as (v1 & h1 & _ & _ & A3 & _ & _ & _ & A7 & _). rewrite A7. exact A3. Qed.
Lemma view_le t q x : In q Q -> ~ over t q -> (forall c, In c Q -> bal_le (V t c) x) -> bal_le (V (t + 1) q) x.
Proof.
  intros Hq NO HX. destruct (view_old t q Hq NO) as [->|(c & Hc & ->)]; auto. destruct (Hnb q c Hq Hc) as (Y & _). eapply le_trans; [apply leBV; auto|auto].
Qed.
Lemma leads_of_top t p : In p Q -> thr <= length (nb p) + 1 -> (forall q, In q Q -> bal_le (V t q) (B t p)) -> (forall c, In c (star p) -> V t c = B t p /\ H t c = true) -> leads t p (star p).
Proof.
  intros Hp Hl HT HS. split; auto. split; [left; auto|]. split; [apply star_nd; auto|]. split; [intros x Hx; exact Hx|]. split; [unfold star; cbn; lia|]. intros c Hc. destruct (HS c Hc) as [S1 S2]. split; auto. split; auto.
  intros d Hd. destruct (Hnb c d (star_in p Hp c Hc) Hd) as (Y & _). eapply le_trans; [apply leBV; auto|auto].
Qed.
(** If the greatest view at [t + 1] is new, it is the ballot of a server that has just taken over. *)
Lemma new_top t p x : In p Q -> (forall q, In q Q -> bal_le (V t q) x) -> (forall q, In q Q -> bal_le (V (t + 1) q) (V (t + 1) p)) -> bal_lt x (V (t + 1) p) -> over t p /\ top (t + 1) p.
Proof.
  intros Hp HX HM HL. destruct (over_dec t p) as [O|NO].
  - split; auto. destruct (over_why t p O) as (v1 & _ & _ & A3 & _ & A5 & A6 & _). split; auto. split; auto. split; auto. split; auto. rewrite <- A5. exact HM.
  - exfalso. apply (lt_irrefl x). eapply lt_le_trans; [exact HL|]. apply view_le; auto.
Qed.

Lemma top_leads t p : top t p -> exists k p' F, k <= 2 /\ leads (t + k) p' F.
Proof.
  intros T. destruct (top_step t p T) as (N1 & P1 & S1). destruct T as (T1 & T2 & T3 & T4 & T5). destruct (greatest_view (t + 1)) as (m & M1 & M2).
  destruct (le_total (B t p) (V (t + 1) m)) as [L|L]; [rewrite cfgB, cfgV; auto| |].
  - destruct (new_top t m (B t p) M1 T5 M2 L) as [O TM]. destruct (top_step (t + 1) m TM) as (N2 & P2 & S2). destruct TM as (U1 & U2 & U3 & U4 & U5).
    destruct (over_why t m O) as (vm & _ & Am & _). assert (Dm : ~ In p (star m)). { intros [X|X]; [|specialize (Am p X); congruence]. subst m. apply (N1 p); [left; auto|exact O]. }
    assert (NQ : forall q, ~ over (t + 1) q).
    { intros q Oq. pose proof Oq as [Hq _]. destruct (over_why _ q Oq) as (vq & _ & Aq & Lq & _). destruct (Nat.eq_dec q p) as [->|Np].
      - destruct (meet Q (star p) (star m) (star_nd p T1) (star_nd m M1) (star_in p T1) (star_in m M1)) as (f & [<-|F1] & F2); [unfold star; cbn; lia|contradiction|]. specialize (Aq f F1). destruct (S1 f (or_intror F1)). congruence.
      - destruct (meet Q (star p) (star q) (star_nd p T1) (star_nd q Hq) (star_in p T1) (star_in q Hq)) as (f & F1 & [<-|F2]); [unfold star; cbn; lia| |].
        + destruct F1 as [X|F1]; [congruence|]. destruct (Hnb p q T1 F1) as (_ & _ & Y). specialize (Aq p Y). destruct (S1 p (or_introl eq_refl)). congruence.
        + specialize (Aq f F2). destruct (S1 f F1). congruence. }
    exists 2, m, (star m). split; auto. replace (t + 2) with (t + 1 + 1) by lia. apply leads_of_top; auto; rewrite P2; auto. intros q Hq. apply view_le; auto.
  - exists 1, p, (star p). split; [lia|]. apply leads_of_top; auto; rewrite P1; auto. intros q Hq. eapply le_trans; [apply M2; auto|exact L].
Qed.

(** ** The numbers of the views *)
Definition upto (N t : nat) : Prop := forall q, In q Q -> b_n (V t q) <= N.
Local Notation vsum := (vsum Q V).

Lemma views_up t q : In q Q -> b_n (V t q) <= b_n (V (t + 1) q).
Proof.
  intros Hq. destruct (over_dec t q) as [O|NO]; [destruct (over_up t q O); lia|]. destruct (not_over t q Hq NO) as (v1 & h1 & A1 & _ & _ & _ & _ & _ & A7 & _). rewrite A7. apply le_n_le, A1.
Qed.
Lemma views_bound N t : upto N t -> (exists p, top (t + 1) p) \/ upto N (t + 1).
Proof.
  intros U. destruct (greatest_view t) as (w & W1 & W2). destruct (greatest_view (t + 1)) as (m & M1 & M2). destruct (le_total (V t w) (V (t + 1) m)) as [L|L]; [rewrite !cfgV; auto| |].
  - left. exists m. apply (new_top t m (V t w)); auto.
  - right. intros q Hq. specialize (U w W1). pose proof (le_n_le _ _ (M2 q Hq)). apply le_n_le in L. lia.
Qed.
Lemma takeover N t q : over t q -> upto N t -> (exists p, top (t + 1) p) \/ (upto N (t + 1) /\ vsum t < vsum (t + 1)).
Proof.
  intros O U. destruct (views_bound N t U) as [X|X]; auto. right. split; auto. apply (vsum_mono Q V); [intros x Hx; apply views_up; auto|]. exists q. split; [apply O|]. apply over_up. exact O.
Qed.

(** ** As long as nobody takes over *)
Section Quiet.
Context (s K : nat) (Hq0 : forall k q, k < K -> In q Q -> ~ over (s + k) q).

Lemma quiet_B k q : k <= K -> In q Q -> B (s + k) q = B s q.
Proof.
  induction k as [|k IH]; intros Hk Hq; [rewrite Nat.add_0_r; reflexivity|]. rewrite <- IH by (auto; lia). replace (s + S k) with (s + k + 1) by lia.
  destruct (bal_dec (B (s + k + 1) q) (B (s + k) q)) as [E|E]; auto. exfalso. apply (Hq0 k q); auto. split; auto.
Qed.
Lemma quiet_step k q : k < K -> In q Q -> exists v1 h1,
    bal_le (V (s + k) q) v1 /\ (forall c, In c (nb q) -> bal_le (B s c) v1) /\ (v1 = V (s + k) q \/ exists c, In c (nb q) /\ v1 = B s c) /\
    (h1 = true <-> (v1 = B s q /\ (thr <= foll (s + k) q (B s q) \/ exists c, In c (nb q) /\ bal_lt (B s q) (V (s + k) c) /\ H (s + k) c = true))
                   \/ (v1 <> B s q /\ exists c, In c (nb q) /\ B s c = v1 /\ H (s + k) c = true)) /\
    (h1 = true \/ (exists c, In c (nb q) /\ H (s + k) c = true) \/ length (nb q) + 1 < thr) /\ V (s + k + 1) q = v1 /\ H (s + k + 1) q = h1.
Proof.
  intros Hk Hq. destruct (not_over (s + k) q Hq (Hq0 k q Hk Hq)) as (v1 & h1 & A1 & A2 & A3 & A4 & A5 & A6 & A7 & A8). exists v1, h1.
  assert (E : forall c, In c Q -> B (s + k) c = B s c) by (intros c Hc; apply quiet_B; auto; lia).
  assert (EN : forall c, In c (nb q) -> B (s + k) c = B s c) by (intros c Hc; apply E, (Hnb q c Hq Hc)).
  split; auto. split; [intros c Hc; rewrite <- EN; auto|]. split; [destruct A3 as [X|(c & Hc & X)]; [left; exact X|right; exists c; rewrite <- EN; auto]|]. split; [|auto].
  rewrite A4, (E q Hq). split; (intros [X|(X & c & X1 & X2 & X3)]; [left; exact X|right; split; auto; exists c; (rewrite (EN c) in * by auto); auto]).
Qed.
(** After one round the views stay. *)
Lemma quiet_V k q : 1 <= k <= K -> In q Q -> V (s + k) q = V (s + 1) q /\ forall c, In c (star q) -> bal_le (B s c) (V (s + 1) q).
Proof.
  intros Hk Hq. assert (B1 : forall c, In c (star q) -> bal_le (B s c) (V (s + 1) q)).
  { intros c Hc. destruct (quiet_step 0 q) as (v1 & h1 & A1 & A2 & _ & _ & _ & A5 & _); [lia|auto|]. rewrite Nat.add_0_r in A1, A5. rewrite A5. destruct Hc as [<-|Hc]; [|auto]. eapply le_trans; [|exact A1]. apply leBV; auto. }
  split; auto. destruct Hk as [Hk1 Hk2]. induction k as [|k IH]; [lia|]. destruct k as [|k]; [reflexivity|]. rewrite <- IH by lia.
  destruct (quiet_step (S k) q) as (v1 & h1 & A1 & A2 & A3 & _ & _ & A5 & _); [lia|auto|]. replace (s + S (S k)) with (s + S k + 1) by lia. rewrite A5. destruct A3 as [X|(c & Hc & X)]; [exact X|].
  apply le_antisym; [|exact A1]. rewrite X, IH by lia. apply B1. right. exact Hc.
Qed.
Local Notation v q := (V (s + 1) q).
Lemma foll_const k q x : 1 <= k <= K -> In q Q -> foll (s + k) q x = foll (s + 1) q x.
Proof.
  intros Hk Hq. unfold foll. f_equal. apply Nat.le_antisymm; apply filter_le; intros c Hc E; destruct (quiet_V k c Hk (proj1 (Hnb q c Hq Hc))) as [X _]; congruence.
Qed.

(** A server that regards itself as leader and has a quorum leads after two more rounds. *)
Lemma quiet_leads q : 3 <= K -> In q Q -> v q = B s q -> thr <= foll (s + 1) q (B s q) -> exists F, leads (s + 3) q F.
Proof.
  intros Hk Hq E1 E2. exists (q :: filter (fun c => ble (v c) (B s q)) (nb q)).
  assert (HP : forall k, 1 <= k < K -> H (s + k + 1) q = true).
  { intros k Hkk. destruct (quiet_step k q) as (v1 & h1 & A1 & A2 & A3 & A4 & _ & A5 & A6); [lia|auto|]. assert (X : V (s + k + 1) q = v q) by (replace (s + k + 1) with (s + S k) by lia; apply quiet_V; auto; lia).
    rewrite A6. apply A4. left. split; [congruence|left; rewrite foll_const by (auto; lia); exact E2]. }
  assert (Y : forall c, In c Q -> B (s + 3) c = B s c) by (intros c Hc; apply quiet_B; auto; lia).
  assert (Z : forall c, In c Q -> V (s + 3) c = v c) by (intros c Hc; apply quiet_V; auto; lia).
  split; auto. split; [left; auto|]. split; [constructor; [rewrite filter_In; intros [X _]; destruct (Hnb q q Hq X) as (_ & W & _); congruence|apply NoDup_filter, Hnd, Hq]|].
  split; [intros x [<-|Hx]; [left; auto|right; apply filter_In in Hx; apply Hx]|]. split; [cbn; unfold foll in E2; lia|].
  intros c Hc. assert (Sc : In c (star q)) by (destruct Hc as [<-|Hc]; [left; auto|right; apply filter_In in Hc; apply Hc]). pose proof (star_in q Hq c Sc) as Qc.
  assert (Vc : v c = B s q).
  { destruct Hc as [<-|Hc]; auto. apply filter_In in Hc. destruct Hc as [C1 C2]. apply le_antisym; [apply ble_le in C2; auto; rewrite cfgV, cfgB; auto|]. apply (quiet_V 1 c); [lia|auto|]. right. apply (Hnb q c Hq C1). }
  rewrite Z, (Y q Hq) by auto. split; auto. split.
  - destruct (Nat.eq_dec c q) as [->|Nc]; [replace (s + 3) with (s + 2 + 1) by lia; apply HP; lia|].
    destruct (quiet_step 2 c) as (v1 & h1 & A1 & A2 & A3 & A4 & _ & A5 & A6); [lia|auto|]. replace (s + 3) with (s + 2 + 1) by lia. rewrite A6. apply A4. right.
    assert (W : v1 = B s q). { rewrite <- A5. replace (s + 2 + 1) with (s + 3) by lia. rewrite Z; auto. }
    split; [rewrite W; intros X; apply Nc; rewrite <- (pidB s c Qc), <- (pidB s q Hq); congruence|]. exists q. destruct Sc as [->|Sc]; [congruence|]. split; [apply (Hnb q c Hq Sc)|]. split; [auto|]. replace (s + 2) with (s + 1 + 1) by lia. apply HP. lia.
  - intros d Hd. rewrite Y by apply (Hnb c d Qc Hd). rewrite <- Vc. apply (quiet_V 1 c); [lia|auto|right; exact Hd].
Qed.

Context (NL : forall q, In q Q -> v q = B s q -> foll (s + 1) q (B s q) < thr).
(** Otherwise a flag is due to the flag of a server whose view is not smaller. *)
Lemma why k q : 1 <= k < K -> In q Q -> H (s + k + 1) q = true -> exists c, In c Q /\ H (s + k) c = true /\ ((v q = B s q /\ bal_lt (v q) (v c)) \/ (v q <> B s q /\ v q = B s c /\ bal_le (v q) (v c))).
Proof.
  intros Hk Hq E. destruct (quiet_step k q) as (v1 & h1 & A1 & A2 & A3 & A4 & _ & A5 & A6); [lia|auto|]. rewrite A6 in E. apply A4 in E.
  assert (X : v1 = v q). { rewrite <- A5. replace (s + k + 1) with (s + S k) by lia. apply quiet_V; auto. lia. }
  assert (Y : forall c, In c Q -> V (s + k) c = v c) by (intros c Hc; apply quiet_V; auto; lia).
  destruct E as [(E1 & [E2|(c & Hc & E2 & E3)])|(E1 & c & Hc & E2 & E3)].
  - rewrite foll_const in E2 by (auto; lia). rewrite X in E1. specialize (NL q Hq E1). lia.
  - destruct (Hnb q c Hq Hc) as (Qc & _). exists c. split; auto. split; auto. left. rewrite <- X. split; auto. rewrite E1, <- Y; auto.
  - destruct (Hnb q c Hq Hc) as (Qc & _). exists c. split; auto. split; auto. right. rewrite <- X. split; auto. split; [congruence|]. rewrite <- E2. apply (quiet_V 1 c); auto; [lia|left; auto].
Qed.
Lemma why2 k q : 1 <= k -> k + 1 < K -> In q Q -> H (s + k + 2) q = true -> exists c, In c Q /\ H (s + k) c = true /\ bal_lt (v q) (v c).
Proof.
  intros Hk1 Hk Hq E. destruct (why (k + 1) q) as (c & Hc & E1 & E2); [lia|auto|replace (s + (k + 1) + 1) with (s + k + 2) by lia; auto|].
  replace (s + (k + 1)) with (s + k + 1) in E1 by lia. destruct (why k c) as (d & Hd & E3 & E4); [lia|auto|auto|]. exists d. split; auto. split; auto.
  assert (LE : bal_le (v c) (v d)) by (destruct E4 as [[_ E4]|(_ & _ & E4)]; [left; exact E4|exact E4]).
  destruct E2 as [[_ E2]|(_ & E2 & E5)]; [eapply lt_le_trans; eauto|]. destruct E5 as [E5|E5]; [eapply lt_le_trans; eauto|].
  destruct E4 as [[_ E4]|(E4 & _)]; [rewrite E5; exact E4|congruence].
Qed.
Lemma flags k : 2 * k + 1 < K -> forall q, In q Q -> H (s + 1 + 2 * k) q = true -> k <= length (filter (fun c => blt (v q) (v c)) Q).
Proof.
  induction k as [|k IH]; intros Hk q Hq E; [lia|]. destruct (why2 (1 + 2 * k) q) as (c & Hc & E1 & E2); [lia|lia|auto|replace (s + (1 + 2 * k) + 2) with (s + 1 + 2 * S k) by lia; exact E|].
  specialize (IH ltac:(lia) c Hc). replace (s + (1 + 2 * k)) with (s + 1 + 2 * k) in E1 by lia. specialize (IH E1). eapply Nat.le_lt_trans; [exact IH|]. apply (filter_lt _ _ Q c); auto.
  - intros x X. apply blt_spec in X. apply blt_spec. eapply lt_trans; eauto.
  - apply blt_spec. exact E2.
  - destruct (blt (v c) (v c)) eqn:F; auto. apply blt_spec in F. destruct (lt_irrefl _ F).
Qed.
Lemma flags_gone : 2 * length Q + 1 < K -> forall q, In q Q -> H (s + 1 + 2 * length Q) q = false.
Proof.
  intros HK q Hq. destruct (H (s + 1 + 2 * length Q) q) eqn:E; auto. exfalso. pose proof (flags (length Q) HK q Hq E) as X.
  assert (Y : length (filter (fun c => blt (v q) (v c)) Q) < length (filter (fun _ => true) Q)).
  { apply (filter_lt _ _ Q q); auto. destruct (blt (v q) (v q)) eqn:F; auto. apply blt_spec in F. destruct (lt_irrefl _ F). }
  rewrite (filter_all (fun _ => true)) in Y by auto. lia.
Qed.
(** The server [h] with a quorum of links would then have taken over. *)
Lemma no_quiet : 2 * length Q + 2 < K -> False.
Proof.
  intros HK. pose proof (flags_gone ltac:(lia)) as F. destruct (quiet_step (1 + 2 * length Q) h) as (v1 & h1 & A1 & A2 & A3 & A4 & A5 & A6 & A7); [lia|exact Hh|]. rewrite Nat.add_assoc in *.
  destruct A5 as [->|[(c & Hc & X)|X]]; [|rewrite F in X by apply (Hnb h c Hh Hc); discriminate|lia].
  destruct (why (1 + 2 * length Q) h) as (c & Hc & X & _); [lia|exact Hh|rewrite Nat.add_assoc; exact A7|]. rewrite Nat.add_assoc, F in X by auto. discriminate.
Qed.
End Quiet.

Lemma some_over_dec t : (exists q, over t q) \/ ~ (exists q, over t q).
Proof.
  assert (X : forall l, (exists q, In q l /\ over t q) \/ ~ (exists q, In q l /\ over t q)).
  { induction l as [|c l [(q & IH1 & IH2)|IH]]; [right; intros (q & [] & _)|left; exists q; split; [right; auto|auto]|]. destruct (over_dec t c) as [X|X]; [left; exists c; split; [left; auto|auto]|].
    right. intros (q & [<-|Hq] & Y); [contradiction|]. apply IH. eauto. }
  destruct (X Q) as [(q & _ & Y)|Y]; [left; eauto|]. right. intros (q & Z). apply Y. exists q. split; auto. apply Z.
Qed.
Definition span := 2 * length Q + 3.

(** Within [span] rounds somebody leads or takes over. *)
Lemma progress s : (exists k p F, k <= span /\ leads (s + k) p F) \/ (exists k q, k < span /\ over (s + k) q /\ forall j c, j < k -> ~ over (s + j) c).
Proof.
  destruct (first_or (fun t => exists q, over t q) some_over_dec s span) as [(k & H1 & (q & H2) & H3)|HQ].
  { right. exists k, q. split; auto. split; auto. intros j c Hj X. apply (H3 j Hj). eauto. }
  left. assert (Hq : forall k q, k < span -> In q Q -> ~ over (s + k) q) by (intros k q Hk _ X; apply (HQ k Hk); eauto).
  assert (HD : (exists q, In q Q /\ V (s + 1) q = B s q /\ thr <= foll (s + 1) q (B s q)) \/ (forall q, In q Q -> V (s + 1) q = B s q -> foll (s + 1) q (B s q) < thr)).
  { assert (X : forall l, (exists q, In q l /\ V (s + 1) q = B s q /\ thr <= foll (s + 1) q (B s q)) \/ (forall q, In q l -> V (s + 1) q = B s q -> foll (s + 1) q (B s q) < thr)).
    { induction l as [|c l [(q & I1 & I2)|IH]]; [right; intros q []|left; exists q; split; [right; auto|auto]|]. destruct (bal_dec (V (s + 1) c) (B s c)) as [E1|E1]; [destruct (Nat.le_gt_cases thr (foll (s + 1) c (B s c))) as [E2|E2]|].
      - left. exists c. split; [left; auto|]. split; auto.
      - right. intros q [<-|Hq']; auto.
      - right. intros q [<-|Hq'] X; auto. contradiction. }
    apply X. }
  destruct HD as [(q & Hq1 & E1 & E2)|NL].
  - destruct (quiet_leads s span Hq q) as (F & L); auto; [unfold span; lia|]. exists 3, q, F. split; [unfold span; lia|exact L].
  - destruct (no_quiet s span Hq NL). unfold span; lia.
Qed.
Lemma upto_quiet N s k : upto N s -> (forall j c, j < k -> ~ over (s + j) c) -> upto N (s + k) /\ vsum s <= vsum (s + k).
Proof.
  intros U. induction k as [|k IH]; intros Hk; [rewrite Nat.add_0_r; auto|]. destruct IH as [I1 I2]; [intros j c Hj; apply Hk; lia|]. replace (s + S k) with (s + k + 1) by lia. split.
  - intros q Hq. destruct (view_old (s + k) q Hq (Hk k q ltac:(lia))) as [->|(c & Hc & ->)]; [auto|]. destruct (Hnb q c Hq Hc) as (Y & _). specialize (I1 c Y). pose proof (le_n_le _ _ (leBV (s + k) c Y)). lia.
  - eapply Nat.le_trans; [exact I2|]. apply (vsum_mono Q V). intros q Hq. apply views_up. exact Hq.
Qed.

Lemma reach_leads N : forall M s, upto N s -> length Q * N < vsum s + M -> exists k p F, k <= M * span + 2 /\ leads (s + k) p F.
Proof.
  induction M as [|M IH]; intros s U HM; [pose proof (vsum_le Q V N s U); lia|].
  destruct (progress s) as [(k & p & F & H1 & H2)|(k & q & H1 & H2 & H3)]; [exists k, p, F; split; auto; rewrite Nat.mul_succ_l; lia|].
  destruct (upto_quiet N s k U H3) as [U1 S1]. destruct (takeover N (s + k) q H2 U1) as [(p & L)|[U2 S2]].
  - destruct (top_leads _ _ L) as (j & p' & F & J1 & J2). exists (k + 1 + j), p', F. split; [rewrite Nat.mul_succ_l; lia|]. replace (s + (k + 1 + j)) with (s + k + 1 + j) by lia. exact J2.
  - destruct (IH (s + k + 1) U2) as (j & p & F & J1 & J2); [lia|]. exists (k + 1 + j), p, F. split; [rewrite Nat.mul_succ_l; lia|]. replace (s + (k + 1 + j)) with (s + k + 1 + j) by lia. exact J2.
Qed.
Lemma converge_links N : upto N 0 -> exists T p F, T <= (length Q * N + 1) * span + 2 /\ leads T p F.
Proof. intros U. destruct (reach_leads N (length Q * N + 1) 0 U) as (k & p & F & H1 & H2); [lia|]. exists k, p, F. auto. Qed.
End Rounds.
