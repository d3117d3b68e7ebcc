(** * Rounds of heartbeats in which everybody hears everybody: the argument on ballots, views and flags *)
From Coq Require Import List Arith Bool Lia.
Import ListNotations.
From Verif Require Import Types Basics Ble.

Definition bal_le (a b : ballot) : Prop := bal_lt a b \/ a = b.

Lemma lt_irrefl a : ~ bal_lt a a.
Proof. unfold bal_lt. lia. Qed.
Lemma lt_trans a b c : bal_lt a b -> bal_lt b c -> bal_lt a c.
Proof. unfold bal_lt. lia. Qed.
Lemma le_refl a : bal_le a a.
Proof. right. reflexivity. Qed.
Lemma lt_le_trans a b c : bal_lt a b -> bal_le b c -> bal_lt a c.
Proof. intros H [H2| ->]; [eapply lt_trans; eauto|exact H]. Qed.
Lemma le_lt_trans a b c : bal_le a b -> bal_lt b c -> bal_lt a c.
Proof. intros [H| ->] H2; [eapply lt_trans; eauto|exact H2]. Qed.
Lemma le_trans a b c : bal_le a b -> bal_le b c -> bal_le a c.
Proof. intros [H| ->] H2; [left; eapply lt_le_trans; eauto|exact H2]. Qed.
Lemma le_antisym a b : bal_le a b -> bal_le b a -> a = b.
Proof. intros [H|H] H2; [|exact H]. destruct (lt_irrefl a). eapply lt_le_trans; eauto. Qed.
Lemma le_n_le a b : bal_le a b -> b_n a <= b_n b.
Proof. intros [H| ->]; [unfold bal_lt in H; lia|lia]. Qed.
Lemma same_eq a b : b_cfg a = b_cfg b -> bal_same a b -> a = b.
Proof. destruct a, b. unfold bal_same. cbn. intros -> (-> & -> & ->). reflexivity. Qed.
Lemma ble_le a b : b_cfg a = b_cfg b -> ble a b = true <-> bal_le a b.
Proof.
  intros H. rewrite ble_spec. split.
  - intros [X|X]; [left; exact X|right; apply same_eq; auto].
  - intros [X| ->]; [left; exact X|right; unfold bal_same; auto].
Qed.
Lemma le_total a b : b_cfg a = b_cfg b -> bal_lt a b \/ bal_le b a.
Proof.
  intros H. pose proof (bcmp_spec a b) as X. destruct (bcmp a b); [right; right; symmetry; apply same_eq; auto|auto|right; left; exact X].
Qed.

Lemma filter_lt {A} (f g : A -> bool) (l : list A) c : (forall x, f x = true -> g x = true) -> In c l -> g c = true -> f c = false -> length (filter f l) < length (filter g l).
Proof.
  intros Hfg. assert (HLE : forall l, length (filter f l) <= length (filter g l)).
  { induction l0 as [|x l0 IH]; cbn; auto. destruct (f x) eqn:E1; [rewrite (Hfg x E1); cbn; lia|]. destruct (g x); cbn; lia. }
  induction l as [|x l IH]; cbn; [intros []|]. intros [->|Hc] Hg Hf.
  - rewrite Hg, Hf. cbn. specialize (HLE l). lia.
  - specialize (IH Hc Hg Hf). destruct (f x) eqn:E1; [rewrite (Hfg x E1); cbn; lia|]. destruct (g x); cbn; lia.
Qed.
Lemma filter_le {A} (f g : A -> bool) (l : list A) : (forall x, In x l -> f x = true -> g x = true) -> length (filter f l) <= length (filter g l).
Proof.
  induction l as [|x l IH]; cbn; intros H; auto. assert (length (filter f l) <= length (filter g l)) by (apply IH; auto). destruct (f x) eqn:E1; [rewrite (H x (or_introl eq_refl) E1); cbn; lia|]. destruct (g x); cbn; lia.
Qed.
Lemma filter_all {A} (f : A -> bool) (l : list A) : (forall x, In x l -> f x = true) -> length (filter f l) = length l.
Proof. induction l as [|x l IH]; cbn; intros H; auto. rewrite (H x) by auto. cbn. rewrite IH; auto. Qed.

Section Rounds.
(** The servers [Q], their ballots, views and flags after each election timeout; [thr] many are a quorum. *)
Context (Q : list node_id) (B V : nat -> node_id -> ballot) (H : nat -> node_id -> bool) (thr cfg : nat).
Context (Hthr : thr <= length Q) (H0 : Q <> []).

Definition followers (t : nat) (x : ballot) : nat := length (filter (fun c => ble (V t c) x) Q).

(** One election timeout of [q] after it has heard everybody. *)
Definition trans (t : nat) (q : node_id) : Prop :=
  exists v1 h1,
    bal_le (V t q) v1 /\ (forall c, In c Q -> c <> q -> bal_le (B t c) v1) /\ (v1 = V t q \/ exists c, In c Q /\ c <> q /\ v1 = B t c) /\
    (h1 = true <-> (v1 = B t q /\ (thr <= followers t (B t q) \/ exists c, In c Q /\ c <> q /\ bal_lt (B t q) (V t c) /\ H t c = true))
                   \/ (v1 <> B t q /\ exists c, In c Q /\ c <> q /\ B t c = v1 /\ H t c = true)) /\
    ((h1 = false /\ (forall c, In c Q -> c <> q -> H t c = false) /\ B (t + 1) q = set_n (B t q) (b_n v1 + 1) /\ V (t + 1) q = B (t + 1) q /\ H (t + 1) q = true) \/
     ((h1 = true \/ exists c, In c Q /\ c <> q /\ H t c = true) /\ B (t + 1) q = B t q /\ V (t + 1) q = v1 /\ H (t + 1) q = h1)).
Context (Htr : forall t q, In q Q -> trans t q).

Definition inv (t : nat) : Prop := forall q, In q Q -> b_pid (B t q) = q /\ b_cfg (B t q) = cfg /\ b_cfg (V t q) = cfg /\ bal_le (B t q) (V t q).
Context (Hinv : inv 0).

Lemma inv_step t : inv t -> inv (t + 1).
Proof.
  intros I q Hq. destruct (I q Hq) as (I1 & I2 & I3 & I4). destruct (Htr t q Hq) as (v1 & h1 & A1 & A2 & A3 & A4 & A5).
  destruct A5 as [(_ & _ & E1 & E2 & _)|(_ & E1 & E2 & _)].
  - rewrite E2, E1. cbn. repeat split; auto. apply le_refl.
  - rewrite E2, E1. split; auto. split; auto. split; [|eapply le_trans; eauto]. destruct A3 as [->|(c & Hc & _ & ->)]; auto. apply I. exact Hc.
Qed.
Lemma inv_all t : inv t.
Proof. induction t as [|t IH]; [exact Hinv|]. rewrite <- Nat.add_1_r. apply inv_step, IH. Qed.
Lemma cfgB t q : In q Q -> b_cfg (B t q) = cfg.
Proof. intros Hq. apply (inv_all t q Hq). Qed.
Lemma cfgV t q : In q Q -> b_cfg (V t q) = cfg.
Proof. intros Hq. apply (inv_all t q Hq). Qed.

(** [p] leads. *)
Definition lead (t : nat) (p : node_id) : Prop :=
  In p Q /\ V t p = B t p /\ H t p = true /\ (forall q, In q Q -> bal_le (B t q) (B t p)) /\ thr <= followers t (B t p).

Lemma lead_step t p : lead t p -> lead (t + 1) p /\ (forall q, In q Q -> B (t + 1) q = B t q) /\ (forall q, In q Q -> bal_le (V t q) (B t p) -> V (t + 1) q = B t p)
  /\ (forall q, In q Q -> q <> p -> V (t + 1) q <> B (t + 1) q).
Proof.
  intros (L1 & L2 & L3 & L4 & L5).
  assert (PB : B (t + 1) p = B t p /\ V (t + 1) p = B t p /\ H (t + 1) p = true).
  { destruct (Htr t p L1) as (v1 & h1 & A1 & A2 & A3 & A4 & A5). assert (E : v1 = B t p).
    { destruct A3 as [->|(c & Hc & _ & ->)]; auto. apply le_antisym; [apply L4; auto|]. rewrite <- L2. exact A1. }
    assert (h1 = true) by (apply A4; left; auto). destruct A5 as [(X & _)|(_ & E1 & E2 & E3)]; [congruence|]. subst. auto. }
  destruct PB as (P1 & P2 & P3).
  assert (QB : forall q, In q Q -> q <> p -> B (t + 1) q = B t q /\ (V (t + 1) q = V t q \/ exists c, In c Q /\ V (t + 1) q = B t c) /\ bal_le (B t p) (V (t + 1) q)).
  { intros q Hq Nq. destruct (Htr t q Hq) as (v1 & h1 & A1 & A2 & A3 & A4 & A5). destruct A5 as [(_ & X & _)|(_ & E1 & E2 & E3)]; [rewrite X in L3 by auto; discriminate|].
    split; auto. rewrite E2. split; [|auto]. destruct A3 as [X|(c & Hc & _ & X)]; [left; exact X|right; eauto]. }
  assert (BB : forall q, In q Q -> B (t + 1) q = B t q). { intros q Hq. destruct (Nat.eq_dec q p) as [->|Nq]; auto. apply QB; auto. }
  assert (VV : forall q, In q Q -> bal_le (V t q) (B t p) -> V (t + 1) q = B t p).
  { intros q Hq Hv. destruct (Nat.eq_dec q p) as [->|Nq]; auto. destruct (QB q Hq Nq) as (_ & X & Y). apply le_antisym; [|exact Y]. destruct X as [->|(c & Hc & ->)]; auto. }
  split; [|split; [exact BB|split; [exact VV|]]].
  - split; auto. split; [congruence|]. split; auto. split. { intros q Hq. rewrite !BB; auto. }
    eapply Nat.le_trans; [exact L5|]. unfold followers. rewrite P1. apply filter_le. intros q Hq X. apply ble_le in X; [|rewrite cfgB, cfgV; auto]. rewrite (VV q Hq X). apply ble_le; [reflexivity|apply le_refl].
  - intros q Hq Nq X. destruct (QB q Hq Nq) as (X1 & X2 & X3). rewrite X, X1 in X3. pose proof (le_antisym _ _ X3 (L4 q Hq)) as Y. destruct (inv_all t q Hq) as (Z & _). destruct (inv_all t p L1) as (Z2 & _). congruence.
Qed.
Lemma lead_stays t p : lead t p -> forall k, lead (t + k) p /\ forall q, In q Q -> B (t + k) q = B t q.
Proof.
  intros L k. induction k as [|k (IH1 & IH2)]; [rewrite Nat.add_0_r; auto|]. destruct (lead_step _ _ IH1) as (X1 & X2 & _). replace (t + S k) with (t + k + 1) by lia. split; auto. intros q Hq. rewrite X2; auto.
Qed.

(** The numbers of the views. *)
Definition upto (N t : nat) : Prop := forall q, In q Q -> b_n (V t q) <= N.
Definition vsum (t : nat) : nat := list_sum (map (fun q => b_n (V t q)) Q).
Lemma vsum_le N t : upto N t -> vsum t <= length Q * N.
Proof.
  unfold upto, vsum. clear. induction Q as [|q l IH]; intros U; cbn; auto. specialize (IH (fun x Hx => U x (or_intror Hx))). specialize (U q (or_introl eq_refl)). unfold list_sum in IH. lia.
Qed.
Lemma vsum_mono t t' : (forall q, In q Q -> b_n (V t q) <= b_n (V t' q)) -> vsum t <= vsum t' /\ ((exists q, In q Q /\ b_n (V t q) < b_n (V t' q)) -> vsum t < vsum t').
Proof.
  unfold vsum. clear. induction Q as [|q l IH]; intros U; cbn; [split; auto; intros (x & [] & _)|]. destruct (IH (fun x Hx => U x (or_intror Hx))) as [I1 I2]. pose proof (U q (or_introl eq_refl)). unfold list_sum in *. split; [lia|].
  intros (x & [<-|Hx] & Hlt); [lia|]. specialize (I2 (ex_intro _ x (conj Hx Hlt))). lia.
Qed.

(** Somebody takes over. *)
Definition over (t : nat) (q : node_id) : Prop := In q Q /\ B (t + 1) q <> B t q.

Lemma greatest t : exists p, In p Q /\ forall q, In q Q -> bal_le (B t q) (B t p).
Proof.
  assert (X : forall l, l <> [] -> incl l Q -> exists p, In p l /\ forall q, In q l -> bal_le (B t q) (B t p)).
  { induction l as [|q l IH]; [contradiction|]. intros _ HI. destruct l as [|q' l].
    - exists q. split; [left; auto|]. intros x [<-|[]]. apply le_refl.
    - destruct IH as (p & P1 & P2); [discriminate|intros x Hx; apply HI; right; auto|]. destruct (le_total (B t p) (B t q)) as [X|X].
      + rewrite !cfgB; auto; apply HI; [left; auto|right; auto].
      + exists q. split; [left; auto|]. intros x [<-|Hx]; [apply le_refl|]. left. eapply le_lt_trans; eauto.
      + exists p. split; [right; auto|]. intros x [<-|Hx]; auto. }
  destruct (X Q H0 (fun x Hx => Hx)) as (p & P1 & P2). eauto.
Qed.

Lemma all_unhappy t : (forall q, In q Q -> H t q = false) -> exists p, lead (t + 1) p.
Proof.
  intros HF. assert (X : forall q, In q Q -> V (t + 1) q = B (t + 1) q /\ H (t + 1) q = true).
  { intros q Hq. destruct (Htr t q Hq) as (v1 & h1 & A1 & A2 & A3 & A4 & A5). destruct A5 as [(_ & _ & _ & E1 & E2)|(E0 & E1 & E2 & E3)]; auto.
    destruct E0 as [->|(c & Hc & _ & X)]; [|rewrite HF in X by auto; discriminate]. split; auto. rewrite E2, E1. destruct (proj1 A4 eq_refl) as [[X _]|(_ & c & Hc & _ & _ & X)]; auto. rewrite HF in X by auto. discriminate. }
  destruct (greatest (t + 1)) as (p & P1 & P2). exists p. destruct (X p P1) as [X1 X2]. split; auto. split; auto. split; auto. split; auto.
  unfold followers. rewrite filter_all; auto. intros q Hq. rewrite (proj1 (X q Hq)). apply ble_le; [rewrite !cfgB; auto|auto].
Qed.

Lemma step_views N t q : In q Q -> upto N t -> ~ over t q -> b_n (V t q) <= b_n (V (t + 1) q) <= N.
Proof.
  intros Hq U NO. destruct (Htr t q Hq) as (v1 & h1 & A1 & A2 & A3 & A4 & A5). destruct A5 as [(_ & _ & E1 & E2 & _)|(_ & E1 & E2 & _)].
  - exfalso. apply NO. split; auto. intros X. rewrite X in E1. assert (Y : b_n (B t q) = b_n v1 + 1) by (rewrite E1; reflexivity). apply le_n_le in A1. destruct (inv_all t q Hq) as (_ & _ & _ & Z). apply le_n_le in Z. lia.
  - rewrite E2. split; [apply le_n_le; exact A1|]. destruct A3 as [->|(c & Hc & _ & ->)]; [auto|]. destruct (inv_all t c Hc) as (_ & _ & _ & Z). apply le_n_le in Z. specialize (U c Hc). lia.
Qed.

Lemma over_dec t q : over t q \/ ~ over t q.
Proof.
  destruct (in_dec Nat.eq_dec q Q) as [Hq|Hq]; [|right; intros [X _]; contradiction]. destruct (beq (B (t + 1) q) (B t q)) eqn:E.
  - right. intros [_ X]. apply X, beq_spec, E.
  - left. split; auto. intros X. rewrite X, beq_refl in E. discriminate.
Qed.

Lemma takeover N t q : over t q -> upto N t -> (exists p, lead (t + 1) p) \/ (upto N (t + 1) /\ vsum t < vsum (t + 1)).
Proof.
  intros [Hq Hne] U. destruct (Htr t q Hq) as (v1 & h1 & A1 & A2 & A3 & A4 & A5). destruct A5 as [(_ & Hun & E1 & E2 & E3)|(_ & E1 & _)]; [|contradiction].
  destruct (H t q) eqn:Hh.
  2:{ left. apply all_unhappy. intros c Hc. destruct (Nat.eq_dec c q) as [->|]; auto. }
  assert (NO : forall c, In c Q -> c <> q -> ~ over t c).
  { intros c Hc Nc [_ X]. destruct (Htr t c Hc) as (v2 & h2 & _ & _ & _ & _ & A6). destruct A6 as [(_ & X2 & _)|(_ & X1 & _)]; [|contradiction]. rewrite X2 in Hh; auto. discriminate. }
  assert (BL : forall c, In c Q -> bal_le (B (t + 1) c) (B (t + 1) q)).
  { intros c Hc. destruct (Nat.eq_dec c q) as [->|Nc]; [apply le_refl|]. replace (B (t + 1) c) with (B t c).
    - left. specialize (A2 c Hc Nc). apply le_n_le in A2. rewrite E1. unfold bal_lt. cbn. lia.
    - destruct (beq (B (t + 1) c) (B t c)) eqn:E; [symmetry; apply beq_spec, E|]. exfalso. apply (NO c Hc Nc). split; auto. intros X. rewrite X, beq_refl in E. discriminate. }
  destruct (forallb (fun c => ble (V (t + 1) c) (B (t + 1) q)) Q) eqn:F.
  - left. exists q. split; auto. split; auto. split; auto. split; auto. unfold followers. rewrite filter_all; auto. intros c Hc. rewrite forallb_forall in F. apply F. exact Hc.
  - right. assert (X : exists c, In c Q /\ ble (V (t + 1) c) (B (t + 1) q) = false).
    { clear - F. induction Q as [|c l IH]; [discriminate|]. cbn in F. destruct (ble (V (t + 1) c) (B (t + 1) q)) eqn:E; [|exists c; split; [left; auto|exact E]]. destruct (IH F) as (x & X1 & X2). exists x. split; [right; auto|exact X2]. }
    destruct X as (c & Hc & Hlt). assert (c <> q). { intros ->. rewrite E2 in Hlt. assert (X : ble (B (t + 1) q) (B (t + 1) q) = true) by (apply ble_le; [reflexivity|apply le_refl]). congruence. }
    assert (Hn : b_n (B (t + 1) q) <= N).
    { destruct (step_views N t c Hc U (NO c Hc ltac:(auto))) as [_ X]. destruct (le_total (B (t + 1) q) (V (t + 1) c)) as [Y|Y]; [rewrite cfgB, cfgV; auto|unfold bal_lt in Y; lia|]. apply ble_le in Y; [congruence|rewrite cfgB, cfgV; auto]. }
    assert (Vq : b_n (V t q) < b_n (V (t + 1) q)). { rewrite E2, E1. cbn. apply le_n_le in A1. lia. }
    split.
    + intros x Hx. destruct (Nat.eq_dec x q) as [->|Nx]; [rewrite E2; exact Hn|]. apply (step_views N t x Hx U). apply NO; auto.
    + apply vsum_mono; [|eauto]. intros x Hx. destruct (Nat.eq_dec x q) as [->|Nx]; [lia|]. apply (step_views N t x Hx U). apply NO; auto.
Qed.

(** As long as nobody takes over. *)
Section Quiet.
Context (s K : nat) (Hq0 : forall k q, k < K -> In q Q -> ~ over (s + k) q).

Lemma quiet_B k q : k <= K -> In q Q -> B (s + k) q = B s q.
Proof.
  induction k as [|k IH]; intros Hk Hq; [rewrite Nat.add_0_r; reflexivity|]. rewrite <- IH by (auto; lia). replace (s + S k) with (s + k + 1) by lia.
  destruct (beq (B (s + k + 1) q) (B (s + k) q)) eqn:E; [apply beq_spec, E|]. exfalso. apply (Hq0 k q); auto. split; auto. intros X. rewrite X, beq_refl in E. discriminate.
Qed.
Lemma quiet_step k q : k < K -> In q Q -> exists v1 h1,
    bal_le (V (s + k) q) v1 /\ (forall c, In c Q -> c <> q -> bal_le (B s c) v1) /\ (v1 = V (s + k) q \/ exists c, In c Q /\ c <> q /\ v1 = B s c) /\
    (h1 = true <-> (v1 = B s q /\ (thr <= followers (s + k) (B s q) \/ exists c, In c Q /\ c <> q /\ bal_lt (B s q) (V (s + k) c) /\ H (s + k) c = true))
                   \/ (v1 <> B s q /\ exists c, In c Q /\ c <> q /\ B s c = v1 /\ H (s + k) c = true)) /\
    (h1 = true \/ exists c, In c Q /\ c <> q /\ H (s + k) c = true) /\ V (s + k + 1) q = v1 /\ H (s + k + 1) q = h1.
Proof.
  intros Hk Hq. destruct (Htr (s + k) q Hq) as (v1 & h1 & A1 & A2 & A3 & A4 & A5). exists v1, h1.
  assert (E : forall c, In c Q -> B (s + k) c = B s c) by (intros c Hc; apply quiet_B; auto; lia).
  split; auto. split; [intros c Hc Nc; rewrite <- E; auto|]. split; [destruct A3 as [X|(c & Hc & Nc & X)]; [left; exact X|right; exists c; rewrite <- E; auto]|]. split.
  - rewrite A4, (E q Hq). split; (intros [X|(X & c & X1 & X2 & X3 & X4)]; [left; exact X|right; split; auto; exists c; (rewrite (E c) in * by auto); auto]).
  - destruct A5 as [(_ & X & Y & Z & _)|(X & Y & Z & W)]; [|auto]. exfalso. assert (K1 : s + k + 1 = s + (S k)) by lia. rewrite K1, quiet_B in Y by (auto; lia). rewrite (E q Hq) in Y.
    assert (b_n (B s q) = b_n v1 + 1) by (rewrite Y at 1; reflexivity). apply le_n_le in A1. destruct (inv_all (s + k) q Hq) as (_ & _ & _ & W). apply le_n_le in W. rewrite (E q Hq) in W. lia.
Qed.
(** After one round the views stay. *)
Lemma quiet_V k q : 1 <= k <= K -> In q Q -> V (s + k) q = V (s + 1) q /\ forall c, In c Q -> bal_le (B s c) (V (s + 1) q).
Proof.
  intros Hk Hq. assert (B1 : forall c, In c Q -> bal_le (B s c) (V (s + 1) q)).
  { intros c Hc. destruct (quiet_step 0 q) as (v1 & h1 & A1 & A2 & _ & _ & _ & A5 & _); [lia|auto|]. rewrite Nat.add_0_r in A1, A5. rewrite A5. destruct (Nat.eq_dec c q) as [->|Nc]; [|auto]. eapply le_trans; [|exact A1]. apply (inv_all s q Hq). }
  split; auto. destruct Hk as [Hk1 Hk2]. induction k as [|k IH]; [lia|]. destruct k as [|k]; [reflexivity|]. rewrite <- IH by lia.
  destruct (quiet_step (S k) q) as (v1 & h1 & A1 & A2 & A3 & _ & _ & A5 & _); [lia|auto|]. replace (s + S (S k)) with (s + S k + 1) by lia. rewrite A5. destruct A3 as [X|(c & Hc & Nc & X)]; [exact X|].
  apply le_antisym; [|exact A1]. rewrite X, IH by lia. auto.
Qed.
Local Notation v q := (V (s + 1) q).
Lemma foll_const k x : 1 <= k <= K -> followers (s + k) x = followers (s + 1) x.
Proof.
  intros Hk. unfold followers. apply Nat.le_antisymm; apply filter_le; intros q Hq E; destruct (quiet_V k q Hk Hq) as [X _]; congruence.
Qed.

(** A server that regards itself as leader and has a quorum leads after the next round. *)
Lemma quiet_lead k q : 1 <= k < K -> In q Q -> v q = B s q -> thr <= followers (s + 1) (B s q) -> lead (s + k + 1) q.
Proof.
  intros Hk Hq E1 E2. destruct (quiet_step k q) as (v1 & h1 & A1 & A2 & A3 & A4 & _ & A5 & A6); [lia|auto|].
  assert (X : V (s + k + 1) q = v q) by (replace (s + k + 1) with (s + S k) by lia; apply quiet_V; auto; lia). assert (Y : forall c, In c Q -> B (s + k + 1) c = B s c) by (intros c Hc; replace (s + k + 1) with (s + S k) by lia; apply quiet_B; auto; lia).
  split; auto. split; [rewrite X, Y; auto|]. split; [rewrite A6; apply A4; left; split; [congruence|left; rewrite foll_const by lia; exact E2]|]. split.
  - intros c Hc. rewrite !Y by auto. rewrite <- E1. apply (quiet_V 1 q); auto; lia.
  - rewrite Y by auto. replace (s + k + 1) with (s + S k) by lia. rewrite foll_const by lia. exact E2.
Qed.

Context (NL : forall q, In q Q -> v q = B s q -> followers (s + 1) (B s q) < thr).
(** Otherwise a flag is due to the flag of a server whose view is not smaller. *)
Lemma why k q : 1 <= k < K -> In q Q -> H (s + k + 1) q = true -> exists c, In c Q /\ H (s + k) c = true /\ ((v q = B s q /\ bal_lt (v q) (v c)) \/ (v q <> B s q /\ v q = B s c /\ bal_le (v q) (v c))).
Proof.
  intros Hk Hq E. destruct (quiet_step k q) as (v1 & h1 & A1 & A2 & A3 & A4 & _ & A5 & A6); [lia|auto|]. rewrite A6 in E. apply A4 in E.
  assert (X : v1 = v q). { rewrite <- A5. replace (s + k + 1) with (s + S k) by lia. apply quiet_V; auto. lia. }
  assert (Y : forall c, In c Q -> V (s + k) c = v c) by (intros c Hc; apply quiet_V; auto; lia).
  destruct E as [(E1 & [E2|(c & Hc & Nc & E2 & E3)])|(E1 & c & Hc & Nc & E2 & E3)].
  - rewrite foll_const in E2 by lia. rewrite X in E1. specialize (NL q Hq E1). lia.
  - exists c. split; auto. split; auto. left. rewrite <- X. split; auto. rewrite E1, <- Y; auto.
  - exists c. split; auto. split; auto. right. rewrite <- X. split; auto. split; [congruence|]. rewrite <- E2. apply (quiet_V 1 c); auto. lia.
Qed.
Lemma why2 k q : 1 <= k -> k + 1 < K -> In q Q -> H (s + k + 2) q = true -> exists c, In c Q /\ H (s + k) c = true /\ bal_lt (v q) (v c).
Proof.
  intros Hk1 Hk Hq E. destruct (why (k + 1) q) as (c & Hc & E1 & E2); [lia|auto|replace (s + (k + 1) + 1) with (s + k + 2) by lia; auto|].
  replace (s + (k + 1)) with (s + k + 1) in E1 by lia. destruct (why k c) as (d & Hd & E3 & E4); [lia|auto|auto|]. exists d. split; auto. split; auto.
  assert (LE : bal_le (v c) (v d)) by (destruct E4 as [[_ E4]|(_ & _ & E4)]; [left; exact E4|exact E4]).
  destruct E2 as [[_ E2]|(_ & E2 & E5)]; [eapply lt_le_trans; eauto|]. destruct E5 as [E5|E5]; [eapply lt_le_trans; eauto|].
  destruct E4 as [[_ E4]|(E4 & _)]; [rewrite E5; exact E4|congruence].
Qed.
Lemma flags k : 2 * k + 1 < K -> forall q, In q Q -> H (s + 1 + 2 * k) q = true -> k <= length (filter (fun c => blt (v q) (v c)) Q).
Proof.
  induction k as [|k IH]; intros Hk q Hq E; [lia|]. destruct (why2 (1 + 2 * k) q) as (c & Hc & E1 & E2); [lia|lia|auto|replace (s + (1 + 2 * k) + 2) with (s + 1 + 2 * S k) by lia; exact E|].
  specialize (IH ltac:(lia) c Hc). replace (s + (1 + 2 * k)) with (s + 1 + 2 * k) in E1 by lia. specialize (IH E1). eapply Nat.le_lt_trans; [exact IH|]. apply (filter_lt _ _ Q c); auto.
  - intros x X. apply blt_spec in X. apply blt_spec. eapply lt_trans; eauto.
  - apply blt_spec. exact E2.
  - destruct (blt (v c) (v c)) eqn:F; auto. apply blt_spec in F. destruct (lt_irrefl _ F).
Qed.
Lemma flags_gone : 2 * length Q + 1 < K -> forall q, In q Q -> H (s + 1 + 2 * length Q) q = false.
Proof.
  intros HK q Hq. destruct (H (s + 1 + 2 * length Q) q) eqn:E; auto. exfalso. pose proof (flags (length Q) HK q Hq E) as X.
  assert (Y : length (filter (fun c => blt (v q) (v c)) Q) < length (filter (fun _ => true) Q)).
  { apply (filter_lt _ _ Q q); auto. destruct (blt (v q) (v q)) eqn:F; auto. apply blt_spec in F. destruct (lt_irrefl _ F). }
  rewrite (filter_all (fun _ => true)) in Y by auto. lia.
Qed.
End Quiet.

Lemma quiet_or (P : nat -> Prop) : (forall t, P t \/ ~ P t) -> forall s K, (exists k, k < K /\ P (s + k) /\ forall j, j < k -> ~ P (s + j)) \/ (forall k, k < K -> ~ P (s + k)).
Proof.
  intros D s K. induction K as [|K IH]; [right; intros k Hk; lia|]. destruct IH as [(k & H1 & H2 & H3)|IH]; [left; exists k; auto|]. destruct (D (s + K)) as [X|X].
  - left. exists K. auto.
  - right. intros k Hk. destruct (Nat.eq_dec k K) as [->|]; auto. apply IH. lia.
Qed.
Lemma some_over_dec t : (exists q, over t q) \/ ~ (exists q, over t q).
Proof.
  assert (X : forall l, (exists q, In q l /\ over t q) \/ ~ (exists q, In q l /\ over t q)).
  { induction l as [|c l [(q & IH1 & IH2)|IH]]; [right; intros (q & [] & _)|left; exists q; split; [right; auto|auto]|]. destruct (over_dec t c) as [X|X]; [left; exists c; split; [left; auto|auto]|].
    right. intros (q & [<-|Hq] & Y); [contradiction|]. apply IH. eauto. }
  destruct (X Q) as [(q & _ & Y)|Y]; [left; eauto|]. right. intros (q & Z). apply Y. exists q. split; auto. apply Z.
Qed.
Definition span := 2 * length Q + 3.

(** Within [span] rounds somebody leads or takes over. *)
Lemma progress s : (exists k p, k <= span /\ lead (s + k) p) \/ (exists k q, k < span /\ over (s + k) q /\ forall j c, j < k -> ~ over (s + j) c).
Proof.
  destruct (quiet_or (fun t => exists q, over t q) some_over_dec s span) as [(k & H1 & (q & H2) & H3)|HQ].
  { right. exists k, q. split; auto. split; auto. intros j c Hj X. apply (H3 j Hj). eauto. }
  left. assert (Hq : forall k q, k < span -> In q Q -> ~ over (s + k) q) by (intros k q Hk _ X; apply (HQ k Hk); eauto).
  assert (HD : (exists q, In q Q /\ V (s + 1) q = B s q /\ thr <= followers (s + 1) (B s q)) \/ (forall q, In q Q -> V (s + 1) q = B s q -> followers (s + 1) (B s q) < thr)).
  { assert (X : forall l, (exists q, In q l /\ V (s + 1) q = B s q /\ thr <= followers (s + 1) (B s q)) \/ (forall q, In q l -> V (s + 1) q = B s q -> followers (s + 1) (B s q) < thr)).
    { induction l as [|c l [(q & I1 & I2)|IH]]; [right; intros q []|left; exists q; split; [right; auto|auto]|]. destruct (beq (V (s + 1) c) (B s c)) eqn:E1; [destruct (Nat.le_gt_cases thr (followers (s + 1) (B s c))) as [E2|E2]|].
      - left. exists c. split; [left; auto|]. split; auto. apply beq_spec, E1.
      - right. intros q [<-|Hq']; auto.
      - right. intros q [<-|Hq'] X; auto. rewrite X, beq_refl in E1. discriminate. }
    apply X. }
  destruct HD as [(q & Hq1 & E1 & E2)|NL].
  - exists 2, q. split; [unfold span; lia|]. replace (s + 2) with (s + 1 + 1) by lia. apply (quiet_lead s span Hq 1 q); auto. unfold span; lia.
  - assert (F : forall q, In q Q -> H (s + 1 + 2 * length Q) q = false) by (apply (flags_gone s span Hq NL); unfold span; lia).
    destruct (all_unhappy _ F) as (p & L). exists (1 + 2 * length Q + 1), p. split; [unfold span; lia|]. replace (s + (1 + 2 * length Q + 1)) with (s + 1 + 2 * length Q + 1) by lia. exact L.
Qed.
Lemma upto_quiet N s k : upto N s -> (forall j c, j < k -> ~ over (s + j) c) -> upto N (s + k) /\ vsum s <= vsum (s + k).
Proof.
  intros U. induction k as [|k IH]; intros Hk; [rewrite Nat.add_0_r; auto|]. destruct IH as [I1 I2]; [intros j c Hj; apply Hk; lia|]. replace (s + S k) with (s + k + 1) by lia.
  assert (X : forall q, In q Q -> b_n (V (s + k) q) <= b_n (V (s + k + 1) q) <= N) by (intros q Hq; apply step_views; auto).
  split; [intros q Hq; apply X; auto|]. eapply Nat.le_trans; [exact I2|]. apply vsum_mono. intros q Hq. apply X. exact Hq.
Qed.

Lemma reach_lead N : forall M s, upto N s -> length Q * N < vsum s + M -> exists k p, k <= M * span /\ lead (s + k) p.
Proof.
  induction M as [|M IH]; intros s U HM; [pose proof (vsum_le N s U); lia|].
  destruct (progress s) as [(k & p & H1 & H2)|(k & q & H1 & H2 & H3)]; [exists k, p; split; auto; rewrite Nat.mul_succ_l; lia|].
  destruct (upto_quiet N s k U H3) as [U1 S1]. destruct (takeover N (s + k) q H2 U1) as [(p & L)|[U2 S2]].
  - exists (k + 1), p. split; [rewrite Nat.mul_succ_l; lia|]. rewrite Nat.add_assoc. exact L.
  - destruct (IH (s + k + 1) U2) as (j & p & J1 & J2); [lia|]. exists (k + 1 + j), p. split; [rewrite Nat.mul_succ_l; lia|]. replace (s + (k + 1 + j)) with (s + k + 1 + j) by lia. exact J2.
Qed.
Lemma converge N : upto N 0 -> exists T p, T <= (length Q * N + 1) * span /\ lead T p.
Proof. intros U. destruct (reach_lead N (length Q * N + 1) 0 U) as (k & p & H1 & H2); [lia|]. exists k, p. auto. Qed.
End Rounds.
