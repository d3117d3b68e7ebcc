(** * C75: a server that hears a quorum is enough for a stable leader *)
From Coq Require Import List Arith Bool Lia Permutation.
Import ListNotations.
From Verif Require Import Types Config MemStore Internal LeaderState SeqPaxos Ble Basics Spec PropLocal PropElect Converge PropConverge.
From Verif Require QConnect.

(** ** Specification *)

(** [nb q] are the servers that [q] exchanges heartbeats with.  A reply needs both directions of a link, so that hearing is mutual. *)
Definition links (Q : list node_id) (nb : node_id -> list node_id) : Prop :=
  forall q, In q Q -> NoDup (nb q) /\ forall c, In c (nb q) -> In c Q /\ c <> q /\ In q (nb c).

(** As [rounds] of C51, but [q] only hears [nb q]. *)
Record link_rounds (Q : list node_id) (nb : node_id -> list node_id) (S : nat -> node_id -> bles) (st : nat -> node_id -> role * phase) (pr : nat -> node_id -> ballot) (ord : nat -> node_id -> list node_id) : Prop := {
  lr_ord : forall t q, In q Q -> Permutation (ord t q) (nb q);
  lr_step : forall t q, In q Q -> S (t + 1) q = fst (heard_timeout (S t q) (map (S t) (ord t q)) (st t q) (pr t q));
  (** a promise is not above the view and the ballots that are heard *)
  lr_prom : forall t q, In q Q -> ble (pr t q) (e_leader (S t q)) = true \/ exists c, In c (nb q) /\ ble (pr t q) (e_ballot (S t c)) = true
}.

(** ** Proof *)
Section Rounds.
Context (Q : list node_id) (nb : node_id -> list node_id) (S : nat -> node_id -> bles) (st : nat -> node_id -> role * phase) (pr : nat -> node_id -> ballot) (ord : nat -> node_id -> list node_id).
Context (HL : links Q nb) (HR : link_rounds Q nb S st pr ord) (cfg : nat) (qq : quorum).
Context (Hsame : forall k, is_prepare_quorum qq k = is_accept_quorum qq k).
Context (Hw : forall q, In q Q -> waiting cfg qq q (S 0 q)).

Local Notation B := (fun t q => e_ballot (S t q)).
Local Notation V := (fun t q => e_leader (S t q)).
Local Notation H := (fun t q => e_happy (S t q)).

Definition all_waiting (t : nat) : Prop := forall q, In q Q -> waiting cfg qq q (S t q).

Lemma round_spec t q : all_waiting t -> In q Q -> QConnect.step_of nb B V H (thr qq) t q /\ e_cfg (S (t + 1) q) = cfg /\ e_quorum (S (t + 1) q) = qq /\ e_replies (S (t + 1) q) = []
  /\ snd (heard_timeout (S t q) (map (S t) (ord t q)) (st t q) (pr t q)) = (if beq (V (t + 1) q) (B (t + 1) q) then Some (B (t + 1) q) else None).
Proof.
  intros W Hq. destruct (W q Hq) as (W1 & W2 & W3 & W4 & W5 & W6 & W7). pose proof (lr_ord _ _ _ _ _ _ HR t q Hq) as Ho. pose proof (lr_step _ _ _ _ _ _ HR t q Hq) as Hs. pose proof (lr_prom _ _ _ _ _ _ HR t q Hq) as Hp.
  destruct (HL q Hq) as [LN LQ]. assert (NQ : forall c, In c (nb q) -> In c Q) by (intros c Hc; apply (LQ c Hc)).
  assert (OI : forall c, In c (ord t q) <-> In c (nb q)). { intros c. split; apply Permutation_in; [exact Ho|apply Permutation_sym; exact Ho]. }
  unfold heard_timeout in *. rewrite gathered in *.
  2,3: intros c Hc; apply in_map_iff in Hc; destruct Hc as (x & <- & Hx); apply OI in Hx; rewrite W1; apply W; auto.
  rewrite W3 in *. cbn [app] in *. set (rs := map (rep_of (e_round (S t q))) (map (S t) (ord t q))) in *. set (g := e_set_replies (S t q) rs) in *.
  destruct (update_leader_view g) as (v1 & [L1 L2] & UL).
  change (e_leader g) with (V t q) in L1, L2. change (e_replies g) with rs in L1, L2.
  assert (RS : forall r, In r rs <-> exists c, In c (nb q) /\ r = rep_of (e_round (S t q)) (S t c)).
  { intros r. unfold rs. rewrite map_map, in_map_iff. split; intros (c & X); exists c; rewrite OI in *; intuition. }
  assert (CV : forall c, In c Q -> b_cfg (B t c) = cfg) by (intros c Hc; apply W; auto).
  assert (C1 : b_cfg v1 = cfg). { destruct L1 as [<-|L1]; [exact W6|]. apply in_map_iff in L1. destruct L1 as (r & <- & Hr). apply RS in Hr. destruct Hr as (c & Hc & ->). apply CV, NQ, Hc. }
  assert (A1 : bal_le (V t q) v1) by (apply ble_le; [congruence|apply L2; left; auto]).
  assert (A2 : forall c, In c (nb q) -> bal_le (B t c) v1). { intros c Hc. apply ble_le; [rewrite CV; auto|]. apply L2. right. apply in_map_iff. exists (rep_of (e_round (S t q)) (S t c)). split; auto. apply RS. eauto. }
  assert (A3 : v1 = V t q \/ exists c, In c (nb q) /\ v1 = B t c). { destruct L1 as [<-|L1]; [auto|]. right. apply in_map_iff in L1. destruct L1 as (r & <- & Hr). apply RS in Hr. destruct Hr as (c & Hc & ->). exists c. auto. }
  set (g1 := update_leader g) in *. set (g2 := update_happiness g1 (st t q)).
  assert (G1 : e_leader g1 = v1 /\ e_ballot g1 = B t q /\ e_replies g1 = rs /\ e_quorum g1 = qq /\ e_cfg g1 = cfg) by (rewrite UL; cbn; auto).
  destruct G1 as (G1 & G2 & G3 & G4 & G5).
  set (h1 := e_happy g2).
  assert (A4 : h1 = true <-> (v1 = B t q /\ ((thr qq) <= QConnect.foll nb V t q (B t q) \/ exists c, In c (nb q) /\ bal_lt (B t q) (V t c) /\ H t c = true)) \/ (v1 <> B t q /\ exists c, In c (nb q) /\ B t c = v1 /\ H t c = true)).
  { unfold h1, g2, update_happiness. cbn [e_happy e_set_happy]. rewrite G1, G2, G3, G4. destruct (beq v1 (B t q)) eqn:E.
    - apply beq_spec in E.
      assert (F : length (filter (fun r => ble (hr_leader r) (B t q)) rs) + 1 = QConnect.foll nb V t q (B t q)).
      { unfold QConnect.foll. f_equal. rewrite <- (perm_filter _ _ _ Ho). unfold rs. clear. induction (ord t q) as [|c l IH]; cbn; auto. destruct (ble (e_leader (S t c)) (e_ballot (S t q))); cbn; auto. }
      rewrite F. set (fo := QConnect.foll nb V t q (B t q)).
      assert (FF : (match st t q with (Leader, PhAccept) => is_accept_quorum qq fo | _ => is_prepare_quorum qq fo end) = ((thr qq) <=? fo)).
      { rewrite <- thr_prep, Hsame. destruct (st t q) as [[] []]; rewrite ?Hsame; reflexivity. }
      rewrite FF. destruct ((thr qq) <=? fo) eqn:E2.
      + apply Nat.leb_le in E2. split; auto.
      + apply Nat.leb_gt in E2. rewrite existsb_exists. split.
        * intros (r & Hr & X). apply RS in Hr. destruct Hr as (c & Hc & ->). cbn in X. apply andb_true_iff in X. destruct X as [X1 X2]. rewrite bgt_blt in X1. apply blt_spec in X1. left. split; auto. right. exists c. auto.
        * intros [(_ & [X|(c & Hc & X1 & X2)])|(X & _)]; [lia| |congruence]. exists (rep_of (e_round (S t q)) (S t c)). split; [apply RS; eauto|]. cbn. rewrite bgt_blt, X2, andb_true_r. apply blt_spec. exact X1.
    - assert (NE : v1 <> B t q) by (intros X; rewrite X, beq_refl in E; discriminate). rewrite existsb_exists. split.
      + intros (r & Hr & X). apply RS in Hr. destruct Hr as (c & Hc & ->). cbn in X. apply andb_true_iff in X. destruct X as [X1 X2]. apply beq_spec in X1. right. split; auto. exists c. auto.
      + intros [(X & _)|(_ & c & Hc & X1 & X2)]; [contradiction|]. exists (rep_of (e_round (S t q)) (S t c)). split; [apply RS; eauto|]. cbn. rewrite X1, X2, beq_refl. reflexivity. }
  assert (UN : forallb (fun r => negb (hr_happy r)) rs = true <-> forall c, In c (nb q) -> H t c = false).
  { rewrite forallb_forall. split.
    - intros X c Hc. specialize (X (rep_of (e_round (S t q)) (S t c))). cbn in X. apply negb_true_iff. apply X. apply RS. eauto.
    - intros X r Hr. apply RS in Hr. destruct Hr as (c & Hc & ->). cbn. apply negb_true_iff. auto. }
  assert (LE : length rs = length (nb q)) by (unfold rs; rewrite !map_length; apply Permutation_length, Ho).
  set (g3 := check_takeover g2).
  assert (PE : bgt (pr t q) (e_leader g3) = false).
  { assert (X : ble (pr t q) (e_leader g3) = true).
    { eapply ble_tr; [|apply takeover_leader]. change (e_leader g2) with (e_leader g1). rewrite G1. destruct Hp as [X|(c & Hc & X)]; (eapply ble_tr; [exact X|]).
      - apply L2. left. auto.
      - apply L2. right. apply in_map_iff. exists (rep_of (e_round (S t q)) (S t c)). split; auto. apply RS. eauto. }
    rewrite bgt_blt. destruct (blt (e_leader g3) (pr t q)) eqn:E; auto. apply blt_spec in E. apply ble_spec in X. unfold bal_lt, bal_same in *. lia. }
  assert (HT : hb_timeout g (st t q) (pr t q) = (new_hb_round g3, if beq (e_leader g3) (e_ballot g3) then Some (e_ballot g3) else None)).
  { unfold hb_timeout. fold g1. fold g2. fold g3. change (e_leader (new_hb_round g3)) with (e_leader g3). rewrite PE. reflexivity. }
  rewrite HT in *. cbn [fst snd] in *. rewrite Hs. change (e_leader (new_hb_round g3)) with (e_leader g3). change (e_ballot (new_hb_round g3)) with (e_ballot g3).
  assert (T3 : (h1 = false /\ (forall c, In c (nb q) -> H t c = false) /\ thr qq <= length (nb q) + 1 /\ e_ballot g3 = set_n (B t q) (b_n v1 + 1) /\ e_leader g3 = e_ballot g3 /\ e_happy g3 = true) \/
     ((h1 = true \/ (exists c, In c (nb q) /\ H t c = true) \/ length (nb q) + 1 < thr qq) /\ e_ballot g3 = B t q /\ e_leader g3 = v1 /\ e_happy g3 = h1)).
  { unfold g3, check_takeover. fold h1. change (e_replies g2) with (e_replies g1). change (e_quorum g2) with (e_quorum g1). change (e_ballot g2) with (e_ballot g1). change (e_leader g2) with (e_leader g1). rewrite G1, G2, G3, G4, LE, thr_prep.
    destruct h1 eqn:Eh; cbn [negb].
    - right. split; [left; auto|]. split; [exact G2|]. split; [exact G1|exact Eh].
    - destruct (thr qq <=? length (nb q) + 1) eqn:E0; [apply Nat.leb_le in E0|apply Nat.leb_gt in E0; rewrite andb_false_r; right; split; [auto|split; [exact G2|split; [exact G1|exact Eh]]]]. rewrite andb_true_r.
      destruct (forallb (fun r => negb (hr_happy r)) rs) eqn:E.
      + left. split; auto. split; [apply UN; auto|]. split; [exact E0|]. cbn. auto.
      + right. split; [|split; [exact G2|split; [exact G1|exact Eh]]]. right. left. destruct (existsb (fun c => H t c) (nb q)) eqn:E2.
        * apply existsb_exists in E2. destruct E2 as (c & Hc & X). eauto.
        * exfalso. enough (X : false = true) by discriminate. apply UN. intros c Hc. destruct (H t c) eqn:E3; auto. enough (X : false = true) by discriminate. rewrite <- E2. apply existsb_exists. exists c. split; auto. }
  split; [|split; [|split; [|split]]].
  - unfold QConnect.step_of. exists v1, h1. split; auto. split; auto. split; auto. split; auto. rewrite Hs. exact T3.
  - change (e_cfg g3 = cfg). unfold g3, check_takeover. destruct (negb _); [destruct (_ && _)|]; exact G5.
  - change (e_quorum g3 = qq). unfold g3, check_takeover. destruct (negb _); [destruct (_ && _)|]; exact G4.
  - reflexivity.
  - reflexivity.
Qed.

Lemma waiting_step t : all_waiting t -> all_waiting (t + 1).
Proof.
  intros W q Hq. destruct (round_spec t q W Hq) as ((v1 & h1 & A1 & A2 & A3 & A4 & A5) & R1 & R2 & R3 & _). destruct (W q Hq) as (_ & _ & _ & W4 & W5 & W6 & W7).
  split; auto. split; auto. split; auto. destruct A5 as [(_ & _ & _ & E1 & E2 & _)|(_ & E1 & E2 & _)].
  - rewrite E2, E1. cbn. split; auto. split; auto. split; auto. apply ble_refl.
  - rewrite E1, E2. assert (b_cfg v1 = cfg) by (destruct A3 as [->|(c & Hc & ->)]; [auto|apply W; apply (HL q Hq); auto]). split; auto. split; auto. split; auto. apply ble_le; [congruence|]. eapply le_trans; [|exact A1]. apply ble_le; [congruence|exact W7].
Qed.
Lemma waiting_all t : all_waiting t.
Proof. induction t as [|t IH]; [exact Hw|]. rewrite <- Nat.add_1_r. apply waiting_step, IH. Qed.
Lemma Htr t q : In q Q -> QConnect.step_of nb B V H (thr qq) t q.
Proof. apply round_spec, waiting_all. Qed.
Lemma Hinv : QConnect.inv Q B V cfg 0.
Proof.
  intros q Hq. destruct (Hw q Hq) as (_ & _ & _ & W4 & W5 & W6 & W7). split; auto. split; auto. split; auto. apply ble_le; [congruence|exact W7].
Qed.
End Rounds.

(** C75. *)
Theorem C75_quorum_connected_leader_partial :
  forall Q nb S st pr ord cfg qq N h, links Q nb -> link_rounds Q nb S st pr ord ->
  NoDup Q -> (forall k, is_prepare_quorum qq k = is_accept_quorum qq k) -> (forall k, is_prepare_quorum qq k = true -> length Q < 2 * k) ->
  In h Q -> is_prepare_quorum qq (length (nb h) + 1) = true ->
  (forall q, In q Q -> waiting cfg qq q (S 0 q) /\ b_n (e_leader (S 0 q)) <= N) ->
  exists T p b F, T <= (length Q * N + 1) * (2 * length Q + 3) + 2 /\ In p Q /\ b_pid b = p /\
    (* [F] is a quorum of servers that [p] hears *)
    In p F /\ NoDup F /\ (forall c, In c F -> c = p \/ In c (nb p)) /\ is_prepare_quorum qq (length F) = true /\
    forall t, T <= t ->
      (* [p] is elected at every timeout, always with the same ballot, and nobody takes over *)
      snd (heard_timeout (S t p) (map (S t) (ord t p)) (st t p) (pr t p)) = Some b /\ e_ballot (S t p) = b /\ e_happy (S t p) = true /\
      (forall q, In q Q -> e_ballot (S t q) = e_ballot (S T q)) /\
      (* the servers of [F] follow it, are not elected themselves and have promised nothing larger *)
      (forall c, In c F -> e_leader (S t c) = b /\ ble (pr t c) b = true /\ (c <> p -> snd (heard_timeout (S t c) (map (S t) (ord t c)) (st t c) (pr t c)) = None)) /\
      (* no other server is followed by a quorum of those it hears *)
      (forall q, In q Q -> q <> p -> is_prepare_quorum qq (length (filter (fun c => beq (e_leader (S t c)) (e_ballot (S t q))) (q :: nb q))) = false).
Proof.
  intros Q nb S st pr ord cfg qq N h HL HR ND Hsame Hmaj Hh Hhq HW.
  assert (Hw : forall q, In q Q -> waiting cfg qq q (S 0 q)) by (intros q Hq; apply HW; auto).
  pose proof (Htr Q nb S st pr ord HL HR cfg qq Hsame Hw) as HT. pose proof (Hinv Q S cfg qq Hw) as HI. pose proof (waiting_all Q nb S st pr ord HL HR cfg qq Hsame Hw) as WA.
  assert (Hm : length Q < thr qq + thr qq) by (specialize (Hmaj (thr qq)); rewrite thr_prep, Nat.leb_refl in Hmaj; specialize (Hmaj eq_refl); lia).
  assert (Hq : thr qq <= length (nb h) + 1) by (rewrite thr_prep in Hhq; apply Nat.leb_le; exact Hhq).
  assert (Hnd : forall q, In q Q -> NoDup (nb q)) by (intros q X; apply HL; exact X).
  assert (Hnb : forall q c, In q Q -> In c (nb q) -> In c Q /\ c <> q /\ In q (nb c)) by (intros q c X; apply (HL q X)).
  destruct (QConnect.converge_links Q nb _ _ _ (thr qq) cfg Hnd Hnb Hm h Hh Hq HT HI N) as (T & p & F & B1 & L). { intros q X. apply HW. exact X. }
  exists T, p, (e_ballot (S T p)), F. split; [exact B1|]. assert (Hp : In p Q) by apply L. split; auto. split; [apply (WA T p Hp)|]. pose proof L as (_ & L2 & L3 & L4 & L5 & _). split; auto. split; auto.
  split; [intros c Hc; destruct (L4 c Hc); auto|]. split; [rewrite thr_prep; apply Nat.leb_le; exact L5|].
  assert (PID : forall t q, In q Q -> b_pid (e_ballot (S t q)) = q) by (intros t q X; apply (WA t q X)).
  assert (ST : forall t, T <= t -> QConnect.leads Q nb (fun t q => e_ballot (S t q)) (fun t q => e_leader (S t q)) (fun t q => e_happy (S t q)) (thr qq) t p F /\ forall q, In q Q -> e_ballot (S t q) = e_ballot (S T q)).
  { intros t Hle. replace t with (T + (t - T)) by lia. eapply (QConnect.leads_stays Q nb (fun t q => e_ballot (S t q)) (fun t q => e_leader (S t q)) (fun t q => e_happy (S t q)) (thr qq)); eauto. }
  assert (OUT : forall t q, In q Q -> snd (heard_timeout (S t q) (map (S t) (ord t q)) (st t q) (pr t q)) = (if beq (e_leader (S (t + 1) q)) (e_ballot (S (t + 1) q)) then Some (e_ballot (S (t + 1) q)) else None)) by (intros t q X; apply (round_spec Q nb S st pr ord HL HR cfg qq Hsame t q (WA t) X)).
  intros t Hle. destruct (ST t Hle) as [(_ & _ & _ & _ & _ & M) BT]. destruct (ST (t + 1) ltac:(lia)) as [(_ & _ & _ & _ & _ & M1) BT1]. cbn beta in *.
  assert (FQ : forall c, In c F -> In c Q) by (intros c Hc; destruct (L4 c Hc) as [<-|X]; [auto|apply (Hnb p c Hp X)]).
  split; [|split; [|split; [|split; [|split]]]].
  - rewrite OUT by auto. destruct (M1 p L2) as (X & _). rewrite X, beq_refl, BT1 by auto. reflexivity.
  - apply BT; auto.
  - apply (M p L2).
  - exact BT.
  - intros c Hc. destruct (M c Hc) as (X1 & _ & X2). rewrite (BT p Hp) in X1, X2. split; [exact X1|]. split.
    + pose proof (WA t c (FQ c Hc)) as (_ & _ & _ & _ & _ & Y1 & _). destruct (lr_prom _ _ _ _ _ _ HR t c (FQ c Hc)) as [Z|(d & Hd & Z)]; [congruence|]. eapply ble_tr; [exact Z|]. apply ble_le; [|apply X2; exact Hd].
      rewrite <- X1, Y1. apply (WA t d). apply (Hnb c d (FQ c Hc) Hd).
    + intros Nc. rewrite OUT by auto. destruct (M1 c Hc) as (Y1 & _). destruct (beq _ _) eqn:E; auto. apply beq_spec in E. exfalso. apply Nc. rewrite <- (PID (t + 1) c (FQ c Hc)), <- (PID (t + 1) p Hp). congruence.
  - intros q X Nq. rewrite thr_prep. apply Nat.leb_gt. destruct (Nat.lt_ge_cases (length (filter (fun c => beq (e_leader (S t c)) (e_ballot (S t q))) (q :: nb q))) (thr qq)) as [Y|Y]; auto. exfalso.
    destruct (QConnect.meet Q F (filter (fun c => beq (e_leader (S t c)) (e_ballot (S t q))) (q :: nb q))) as (c & C1 & C2); auto.
    + apply NoDup_filter, (QConnect.star_nd Q nb Hnd Hnb q X).
    + intros c Hc. apply filter_In in Hc. apply (QConnect.star_in Q nb Hnb q X). apply Hc.
    + lia.
    + apply filter_In in C2. destruct C2 as [_ C2]. apply beq_spec in C2. destruct (M c C1) as (Z & _). apply Nq. rewrite <- (PID t q X), <- (PID t p Hp). congruence.
Qed.
Print Assumptions C75_quorum_connected_leader_partial.

(** The run that the functions compute, with promises that equal the views. *)
Fixpoint lock_links (nb : node_id -> list node_id) (st : nat -> node_id -> role * phase) (s0 : node_id -> bles) (t : nat) : node_id -> bles :=
  match t with
  | 0 => s0
  | Datatypes.S t => fun q => fst (heard_timeout (lock_links nb st s0 t q) (map (lock_links nb st s0 t) (nb q)) (st t q) (e_leader (lock_links nb st s0 t q)))
  end.
Lemma lock_links_rounds Q nb st s0 : link_rounds Q nb (lock_links nb st s0) st (fun t q => e_leader (lock_links nb st s0 t q)) (fun _ q => nb q).
Proof.
  split.
  - intros t q _. apply Permutation_refl.
  - intros t q _. rewrite Nat.add_1_r. reflexivity.
  - intros t q _. left. apply ble_refl.
Qed.
(** The links of a list of pairs. *)
Definition nb_of (l : list (node_id * node_id)) (q : node_id) : list node_id :=
  flat_map (fun x => if fst x =? q then [snd x] else if snd x =? q then [fst x] else []) l.
Fixpoint distinct (l : list node_id) : bool := match l with [] => true | x :: r => negb (existsb (Nat.eqb x) r) && distinct r end.
Lemma distinct_ok l : distinct l = true -> NoDup l.
Proof.
  induction l as [|x l IH]; cbn; intros X; constructor; apply andb_true_iff in X; [|apply IH, X]. destruct X as [X _]. intros Hi. apply negb_true_iff in X. enough (Y : false = true) by discriminate. rewrite <- X. apply existsb_exists. exists x. split; auto. apply Nat.eqb_refl.
Qed.
Definition linksb (Q : list node_id) (nb : node_id -> list node_id) : bool :=
  forallb (fun q => distinct (nb q) && forallb (fun c => existsb (Nat.eqb c) Q && negb (c =? q) && existsb (Nat.eqb q) (nb c)) (nb q)) Q.
Lemma linksb_ok Q nb : linksb Q nb = true -> links Q nb.
Proof.
  intros X q Hq. unfold linksb in X. rewrite forallb_forall in X. specialize (X q Hq). apply andb_true_iff in X. destruct X as [X1 X2]. split; [apply distinct_ok; exact X1|].
  intros c Hc. rewrite forallb_forall in X2. specialize (X2 c Hc). apply andb_true_iff in X2. destruct X2 as [X2 X3]. apply andb_true_iff in X2. destruct X2 as [X2 X4]. apply existsb_exists in X2, X3. destruct X2 as (x & ? & E). apply Nat.eqb_eq in E. destruct X3 as (y & ? & E2). apply Nat.eqb_eq in E2. subst. split; auto. split; auto. intros ->. rewrite Nat.eqb_refl in X4. discriminate.
Qed.

Section Case.
(** Quorum loss: 1 was the leader of five servers with [n = 6].  Now only server 3 still hears everybody, the others only hear 3. *)
Let star := nb_of [(3, 1); (3, 2); (3, 4); (3, 5)].
Let s0 (q : node_id) : bles :=
  let b := ble_with 1 q (peers_in [1; 2; 3; 4; 5] q) 0 None None in
  e_set_leader (if q =? 1 then e_set_ballot b (mkB 1 6 0 1) else b) (mkB 1 6 0 1).
Let run := lock_links star (fun _ _ => (Follower, PhNone)) s0.
Let elected (t : nat) (q : node_id) := snd (heard_timeout (run t q) (map (run t) (star q)) (Follower, PhNone) (e_leader (run t q))).

(** The hypotheses hold; server 3 takes over in the second round and stays the leader. *)
Example C75_case :
  (exists T p b, T <= 405 /\ In p [1; 2; 3; 4; 5] /\ forall t, T <= t -> elected t p = Some b /\ e_ballot (run t p) = b) /\
  map (fun t => map (elected t) [1; 2; 3; 4; 5]) (seq 0 4) =
    [[Some (mkB 1 6 0 1); None; None; None; None]; [Some (mkB 1 6 0 1); None; Some (mkB 1 7 0 3); None; None];
     [None; None; Some (mkB 1 7 0 3); None; None]; [None; None; Some (mkB 1 7 0 3); None; None]].
Proof.
  split.
  - destruct (C75_quorum_connected_leader_partial [1; 2; 3; 4; 5] star run (fun _ _ => (Follower, PhNone)) (fun t q => e_leader (run t q)) (fun _ q => star q) 1 (Majority 3) 6 3) as (T & p & b & F & H1 & H2 & _ & _ & _ & _ & _ & H3).
    + apply linksb_ok. reflexivity.
    + apply lock_links_rounds.
    + repeat constructor; cbn; intuition discriminate.
    + reflexivity.
    + intros k Hk. change ((3 <=? k) = true) in Hk. apply Nat.leb_le in Hk. change (5 < 2 * k). lia.
    + cbn. auto.
    + reflexivity.
    + intros q Hq. repeat destruct Hq as [<-|Hq]; try destruct Hq; (split; [repeat split; reflexivity|apply Nat.leb_le; vm_compute; reflexivity]).
    + exists T, p, b. split; [exact H1|]. split; [exact H2|]. intros t Ht. destruct (H3 t Ht) as (X1 & X2 & _). split; [exact X1|exact X2].
  - vm_compute. reflexivity.
Qed.
End Case.

(** What C51 says about the other servers does not hold here: with the links 3 - 1 - 2 and freshly started servers, both 2 and 3 are reported as
    elected at every timeout from the second one on (2 is happy because 1, which it hears, follows a larger ballot). *)
Section Two.
Let nb := nb_of [(1, 2); (1, 3)].
Let s0 (q : node_id) : bles := ble_with 1 q (peers_in [1; 2; 3] q) 0 None None.
Let st : nat -> node_id -> role * phase := fun _ _ => (Follower, PhNone).
Let run := lock_links nb st s0.

Definition is_at (cfg : nat) (qq : quorum) (q : node_id) (B V : ballot) (h : bool) (b : bles) : Prop :=
  exists pe r pv out, b = mkBle cfg q pe r [] pv B V h qq out.
Lemma is_at_intro cfg qq q B V h b : e_cfg b = cfg -> e_quorum b = qq -> e_pid b = q -> e_ballot b = B -> e_leader b = V -> e_happy b = h -> e_replies b = [] -> is_at cfg qq q B V h b.
Proof. destruct b. cbn. intros -> -> -> -> -> -> ->. unfold is_at. do 4 eexists. reflexivity. Qed.

Lemma two_state t : is_at 1 (Majority 2) 1 (mkB 1 1 0 1) (mkB 1 1 0 3) true (run (t + 1) 1) /\ is_at 1 (Majority 2) 2 (mkB 1 1 0 2) (mkB 1 1 0 2) true (run (t + 1) 2) /\ is_at 1 (Majority 2) 3 (mkB 1 1 0 3) (mkB 1 1 0 3) true (run (t + 1) 3).
Proof.
  induction t as [|t (I1 & I2 & I3)].
  - split; [|split]; apply is_at_intro; vm_compute; reflexivity.
  - destruct I1 as (? & ? & ? & ? & I1). destruct I2 as (? & ? & ? & ? & I2). destruct I3 as (? & ? & ? & ? & I3). change (Datatypes.S t + 1) with (Datatypes.S (t + 1)).
    assert (E : forall q, run (Datatypes.S (t + 1)) q = fst (heard_timeout (run (t + 1) q) (map (run (t + 1)) (nb q)) (Follower, PhNone) (e_leader (run (t + 1) q)))) by reflexivity.
    rewrite !E. change (nb 1) with [2; 3]. change (nb 2) with [1]. change (nb 3) with [1]. cbn [map]. rewrite I1, I2, I3. unfold heard_timeout.
    split; [|split]; (rewrite gathered; [apply is_at_intro; reflexivity|intros c Hc; repeat destruct Hc as [<-|Hc]; try destruct Hc; reflexivity]).
Qed.
End Two.

Theorem C75_one_elected_refuted :
  exists Q nb S st pr ord cfg qq h, links Q nb /\ link_rounds Q nb S st pr ord /\ NoDup Q /\ qq = quorum_with None (length Q) /\
    (forall q, In q Q -> S 0 q = ble_with cfg q (peers_in Q q) 0 None None) /\ In h Q /\ is_prepare_quorum qq (length (nb h) + 1) = true /\
    exists p q, p <> q /\ In p Q /\ In q Q /\ forall t, 1 <= t ->
      snd (heard_timeout (S t p) (map (S t) (ord t p)) (st t p) (pr t p)) <> None /\ snd (heard_timeout (S t q) (map (S t) (ord t q)) (st t q) (pr t q)) <> None.
Proof.
  set (nb := nb_of [(1, 2); (1, 3)]). set (s0 := fun q : node_id => ble_with 1 q (peers_in [1; 2; 3] q) 0 None None). set (st := fun (_ : nat) (_ : node_id) => (Follower, PhNone)).
  exists [1; 2; 3], nb, (lock_links nb st s0), st, (fun t q => e_leader (lock_links nb st s0 t q)), (fun _ q => nb q), 1, (Majority 2), 1.
  split; [apply linksb_ok; reflexivity|]. split; [apply lock_links_rounds|]. split; [repeat constructor; cbn; intuition discriminate|]. split; [reflexivity|]. split; [intros q _; reflexivity|]. split; [cbn; auto|]. split; [reflexivity|].
  exists 2, 3. split; [discriminate|]. split; [cbn; auto|]. split; [cbn; auto|]. intros t Ht. destruct (two_state (t - 1)) as (I1 & I2 & I3). replace (t - 1 + 1) with t in * by lia. fold nb s0 st in I1, I2, I3.
  destruct I1 as (? & ? & ? & ? & I1). destruct I2 as (? & ? & ? & ? & I2). destruct I3 as (? & ? & ? & ? & I3). change (nb 2) with [1]. change (nb 3) with [1]. cbn [map]. unfold heard_timeout. rewrite I1, I2, I3.
  split; (rewrite gathered; [cbv; discriminate|intros c Hc; repeat destruct Hc as [<-|Hc]; try destruct Hc; reflexivity]).
Qed.
Print Assumptions C75_one_elected_refuted.

(** ** Flexible quorums *)

(** With a read quorum of 3 and a write quorum of 4 out of five freshly started servers, where 4 hears everybody and 3 hears 5, the election never ends.
    Server 5, which hears a read quorum only, wins every election against 4 because of its id; in the accept phase it needs a write quorum, becomes
    unhappy, and 3 and 5 take over again. *)
Definition nb_flex := nb_of [(4, 1); (4, 2); (4, 3); (4, 5); (3, 5)].
Definition q_flex := Flexible (mkFlex 3 4).
Definition st_flex (t : nat) (q : node_id) : role * phase := if (q =? 5) && (1 <=? t) then (Leader, PhAccept) else (Follower, PhNone).
Definition s0_flex (q : node_id) : bles := ble_with 1 q (peers_in [1; 2; 3; 4; 5] q) 0 (Some (mkFlex 3 4)) None.
Definition run_flex := lock_links nb_flex st_flex s0_flex.

Lemma bgt_t a b : bal_lt b a -> bgt a b = true.
Proof. intros X. rewrite bgt_blt. apply blt_spec. exact X. Qed.
Lemma bgt_f a b : ~ bal_lt b a -> bgt a b = false.
Proof. intros X. rewrite bgt_blt. destruct (blt b a) eqn:E; auto. apply blt_spec in E. contradiction. Qed.
Lemma ble_t a b : bal_lt a b \/ bal_same a b -> ble a b = true.
Proof. apply ble_spec. Qed.
Lemma ble_f a b : ~ (bal_lt a b \/ bal_same a b) -> ble a b = false.
Proof. intros X. destruct (ble a b) eqn:E; auto. apply ble_spec in E. contradiction. Qed.
Lemma beq_f a b : a <> b -> beq a b = false.
Proof. intros X. destruct (beq a b) eqn:E; auto. apply beq_spec in E. contradiction. Qed.
Lemma hb_stages b st prom b1 b2 b3 : update_leader b = b1 -> update_happiness b1 st = b2 -> check_takeover b2 = b3 -> bgt prom (e_leader b3) = false ->
  hb_timeout b st prom = (new_hb_round b3, if beq (e_leader b3) (e_ballot b3) then Some (e_ballot b3) else None).
Proof. intros <- <- <- X. unfold hb_timeout. change (e_leader (new_hb_round ?x)) with (e_leader x). rewrite X. reflexivity. Qed.

Ltac blia := unfold bal_lt, bal_same; cbn [b_cfg b_n b_prio b_pid]; lia.
Ltac bdec := repeat (cbn -[bgt ble beq]; match goal with
  | |- context [bgt ?a ?b] => first [rewrite (bgt_t a b) by blia | rewrite (bgt_f a b) by blia]
  | |- context [ble ?a ?b] => first [rewrite (ble_t a b) by blia | rewrite (ble_f a b) by blia]
  | |- context [beq ?a ?b] => first [rewrite (beq_refl a) | rewrite (beq_f a b) by (intros X; injection X; lia)]
  end).

Ltac bstage := unfold update_leader, update_happiness, check_takeover, e_set_leader, e_set_happy, e_set_ballot, set_n, rep_of; bdec; cbn -[bgt ble beq]; reflexivity.

(** The states of a period of three rounds. *)
Definition ball (n q : nat) : ballot := mkB 1 n 0 q.
Definition pat0 (m q : nat) : ballot * ballot * bool :=
  match q with
  | 1 => (ball 1 1, ball 1 4, false) | 2 => (ball 1 2, ball 1 4, false) | 3 => (ball (m + 3) 3, ball (m + 3) 3, true)
  | 4 => (ball 1 4, ball (m + 2) 5, false) | _ => (ball (m + 3) 5, ball (m + 3) 5, true)
  end.
Definition pat1 (m q : nat) : ballot * ballot * bool :=
  match q with
  | 1 => (ball 1 1, ball 1 4, false) | 2 => (ball 1 2, ball 1 4, false) | 3 => (ball (m + 3) 3, ball (m + 3) 5, true)
  | 4 => (ball 1 4, ball (m + 3) 5, true) | _ => (ball (m + 3) 5, ball (m + 3) 5, false)
  end.
Definition pat2 (m q : nat) : ballot * ballot * bool :=
  match q with
  | 1 => (ball 1 1, ball 1 4, true) | 2 => (ball 1 2, ball 1 4, true) | 3 => (ball (m + 3) 3, ball (m + 3) 5, false)
  | 4 => (ball 1 4, ball (m + 3) 5, false) | _ => (ball (m + 3) 5, ball (m + 3) 5, false)
  end.
Definition flex_at (pat : nat -> ballot * ballot * bool) (t : nat) : Prop :=
  forall q, In q [1; 2; 3; 4; 5] -> let '(B, V, h) := pat q in is_at 1 q_flex q B V h (run_flex t q).

Definition elected_flex (t : nat) (q : node_id) : option ballot :=
  snd (heard_timeout (run_flex t q) (map (run_flex t) (nb_flex q)) (st_flex t q) (e_leader (run_flex t q))).
Lemma run_flex_next t q : run_flex (t + 1) q = fst (heard_timeout (run_flex t q) (map (run_flex t) (nb_flex q)) (st_flex t q) (e_leader (run_flex t q))).
Proof. rewrite Nat.add_1_r. reflexivity. Qed.

Lemma in5 (P : node_id -> Prop) : P 1 -> P 2 -> P 3 -> P 4 -> P 5 -> forall q, In q [1; 2; 3; 4; 5] -> P q.
Proof. intros P1 P2 P3 P4 P5 q [<-|[<-|[<-|[<-|[<-|[]]]]]]; auto. Qed.
Ltac flex_step t :=
  rewrite (run_flex_next t); unfold st_flex; cbn [Nat.eqb andb];
  change (nb_flex 1) with [4]; change (nb_flex 2) with [4]; change (nb_flex 3) with [4; 5]; change (nb_flex 4) with [1; 2; 3; 5]; change (nb_flex 5) with [4; 3]; cbn [map].
Ltac flex_eval :=
  unfold heard_timeout; rewrite gathered by (intros c Hc; repeat destruct Hc as [<-|Hc]; try destruct Hc; reflexivity);
  unfold e_set_replies, e_set_round, q_flex, ball; cbn [e_cfg e_pid e_peers e_prev e_ballot e_leader e_happy e_quorum e_out e_round e_replies app map rep_of];
  erewrite hb_stages; [|bstage|bstage|bstage|bstage];
  unfold new_hb_round, e_set_prev, e_set_round; cbn [fst e_cfg e_pid e_peers e_prev e_ballot e_leader e_happy e_quorum e_out e_round e_replies];
  apply is_at_intro; cbn [e_cfg e_pid e_peers e_prev e_ballot e_leader e_happy e_quorum e_out e_round e_replies]; first [reflexivity | f_equal; lia].

Ltac flex_all t I Ht :=
  apply Nat.leb_le in Ht;
  destruct (I 1) as (? & ? & ? & ? & E1); [cbn; auto|]; destruct (I 2) as (? & ? & ? & ? & E2); [cbn; auto|]; destruct (I 3) as (? & ? & ? & ? & E3); [cbn; auto|];
  destruct (I 4) as (? & ? & ? & ? & E4); [cbn; auto|]; destruct (I 5) as (? & ? & ? & ? & E5); [cbn; auto 10|]; clear I;
  unfold flex_at; apply in5; cbn [pat0 pat1 pat2]; flex_step t; rewrite ?Ht, ?E1, ?E2, ?E3, ?E4, ?E5; clear E1 E2 E3 E4 E5 Ht; flex_eval.

Lemma flex01 m t : 1 <= t -> flex_at (pat0 m) t -> flex_at (pat1 m) (t + 1).
Proof. intros Ht I. flex_all t I Ht. Qed.
Lemma flex12 m t : 1 <= t -> flex_at (pat1 m) t -> flex_at (pat2 m) (t + 1).
Proof. intros Ht I. flex_all t I Ht. Qed.
Lemma flex20 m t : 1 <= t -> flex_at (pat2 m) t -> flex_at (pat0 (m + 1)) (t + 1).
Proof. intros Ht I. flex_all t I Ht. Qed.

Lemma flex_start : flex_at (pat0 0) 7.
Proof. unfold flex_at. apply in5; cbn [pat0]; apply is_at_intro; vm_compute; reflexivity. Qed.
Lemma flex_period j : flex_at (pat0 j) (7 + 3 * j).
Proof.
  induction j as [|j IH]; [exact flex_start|]. apply flex01 in IH; [|lia]. apply flex12 in IH; [|lia]. apply flex20 in IH; [|lia]. replace (7 + 3 * Datatypes.S j) with (7 + 3 * j + 1 + 1 + 1) by lia. rewrite <- Nat.add_1_r. exact IH.
Qed.
Lemma flex_any t : 7 <= t -> exists m, flex_at (pat0 m) t \/ flex_at (pat1 m) t \/ flex_at (pat2 m) t.
Proof.
  intros Ht. replace t with (7 + (t - 7)) by lia. induction (t - 7) as [|k (m & IH)]; [exists 0; left; exact flex_start|]. replace (7 + Datatypes.S k) with (7 + k + 1) by lia.
  destruct IH as [IH|[IH|IH]]; [exists m; right; left; apply flex01|exists m; right; right; apply flex12|exists (m + 1); left; apply flex20]; auto; lia.
Qed.
Lemma elected_flex_is t q : elected_flex t q = if beq (e_leader (run_flex (t + 1) q)) (e_ballot (run_flex (t + 1) q)) then Some (e_ballot (run_flex (t + 1) q)) else None.
Proof. rewrite run_flex_next. reflexivity. Qed.
Lemma elected_flex_who t q : In q [1; 2; 3; 4; 5] -> elected_flex t q <> None -> q = 3 \/ q = 5.
Proof.
  intros Hq X. destruct (Nat.lt_ge_cases t 6) as [Hlt|Hge].
  - assert (Y : forallb (fun t => forallb (fun q => match elected_flex t q with None => true | Some _ => (q =? 3) || (q =? 5) end) [1; 2; 3; 4; 5]) (seq 0 6) = true) by (vm_compute; reflexivity).
    rewrite forallb_forall in Y. specialize (Y t). rewrite in_seq in Y. specialize (Y ltac:(lia)). rewrite forallb_forall in Y. specialize (Y q Hq). destruct (elected_flex t q); [|contradiction]. apply orb_true_iff in Y. rewrite !Nat.eqb_eq in Y. exact Y.
  - rewrite elected_flex_is in X. assert (G : forall B V h, is_at 1 q_flex q B V h (run_flex (t + 1) q) -> B <> V -> False).
    { intros B V h (? & ? & ? & ? & E) N. rewrite E in X. cbn [e_leader e_ballot] in X. rewrite beq_f in X; [contradiction|congruence]. }
    destruct (flex_any (t + 1)) as (m & I); [lia|].
    destruct I as [I|[I|I]]; pose proof (I q Hq) as J; clear I; (repeat destruct Hq as [<-|Hq]; try destruct Hq; auto; exfalso; cbn [pat0 pat1 pat2] in J; apply (G _ _ _ J); unfold ball; intros Z; injection Z; lia).
Qed.

Theorem C75_flexible_quorums_refuted :
  exists Q nb S st pr ord cfg f h, links Q nb /\ link_rounds Q nb S st pr ord /\ NoDup Q /\
    (* five servers with valid quorum sizes start for the first time *)
    length Q < fq_read f + fq_write f /\ 2 <= fq_read f <= fq_write f /\ fq_write f <= length Q /\ (forall q, In q Q -> S 0 q = ble_with cfg q (peers_in Q q) 0 (Some f) None) /\
    (* [h] hears every server *)
    In h Q /\ (forall q, In q Q -> q <> h -> In q (nb h)) /\
    (* but only servers that do not hear a write quorum are ever elected, *)
    (forall t q, In q Q -> snd (heard_timeout (S t q) (map (S t) (ord t q)) (st t q) (pr t q)) <> None -> length (nb q) + 1 < fq_write f) /\
    (* and they are elected again and again with new ballots *)
    (forall T, exists t q b, T <= t /\ In q Q /\ snd (heard_timeout (S t q) (map (S t) (ord t q)) (st t q) (pr t q)) = Some b /\ e_ballot (S t q) <> b).
Proof.
  exists [1; 2; 3; 4; 5], nb_flex, run_flex, st_flex, (fun t q => e_leader (run_flex t q)), (fun _ q => nb_flex q), 1, (mkFlex 3 4), 4.
  split; [apply linksb_ok; reflexivity|]. split; [apply lock_links_rounds|]. split; [repeat constructor; cbn; intuition discriminate|]. split; [cbn; lia|]. split; [cbn; lia|]. split; [cbn; lia|]. split; [intros q _; reflexivity|].
  split; [cbn; auto|]. split; [apply (in5 (fun q => q <> 4 -> In q (nb_flex 4))); intros X; cbn; auto; congruence|]. split.
  - intros t q Hq X. change (elected_flex t q <> None) in X. destruct (elected_flex_who t q Hq X) as [-> | ->]; clear X; apply Nat.ltb_lt; reflexivity.
  - intros T. pose proof (flex_period T) as P. apply flex01 in P; [|clear P; lia]. apply flex12 in P; [|clear P; lia]. assert (Ht : T <= 7 + 3 * T + 1 + 1 /\ 1 <= 7 + 3 * T + 1 + 1) by (clear P; lia). generalize dependent (7 + 3 * T + 1 + 1). intros t P Ht. pose proof (flex20 T t (proj2 Ht) P) as P'.
    exists t, 5, (ball (T + 4) 5). split; [apply Ht|]. split; [cbn; auto 10|]. destruct (P 5) as (? & ? & ? & ? & E); [cbn; auto 10|]. destruct (P' 5) as (? & ? & ? & ? & E'); [cbn; auto 10|]. split.
    + change (elected_flex t 5 = Some (ball (T + 4) 5)). rewrite elected_flex_is, E'. cbn [e_leader e_ballot]. rewrite beq_refl. f_equal. unfold ball. f_equal. clear. lia.
    + rewrite E. cbn [e_ballot]. unfold ball. intros X. injection X. clear. lia.
Qed.
Print Assumptions C75_flexible_quorums_refuted.
