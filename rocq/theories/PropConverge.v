(** * C51: if everybody hears everybody, the election ends *)
From Coq Require Import List Arith Bool Lia Permutation.
Import ListNotations.
From Verif Require Import Types Config MemStore Internal LeaderState SeqPaxos Ble Basics Spec PropLocal PropElect Converge.

(** ** Specification *)

(** The heartbeat reply with which [c] answers the current request of [b]. *)
Definition answer (c b : bles) : option hb_reply :=
  match rev (e_out (handle_request c (e_pid b) (e_round b))) with
  | m :: _ => match bm_msg m with HbReply r => Some r | HbRequest _ => None end
  | [] => None
  end.
Definition hears (b c : bles) : bles := match answer c b with Some r => handle_reply b r | None => b end.

(** The election timeout of a server in the state [b] that has heard the servers in the states [cs], in this order. *)
Definition heard_timeout (b : bles) (cs : list bles) (st : role * phase) (prom : ballot) : bles * option ballot :=
  hb_timeout (fold_left hears cs b) st prom.

Definition peers_in (Q : list node_id) (q : node_id) : list node_id := filter (fun c => negb (c =? q)) Q.

(** A server [q] at the beginning of a round: it has heard nobody yet; its own ballot is its own and not above its view. *)
Definition waiting (cfg : nat) (qq : quorum) (q : node_id) (b : bles) : Prop :=
  e_cfg b = cfg /\ e_quorum b = qq /\ e_replies b = [] /\ b_pid (e_ballot b) = q /\ b_cfg (e_ballot b) = cfg /\ b_cfg (e_leader b) = cfg /\ ble (e_ballot b) (e_leader b) = true.

(** [S t q] is the state of [q] after [t] rounds.  In every round every server of [Q] hears every other one (in the order [ord t q]) and then has
    its election timeout, where [st t q] and [pr t q] are the state of Sequence Paxos and its promise at that time. *)
Record rounds (Q : list node_id) (S : nat -> node_id -> bles) (st : nat -> node_id -> role * phase) (pr : nat -> node_id -> ballot) (ord : nat -> node_id -> list node_id) : Prop := {
  rd_ord : forall t q, In q Q -> Permutation (ord t q) (peers_in Q q);
  rd_step : forall t q, In q Q -> S (t + 1) q = fst (heard_timeout (S t q) (map (S t) (ord t q)) (st t q) (pr t q));
  (** a promise is not above the view and the ballots that are heard *)
  rd_prom : forall t q, In q Q -> ble (pr t q) (e_leader (S t q)) = true \/ exists c, In c Q /\ c <> q /\ ble (pr t q) (e_ballot (S t c)) = true
}.

(** ** Proof *)
Lemma answer_is c b : answer c b = Some (mkHR (e_round b) (e_ballot c) (e_leader c) (e_happy c)).
Proof. unfold answer, handle_request, e_set_out, e_set_round. cbn. rewrite rev_app_distr. reflexivity. Qed.
Definition rep_of (r : nat) (c : bles) : hb_reply := mkHR r (e_ballot c) (e_leader c) (e_happy c).
Lemma gathered cs : forall b, (forall c, In c cs -> b_cfg (e_ballot c) = e_cfg b) -> fold_left hears cs b = e_set_replies b (e_replies b ++ map (rep_of (e_round b)) cs).
Proof.
  induction cs as [|c cs IH]; intros b Hc; cbn.
  - rewrite app_nil_r. destruct b; reflexivity.
  - unfold hears at 2. rewrite answer_is. unfold handle_reply. cbn [hr_round hr_ballot]. rewrite (Hc c) by (left; auto). rewrite !Nat.eqb_refl. cbn [andb].
    rewrite IH by (intros x Hx; apply Hc; right; auto). unfold e_set_replies, e_set_round. cbn. rewrite <- app_assoc. reflexivity.
Qed.

Lemma peers_in_spec Q q c : In c (peers_in Q q) <-> In c Q /\ c <> q.
Proof. unfold peers_in. rewrite filter_In, negb_true_iff, Nat.eqb_neq. reflexivity. Qed.
Lemma exists_ord {A} (f : A -> bool) l : existsb f l = true <-> exists x, In x l /\ f x = true.
Proof. apply existsb_exists. Qed.
Lemma perm_filter {A} (f : A -> bool) l l' : Permutation l l' -> length (filter f l) = length (filter f l').
Proof. intros H. induction H; cbn; auto; [destruct (f x); cbn; auto|destruct (f x), (f y); cbn; auto|congruence]. Qed.
Lemma filter_swap {A} (f g : A -> bool) l : filter f (filter g l) = filter g (filter f l).
Proof. induction l as [|x l IH]; cbn; auto. destruct (g x) eqn:E1, (f x) eqn:E2; cbn; rewrite ?E1, ?E2, ?IH; reflexivity. Qed.
Lemma peers_count Q q (f : node_id -> bool) : NoDup Q -> In q Q -> f q = true -> length (filter f (peers_in Q q)) + 1 = length (filter f Q).
Proof.
  unfold peers_in. intros ND Hq Hf. induction Q as [|x Q IH]; [destruct Hq|]. inversion ND as [|? ? N1 N2]; subst. cbn. destruct (Nat.eqb_spec x q) as [->|Nx].
  - cbn. rewrite Hf. cbn. rewrite Nat.add_1_r. f_equal. f_equal. clear - N1. induction Q as [|y Q IH]; auto. cbn. destruct (Nat.eqb_spec y q) as [->|]; [exfalso; apply N1; left; auto|]. cbn. rewrite IH by (intros X; apply N1; right; auto). reflexivity.
  - destruct Hq as [->|Hq]; [congruence|]. specialize (IH N2 Hq). cbn. destruct (f x); cbn; lia.
Qed.

Definition thr (qq : quorum) : nat := match qq with Majority m => m | Flexible f => fq_read f end.
Lemma thr_prep qq k : is_prepare_quorum qq k = (thr qq <=? k).
Proof. destruct qq; reflexivity. Qed.

Section Rounds.
Context (Q : list node_id) (S : nat -> node_id -> bles) (st : nat -> node_id -> role * phase) (pr : nat -> node_id -> ballot) (ord : nat -> node_id -> list node_id).
Context (HR : rounds Q S st pr ord) (cfg : nat) (qq : quorum) (ND : NoDup Q) (H2 : 2 <= length Q).
Context (Hsame : forall k, is_prepare_quorum qq k = is_accept_quorum qq k) (Hen : is_prepare_quorum qq (length Q) = true).
Context (Hw : forall q, In q Q -> waiting cfg qq q (S 0 q)).

Local Notation B := (fun t q => e_ballot (S t q)).
Local Notation V := (fun t q => e_leader (S t q)).
Local Notation H := (fun t q => e_happy (S t q)).

Definition all_waiting (t : nat) : Prop := forall q, In q Q -> waiting cfg qq q (S t q).

Lemma round_spec t q : all_waiting t -> In q Q -> trans Q B V H (thr qq) t q /\ e_cfg (S (t + 1) q) = cfg /\ e_quorum (S (t + 1) q) = qq /\ e_replies (S (t + 1) q) = []
  /\ snd (heard_timeout (S t q) (map (S t) (ord t q)) (st t q) (pr t q)) = (if beq (V (t + 1) q) (B (t + 1) q) then Some (B (t + 1) q) else None).
Proof.
  intros W Hq. destruct (W q Hq) as (W1 & W2 & W3 & W4 & W5 & W6 & W7). pose proof (rd_ord _ _ _ _ _ HR t q Hq) as Ho. pose proof (rd_step _ _ _ _ _ HR t q Hq) as Hs. pose proof (rd_prom _ _ _ _ _ HR t q Hq) as Hp.
  assert (OI : forall c, In c (ord t q) <-> In c Q /\ c <> q). { intros c. rewrite <- peers_in_spec. split; apply Permutation_in; [exact Ho|apply Permutation_sym; exact Ho]. }
  unfold heard_timeout in *. rewrite gathered in *.
  2,3: intros c Hc; apply in_map_iff in Hc; destruct Hc as (x & <- & Hx); apply OI in Hx; rewrite W1; apply W; apply Hx.
  rewrite W3 in *. cbn [app] in *. set (rs := map (rep_of (e_round (S t q))) (map (S t) (ord t q))) in *. set (g := e_set_replies (S t q) rs) in *.
  destruct (update_leader_view g) as (v1 & [L1 L2] & UL).
  change (e_leader g) with (V t q) in L1, L2. change (e_replies g) with rs in L1, L2.
  assert (RS : forall r, In r rs <-> exists c, In c Q /\ c <> q /\ r = rep_of (e_round (S t q)) (S t c)).
  { intros r. unfold rs. rewrite map_map, in_map_iff. split; intros (c & X); exists c; rewrite OI in *; intuition. }
  assert (CV : forall c, In c Q -> b_cfg (B t c) = cfg) by (intros c Hc; apply W; auto).
  assert (C1 : b_cfg v1 = cfg). { destruct L1 as [<-|L1]; [exact W6|]. apply in_map_iff in L1. destruct L1 as (r & <- & Hr). apply RS in Hr. destruct Hr as (c & Hc & _ & ->). apply CV, Hc. }
  assert (A1 : bal_le (V t q) v1) by (apply ble_le; [congruence|apply L2; left; auto]).
  assert (A2 : forall c, In c Q -> c <> q -> bal_le (B t c) v1). { intros c Hc Nc. apply ble_le; [rewrite CV; auto|]. apply L2. right. apply in_map_iff. exists (rep_of (e_round (S t q)) (S t c)). split; auto. apply RS. eauto. }
  assert (A3 : v1 = V t q \/ exists c, In c Q /\ c <> q /\ v1 = B t c). { destruct L1 as [<-|L1]; [auto|]. right. apply in_map_iff in L1. destruct L1 as (r & <- & Hr). apply RS in Hr. destruct Hr as (c & Hc & Nc & ->). exists c. auto. }
  set (g1 := update_leader g) in *. set (g2 := update_happiness g1 (st t q)).
  assert (G1 : e_leader g1 = v1 /\ e_ballot g1 = B t q /\ e_replies g1 = rs /\ e_quorum g1 = qq /\ e_cfg g1 = cfg) by (rewrite UL; cbn; auto).
  destruct G1 as (G1 & G2 & G3 & G4 & G5).
  set (h1 := e_happy g2).
  assert (A4 : h1 = true <-> (v1 = B t q /\ ((thr qq) <= followers Q V t (B t q) \/ exists c, In c Q /\ c <> q /\ bal_lt (B t q) (V t c) /\ H t c = true)) \/ (v1 <> B t q /\ exists c, In c Q /\ c <> q /\ B t c = v1 /\ H t c = true)).
  { unfold h1, g2, update_happiness. cbn [e_happy e_set_happy]. rewrite G1, G2, G3, G4. destruct (beq v1 (B t q)) eqn:E.
    - apply beq_spec in E.
      assert (F : length (filter (fun r => ble (hr_leader r) (B t q)) rs) + 1 = followers Q V t (B t q)).
      { unfold followers. rewrite <- (peers_count Q q (fun c => ble (V t c) (B t q)) ND Hq). 2:{ apply ble_le; [congruence|]. rewrite <- E. exact A1. }
        f_equal. rewrite <- (perm_filter _ _ _ Ho). unfold rs. clear. induction (ord t q) as [|c l IH]; cbn; auto. destruct (ble (e_leader (S t c)) (e_ballot (S t q))); cbn; auto. }
      rewrite F. assert (FF : (match st t q with (Leader, PhAccept) => is_accept_quorum qq (followers Q V t (B t q)) | _ => is_prepare_quorum qq (followers Q V t (B t q)) end) = ((thr qq) <=? followers Q V t (B t q))).
      { rewrite <- thr_prep, Hsame. destruct (st t q) as [[] []]; rewrite ?Hsame; reflexivity. }
      rewrite FF. destruct ((thr qq) <=? followers Q V t (B t q)) eqn:E2.
      + apply Nat.leb_le in E2. split; auto.
      + apply Nat.leb_gt in E2. rewrite existsb_exists. split.
        * intros (r & Hr & X). apply RS in Hr. destruct Hr as (c & Hc & Nc & ->). cbn in X. apply andb_true_iff in X. destruct X as [X1 X2]. rewrite bgt_blt in X1. apply blt_spec in X1. left. split; auto. right. exists c. auto.
        * intros [(_ & [X|(c & Hc & Nc & X1 & X2)])|(X & _)]; [lia| |congruence]. exists (rep_of (e_round (S t q)) (S t c)). split; [apply RS; eauto|]. cbn. rewrite bgt_blt, X2, andb_true_r. apply blt_spec. exact X1.
    - assert (NE : v1 <> B t q) by (intros X; rewrite X, beq_refl in E; discriminate). rewrite existsb_exists. split.
      + intros (r & Hr & X). apply RS in Hr. destruct Hr as (c & Hc & Nc & ->). cbn in X. apply andb_true_iff in X. destruct X as [X1 X2]. apply beq_spec in X1. right. split; auto. exists c. auto.
      + intros [(X & _)|(_ & c & Hc & Nc & X1 & X2)]; [contradiction|]. exists (rep_of (e_round (S t q)) (S t c)). split; [apply RS; eauto|]. cbn. rewrite X1, X2, beq_refl. reflexivity. }
  assert (UN : forallb (fun r => negb (hr_happy r)) rs = true <-> forall c, In c Q -> c <> q -> H t c = false).
  { rewrite forallb_forall. split.
    - intros X c Hc Nc. specialize (X (rep_of (e_round (S t q)) (S t c))). cbn in X. apply negb_true_iff. apply X. apply RS. eauto.
    - intros X r Hr. apply RS in Hr. destruct Hr as (c & Hc & Nc & ->). cbn. apply negb_true_iff. auto. }
  assert (LN : is_prepare_quorum qq (length rs + 1) = true).
  { unfold rs. rewrite !map_length, (Permutation_length Ho). pose proof (peers_count Q q (fun _ => true) ND Hq eq_refl) as X. rewrite !(filter_all (fun _ => true)) in X by auto. rewrite X. exact Hen. }
  set (g3 := check_takeover g2).
  assert (PE : bgt (pr t q) (e_leader g3) = false).
  { assert (X : ble (pr t q) (e_leader g3) = true).
    { eapply ble_tr; [|apply takeover_leader]. change (e_leader g2) with (e_leader g1). rewrite G1. destruct Hp as [X|(c & Hc & Nc & X)]; (eapply ble_tr; [exact X|]).
      - apply L2. left. auto.
      - apply L2. right. apply in_map_iff. exists (rep_of (e_round (S t q)) (S t c)). split; auto. apply RS. eauto. }
    rewrite bgt_blt. destruct (blt (e_leader g3) (pr t q)) eqn:E; auto. apply blt_spec in E. apply ble_spec in X. unfold bal_lt, bal_same in *. lia. }
  assert (HT : hb_timeout g (st t q) (pr t q) = (new_hb_round g3, if beq (e_leader g3) (e_ballot g3) then Some (e_ballot g3) else None)).
  { unfold hb_timeout. fold g1. fold g2. fold g3. change (e_leader (new_hb_round g3)) with (e_leader g3). rewrite PE. reflexivity. }
  rewrite HT in *. cbn [fst snd] in *. rewrite Hs. change (e_leader (new_hb_round g3)) with (e_leader g3). change (e_ballot (new_hb_round g3)) with (e_ballot g3).
  assert (T3 : (h1 = false /\ (forall c, In c Q -> c <> q -> H t c = false) /\ e_ballot g3 = set_n (B t q) (b_n v1 + 1) /\ e_leader g3 = e_ballot g3 /\ e_happy g3 = true) \/
     ((h1 = true \/ exists c, In c Q /\ c <> q /\ H t c = true) /\ e_ballot g3 = B t q /\ e_leader g3 = v1 /\ e_happy g3 = h1)).
  { unfold g3, check_takeover. fold h1. change (e_replies g2) with (e_replies g1). change (e_quorum g2) with (e_quorum g1). change (e_ballot g2) with (e_ballot g1). change (e_leader g2) with (e_leader g1). rewrite G1, G2, G3, G4, LN, andb_true_r.
    destruct h1 eqn:Eh; cbn [negb].
    - right. split; [left; auto|]. split; [exact G2|]. split; [exact G1|exact Eh].
    - destruct (forallb (fun r => negb (hr_happy r)) rs) eqn:E.
      + left. split; auto. split; [apply UN; auto|]. cbn. auto.
      + right. split; [|split; [exact G2|split; [exact G1|exact Eh]]]. right. destruct (existsb (fun c => negb (c =? q) && H t c) Q) eqn:E2.
        * apply existsb_exists in E2. destruct E2 as (c & Hc & X). apply andb_true_iff in X. destruct X as [X1 X2]. apply negb_true_iff, Nat.eqb_neq in X1. eauto.
        * exfalso. enough (X : false = true) by discriminate. apply UN. intros c Hc Nc. destruct (H t c) eqn:E3; auto. enough (X : false = true) by discriminate. rewrite <- E2. apply existsb_exists. exists c. split; auto. rewrite (proj2 (Nat.eqb_neq _ _) Nc), E3. reflexivity. }
  split; [|split; [|split; [|split]]].
  - unfold trans. exists v1, h1. split; auto. split; auto. split; auto. split; auto. rewrite Hs. exact T3.
  - change (e_cfg g3 = cfg). unfold g3, check_takeover. destruct (negb _); [destruct (_ && _)|]; exact G5.
  - change (e_quorum g3 = qq). unfold g3, check_takeover. destruct (negb _); [destruct (_ && _)|]; exact G4.
  - reflexivity.
  - reflexivity.
Qed.

Lemma waiting_step t : all_waiting t -> all_waiting (t + 1).
Proof.
  intros W q Hq. destruct (round_spec t q W Hq) as ((v1 & h1 & A1 & A2 & A3 & A4 & A5) & R1 & R2 & R3 & _). destruct (W q Hq) as (_ & _ & _ & W4 & W5 & W6 & W7).
  split; auto. split; auto. split; auto. destruct A5 as [(_ & _ & E1 & E2 & _)|(_ & E1 & E2 & _)].
  - rewrite E2, E1. cbn. split; auto. split; auto. split; auto. apply ble_refl.
  - rewrite E1, E2. assert (b_cfg v1 = cfg) by (destruct A3 as [->|(c & Hc & _ & ->)]; [auto|apply W; auto]). split; auto. split; auto. split; auto. apply ble_le; [congruence|]. eapply le_trans; [|exact A1]. apply ble_le; [congruence|exact W7].
Qed.
Lemma waiting_all t : all_waiting t.
Proof. induction t as [|t IH]; [exact Hw|]. rewrite <- Nat.add_1_r. apply waiting_step, IH. Qed.
Lemma Htr t q : In q Q -> trans Q B V H (thr qq) t q.
Proof. apply round_spec, waiting_all. Qed.
Lemma Hinv : inv Q B V cfg 0.
Proof.
  intros q Hq. destruct (Hw q Hq) as (_ & _ & _ & W4 & W5 & W6 & W7). split; auto. split; auto. split; auto. apply ble_le; [congruence|exact W7].
Qed.
End Rounds.

(** C51. *)
Theorem C51_election_ends :
  forall Q S st pr ord cfg qq N, rounds Q S st pr ord ->
  NoDup Q -> 2 <= length Q -> (forall k, is_prepare_quorum qq k = is_accept_quorum qq k) -> is_prepare_quorum qq (length Q) = true ->
  (forall q, In q Q -> waiting cfg qq q (S 0 q) /\ b_n (e_leader (S 0 q)) <= N) ->
  exists T p b, T <= (length Q * N + 1) * (2 * length Q + 3) /\ In p Q /\ b_pid b = p /\
    forall t, T <= t ->
      (forall q, In q Q -> snd (heard_timeout (S t q) (map (S t) (ord t q)) (st t q) (pr t q)) = if q =? p then Some b else None) /\
      (forall q, In q Q -> e_ballot (S t q) = e_ballot (S T q)) /\
      e_ballot (S t p) = b /\ e_happy (S t p) = true /\
      is_prepare_quorum qq (length (filter (fun q => beq (e_leader (S (t + 1) q)) b) Q)) = true.
Proof.
  intros Q S st pr ord cfg qq N HR ND H2 Hsame Hen HW.
  assert (Hw : forall q, In q Q -> waiting cfg qq q (S 0 q)) by (intros q Hq; apply HW; auto).
  pose proof (Htr Q S st pr ord HR cfg qq ND H2 Hsame Hen Hw) as HT. pose proof (Hinv Q S cfg qq Hw) as HI.
  assert (Ht : thr qq <= length Q) by (rewrite thr_prep in Hen; apply Nat.leb_le; exact Hen). assert (HN : Q <> []) by (intros ->; cbn in H2; lia).
  destruct (converge Q _ _ _ (thr qq) cfg Ht HN HT HI N) as (T & p & B1 & L). { intros q Hq. apply HW. exact Hq. }
  exists T, p, (e_ballot (S T p)). split; [exact B1|]. assert (Hp : In p Q) by apply L. split; auto. split; [apply (waiting_all Q S st pr ord HR cfg qq ND H2 Hsame Hen Hw T p Hp)|].
  intros t Hle. replace t with (T + (t - T)) by lia. destruct (lead_stays Q _ _ _ (thr qq) cfg Ht HT HI T p L (t - T)) as [Lt Bt]. set (u := T + (t - T)) in *.
  destruct (lead_step Q _ _ _ (thr qq) cfg HT HI u p Lt) as (L1 & L2 & L3 & L4). cbn beta in *. pose proof (Bt p Hp) as Bp. cbn beta in Bp.
  split; [|split; [|split; [|split]]].
  - intros q Hq. destruct (round_spec Q S st pr ord HR cfg qq ND H2 Hsame Hen u q (waiting_all Q S st pr ord HR cfg qq ND H2 Hsame Hen Hw u) Hq) as (_ & _ & _ & _ & E). cbn beta in E. rewrite E.
    destruct (Nat.eqb_spec q p) as [->|Nq].
    + destruct L1 as (_ & X & _). cbn beta in X. rewrite X, beq_refl, (L2 p Hp), Bp. reflexivity.
    + destruct (beq _ _) eqn:E2; auto. apply beq_spec in E2. destruct (L4 q Hq Nq E2).
  - exact Bt.
  - exact Bp.
  - apply Lt.
  - rewrite thr_prep. apply Nat.leb_le. destruct Lt as (_ & _ & _ & _ & X). eapply Nat.le_trans; [exact X|]. unfold followers. apply filter_le. intros q Hq E. cbn beta in E. apply ble_le in E.
    + rewrite (L3 q Hq E), Bp. apply beq_refl.
    + destruct (waiting_all Q S st pr ord HR cfg qq ND H2 Hsame Hen Hw u q Hq) as (_ & _ & _ & _ & _ & X1 & _). destruct (waiting_all Q S st pr ord HR cfg qq ND H2 Hsame Hen Hw u p Hp) as (_ & _ & _ & _ & X2 & _). congruence.
Qed.
Print Assumptions C51_election_ends.

(** The run that the functions compute, with promises that equal the views. *)
Fixpoint lock (Q : list node_id) (st : nat -> node_id -> role * phase) (s0 : node_id -> bles) (t : nat) : node_id -> bles :=
  match t with
  | 0 => s0
  | Datatypes.S t => fun q => fst (heard_timeout (lock Q st s0 t q) (map (lock Q st s0 t) (peers_in Q q)) (st t q) (e_leader (lock Q st s0 t q)))
  end.
Lemma lock_rounds Q st s0 : rounds Q (lock Q st s0) st (fun t q => e_leader (lock Q st s0 t q)) (fun _ q => peers_in Q q).
Proof.
  split.
  - intros t q _. apply Permutation_refl.
  - intros t q _. rewrite Nat.add_1_r. reflexivity.
  - intros t q _. left. apply ble_refl.
Qed.

Section Case.
(** Three of five servers: 4 and 5 have crashed; 5 was the leader with [n = 6].  Server 1 has just been started for the first time, 2 and 3 follow the crashed leader. *)
Let s0 (q : node_id) : bles :=
  if q =? 1 then ble_with 1 1 [2; 3; 4; 5] 0 None None
  else e_set_happy (e_set_leader (ble_with 1 q (peers_in [1; 2; 3; 4; 5] q) 0 None None) (mkB 1 6 0 5)) false.
Let run := lock [1; 2; 3] (fun _ _ => (Follower, PhNone)) s0.
Let elected (t : nat) (q : node_id) := snd (heard_timeout (run t q) (map (run t) (peers_in [1; 2; 3] q)) (Follower, PhNone) (e_leader (run t q))).

Lemma case_waiting q : In q [1; 2; 3] -> waiting 1 (Majority 3) q (s0 q) /\ b_n (e_leader (s0 q)) <= 6.
Proof. intros [<-|[<-|[<-|[]]]]; (split; [repeat split; reflexivity|apply Nat.leb_le; vm_compute; reflexivity]). Qed.

(** The hypotheses hold, and the election does end. *)
Example C51_case :
  (exists T p b, T <= 171 /\ In p [1; 2; 3] /\ forall t, T <= t -> elected t p = Some b /\ e_ballot (run t p) = b) /\
  (* server 1 takes over in every round until its ballot passes the one of the crashed leader; then it stays *)
  map (fun t => map (elected t) [1; 2; 3]) (seq 0 8) =
    [[Some (mkB 1 2 0 1); None; None]; [Some (mkB 1 3 0 1); None; None]; [Some (mkB 1 4 0 1); None; None]; [Some (mkB 1 5 0 1); None; None];
     [Some (mkB 1 6 0 1); None; None]; [Some (mkB 1 7 0 1); None; None]; [Some (mkB 1 7 0 1); None; None]; [Some (mkB 1 7 0 1); None; None]].
Proof.
  split.
  - destruct (C51_election_ends [1; 2; 3] run _ _ _ 1 (Majority 3) 6 (lock_rounds _ _ _)) as (T & p & b & H1 & H2 & _ & H3).
    + repeat constructor; cbn; intuition discriminate.
    + cbn. lia.
    + reflexivity.
    + reflexivity.
    + exact case_waiting.
    + exists T, p, b. split; [exact H1|]. split; [exact H2|]. intros t Ht. destruct (H3 t Ht) as (X1 & _ & X2 & _). split; [|exact X2]. specialize (X1 p H2). rewrite Nat.eqb_refl in X1. exact X1.
  - vm_compute. reflexivity.
Qed.
End Case.

(** The number of rounds is not bounded by the number of servers: for every [N] there are three servers out of five, with ballots up to [N + 2], where
    a server that was just started for the first time is elected anew, with a new ballot, in each of the first [N + 1] rounds.  The other two follow a
    larger ballot of a crashed leader.  A view is only raised to ballots of servers that are heard, not to their views
    (ballot_leader_election.rs 222-229), and the flag of the server that takes over keeps the others from taking over. *)
Theorem C51_rounds_grow_with_ballots :
  forall N, exists Q S st pr ord cfg qq p,
    rounds Q S st pr ord /\ NoDup Q /\ length Q = 3 /\ (forall k, is_prepare_quorum qq k = is_accept_quorum qq k) /\ is_prepare_quorum qq (length Q) = true /\
    (forall q, In q Q -> waiting cfg qq q (S 0 q) /\ b_n (e_leader (S 0 q)) <= N + 2) /\ In p Q /\
    forall t, t <= N -> exists b, snd (heard_timeout (S t p) (map (S t) (ord t p)) (st t p) (pr t p)) = Some b /\ b_n b = t + 2.
Proof.
  intros N. set (L := mkB 1 (N + 2) 0 5).
  set (s0 := fun q : node_id => if q =? 1 then ble_with 1 1 [2; 3; 4; 5] 0 None None else e_set_happy (e_set_leader (ble_with 1 q (peers_in [1; 2; 3; 4; 5] q) 0 None None) L) false).
  set (st := fun (_ : nat) (_ : node_id) => (Follower, PhNone)). set (Q := [1; 2; 3]). set (run := lock Q st s0).
  pose proof (lock_rounds Q st s0) as HR. fold run in HR.
  assert (ND : NoDup Q) by (repeat constructor; cbn; intuition discriminate).
  assert (HL : forall n q, n < N + 2 -> ble (mkB 1 n 0 q) L = true) by (intros n q Hn; apply ble_spec; left; left; exact Hn).
  assert (HW : forall q, In q Q -> waiting 1 (Majority 3) q (run 0 q)).
  { intros q [<-|[<-|[<-|[]]]]; (split; [reflexivity|split; [reflexivity|split; [reflexivity|split; [reflexivity|split; [reflexivity|split; [reflexivity|]]]]]]); [reflexivity|apply (HL 1 2); lia|apply (HL 1 3); lia]. }
  assert (L3 : 2 <= length Q) by (cbn; lia).
  assert (RS : forall t q, In q Q -> _) by (intros t q Hq; exact (round_spec Q run st _ _ HR 1 (Majority 3) ND L3 (fun _ => eq_refl) eq_refl t q (waiting_all Q run st _ _ HR 1 (Majority 3) ND L3 (fun _ => eq_refl) eq_refl HW t) Hq)).
  cbn beta in RS. change (thr (Majority 3)) with 3 in RS.
  assert (I : forall t, t <= N + 1 -> e_ballot (run t 1) = mkB 1 (t + 1) 0 1 /\ e_leader (run t 1) = mkB 1 (t + 1) 0 1 /\ e_happy (run t 1) = true /\
     forall c, c = 2 \/ c = 3 -> e_ballot (run t c) = mkB 1 1 0 c /\ e_leader (run t c) = L /\ e_happy (run t c) = false).
  { induction t as [|t IH]; intros Ht.
    - repeat split; auto; destruct H as [-> | ->]; reflexivity.
    - destruct IH as (I1 & I2 & I3 & I4); [lia|]. rewrite <- Nat.add_1_r.
      assert (CQ : forall c, In c Q -> c <> 1 -> c = 2 \/ c = 3) by (intros c [<-|[<-|[<-|[]]]]; auto; congruence).
      destruct (RS t 1 (or_introl eq_refl)) as ((v1 & h1 & A1 & A2 & A3 & A4 & A5) & _).
      assert (N1 : b_n v1 = t + 1).
      { apply le_n_le in A1. rewrite I2 in A1. cbn in A1. destruct A3 as [-> |(c & Hc & Nc & ->)]; [rewrite I2; reflexivity|]. destruct (I4 c (CQ c Hc Nc)) as (X & _). rewrite X in *. cbn in *. lia. }
      assert (NH : forall c, In c Q -> c <> 1 -> e_happy (run t c) = false) by (intros c Hc Nc; apply I4, CQ; auto).
      assert (F : followers Q (fun t q => e_leader (run t q)) t (e_ballot (run t 1)) = 1).
      { unfold followers. cbn [filter Q]. rewrite I1, I2. rewrite ble_refl. destruct (I4 2 (or_introl eq_refl)) as (_ & -> & _). destruct (I4 3 (or_intror eq_refl)) as (_ & -> & _).
        assert (X : ble L (mkB 1 (t + 1) 0 1) = false); [|rewrite X; reflexivity]. destruct (ble L (mkB 1 (t + 1) 0 1)) eqn:E; auto. apply ble_spec in E. unfold bal_lt, bal_same, L in E. cbn in E. lia. }
      assert (h1 = false). { destruct h1; auto. exfalso. destruct A4 as [A4 _]. destruct (A4 eq_refl) as [(_ & [X|(c & Hc & Nc & _ & X)])|(_ & c & Hc & Nc & _ & X)]; [rewrite F in X; lia| |]; rewrite NH in X; auto; discriminate. }
      destruct A5 as [(_ & _ & E1 & E2 & E3)|([X|(c & Hc & Nc & X)] & _)]; [|congruence|rewrite NH in X; auto; discriminate].
      rewrite E2, E1, I1, N1. split; [reflexivity|]. split; [reflexivity|]. split; [exact E3|]. clear A1 A2 A3 A4 E1 E2 E3 H h1 N1 v1.
      intros c Hc. assert (In c Q) by (destruct Hc as [-> | ->]; cbn; auto). destruct (RS t c H) as ((v1 & h1 & A1 & A2 & A3 & A4 & A5) & _). destruct (I4 c Hc) as (J1 & J2 & J3).
      assert (SM : forall d, In d Q -> b_n (e_ballot (run t d)) < N + 2). { intros d Hd. destruct (Nat.eq_dec d 1) as [-> |Nd]; [rewrite I1; cbn; lia|]. destruct (I4 d (CQ d Hd Nd)) as (X & _). rewrite X. cbn. lia. }
      assert (V1 : v1 = L). { destruct A3 as [-> |(d & Hd & Nd & ->)]; [exact J2|]. apply le_n_le in A1. rewrite J2 in A1. specialize (SM d Hd). cbn in A1. lia. }
      assert (h1 = false). { destruct h1; auto. exfalso. destruct A4 as [A4 _]. destruct (A4 eq_refl) as [(X & _)|(_ & d & Hd & Nd & X & _)]; [specialize (SM c H)|specialize (SM d Hd)]; [rewrite <- X, V1 in SM|rewrite X, V1 in SM]; cbn in SM; lia. }
      destruct A5 as [(_ & X & _)|(_ & E1 & E2 & E3)].
      + assert (e_happy (run t 1) = false) by (apply X; [cbn; auto|destruct Hc as [-> | ->]; discriminate]). congruence.
      + rewrite E1, E2, E3. auto. }
  exists Q, run, st, (fun t q => e_leader (run t q)), (fun _ q => peers_in Q q), 1, (Majority 3), 1.
  split; [exact HR|]. split; [exact ND|]. split; [reflexivity|]. split; [reflexivity|]. split; [reflexivity|]. split.
  - intros q Hq. split; [auto|]. destruct (I 0) as (_ & X0 & _ & _); [lia|]. destruct (Nat.eq_dec q 1) as [-> |Nq]; [rewrite X0; cbn; lia|]. destruct (I 0) as (_ & _ & _ & X); [lia|]. destruct (X q) as (_ & -> & _); [destruct Hq as [<-|[<-|[<-|[]]]]; auto; congruence|]. cbn. lia.
  - split; [left; reflexivity|]. intros t Ht. destruct (RS t 1 (or_introl eq_refl)) as (_ & _ & _ & _ & E). destruct (I (t + 1)) as (X1 & X2 & _); [lia|]. rewrite X1, X2, beq_refl in E. exists (mkB 1 (t + 1 + 1) 0 1). split; [exact E|]. cbn. lia.
Qed.
Print Assumptions C51_rounds_grow_with_ballots.
