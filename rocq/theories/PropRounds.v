(** * C18: without restarts of the asking server the counted replies come from different servers *)
From Coq Require Import List Arith Bool Lia.
Import ListNotations.
From Verif Require Import Types Config MemStore Internal LeaderState SeqPaxos Ble Omni System Basics Scen Spec Refute PropAgreement Local Frame PropLocal PropCalls PropElect SysInv.

Section WithEntry.
Context {E : EntryT}.
Section Nodes.
Context (nds : list nat).

(** ** Counting *)

Definition cof {A} (f : A -> list nat) (k : nat) (l : list A) : nat := count_occ Nat.eq_dec (flat_map f l) k.
Lemma cof_app {A} (f : A -> list nat) k a b : cof f k (a ++ b) = cof f k a + cof f k b.
Proof. unfold cof. rewrite flat_map_app, count_occ_app. reflexivity. Qed.
Lemma cof_cons {A} (f : A -> list nat) k a b : cof f k (a :: b) = cof f k [a] + cof f k b.
Proof. apply (cof_app f k [a] b). Qed.
Lemma cof_remove {A} (f : A -> list nat) k l : forall j m, nth_error l j = Some m -> cof f k l = cof f k [m] + cof f k (remove_nth l j).
Proof.
  induction l as [|x l IH]; intros [|j] m H; try discriminate.
  - injection H as <-. apply cof_cons.
  - cbn [remove_nth]. rewrite (cof_cons f k x l), (cof_cons f k x (remove_nth l j)), (IH j m H). lia.
Qed.
Lemma cof_remove_le {A} (f : A -> list nat) k l : forall j, cof f k (remove_nth l j) <= cof f k l.
Proof.
  induction l as [|x l IH]; intros [|j]; cbn [remove_nth]; auto.
  - rewrite (cof_cons f k x l). lia.
  - rewrite (cof_cons f k x l), (cof_cons f k x (remove_nth l j)). specialize (IH j). lia.
Qed.
Lemma cof_none {A} (f : A -> list nat) k l : (forall x, In x l -> f x = []) -> cof f k l = 0.
Proof. intros H. unfold cof. replace (flat_map f l) with (@nil nat); [reflexivity|]. induction l as [|x l IH]; cbn; auto. rewrite (H x (or_introl eq_refl)). apply IH. intros y Hy. apply H. right; exact Hy. Qed.
Lemma cof_filter {A} (f : A -> list nat) g k l : (forall x, In x l -> g x = false -> f x = []) -> cof f k (filter g l) = cof f k l.
Proof.
  induction l as [|x l IH]; cbn [filter]; intros H; auto. rewrite (cof_cons f k x l). destruct (g x) eqn:Hg.
  - rewrite (cof_cons f k x). rewrite IH; auto. intros y Hy. apply H. right; exact Hy.
  - rewrite IH; [|intros y Hy; apply H; right; exact Hy]. unfold cof at 2. cbn. rewrite (H x (or_introl eq_refl) Hg). reflexivity.
Qed.

(** ** Where the round [k] of [p] towards [q] may be: in a request of [p] to [q] or in a reply of
    [q] to [p], waiting in a buffer, in the network, or counted by [p]. *)

Definition rq (q : nat) (m : message) : list nat :=
  match m with MsgBLE b => match bm_msg b with HbRequest r => if bm_to b =? q then [r] else [] | HbReply _ => [] end | MsgSP _ => [] end.
Definition rp (p q : nat) (m : message) : list nat :=
  match m with MsgBLE b => match bm_msg b with HbReply r => if (bm_to b =? p) && (b_pid (hr_ballot r) =? q) then [hr_round r] else [] | HbRequest _ => [] end | MsgSP _ => [] end.
Definition stored (q : nat) (r : hb_reply) : list nat := if b_pid (hr_ballot r) =? q then [hr_round r] else [].
Definition outm (b : bles) : list message := map MsgBLE (e_out b).

Definition toks (p q k : nat) (bp : bles) (bq : list message) (n : nat -> nat -> list message) : nat :=
  cof (rq q) k (outm bp) + cof (rq q) k (n p q) + cof (rp p q) k bq + cof (rp p q) k (n q p) + cof (stored q) k (e_replies bp).

(** ** Well-formed election states and messages *)

Definition wm (a : nat) (m : ble_message) : Prop :=
  In a nds /\ bm_from m = a /\ bm_to m <> a /\ match bm_msg m with HbReply r => b_pid (hr_ballot r) = a | HbRequest _ => True end.
Record WE (a : nat) (b : bles) : Prop := mkWE {
  we_in : In a nds;
  we_pid : e_pid b = a;
  we_bal : b_pid (e_ballot b) = a;
  we_peers : ~ In a (e_peers b) /\ NoDup (e_peers b);
  we_out : Forall (wm a) (e_out b);
  we_rep : Forall (fun r => b_pid (hr_ballot r) <> a /\ In (b_pid (hr_ballot r)) nds) (e_replies b)
}.
Definition wn (n : nat -> nat -> list message) : Prop := forall a b m, In (MsgBLE m) (n a b) -> wm a m /\ bm_to m = b.

Lemma we_new a b : WE a b -> WE a (new_hb_round b).
Proof.
  intros [H0 H1 H2 [H3 H3'] H4 H5]. constructor; cbn; auto. apply Forall_app. split; auto. rewrite Forall_map, Forall_forall. intros x Hx. split; [exact H0|]. split; cbn; [exact H1|]. split; auto. intros ->. contradiction.
Qed.
Lemma we_leader a b x : WE a b -> WE a (e_set_leader b x).
Proof. intros [H0 H1 H2 H3 H4 H5]. constructor; auto. Qed.
Lemma we_happy a b x : WE a b -> WE a (e_set_happy b x).
Proof. intros [H0 H1 H2 H3 H4 H5]. constructor; auto. Qed.
Lemma we_ballot a b x : WE a b -> b_pid x = a -> WE a (e_set_ballot b x).
Proof. intros [H0 H1 H2 H3 H4 H5] Hx. constructor; auto. Qed.
Lemma we_timeout a b st prom : WE a b -> WE a (fst (hb_timeout b st prom)).
Proof.
  intros H. unfold hb_timeout. cbn [fst].
  assert (H1 : WE a (update_leader b)). { unfold update_leader. destruct (max_ballot _); auto. destruct (bgt _ _); auto using we_leader. }
  assert (H2 : WE a (update_happiness (update_leader b) st)) by (apply we_happy; exact H1).
  assert (H3 : WE a (check_takeover (update_happiness (update_leader b) st))).
  { unfold check_takeover. destruct (negb _); auto. destruct (_ && _); auto. apply we_happy, we_leader, we_ballot; auto. exact (we_bal _ _ H2). }
  apply we_new in H3. destruct (bgt _ _); auto. apply we_happy. destruct (Nat.eqb_spec (b_pid prom) (e_pid (e_set_leader (new_hb_round (check_takeover (update_happiness (update_leader b) st))) prom))) as [He|].
  - apply we_ballot; [apply we_leader; exact H3|]. rewrite He. exact (we_pid _ _ (we_leader _ _ _ H3)).
  - apply we_leader; exact H3.
Qed.
Lemma we_handle a b m src : WE a b -> wm src m -> src <> a -> WE a (ble_handle b m).
Proof.
  intros [H0 H1 H2 H3 H4 H5] (M0 & M1 & M2 & M3) Hs. unfold ble_handle. destruct (bm_msg m) as [k|r].
  - unfold handle_request. constructor; cbn; auto. apply Forall_app. split; auto. constructor; [|constructor]. split; [exact H0|]. split; [exact H1|]. split; cbn; [congruence|exact H2].
  - unfold handle_reply. destruct (_ && _); constructor; cbn; auto. apply Forall_app. split; auto. constructor; [|constructor]. rewrite M3. auto.
Qed.
Lemma we_build cc sc st o : NoDup (cc_nodes cc) -> cc_nodes cc = nds -> build cc sc st = BOk o -> WE (sc_pid sc) (o_ble o).
Proof.
  intros Hn Hd. unfold build. destruct (config_validate cc sc) eqn:Hv; [|discriminate]. destruct (sp_with _ _ _ _ _); [|discriminate]. intros X. injection X as <-. cbn [o_ble].
  assert (Hp : ~ In (sc_pid sc) (peers_of cc (sc_pid sc)) /\ NoDup (peers_of cc (sc_pid sc))).
  { split; [|apply NoDup_filter; exact Hn]. unfold peers_of. rewrite filter_In. intros [_ X]. rewrite Nat.eqb_refl in X. discriminate. }
  assert (Hin : In (sc_pid sc) nds).
  { unfold config_validate in Hv. rewrite !andb_true_iff in Hv. destruct Hv as [_ Hv]. apply existsb_exists in Hv. destruct Hv as (x & X1 & X2). apply Nat.eqb_eq in X2. subst. exact X1. }
  unfold ble_with. destruct (ms_prom st) as [b|]; [destruct (negb _)|]; apply we_new; constructor; cbn; auto.
Qed.

(** The election component over one call, for the count. *)
Lemma outm_wm a b m : WE a b -> In m (outm b) -> exists x, m = MsgBLE x /\ wm a x.
Proof. intros H Hm. unfold outm in Hm. apply in_map_iff in Hm. destruct Hm as (x & <- & Hx). exists x. split; auto. pose proof (we_out _ _ H) as Ho. rewrite Forall_forall in Ho. auto. Qed.

Lemma hb_shape b st prom : exists b0, fst (hb_timeout b st prom) = b0 /\ e_out b0 = e_out b ++ map (fun p => mkBM (e_pid b) p (HbRequest (e_round b + 1))) (e_peers b) /\ e_round b0 = e_round b + 1 /\ e_replies b0 = [].
Proof.
  eexists. split; [reflexivity|]. unfold hb_timeout. cbn [fst].
  assert (H1 : forall b, e_out (update_leader b) = e_out b /\ e_round (update_leader b) = e_round b /\ e_pid (update_leader b) = e_pid b /\ e_peers (update_leader b) = e_peers b).
  { intros x. unfold update_leader. destruct (max_ballot _); auto. destruct (bgt _ _); auto. }
  assert (H2 : forall b, e_out (check_takeover b) = e_out b /\ e_round (check_takeover b) = e_round b /\ e_pid (check_takeover b) = e_pid b /\ e_peers (check_takeover b) = e_peers b).
  { intros x. unfold check_takeover. destruct (negb _); auto. destruct (_ && _); auto. }
  set (b1 := update_happiness (update_leader b) st). destruct (H1 b) as (A1 & A2 & A3 & A4). destruct (H2 b1) as (B1 & B2 & B3 & B4).
  change (e_out b1) with (e_out (update_leader b)) in B1. change (e_round b1) with (e_round (update_leader b)) in B2. change (e_pid b1) with (e_pid (update_leader b)) in B3. change (e_peers b1) with (e_peers (update_leader b)) in B4.
  rewrite <- A1, <- A2, <- A3, <- A4, <- B1, <- B2, <- B3, <- B4. destruct (bgt _ _); [|auto]. destruct (_ =? _); auto.
Qed.

Lemma cof_new_requests a q k r l : NoDup l -> cof (rq q) k (map MsgBLE (map (fun p => mkBM a p (HbRequest r)) l)) <= 1 /\ (k <> r -> cof (rq q) k (map MsgBLE (map (fun p => mkBM a p (HbRequest r)) l)) = 0).
Proof.
  intros Hn. split.
  - assert (H : forall l, NoDup l -> cof (rq q) k (map MsgBLE (map (fun p => mkBM a p (HbRequest r)) l)) <= (if in_dec Nat.eq_dec q l then 1 else 0)).
    { clear l Hn. induction l as [|x l IH]; intros Hn; [cbn; lia|]. inversion Hn as [|? ? Hx Hl]; subst. specialize (IH Hl). cbn [map]. rewrite cof_cons.
      assert (Hc : cof (rq q) k [MsgBLE (mkBM a x (HbRequest r))] <= (if Nat.eq_dec x q then 1 else 0)).
      { unfold cof. cbn. destruct (Nat.eq_dec x q) as [->|Hne]; [rewrite Nat.eqb_refl; cbn; destruct (Nat.eq_dec r k); lia|]. destruct (Nat.eqb_spec x q); [contradiction|]. cbn. lia. }
      destruct (Nat.eq_dec x q) as [->|Hne].
      - destruct (in_dec Nat.eq_dec q l); [contradiction|]. destruct (in_dec Nat.eq_dec q (q :: l)) as [|X]; [lia|exfalso; apply X; left; reflexivity].
      - destruct (in_dec Nat.eq_dec q l) as [Hi|]; [|lia]. destruct (in_dec Nat.eq_dec q (x :: l)) as [|X]; [lia|exfalso; apply X; right; exact Hi]. }
    specialize (H l Hn). destruct (in_dec Nat.eq_dec q l); lia.
  - intros Hk. unfold cof. apply count_occ_not_In. rewrite in_flat_map. intros (m & Hm & Hin). rewrite map_map in Hm. apply in_map_iff in Hm. destruct Hm as (x & <- & _). cbn in Hin. destruct (x =? q); [destruct Hin as [<-|[]]; contradiction|destruct Hin].
Qed.

(** ** The invariant *)

Definition outq (x : option omni) : list message := match x with Some o => outm (o_ble o) | None => [] end.

Record RI (p : nat) (s : sys) : Prop := mkRI {
  ri_we : forall a o, nodes s a = Some o -> WE a (o_ble o);
  ri_wn : wn (net s);
  ri_tok : forall q o k, q <> p -> nodes s p = Some o ->
    toks p q k (o_ble o) (outq (nodes s q)) (net s) <= 1 /\ (0 < toks p q k (o_ble o) (outq (nodes s q)) (net s) -> k <= e_round (o_ble o))
}.

Definition not_at (p : nat) (a : action) : Prop := match a with ACrash q _ _ _ => q <> p | _ => True end.

(** One call at a server. *)
Lemma exec_we a o c o' r : WE a (o_ble o) -> (forall m, c = CHandle (MsgBLE m) -> exists src, src <> a /\ wm src m) -> exec o c = Ok (o', r) -> WE a (o_ble o').
Proof.
  intros H Hm He. apply exec_ble in He. destruct c as [e|cc1 meta| |i|i l|x| |x|[m|m]]; try (rewrite He; exact H).
  - destruct (due _); rewrite He; auto. apply we_timeout; exact H.
  - rewrite He. apply we_ballot; auto. exact (we_bal _ _ H).
  - rewrite He. destruct (Hm m eq_refl) as (src & H1 & H2). eapply we_handle; eauto.
Qed.

(** The asking server makes a call that handles no message of the election. *)
Lemma call_p p q k o c o' r bq n : q <> p -> WE p (o_ble o) -> (forall m, c <> CHandle (MsgBLE m)) -> exec o c = Ok (o', r) ->
  toks p q k (o_ble o) bq n <= 1 /\ (0 < toks p q k (o_ble o) bq n -> k <= e_round (o_ble o)) ->
  toks p q k (o_ble o') bq n <= 1 /\ (0 < toks p q k (o_ble o') bq n -> k <= e_round (o_ble o')).
Proof.
  intros Hq HW Hc He H. apply exec_ble in He. destruct c as [e|cc1 meta| |i|i l|x| |x|[m|m]]; try (rewrite He; exact H).
  - destruct (due _); [|rewrite He; exact H]. destruct (hb_shape (o_ble o) (role_of o) (get_promise o)) as (b0 & E0 & E1 & E2 & E3). rewrite E0 in He. rewrite He. clear He E0.
    unfold toks in *. unfold outm. rewrite E1, E2, E3, map_app, cof_app. fold (outm (o_ble o)).
    destruct (cof_new_requests (e_pid (o_ble o)) q k (e_round (o_ble o) + 1) _ (proj2 (we_peers _ _ HW))) as [C1 C2].
    assert (X0 : cof (stored q) k [] = 0) by reflexivity. destruct (Nat.eq_dec k (e_round (o_ble o) + 1)) as [Hk|Hk]; [lia|rewrite (C2 Hk); lia].
  - exfalso. eapply Hc; reflexivity.
Qed.
Lemma rq_reply q a b r : rq q (MsgBLE (mkBM a b (HbReply r))) = [].
Proof. reflexivity. Qed.

(** A message of the election delivered to the asking server. *)
Lemma handle_p p q k b bq n src j m : q <> p -> WE p b -> wn n -> nth_error (n src p) j = Some (MsgBLE m) ->
  toks p q k b bq n <= 1 /\ (0 < toks p q k b bq n -> k <= e_round b) ->
  let n' := upd2 n src p (remove_nth (n src p) j) in
  toks p q k (ble_handle b m) bq n' <= 1 /\ (0 < toks p q k (ble_handle b m) bq n' -> k <= e_round (ble_handle b m)).
Proof.
  intros Hq HW Hn Hj H n'. destruct (Hn src p m (nth_error_In _ _ Hj)) as ((M0 & M1 & M2 & M3) & M4).
  assert (Npq : n' p q = n p q). { unfold n', upd2. destruct (Nat.eqb_spec p src) as [->|]; cbn; auto. destruct (Nat.eqb_spec q src) as [->|]; auto. contradiction. }
  assert (Nqp : cof (rp p q) k (n q p) = cof (rp p q) k (n' q p) + (if src =? q then cof (rp p q) k [MsgBLE m] else 0)).
  { unfold n', upd2. rewrite (Nat.eqb_sym src q). destruct (Nat.eqb_spec q src) as [->|]; cbn [andb]; [|lia]. rewrite Nat.eqb_refl. rewrite (cof_remove _ _ _ _ _ Hj). lia. }
  assert (Hr : e_round (ble_handle b m) = e_round b). { unfold ble_handle. destruct (bm_msg m); auto. unfold handle_reply. destruct (_ && _); auto. }
  rewrite Hr. unfold toks in *. rewrite Npq.
  assert (Hb : cof (rq q) k (outm (ble_handle b m)) = cof (rq q) k (outm b) /\ cof (stored q) k (e_replies (ble_handle b m)) <= cof (stored q) k (e_replies b) + (if src =? q then cof (rp p q) k [MsgBLE m] else 0)).
  { unfold ble_handle. destruct (bm_msg m) as [x|x] eqn:Hm.
    - split; [|apply Nat.le_add_r]. unfold outm, handle_request. cbn [e_out e_set_out e_set_round]. rewrite map_app, cof_app. cbn [map]. rewrite (cof_none (rq q) k [_]); [lia|]. intros y [<-|[]]. reflexivity.
    - unfold handle_reply. destruct (_ && _); [|split; auto; lia]. split; [reflexivity|]. cbn [e_replies e_set_replies e_set_round]. rewrite cof_app. apply Nat.add_le_mono_l.
      unfold cof. cbn [flat_map]. rewrite !app_nil_r. cbn [rp]. rewrite Hm, M4, Nat.eqb_refl. cbn [andb]. unfold stored. rewrite M3. destruct (src =? q); [lia|cbn; lia]. }
  destruct Hb as [Hb1 Hb2]. rewrite Hb1. destruct (src =? q); lia.
Qed.

(** A message of the election delivered to the answering server. *)
Lemma handle_q p q k b bq n src j m : q <> p -> wn n -> nth_error (n src q) j = Some (MsgBLE m) ->
  let n' := upd2 n src q (remove_nth (n src q) j) in
  toks p q k b (outm (ble_handle bq m)) n' <= toks p q k b (outm bq) n.
Proof.
  intros Hq Hn Hj n'. destruct (Hn src q m (nth_error_In _ _ Hj)) as ((M0 & M1 & M2 & M3) & M4).
  assert (Nqp : n' q p = n q p). { unfold n', upd2. destruct (Nat.eqb_spec q src) as [->|]; cbn; auto. destruct (Nat.eqb_spec p src) as [->|]; auto. contradiction. }
  assert (Npq : cof (rq q) k (n p q) = cof (rq q) k (n' p q) + (if src =? p then cof (rq q) k [MsgBLE m] else 0)).
  { unfold n', upd2. rewrite (Nat.eqb_sym src p). destruct (Nat.eqb_spec p src) as [->|]; cbn [andb]; [|lia]. rewrite Nat.eqb_refl. rewrite (cof_remove _ _ _ _ _ Hj). lia. }
  unfold toks. rewrite Nqp.
  assert (Hb : cof (rp p q) k (outm (ble_handle bq m)) <= cof (rp p q) k (outm bq) + (if src =? p then cof (rq q) k [MsgBLE m] else 0)).
  { unfold ble_handle. destruct (bm_msg m) as [x|x] eqn:Hm.
    - unfold outm, handle_request. cbn [e_out e_set_out e_set_round]. rewrite map_app, cof_app. apply Nat.add_le_mono_l. cbn [map]. unfold cof. cbn [flat_map]. rewrite !app_nil_r. cbn [rp rq]. rewrite Hm, M1, M4, Nat.eqb_refl. cbn [bm_to bm_msg hr_ballot hr_round].
      destruct (src =? p); cbn [andb]; [|cbn; lia]. destruct (_ =? q); cbn; [lia|]. lia.
    - unfold handle_reply. destruct (_ && _); apply Nat.le_add_r. }
  lia.
Qed.

Lemma toks_net p q k b bq n n' : n' p q = n p q -> n' q p = n q p -> toks p q k b bq n' = toks p q k b bq n.
Proof. intros H1 H2. unfold toks. rewrite H1, H2. reflexivity. Qed.
Lemma toks_net_le p q k b bq n n' : (forall f, cof f k (n' p q) <= cof f k (n p q)) -> (forall f, cof f k (n' q p) <= cof f k (n q p)) -> toks p q k b bq n' <= toks p q k b bq n.
Proof. intros H1 H2. unfold toks. specialize (H1 (rq q)). specialize (H2 (rp p q)). lia. Qed.

(** A call changes only what the election component sends and counts. *)
Lemma call_q p q k b o c o' r n : (forall m, c <> CHandle (MsgBLE m)) -> exec o c = Ok (o', r) -> toks p q k b (outm (o_ble o')) n <= toks p q k b (outm (o_ble o)) n.
Proof.
  intros Hc He. apply exec_ble in He. destruct c as [e|cc1 meta| |i|i l|x| |x|[m|m]]; try (rewrite He; apply Nat.le_refl).
  - destruct (due _); [|rewrite He; apply Nat.le_refl]. destruct (hb_shape (o_ble o) (role_of o) (get_promise o)) as (b0 & E0 & E1 & E2 & E3). rewrite E0 in He. rewrite He.
    unfold toks, outm. rewrite E1, map_app, cof_app. rewrite (cof_none (rp p q) k (map MsgBLE (map _ _))); [lia|]. intros y Hy. rewrite map_map in Hy. apply in_map_iff in Hy. destruct Hy as (z & <- & _). reflexivity.
  - exfalso. eapply Hc; reflexivity.
Qed.

Lemma event_le s p ev a b f k : cof f k (event_net s p ev a b) <= cof f k (net s a b).
Proof.
  destruct ev as [c|src j]; cbn [event_net]; [lia|]. unfold upd2. destruct (Nat.eqb_spec a src) as [->|]; cbn [andb]; [|lia]. destruct (Nat.eqb_spec b p) as [->|]; [|lia]. apply cof_remove_le.
Qed.
Lemma event_wn s p ev : wn (net s) -> wn (event_net s p ev).
Proof.
  intros H a b m. destruct ev as [c|src j]; cbn [event_net]; [apply H|]. unfold upd2. destruct (Nat.eqb_spec a src) as [->|]; cbn [andb]; [|apply H]. destruct (Nat.eqb_spec b p) as [->|]; [|apply H]. intros X. apply H. eapply remove_nth_in; eauto.
Qed.
Lemma event_ble s p ev c m : wn (net s) -> event_call s p ev = Some c -> c = CHandle (MsgBLE m) -> exists src j, ev = EDeliver src j /\ nth_error (net s src p) j = Some (MsgBLE m) /\ src <> p /\ wm src m.
Proof.
  intros Hn He ->. destruct ev as [c|src j]; cbn in He; [destruct c; discriminate|]. destruct (nth_error (net s src p) j) as [x|] eqn:Hj; [|discriminate]. injection He as ->. exists src, j. split; auto. split; auto.
  destruct (Hn src p m (nth_error_In _ _ Hj)) as [(M0 & M1 & M2 & M3) M4]. split; [congruence|]. repeat split; auto.
Qed.

Definition is_ble (c : call) : option ble_message := match c with CHandle (MsgBLE m) => Some m | _ => None end.
Lemma is_ble_some c m : is_ble c = Some m -> c = CHandle (MsgBLE m).
Proof. destruct c as [e|cc1 meta| |i|i l|x| |x|[y|y]]; try discriminate. intros X. injection X as <-. reflexivity. Qed.
Lemma is_ble_none c : is_ble c = None -> forall m, c <> CHandle (MsgBLE m).
Proof. intros H m ->. discriminate. Qed.

Lemma fetch_toks o l : forall o', take_outgoing_messages o [] = (o', l) -> e_out (o_ble o') = [] /\ e_round (o_ble o') = e_round (o_ble o) /\ e_replies (o_ble o') = e_replies (o_ble o) /\
  exists sp, l = map MsgSP sp ++ outm (o_ble o).
Proof. intros o' H. unfold take_outgoing_messages, sp_take_outgoing in H. injection H as <- <-. repeat split. eexists. reflexivity. Qed.
Lemma we_fetch a o o' l : WE a (o_ble o) -> take_outgoing_messages o [] = (o', l) -> WE a (o_ble o').
Proof. intros [H0 H1 H2 H3 H4 H5] H. unfold take_outgoing_messages, sp_take_outgoing in H. injection H as <- _. constructor; cbn; auto. Qed.
Lemma cof_sp (f : message -> list nat) k l : (forall m, f (MsgSP m) = []) -> cof f k (map MsgSP l) = 0.
Proof. intros H. apply cof_none. intros x Hx. apply in_map_iff in Hx. destruct Hx as (m & <- & _). apply H. Qed.

Lemma ri_step cc p s a s' : NoDup (cc_nodes cc) -> cc_nodes cc = nds -> RI p s -> not_at p a -> exec_action cc s a = Some s' -> RI p s'.
Proof.
  intros Hcc Hnds [H1 H2 H3] Hna He. destruct a as [x ev|x|src dst j|x ev j sc]; cbn [exec_action] in He.
  - destruct (nodes s x) as [ox|] eqn:Hx; [|discriminate]. destruct (event_call s x ev) as [c|] eqn:Hc; [|discriminate]. destruct (exec ox c) as [[ox' r]|] eqn:Hex; [|discriminate]. injection He as <-.
    assert (HB : forall m, c = CHandle (MsgBLE m) -> exists src j, ev = EDeliver src j /\ nth_error (net s src x) j = Some (MsgBLE m) /\ src <> x /\ wm src m) by (intros m; apply event_ble; auto).
    constructor; cbn [nodes net].
    + intros a o. unfold upd1. destruct (Nat.eqb_spec a x) as [->|]; [|apply H1]. intros X. injection X as <-. eapply exec_we; [apply H1; exact Hx| |exact Hex]. intros m Hm. destruct (HB m Hm) as (src & _ & _ & _ & X1 & X2). eauto.
    + apply event_wn; exact H2.
    + intros q o k Hq. unfold upd1. destruct (Nat.eqb_spec p x) as [<-|Hpx].
      * destruct (Nat.eqb_spec q p) as [|_]; [contradiction|]. intros X. injection X as <-. specialize (H3 q ox k Hq Hx). destruct (is_ble c) as [m|] eqn:Hm.
        -- apply is_ble_some in Hm. destruct (HB m Hm) as (src & j & -> & Hj & _ & _). subst c. apply exec_ble in Hex. rewrite Hex. cbn [event_net]. apply handle_p; auto.
        -- eapply call_p; [exact Hq|apply H1; exact Hx|apply is_ble_none; exact Hm|exact Hex|]. pose proof (toks_net_le p q k (o_ble ox) (outq (nodes s q)) (net s) (event_net s p ev) (fun f => event_le s p ev p q f k) (fun f => event_le s p ev q p f k)). lia.
      * intros X. destruct (Nat.eqb_spec q x) as [<-|Hqx].
        -- specialize (H3 q o k Hq X). rewrite Hx in H3. cbn [outq] in H3 |- *. destruct (is_ble c) as [m|] eqn:Hm.
           ++ apply is_ble_some in Hm. destruct (HB m Hm) as (src & j & -> & Hj & _ & _). subst c. apply exec_ble in Hex. rewrite Hex. cbn [event_net]. pose proof (handle_q p q k (o_ble o) (o_ble ox) (net s) src j m Hq H2 Hj) as X1. cbn zeta in X1. lia.
           ++ pose proof (call_q p q k (o_ble o) ox c ox' r (event_net s q ev) (is_ble_none _ Hm) Hex).
              pose proof (toks_net_le p q k (o_ble o) (outm (o_ble ox)) (net s) (event_net s q ev) (fun f => event_le s q ev p q f k) (fun f => event_le s q ev q p f k)). lia.
        -- specialize (H3 q o k Hq X). pose proof (toks_net_le p q k (o_ble o) (outq (nodes s q)) (net s) (event_net s x ev) (fun f => event_le s x ev p q f k) (fun f => event_le s x ev q p f k)). lia.
  - destruct (nodes s x) as [ox|] eqn:Hx; [|discriminate]. destruct (take_outgoing_messages ox []) as [ox' l] eqn:Ht. injection He as <-. destruct (fetch_toks _ _ _ Ht) as (T1 & T2 & T3 & sp & T4).
    constructor; cbn [nodes net].
    + intros a o. unfold upd1. destruct (Nat.eqb_spec a x) as [->|]; [|apply H1]. intros X. injection X as <-. eapply we_fetch; eauto.
    + intros a b m. rewrite send_all_net. destruct (Nat.eqb_spec a x) as [->|]; [|apply H2]. rewrite in_app_iff, filter_In. intros [X|[X Y]]; [apply H2; exact X|]. cbn in Y. apply Nat.eqb_eq in Y. split; auto.
      rewrite T4, in_app_iff in X. destruct X as [X|X]; [apply in_map_iff in X; destruct X as (z & X & _); discriminate|]. destruct (outm_wm x _ _ (H1 _ _ Hx) X) as (z & Z1 & Z2). injection Z1 as ->. exact Z2.
    + intros q o k Hq. unfold upd1. destruct (Nat.eqb_spec p x) as [<-|Hpx].
      * destruct (Nat.eqb_spec q p) as [|_]; [contradiction|]. intros X. injection X as <-. specialize (H3 q ox k Hq Hx). rewrite T2.
        assert (HE : toks p q k (o_ble ox') (outq (nodes s q)) (send_all (net s) p l) = toks p q k (o_ble ox) (outq (nodes s q)) (net s)).
        { unfold toks. rewrite !send_all_net, Nat.eqb_refl. destruct (Nat.eqb_spec q p) as [|_]; [contradiction|]. rewrite cof_app, T3. unfold outm at 1. rewrite T1. cbn [map].
          rewrite (cof_filter (rq q) (fun m => msg_to m =? q) k l).
          - rewrite T4, cof_app, (cof_sp (rq q) k sp); [|reflexivity]. change (cof (rq q) k []) with 0. lia.
          - intros m _ Hm. destruct m as [m|m]; [reflexivity|]. cbn in Hm |- *. rewrite Hm. destruct (bm_msg m); reflexivity. }
        rewrite HE. exact H3.
      * intros X. destruct (Nat.eqb_spec q x) as [<-|Hqx].
        -- specialize (H3 q o k Hq X). rewrite Hx in H3. cbn [outq] in H3 |- *.
           assert (HE : toks p q k (o_ble o) (outm (o_ble ox')) (send_all (net s) q l) = toks p q k (o_ble o) (outm (o_ble ox)) (net s)).
           { unfold toks. rewrite !send_all_net, Nat.eqb_refl. destruct (Nat.eqb_spec p q) as [|_]; [congruence|]. rewrite cof_app. unfold outm at 2. rewrite T1. cbn [map].
             rewrite (cof_filter (rp p q) (fun m => msg_to m =? p) k l).
             - rewrite T4, cof_app, (cof_sp (rp p q) k sp); [|reflexivity]. change (cof (rp p q) k []) with 0. lia.
             - intros m _ Hm. destruct m as [m|m]; [reflexivity|]. cbn in Hm |- *. rewrite Hm. destruct (bm_msg m); reflexivity. }
           rewrite HE. exact H3.
        -- specialize (H3 q o k Hq X). rewrite (toks_net p q k (o_ble o) (outq (nodes s q)) (net s)); auto; rewrite send_all_net; [destruct (Nat.eqb_spec p x)|destruct (Nat.eqb_spec q x)]; auto; contradiction.
  - injection He as <-. constructor; cbn [nodes net]; auto.
    + intros a b m. unfold upd2. destruct (Nat.eqb_spec a src) as [->|]; cbn [andb]; [|apply H2]. destruct (Nat.eqb_spec b dst) as [->|]; [|apply H2]. intros X. apply H2. eapply remove_nth_in; eauto.
    + intros q o k Hq X. specialize (H3 q o k Hq X).
      assert (HL : forall a b f, cof f k (upd2 (net s) src dst (remove_nth (net s src dst) j) a b) <= cof f k (net s a b)).
      { intros a b f. unfold upd2. destruct (Nat.eqb_spec a src) as [->|]; cbn [andb]; [|lia]. destruct (Nat.eqb_spec b dst) as [->|]; [|lia]. apply cof_remove_le. }
      pose proof (toks_net_le p q k (o_ble o) (outq (nodes s q)) (net s) _ (HL p q) (HL q p)). lia.
  - destruct (nodes s x) as [ox|] eqn:Hx; [|discriminate]. destruct (event_call s x ev) as [c|] eqn:Hc; [|discriminate]. destruct (nth_error _ j) as [st|]; [|discriminate]. destruct (Nat.eqb_spec (sc_pid sc) x) as [Hpid|]; [|discriminate].
    destruct (build cc sc st) as [| |ox'] eqn:Hb; try discriminate. injection He as <-. cbn in Hna.
    assert (HWx : WE x (o_ble ox')) by (rewrite <- Hpid; eapply we_build; eauto).
    constructor; cbn [nodes net].
    + intros a o. unfold upd1. destruct (Nat.eqb_spec a x) as [->|]; [|apply H1]. intros X. injection X as <-. exact HWx.
    + apply event_wn; exact H2.
    + intros q o k Hq. unfold upd1. destruct (Nat.eqb_spec p x) as [|_]; [congruence|]. intros X.
      assert (HL : forall bq, toks p q k (o_ble o) bq (event_net s x ev) <= toks p q k (o_ble o) bq (net s)) by (intros bq; apply toks_net_le; intros f; apply event_le).
      destruct (Nat.eqb_spec q x) as [->|Hqx].
      * specialize (H3 x o k Hq X). rewrite Hx in H3. cbn [outq] in H3 |- *.
        assert (HE : toks p x k (o_ble o) (outm (o_ble ox')) (net s) <= toks p x k (o_ble o) (outm (o_ble ox)) (net s)).
        { unfold toks. rewrite (cof_none (rp p x) k (outm (o_ble ox'))); [lia|]. clear -Hb. unfold build in Hb. destruct (config_validate cc sc); [|discriminate]. destruct (sp_with _ _ _ _ _); [|discriminate]. injection Hb as <-. cbn [o_ble].
          intros m Hm. unfold ble_with in Hm. destruct (ms_prom st) as [b|]; [destruct (negb _)|]; unfold outm, new_hb_round in Hm; cbn in Hm; rewrite map_map in Hm; apply in_map_iff in Hm; destruct Hm as (z & <- & _); reflexivity. }
        specialize (HL (outm (o_ble ox'))). lia.
      * specialize (H3 q o k Hq X). specialize (HL (outq (nodes s q))). lia.
Qed.

Lemma ri_init cc scs p : NoDup (cc_nodes cc) -> cc_nodes cc = nds -> RI p (init_sys cc scs).
Proof.
  intros Hcc Hnds.
  assert (HB : forall a o, nodes (init_sys cc scs) a = Some o -> WE a (o_ble o) /\ e_round (o_ble o) = 1 /\ e_out (o_ble o) = map (fun p => mkBM a p (HbRequest 1)) (e_peers (o_ble o)) /\ e_replies (o_ble o) = []).
  { intros a o. cbn. destruct (existsb _ _); cbn; [|discriminate]. destruct (Nat.eqb_spec (sc_pid (scs a)) a) as [Hp|]; [|discriminate]. destruct (build cc (scs a) ms_default) as [| |o0] eqn:Hb; try discriminate. intros X. injection X as <-.
    split; [rewrite <- Hp; eapply we_build; eauto|]. unfold build in Hb. destruct (config_validate cc (scs a)); [|discriminate]. destruct (sp_with _ _ _ _ _); [|discriminate]. injection Hb as <-. cbn. rewrite Hp. auto. }
  constructor.
  - intros a o Ho. apply HB in Ho. tauto.
  - intros a b m [].
  - intros q o k Hq Ho. apply HB in Ho. destruct Ho as (W & R & O & P).
    assert (Oq : forall m, In m (outq (nodes (init_sys cc scs) q)) -> rp p q m = []).
    { destruct (nodes (init_sys cc scs) q) as [oq|] eqn:Hoq; [|intros m []]. apply HB in Hoq. destruct Hoq as (_ & _ & Oq & _). cbn [outq]. unfold outm. rewrite Oq, map_map. intros m Hm. apply in_map_iff in Hm. destruct Hm as (z & <- & _). reflexivity. } unfold toks. rewrite R, P. cbn [net init_sys]. change (cof (rq q) k []) with 0. change (cof (rp p q) k []) with 0. change (cof (stored q) k []) with 0.
    rewrite (cof_none (rp p q) k _ Oq).
    unfold outm. rewrite O. destruct (cof_new_requests p q k 1 _ (proj2 (we_peers _ _ W))) as [C1 C2]. destruct (Nat.eq_dec k 1) as [->|Hk]; [lia|rewrite (C2 Hk); lia].
Qed.

Lemma ri_run cc p l : NoDup (cc_nodes cc) -> cc_nodes cc = nds -> forall s s', RI p s -> Forall (not_at p) l -> run cc s l = Some s' -> RI p s'.
Proof.
  intros Hcc Hnds. induction l as [|a l IH]; cbn; intros s s' H Hl Hr; [injection Hr as <-; auto|]. destruct (exec_action cc s a) as [s1|] eqn:Ha; [|discriminate].
  inversion Hl; subst. apply (IH s1 s'); auto. eapply ri_step; eauto.
Qed.

(** Counted at most once each, and of one round: the senders differ. *)
Lemma senders_nodup k p l : Forall (fun r => hr_round r = k /\ b_pid (hr_ballot r) <> p) l -> (forall q, q <> p -> cof (stored q) k l <= 1) -> NoDup (map (fun r => b_pid (hr_ballot r)) l).
Proof.
  induction l as [|r l IH]; intros HF HC; cbn; constructor.
  - inversion HF as [|? ? [Hr Hp] HF']; subst. intros Hin. specialize (HC (b_pid (hr_ballot r)) Hp). rewrite cof_cons in HC.
    assert (X1 : cof (stored (b_pid (hr_ballot r))) (hr_round r) [r] = 1). { unfold cof. cbn. unfold stored. rewrite Nat.eqb_refl. cbn. destruct (Nat.eq_dec (hr_round r) (hr_round r)); congruence. }
    assert (X2 : 0 < cof (stored (b_pid (hr_ballot r))) (hr_round r) l).
    { unfold cof. apply count_occ_In. apply in_flat_map. apply in_map_iff in Hin. destruct Hin as (y & Hy & Hl). exists y. split; auto. unfold stored. rewrite Hy, Nat.eqb_refl. rewrite Forall_forall in HF'. left. apply HF'. exact Hl. }
    lia.
  - inversion HF; subst. apply IH; auto. intros q Hq. specialize (HC q Hq). rewrite cof_cons in HC. lia.
Qed.

End Nodes.

(** C18 (part).  If the server has not restarted so far, the replies it counts in the current
    round come from different servers of the configuration, none of them itself: loss, reordering
    and restarts of the other servers do not matter.  Missing for the full claim: the code does not
    look at the sender of a reply, and a restarted server starts again at round 1
    ([C18_read_quorum_of_servers_refuted]). *)
Theorem C18_replies_of_different_servers_partial :
  forall cc scs l s p o,
  NoDup (cc_nodes cc) -> reaches cc scs l s -> (forall ev j sc, ~ In (ACrash p ev j sc) l) -> nodes s p = Some o ->
  let senders := p :: map (fun r => b_pid (hr_ballot r)) (replies o) in
  NoDup senders /\ incl senders (cc_nodes cc).
Proof.
  intros cc scs l s p o Hcc Hr Hnc Ho. cbn zeta.
  assert (HR : RI (cc_nodes cc) p s).
  { refine (ri_run (cc_nodes cc) cc p l Hcc eq_refl _ _ (ri_init _ cc scs p Hcc eq_refl) _ Hr). apply Forall_forall. intros a Ha. destruct a as [| | |q ev j sc]; cbn; auto. intros ->. eapply Hnc; eauto. }
  assert (HS : server_state o) by (eapply cluster_server_state; [exact Hr|exact Ho]).
  pose proof (C19_counted_replies_are_of_this_round o HS) as HF. pose proof (we_rep _ _ _ (ri_we _ _ _ HR _ _ Ho)) as HP. rewrite Forall_forall in HP. split; [constructor|].
  - intros X. apply in_map_iff in X. destruct X as (r & X & Hin). apply (HP r Hin). exact X.
  - apply senders_nodup with (k := e_round (o_ble o)) (p := p).
    + rewrite Forall_forall in *. intros r Hin. split; [apply HF; exact Hin|apply HP; exact Hin].
    + intros q Hq. destruct (ri_tok _ _ _ HR q o (e_round (o_ble o)) Hq Ho) as [X _]. unfold toks in X. unfold replies. lia.
  - intros x [<-|Hx]; [exact (we_in _ _ _ (ri_we _ _ _ HR _ _ Ho))|]. apply in_map_iff in Hx. destruct Hx as (r & <- & Hin). apply (HP r Hin).
Qed.

(** The quorums of the election are those of the cluster. *)
Definition readers_needed (cc : cluster_config) : nat :=
  match cc_flex cc with Some f => fq_read f | None => length (cc_nodes cc) / 2 + 1 end.
Definition writers_needed (cc : cluster_config) : nat :=
  match cc_flex cc with Some f => fq_write f | None => length (cc_nodes cc) / 2 + 1 end.
Lemma peers_count p l : NoDup l -> In p l -> length (filter (fun x => negb (x =? p)) l) + 1 = length l.
Proof.
  intros ND Hi. assert (G : forall k, ~ In p k -> length (filter (fun x => negb (x =? p)) k) = length k).
  { induction k as [|x k IH]; cbn; intros H; auto. destruct (Nat.eqb_spec x p) as [->|]; cbn; [exfalso; apply H; auto|]. rewrite IH; auto. }
  induction ND as [|x l Hx ND IH]; [destruct Hi|]. cbn [filter length]. destruct (Nat.eqb_spec x p) as [->|]; cbn [negb length].
  - rewrite (G l Hx). lia.
  - destruct Hi as [->|Hi]; [contradiction|]. rewrite <- (IH Hi). lia.
Qed.
Definition quorum_at (cc : cluster_config) (p : node_id) (o : omni) : Prop :=
  e_quorum (o_ble o) = quorum_with (cc_flex cc) (length (peers_of cc p) + 1).
Lemma hb_quorum b st prom : e_quorum (fst (hb_timeout b st prom)) = e_quorum b.
Proof.
  unfold hb_timeout. cbn [fst]. assert (H1 : e_quorum (update_leader b) = e_quorum b) by (unfold update_leader; destruct (max_ballot _); [destruct (bgt _ _)|]; reflexivity).
  set (b1 := update_happiness _ _). assert (H2 : e_quorum (check_takeover b1) = e_quorum b).
  { unfold check_takeover. destruct (negb _); [destruct (_ && _)|]; exact H1. }
  destruct (bgt _ _); [destruct (_ =? _)|]; exact H2.
Qed.
Lemma exec_quorum cc p o c o' r : quorum_at cc p o -> exec o c = Ok (o', r) -> quorum_at cc p o'.
Proof.
  unfold quorum_at. intros H He. apply exec_ble in He. rewrite <- H. destruct c as [e|cc0 meta| |i|i l|q| |q|[m|m]]; try (rewrite He; reflexivity).
  - destruct (due _); rewrite He; [apply hb_quorum|reflexivity].
  - rewrite He. unfold ble_handle, handle_reply. destruct (bm_msg m); [reflexivity|]. destruct (_ && _); reflexivity.
Qed.
Lemma build_quorum cc sc st o : build cc sc st = BOk o -> quorum_at cc (sc_pid sc) o.
Proof.
  unfold build, quorum_at. destruct (config_validate _ _); [|discriminate]. destruct (sp_with _ _ _ _ _); [|discriminate]. intros X. injection X as <-. unfold ble_with. cbn [o_ble].
  destruct (ms_prom st) as [b|]; [destruct (negb _)|]; reflexivity.
Qed.
Lemma quorum_step cc s a s' : (forall p o, nodes s p = Some o -> quorum_at cc p o) -> exec_action cc s a = Some s' -> forall p o, nodes s' p = Some o -> quorum_at cc p o.
Proof.
  intros H He p o Ho. destruct a as [q ev|q|src dst k|q ev j sc]; cbn [exec_action] in He.
  - destruct (nodes s q) as [o0|] eqn:N; [|discriminate]. destruct (event_call s q ev); [|discriminate]. destruct (exec o0 c) as [[o1 r]|] eqn:X; [|discriminate]. injection He as <-. cbn in Ho. unfold upd1 in Ho.
    destruct (Nat.eqb_spec p q) as [->|]; [|eauto]. injection Ho as <-. eapply exec_quorum; eauto.
  - destruct (nodes s q) as [o0|] eqn:N; [|discriminate]. unfold take_outgoing_messages in He. destruct (sp_take_outgoing _ _) as [s0 l0] in He. injection He as <-. cbn in Ho. unfold upd1 in Ho.
    destruct (Nat.eqb_spec p q) as [->|]; [|eauto]. injection Ho as <-. exact (H q o0 N).
  - injection He as <-. eauto.
  - destruct (nodes s q) as [o0|] eqn:N; [|discriminate]. destruct (event_call s q ev); [|discriminate]. destruct (nth_error _ _); [|discriminate]. destruct (Nat.eqb_spec (sc_pid sc) q) as [<-|]; [|discriminate].
    destruct (build cc sc m) as [o1| |] eqn:B; try discriminate. injection He as <-. cbn in Ho. unfold upd1 in Ho. destruct (Nat.eqb_spec p (sc_pid sc)) as [->|]; [|eauto]. injection Ho as <-. eapply build_quorum; eauto.
Qed.
Lemma quorum_run cc l : forall s s', (forall p o, nodes s p = Some o -> quorum_at cc p o) -> run cc s l = Some s' -> forall p o, nodes s' p = Some o -> quorum_at cc p o.
Proof.
  induction l as [|a l IH]; intros s s' H R; cbn [run] in R; [injection R as <-; exact H|]. destruct (exec_action cc s a) eqn:X; [|discriminate]. eapply IH; [|exact R]. eapply quorum_step; eauto.
Qed.
Theorem C18_quorums_are_the_clusters :
  forall cc scs l s p o n,
  NoDup (cc_nodes cc) -> In p (cc_nodes cc) -> reaches cc scs l s -> nodes s p = Some o ->
  (read_quorum o n <-> readers_needed cc <= n) /\ (write_quorum o n <-> writers_needed cc <= n).
Proof.
  intros cc scs l s p o n ND Hp R N. assert (H : quorum_at cc p o).
  { eapply (quorum_run cc l _ _); [|exact R|exact N]. intros q x Hx. unfold init_sys in Hx. cbn in Hx. destruct (existsb _ _ && (sc_pid (scs q) =? q)) eqn:Y; [|discriminate]. apply andb_true_iff in Y. destruct Y as [_ Y].
    apply Nat.eqb_eq in Y. destruct (build _ _ _) as [x0| |] eqn:B; try discriminate. injection Hx as <-. apply build_quorum in B. rewrite Y in B. exact B. }
  unfold quorum_at in H. pose proof (peers_count p _ ND Hp) as L. fold (peers_of cc p) in L. rewrite L in H.
  unfold read_quorum, write_quorum, readers_needed, writers_needed. rewrite H. unfold quorum_with. destruct (cc_flex cc); cbn; tauto.
Qed.

(** So a takeover of a server that has not restarted was preceded by answers of a read quorum,
    itself included, all of them unhappy. *)
Theorem C18_takeover_from_read_quorum_partial :
  forall cc scs l s p o o' r,
  NoDup (cc_nodes cc) -> reaches cc scs l s -> (forall ev j sc, ~ In (ACrash p ev j sc) l) -> nodes s p = Some o ->
  exec o CTick = Ok (o', r) -> own_ballot o' <> own_ballot o -> own_ballot o' <> get_promise o ->
  exists R, NoDup (p :: R) /\ incl (p :: R) (cc_nodes cc) /\ readers_needed cc <= length (p :: R) /\
    forall q, In q R -> exists x, In x (replies o) /\ b_pid (hr_ballot x) = q /\ hr_happy x = false /\ hr_round x = e_round (o_ble o).
Proof.
  intros cc scs l s p o o' r Hcc Hr Hnc Ho He Hn Hp. exists (map (fun r => b_pid (hr_ballot r)) (replies o)).
  destruct (C18_replies_of_different_servers_partial cc scs l s p o Hcc Hr Hnc Ho) as [X1 X2]. split; [exact X1|]. split; [exact X2|].
  destruct (C18_takeover_only_if o o' r He Hn) as [(v & _ & T2 & T3 & _)|[_ X]]; [|contradiction]. split.
  - assert (Hin : In p (cc_nodes cc)) by (apply X2; left; reflexivity). cbn [length]. rewrite map_length, <- Nat.add_1_r. apply (C18_quorums_are_the_clusters cc scs l s p o _ Hcc Hin Hr Ho). exact T3.
  - intros q Hq. apply in_map_iff in Hq. destruct Hq as (x & Hx & Hin). exists x. split; [exact Hin|]. split; [exact Hx|]. rewrite Forall_forall in T2. split; [apply T2; exact Hin|].
    assert (HS : server_state o) by (eapply cluster_server_state; [exact Hr|exact Ho]). pose proof (C19_counted_replies_are_of_this_round o HS) as HF. rewrite Forall_forall in HF. apply HF. exact Hin.
Qed.
End WithEntry.

(** ** Concrete case: server 1 of three has two replies and takes over at the next tick. *)
Section Case.
Local Existing Instance plain.
Lemma elect_no_crash : forall ev j sc, ~ In (ACrash 1 ev j sc) acts_elect.
Proof. intros ev j sc. unfold acts_elect. cbn. intros H. repeat (destruct H as [H|H]; [discriminate|]). exact H. Qed.
Example C18_senders_case :
  NoDup (cc_nodes cc3) /\ reaches cc3 scs1 acts_elect sys_elect /\ (forall ev j sc, ~ In (ACrash 1 ev j sc) acts_elect) /\
  obs sys_elect 1 (fun o => map (fun r => b_pid (hr_ballot r)) (replies o)) = Some [2; 3] /\
  obs sys_elect 1 (fun o => (own_ballot o, get_promise o, after_tick o own_ballot)) = Some (mkB 1 1 0 1, mkB 1 1 0 3, Some (mkB 1 2 0 1)).
Proof.
  split; [repeat constructor; cbn; intuition lia|]. split; [exact elect_reach|]. split; [exact elect_no_crash|]. vm_compute. auto.
Qed.
End Case.

Print Assumptions C18_replies_of_different_servers_partial.
Print Assumptions C18_takeover_from_read_quorum_partial.
Print Assumptions C18_quorums_are_the_clusters.
