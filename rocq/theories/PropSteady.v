(** * C49, C50: a leader that stays in office *)
From Coq Require Import List Arith Bool Lia.
Import ListNotations.
From Verif Require Import Types Config MemStore Internal LeaderState SeqPaxos Ble Omni System Basics Scen Spec Refute Ghost GhostOps Inv Op LeadLinks SysInv Reads Agree PropAgreement Local Frame PropLocal PropCalls PropBatch NoPanic PropNoPanic Progress Takeover Moves Steady PropProgress.

Section WithEntry.
Context {E : EntryT}.

(** ** Specification *)

(** A step in which only servers of [Q] and messages between them take part: a server of [Q] is told
    that it is connected to [p] again ([reconnected]), the oldest message of a link is delivered, a message is lost,
    outgoing messages are fetched.  Nobody crashes, no clock ticks, nobody tries to become the leader. *)
Definition resync (Q : list node_id) (p : node_id) (a : action) : Prop :=
  match a with
  | ADo q (ECall c) => In q Q /\ q <> p /\ c = CReconnected p
  | ADo q (EDeliver r k) => k = 0 /\ In q Q /\ In r Q
  | AFetch q => In q Q
  | ADrop r q _ => In r Q /\ In q Q
  | ACrash _ _ _ _ => False
  end.

(** The entries in the storage of [o]. *)
Definition log_of (o : omni) : list T := ms_log (i_st (s_is (o_sp o))).

(** [q] receives what [p] sent, answers, and [p] receives the answer. *)
Definition exchange (p q : node_id) : list action := [ADo q (EDeliver p 0); AFetch q; ADo p (EDeliver q 0)].

(** [p] appends [e]; one exchange with each server of [R]; one more message to each of them. *)
Definition round (p : node_id) (R : list node_id) (e : T) : list action :=
  ADo p (ECall (CAppend e)) :: AFetch p :: flat_map (exchange p) R ++ AFetch p :: map (fun q => ADo q (EDeliver p 0)) R.

Definition others (Q : list node_id) (p : node_id) : list node_id := filter (fun q => negb (q =? p)) Q.

(** [o] has not promised to follow a ballot above the one that [op] follows. *)
Definition not_ahead (o op : omni) : Prop := blt (get_promise o) (get_promise op) = true \/ get_promise o = get_promise op.

(** ** Proof *)
Lemma nth_ext_error {A} (l l' : list A) : length l = length l' -> (forall j x y, nth_error l j = Some x -> nth_error l' j = Some y -> x = y) -> l = l'.
Proof.
  revert l'. induction l as [|a l IH]; intros [|b l'] HL H; try discriminate; auto. f_equal; [apply (H 0); reflexivity|]. apply IH; [cbn in HL; congruence|]. intros j x y H1 H2. apply (H (S j)); auto.
Qed.

Section Run.
Context (Hus : use_snapshots = false) (cc : cluster_config) (scs : node_id -> server_config) (Hg : good_config cc scs).
Context (Q : list node_id) (p : node_id) (HQc : incl Q (cc_nodes cc)) (Hp : In p Q).

Definition okr : node_id -> call -> Prop := fun q c => In q Q /\ q <> p /\ c = CReconnected p.
Lemma okr_calm q c : okr q c -> calm c.
Proof. intros (_ & _ & ->). split; intros []. Qed.
Local Notation Good := (Moves.Good cc scs).
Local Notation goes := (Moves.goes cc Q okr).
Local Notation goes_trans := (Moves.goes_trans cc Q okr).
Local Notation goes_good := (Moves.goes_good cc scs Q okr okr_calm).
Local Notation good_run := (Moves.good_run cc scs).
Local Notation good_inv := (Moves.good_inv cc scs Hg).
Local Notation good_qs := (Moves.good_qs Hus cc scs Hg).
Local Notation deliver_x := (Moves.deliver_x Hus cc scs Hg).
Local Notation fetch_x := (Moves.fetch_x cc).
Local Notation fetch := (Moves.fetch cc scs Q okr).
Local Notation dropall := (Moves.dropall cc scs Q okr okr_calm).
Local Notation do_call := (Moves.do_call Hus cc scs Hg Q okr okr_calm).
Local Notation rest_facts := (Moves.rest_facts Hus cc scs Hg).
Local Notation dec_le := (Moves.dec_le Hus cc scs Hg).

(** Explicit steps. *)
Definition doesl (l : list action) (s s' : sys) : Prop := run cc s l = Some s' /\ all_steps h1h2 cc s l /\ only_calls calm l.
Lemma doesl_good l s s' : Good s -> doesl l s s' -> Good s'.
Proof. intros HG (H1 & H2 & H3). apply (good_run s l s' HG H1 H2 H3). Qed.
Lemma doesl_app l1 l2 a b c : doesl l1 a b -> doesl l2 b c -> doesl (l1 ++ l2) a c.
Proof.
  intros (A1 & A2 & A3) (B1 & B2 & B3). split; [eapply run_join; eauto|]. split; [eapply steps_join; eauto|].
  intros x q k Hx. apply in_app_iff in Hx. destruct Hx; [eapply A3|eapply B3]; eauto.
Qed.
Lemma doesl_nil s : doesl [] s s.
Proof. split; [reflexivity|]. split; [exact I|]. intros x q k []. Qed.
Lemma does_doesl s a s' : does cc s a s' -> (forall q c, action_event a = Some (q, ECall c) -> calm c) -> doesl [a] s s'.
Proof.
  intros [H1 H2] H3. split; [cbn; rewrite H1; reflexivity|]. split; [cbn; rewrite H1; auto|]. intros x q c [<-|[]]. apply H3.
Qed.

(** A server with nothing to send receives a message, and its answers are fetched. *)
Lemma hop_x s a b m t o : Good s -> a <> b -> nodes s a = Some o -> e_out (o_ble o) = [] -> s_out (o_sp o) = [] -> net s b a = MsgSP m :: t ->
  exists s' x o', doesl [ADo a (EDeliver b 0); AFetch a] s s' /\ sp_handle (rest o) m = Ok x /\ nodes s' a = Some o' /\ o_sp o' = fetched x /\ e_out (o_ble o') = [] /\ onlyn a s s' /\ net s' b a = t
    /\ (forall z, net s' a z = net s a z ++ map MsgSP (tob z (s_out x))) /\ (forall c z, c <> a -> c <> b \/ z <> a -> net s' c z = net s c z).
Proof.
  intros HG Nab Ho He Hout Hn. destruct (deliver_x s a b m t o HG Ho Hn) as (s1 & x & D1 & H1 & N1 & O1 & M1 & M1'). { intros _ y Hy. rewrite Hout in Hy. destruct Hy. }
  destruct (fetch_x s1 a _ N1) as (s2 & D2 & N2 & O2 & M2 & M2'). exists s2, x. eexists. split; [|split; [exact H1|split; [exact N2|]]].
  - apply (doesl_app [_] [_] s s1 s2); apply does_doesl; auto; discriminate.
  - split; [reflexivity|]. split; [reflexivity|]. split; [intros z Hz; rewrite O2, O1; auto|]. split; [rewrite M2' by auto; exact M1|]. split.
    + intros z. destruct (M2 z) as (u & Mu & Hu). cbn [o_ble set_sp start_call] in Hu. rewrite (Hu He), app_nil_r in Mu. rewrite Mu. f_equal. apply M1'. auto.
    + intros c z C1 C2. rewrite M2', M1'; auto.
Qed.
Lemma hop s a b m t o : Good s -> In a Q -> In b Q -> a <> b -> nodes s a = Some o -> e_out (o_ble o) = [] -> s_out (o_sp o) = [] -> net s b a = MsgSP m :: t ->
  exists s' x o', goes s s' /\ sp_handle (rest o) m = Ok x /\ nodes s' a = Some o' /\ o_sp o' = fetched x /\ e_out (o_ble o') = [] /\ onlyn a s s' /\ net s' b a = t
    /\ (forall z, net s' a z = net s a z ++ map MsgSP (tob z (s_out x))) /\ (forall c z, c <> a -> c <> b \/ z <> a -> net s' c z = net s c z).
Proof.
  intros HG Ha Hb Nab Ho He Hout Hn. destruct (hop_x s a b m t o HG Nab Ho He Hout Hn) as (s' & x & o' & (D1 & D2 & _) & H). exists s', x, o'. split; [|exact H].
  exists [ADo a (EDeliver b 0); AFetch a]. split; auto. split; auto. repeat constructor; auto.
Qed.

Section Leader.
Context (n : ballot) (Hn : b_pid n = p) (st0 : mstore) (ca0 : cache) (Hca : c_prom ca0 = n) (bsz : node_id -> nat).

Definition ldr (x : sp) : Prop :=
  s_role x = Leader /\ s_phase x = PhAccept /\ l_n (s_ls x) = n /\ s_out x = [] /\ (forall q y, vget (l_accmeta (s_ls x)) q = Some y -> y = None) /\ i_st (s_is x) = st0 /\ i_ca (s_is x) = ca0.

(** [r] has received all that the leader sent to it. *)
Definition flw (d : nat) (r : node_id) (x f : sp) : Prop :=
  s_role f = Follower /\ s_phase f = PhAccept /\ i_prom (s_is f) = n /\ s_out f = [] /\ c_bsize (i_ca (s_is f)) = bsz r /\ c_batch (i_ca (s_is f)) = [] /\ i_dec (s_is f) = d
  /\ vget (l_seqs (s_ls x)) r = Some (s_cseq f) /\ Takeover.promd (s_ls x) r.
Definition instep (d : nat) (s : sys) (x : sp) (r : node_id) : Prop :=
  exists o, nodes s r = Some o /\ e_out (o_ble o) = [] /\ flw d r x (o_sp o) /\ net s p r = [] /\ net s r p = [].
Definition behind (s : sys) (r : node_id) : Prop :=
  exists o, nodes s r = Some o /\ c_bsize (i_ca (s_is (o_sp o))) = bsz r /\ (blt (i_prom (s_is (o_sp o))) n = true \/ i_prom (s_is (o_sp o)) = n).
Definition J (ds : list node_id) (s : sys) : Prop :=
  exists op, nodes s p = Some op /\ e_out (o_ble op) = [] /\ ldr (o_sp op) /\ forall r, In r ds -> instep (c_dec ca0) s (o_sp op) r.

(** Only [p], [q] and the links between them change. *)
Definition fr (q : node_id) (s s' : sys) : Prop :=
  (forall z, z <> p -> z <> q -> nodes s' z = nodes s z) /\ (forall z, z <> q -> net s' p z = net s p z /\ net s' z p = net s z p).

Lemma instep_fr q d s s' x x' r : fr q s s' -> r <> q -> r <> p -> vget (l_seqs (s_ls x')) r = vget (l_seqs (s_ls x)) r -> (Takeover.promd (s_ls x) r -> Takeover.promd (s_ls x') r) -> instep d s x r -> instep d s' x' r.
Proof.
  intros [F1 F2] N1 N2 V1 V2 (o & A1 & A2 & (B1 & B2 & B3 & B4 & B5 & B6 & B7 & B8 & B9) & A4 & A5). exists o. destruct (F2 r N1) as [X1 X2]. rewrite F1, X1, X2 by auto. split; auto. split; auto. split; auto.
  unfold flw. rewrite V1. repeat (split; [assumption|]). auto.
Qed.

Lemma resync_one s q ds : Good s -> J ds s -> In q Q -> q <> p -> ~ In q ds -> ~ In p ds -> behind s q -> exists s', goes s s' /\ fr q s s' /\ J (q :: ds) s'.
Proof.
  intros HG (op & Nop & Eop & (L1 & L2 & L3 & L4 & L5 & L6 & L7) & HI) Hq Nqp Hd Hpd (o & Noq & Bq & Pq).
  (* all that is under way between the two is lost *)
  destruct (fetch s q o HG Hq Noq) as (s1 & G1 & N1 & O1 & _ & M1). pose proof (goes_good _ _ HG G1) as HG1.
  destruct (dropall p q s1 Hp Hq HG1) as (s2 & G2 & N2 & M2 & M2'). pose proof (goes_good _ _ HG1 G2) as HG2.
  destruct (dropall q p s2 Hq Hp HG2) as (s3 & G3 & N3 & M3 & M3'). pose proof (goes_good _ _ HG2 G3) as HG3.
  set (o3 := set_ble (set_sp o (fetched (o_sp o))) (e_set_out (o_ble o) [])) in *.
  assert (N3q : nodes s3 q = Some o3) by (rewrite N3, N2; exact N1). assert (N3p : nodes s3 p = Some op) by (rewrite N3, N2, O1; auto).
  assert (M3pq : net s3 p q = []) by (rewrite M3' by auto; exact M2).
  destruct (rest_facts s3 q o3 HG3 N3q) as (P1 & _).
  (* reconnected *)
  destruct (do_call s3 q (CReconnected p) o3 HG3) as (o4 & r4 & X4 & G4); [split; auto|reflexivity|exact N3q|].
  unfold exec in X4. cbn [exec_call] in X4. injection X4 as <- _. change (o_sp (start_call o3)) with (rest o3) in G4. set (s4 := mkSys _ _) in G4. pose proof (goes_good _ _ HG3 G4) as HG4.
  destruct (reconnected_f (rest o3) p) as (R1 & R2 & R3 & R4); [congruence|]. set (x4 := reconnected (rest o3) p) in *.
  assert (N4q : nodes s4 q = Some (set_sp (start_call o3) x4)) by apply upd1_same. assert (N4p : nodes s4 p = Some op) by (unfold s4; cbn [nodes]; rewrite upd1_other; auto).
  destruct (fetch s4 q _ HG4 Hq N4q) as (s5 & G5 & N5 & O5 & M5 & M5'). pose proof (goes_good _ _ HG4 G5) as HG5.
  assert (M5qp : net s5 q p = [MsgSP (mkPM q p (MPrepareReq (i_prom (s_is (o_sp o)))))]).
  { destruct (M5 p) as (u & Mu & Hu). cbn [o_ble set_sp start_call o3 set_ble e_out e_set_out] in Hu. rewrite (Hu eq_refl), app_nil_r in Mu. rewrite Mu. unfold s4. cbn [net o_sp set_sp]. rewrite M3, R3, P1.
    change (s_out (rest o3)) with (@nil pmessage). cbn [app tob filter pm_to]. rewrite Nat.eqb_refl. reflexivity. }
  assert (M5pq : net s5 p q = []) by (rewrite M5' by auto; exact M3pq).
  assert (N5p : nodes s5 p = Some op) by (rewrite O5; auto).
  (* the leader sends a Prepare *)
  destruct (hop s5 p q _ [] op HG5 Hp Hq (not_eq_sym Nqp) N5p Eop L4 M5qp) as (s6 & x6 & o6 & G6 & H6 & N6 & F6 & E6 & O6 & M6 & M6a & M6b). pose proof (goes_good _ _ HG5 G6) as HG6.
  destruct (rest_facts s5 p op HG5 N5p) as (P5 & _ & _ & _ & k & K1 & K2 & K3).
  assert (LE : ble (i_prom (s_is (o_sp o))) n = true). { destruct Pq as [Pq| ->]; [apply ble_spec; left; apply blt_spec; exact Pq|]. unfold ble. rewrite bcmp_refl. reflexivity. }
  unfold sp_handle in H6. cbn [pm_msg pm_from] in H6. destruct (preparereq_f _ _ _ _ H6) as (A1 & A2 & A3 & A4 & A5 & A6 & A7 & A8); [exact L1|cbn; rewrite L3; exact LE|].
  change (s_out (rest op)) with (s_out (o_sp op)) in A8. change (l_n (s_ls (rest op))) with (l_n (s_ls (o_sp op))) in A5, A8. rewrite L4, L3, P5 in A8. cbn [app] in A8.
  assert (N6q : nodes s6 q = Some (set_ble (set_sp (set_sp (start_call o3) x4) (fetched x4)) (e_set_out (o_ble (start_call o3)) []))) by (rewrite O6 by auto; exact N5).
  set (o6q := set_ble (set_sp (set_sp (start_call o3) x4) _) _) in N6q.
  assert (M6pq := M6a q). rewrite M5pq, A8 in M6pq. cbn [tob filter pm_to app] in M6pq. rewrite Nat.eqb_refl in M6pq. cbn [map] in M6pq.
  (* the follower promises *)
  destruct (hop s6 q p _ [] o6q HG6 Hq Hp Nqp N6q eq_refl eq_refl M6pq) as (s7 & x7 & o7 & G7 & H7 & N7 & F7 & E7 & O7 & M7 & M7a & M7b). pose proof (goes_good _ _ HG6 G7) as HG7.
  assert (I6 : s_is (rest o6q) = mkIS (i_st (s_is (o_sp o))) (i_ca (s_is (o_sp o))) []). { change (mkIS (i_st (s_is x4)) (i_ca (s_is x4)) [] = mkIS (i_st (s_is (o_sp o))) (i_ca (s_is (o_sp o))) []). rewrite R1. reflexivity. }
  destruct (rest_facts s6 q o6q HG6 N6q) as (P6 & _).
  unfold sp_handle in H7. cbn [pm_msg pm_from] in H7. destruct (prepare_f _ _ _ _ _ _ _ H7) as (B1 & B2 & B3 & B4 & B5 & pr & B6 & B7).
  { rewrite I6. destruct Pq as [Pq|Pq]; [left; exact Pq|right]. split; [exact Pq|]. change (s_phase x4 = PhRecover). apply R4. change (b_pid (i_prom (s_is (o_sp o))) = p). rewrite Pq. exact Hn. }
  rewrite I6 in B5. cbn [i_ca] in B5. change (s_out (rest o6q)) with (@nil pmessage) in B7. rewrite P6 in B7. cbn [app] in B7.
  assert (M7qp := M7a p). rewrite M6, B7 in M7qp. cbn [tob filter pm_to app] in M7qp. rewrite Nat.eqb_refl in M7qp. cbn [map] in M7qp.
  assert (N7p : nodes s7 p = Some o6) by (rewrite O7 by auto; exact N6).
  (* the leader synchronises *)
  destruct (hop s7 p q _ [] o6 HG7 Hp Hq (not_eq_sym Nqp) N7p E6 (f_equal s_out F6) M7qp) as (s8 & x8 & o8 & G8 & H8 & N8 & F8 & E8 & O8 & M8 & M8a & M8b). pose proof (goes_good _ _ HG7 G8) as HG8.
  destruct (rest_facts s7 p o6 HG7 N7p) as (P7 & _).
  assert (RL : s_role (rest o6) = Leader /\ s_phase (rest o6) = PhAccept /\ l_n (s_ls (rest o6)) = n /\ l_seqs (s_ls (rest o6)) = l_seqs (s_ls (o_sp op)) /\ s_out (rest o6) = [] /\ i_st (s_is (rest o6)) = st0 /\ i_ca (s_is (rest o6)) = ca0).
  { unfold rest, start_call. cbn [o_sp set_sp s_role s_phase s_ls s_out s_is set_is i_st i_ca]. rewrite F6. cbn [fetched set_lam set_ls set_out s_role s_phase s_ls s_out s_is reset_latest_accept_meta l_set_accmeta l_n l_seqs].
    rewrite A1, A3, A4, A5, A6. cbn. repeat split; auto. }
  destruct RL as (U1 & U2 & U3 & U4 & U5 & U6 & U7).
  unfold sp_handle in H8. cbn [pm_msg pm_from] in H8. rewrite U1, U2 in H8.
  destruct (vget (l_seqs (s_ls (o_sp op))) q) as [sq|] eqn:Hsq.
  2:{ exfalso. apply (vget_range (l_seqs (s_ls (o_sp op))) q); auto. rewrite K2. rewrite Forall_forall in K3. apply K3, HQc, Hq. }
  destruct (promise_accept_f _ _ _ _ sq H8) as (C1 & C2 & C3 & C4 & C5 & C6 & C7 & sy & C8); [congruence|congruence|].
  rewrite U5, U3, P7 in C8. cbn [app] in C8. unfold i_dec in C8. rewrite U7 in C8.
  assert (M8pq := M8a q). rewrite M7, C8 in M8pq. cbn [tob filter pm_to app] in M8pq. rewrite Nat.eqb_refl in M8pq. cbn [map] in M8pq.
  assert (N8q : nodes s8 q = Some o7) by (rewrite O8 by auto; exact N7).
  (* the follower takes over the log *)
  destruct (hop s8 q p _ [] o7 HG8 Hq Hp Nqp N8q E7 (f_equal s_out F7) M8pq) as (s9 & x9 & o9 & G9 & H9 & N9 & F9 & E9 & O9 & M9 & M9a & M9b). pose proof (goes_good _ _ HG8 G9) as HG9.
  assert (Sy : syncN nss (Some sy)). { pose proof (qs_net _ _ _ (good_qs s8 HG8) p q) as X. rewrite M8pq in X. apply (X (mkPM p q (MAcceptSync n (mkSeq (sq_sess sq + 1) 1) (c_dec ca0) sy))). left. reflexivity. }
  destruct (rest_facts s8 q o7 HG8 N8q) as (P8 & P8' & _).
  assert (RF : s_role (rest o7) = Follower /\ s_phase (rest o7) = PhPrepare /\ i_prom (s_is (rest o7)) = n /\ c_bsize (i_ca (s_is (rest o7))) = bsz q /\ c_batch (i_ca (s_is (rest o7))) = []).
  { assert (Z : s_phase (o_sp o7) = PhPrepare) by (rewrite F7; exact B2). split; [|split; [exact Z|split; [|split]]].
    - change (s_role (o_sp o7) = Follower). rewrite F7. exact B1.
    - change (i_prom (s_is (o_sp o7)) = n). rewrite F7. exact B3.
    - change (c_bsize (i_ca (s_is (o_sp o7))) = bsz q). rewrite F7. change (c_bsize (i_ca (s_is x7)) = bsz q). congruence.
    - destruct (good_inv s8 HG8) as (G & HS). assert (Y : osp s8 q = Some (o_sp o7)) by (unfold osp; rewrite N8q; reflexivity). apply (n_bprep _ _ _ _ (y_N _ _ _ HS _ _ Y)). exact Z. }
  destruct RF as (V1 & V2 & V3 & V4 & V5).
  unfold sp_handle in H9. cbn [pm_msg pm_from] in H9. destruct (acceptsync_any _ _ _ _ _ _ _ H9 V3 V1 V2 P8' Sy) as (D1 & D2 & D3 & D4 & D5 & D6 & D7).
  destruct (dropall q p s9 Hq Hp HG9) as (s10 & G10 & N10 & M10 & M10').
  assert (N10p : nodes s10 p = Some o8) by (rewrite N10, O9 by auto; exact N8). assert (N10q : nodes s10 q = Some o9) by (rewrite N10; exact N9).
  assert (FR : fr q s s10).
  { split.
    - intros z Z1 Z2. rewrite N10, O9, O8, O7, O6, O5; auto. unfold s4. cbn [nodes]. rewrite upd1_other by auto. rewrite N3, N2, O1; auto.
    - intros z Z. split.
      + rewrite M10' by auto. rewrite M9b by auto. rewrite M8a, C8. cbn [tob filter pm_to]. destruct (Nat.eqb_spec q z); [congruence|]. cbn [map]. rewrite app_nil_r.
        rewrite M7b by auto. rewrite M6a, A8. cbn [tob filter pm_to]. destruct (Nat.eqb_spec q z); [congruence|]. cbn [map]. rewrite app_nil_r.
        rewrite M5' by auto. unfold s4. cbn [net]. rewrite M3' by auto. rewrite M2' by auto. apply M1. auto.
      + rewrite M10' by auto. destruct (Nat.eq_dec z p) as [->|Zp].
        * rewrite M9b by auto. rewrite M8a, C8. cbn [tob filter pm_to]. destruct (Nat.eqb_spec q p); [congruence|]. cbn [map]. rewrite app_nil_r.
          rewrite M7b by auto. rewrite M6a, A8. cbn [tob filter pm_to]. destruct (Nat.eqb_spec q p); [congruence|]. cbn [map]. rewrite app_nil_r.
          rewrite M5' by auto. unfold s4. cbn [net]. rewrite M3' by auto. rewrite M2' by auto. apply M1. auto.
        * rewrite M9b by auto. rewrite M8b by auto. rewrite M7b by auto. rewrite M6b by auto. rewrite M5' by auto. unfold s4. cbn [net]. rewrite M3' by auto. rewrite M2' by auto. apply M1. auto. }
  exists s10. split; [|split; [exact FR|]].
  - eapply goes_trans; [exact G1|]. eapply goes_trans; [exact G2|]. eapply goes_trans; [exact G3|]. eapply goes_trans; [exact G4|]. eapply goes_trans; [exact G5|].
    eapply goes_trans; [exact G6|]. eapply goes_trans; [exact G7|]. eapply goes_trans; [exact G8|]. eapply goes_trans; [exact G9|exact G10].
  - assert (SL : s_ls (o_sp o8) = reset_latest_accept_meta (s_ls x8)) by (rewrite F8; reflexivity).
    assert (PD : forall r, r <> q -> Takeover.promd (s_ls (o_sp op)) r -> Takeover.promd (s_ls (o_sp o8)) r).
    { intros r Hr X. rewrite SL. change (Takeover.promd (s_ls x8) r). apply C6. right. unfold Takeover.promd. change (Takeover.promd (s_ls (o_sp o6)) r). rewrite F6. change (Takeover.promd (s_ls x6) r). apply A7; auto. }
    exists o8. split; [exact N10p|]. split; [exact E8|]. split.
    + unfold ldr. rewrite F8. cbn [fetched set_lam set_ls set_out s_role s_phase s_ls s_out s_is reset_latest_accept_meta l_set_accmeta l_n l_accmeta]. rewrite C1, C3, C4, C5. split; auto. split; auto. split; auto. split; auto. split; [intros z y; apply LeadLinks.vget_repeat|]. auto.
    + intros r [<-|Hr].
      * exists o9. split; [exact N10q|]. split; [exact E9|]. split; [|split; [rewrite M10' by auto; exact M9|exact M10]].
        unfold flw. rewrite SL, F9. cbn [fetched set_lam set_ls set_out s_role s_phase s_ls s_out s_is s_cseq reset_latest_accept_meta l_set_accmeta l_seqs]. rewrite D1, D2, D3, D4, D5, D6, D7, C7, Nat.eqb_refl.
        repeat (split; [auto; fail|]). apply (proj2 (C6 q)). auto.
      * assert (r <> q) by (intros ->; contradiction). assert (r <> p) by (intros ->; contradiction). apply (instep_fr q _ s s10 (o_sp op) (o_sp o8) r FR); auto.
        rewrite SL. change (vget (l_seqs (s_ls x8)) r = vget (l_seqs (s_ls (o_sp op))) r). rewrite C7, U4. destruct (Nat.eqb_spec r q); [contradiction|reflexivity].
Qed.

Lemma resync_all todo : forall ds s, NoDup (todo ++ ds) -> incl todo Q -> ~ In p (todo ++ ds) -> Good s -> J ds s -> (forall z, In z todo -> behind s z) ->
  exists s' ds', goes s s' /\ J ds' s' /\ forall z, In z (todo ++ ds) -> In z ds'.
Proof.
  induction todo as [|q todo IH]; intros ds s ND HI HP HG HJ HB.
  - exists s, ds. split; [apply Moves.goes_refl|]. auto.
  - cbn [app] in *. inversion ND as [|x y X1 X2]; subst. assert (Nq : q <> p) by (intros ->; apply HP; left; auto).
    destruct (resync_one s q ds HG HJ) as (s1 & G1 & F1 & J1); auto.
    { apply HI. left. auto. } { intros X. apply X1, in_app_iff. auto. } { intros X. apply HP. right. apply in_app_iff. auto. } { apply HB. left. auto. }
    destruct (IH (q :: ds) s1) as (s2 & ds2 & G2 & J2 & I2).
    + apply (NoDup_Add (Add_app q todo ds)). split; assumption.
    + intros z Hz. apply HI. right. auto.
    + intros X. apply HP. rewrite in_app_iff in X. cbn in *. rewrite in_app_iff. destruct X as [X|[X|X]]; auto.
    + apply (goes_good _ _ HG G1).
    + exact J1.
    + intros z Hz. assert (z <> q /\ z <> p) as [Z1 Z2] by (split; intros ->; [apply X1|apply HP; right]; apply in_app_iff; auto). destruct (HB z (or_intror Hz)) as (o & B1 & B2). exists o. rewrite (proj1 F1) by auto. auto.
    + exists s2, ds2. split; [eapply goes_trans; eauto|]. split; auto. intros z Hz. apply I2. rewrite in_app_iff. cbn. destruct Hz as [Hz|Hz]; [auto|]. rewrite in_app_iff in Hz. tauto.
Qed.

(** What the leader and a follower in step with it have stored. *)
Lemma same_log d s op r o : Good s -> nodes s p = Some op -> s_role (o_sp op) = Leader -> s_phase (o_sp op) = PhAccept -> l_n (s_ls (o_sp op)) = n -> r <> p -> nodes s r = Some o -> flw d r (o_sp op) (o_sp o) -> log_of o = log_of op.
Proof.
  intros HG Nop L1 L2 L3 Nr No (B1 & B2 & B3 & B4 & B5 & B6 & B7 & B8 & B9). destruct (good_inv s HG) as (G & HS).
  destruct (rest_facts s r o HG No) as (_ & C1 & _). destruct (rest_facts s p op HG Nop) as (_ & C2 & _).
  assert (S1 : i_ss (s_is (o_sp o)) = None) by exact (ci_none _ C1). assert (S2 : i_ss (s_is (o_sp op)) = None) by exact (ci_none _ C2).
  destruct C1 as [[T1 _] _ _]. destruct C2 as [[T2 _] _ _]. change (i_st (s_is (rest o))) with (i_st (s_is (o_sp o))) in T1. change (i_st (s_is (rest op))) with (i_st (s_is (o_sp op))) in T2.
  assert (O1 : osp s r = Some (o_sp o)) by (unfold osp; rewrite No; reflexivity). assert (O2 : osp s p = Some (o_sp op)) by (unfold osp; rewrite Nop; reflexivity).
  pose proof (y_N _ _ _ HS _ _ O1) as N1. pose proof (y_N _ _ _ HS _ _ O2) as N2.
  pose proof (co_ss _ _ (n_coh _ _ _ _ N2)) as M2. unfold i_ss in S1, S2. rewrite S2 in M2. symmetry in M2.
  pose proof (n_role _ _ _ _ N2) as HR. rewrite L1, L2 in HR. destruct (la_M _ _ _ _ HR) as (l & K1 & _ & K2). specialize (K2 M2). rewrite L3 in K1.
  pose proof (n_role _ _ _ _ N1) as HF. rewrite B1, B2 in HF. destruct HF as [HF _].
  assert (A1 : arnd (i_st (s_is (o_sp o))) = n). { rewrite HF, <- (st_prom _ _ _ _ (n_st _ _ _ _ N1)), <- (co_prom _ _ (n_coh _ _ _ _ N1)). exact B3. }
  assert (A2 : arnd (i_st (s_is (o_sp op))) = n). { rewrite <- (co_around _ _ (n_coh _ _ _ _ N2)). pose proof (la_arnd _ _ _ _ HR) as X. unfold i_around in X. congruence. }
  assert (LEN : length (log_of o) = length (log_of op)).
  { destruct (y_link _ _ _ HS p r (not_eq_sym Nr)) as [(_ & _ & _ & LC) LS].
    assert (V : oview s r = Some (view (o_sp o))) by (unfold oview; rewrite O1; reflexivity).
    destruct (LC _ V n Hn B3) as [X _]. destruct (X B2) as (_ & _ & _ & X4). cbn [view rv_ss rv_cnt rv_cseq] in X4. unfold i_ss in X4. rewrite S1, B6 in X4. cbn [issome length] in X4.
    destruct (LS _ O2) as [_ SN]. destruct (SN L1 L2 B9 _ B8) as (_ & Z & _). rewrite L3 in Z. unfold mlen in Z. rewrite K1 in Z. unfold cnt in *. unfold log_of. rewrite T1 in X4. rewrite T2 in K2. lia. }
  apply nth_ext_error; auto. intros j x y H1 H2.
  rewrite <- A1 in K1. pose proof (st_log _ _ _ _ (n_st _ _ _ _ N1) l j x K1 H1) as X1. rewrite A1, <- A2 in K1. pose proof (st_log _ _ _ _ (n_st _ _ _ _ N2) l j y K1 H2) as X2.
  rewrite T1 in X1. rewrite T2 in X2. congruence.
Qed.
End Leader.

(** *** Replicating one entry *)
Section Round.
Context (HQ : NoDup Q) (Hen : enough cc Q) (n : ballot) (Hn : b_pid n = p).
Local Notation R := (PropProgress.R Q p).
Local Notation fr := (fr).

Lemma no_batch s q o : Good s -> nodes s q = Some o -> c_bsize (i_ca (s_is (o_sp o))) <= 1 -> c_batch (i_ca (s_is (o_sp o))) = [].
Proof.
  intros (l & Hr & _) Ho Hb. pose proof (C32_batch_is_never_full o (cluster_server_state cc scs l s q o Hr Ho)) as X. destruct (c_batch _); [reflexivity|]. cbn in X. lia.
Qed.

(** What concerns [q]. *)
Definition pv (A : node_id -> option omni -> list message -> list message -> Prop) (s : sys) (q : node_id) : Prop := A q (nodes s q) (net s p q) (net s q p).
Lemma pv_fr A s s' q z : fr q s s' -> z <> q -> z <> p -> pv A s z -> pv A s' z.
Proof. intros [F1 F2] H1 H2 H. unfold pv in *. destruct (F2 z H1) as [X1 X2]. rewrite F1, X1, X2; auto. Qed.

Lemma iter_x f A B (K : list node_id -> sys -> Prop) :
  (forall s q ds, Good s -> K ds s -> In q R -> pv A s q -> exists s', doesl (f q) s s' /\ fr q s s' /\ K (q :: ds) s' /\ pv B s' q) ->
  forall todo ds s, NoDup (todo ++ ds) -> incl (todo ++ ds) R -> Good s -> K ds s -> (forall z, In z todo -> pv A s z) -> (forall z, In z ds -> pv B s z) ->
  exists s' ds', doesl (flat_map f todo) s s' /\ K ds' s' /\ (forall z, In z ds' <-> In z (todo ++ ds)) /\ (forall z, In z ds' -> pv B s' z).
Proof.
  intros Hstep. induction todo as [|q todo IH]; intros ds s ND HI HG HJ HA HB.
  - exists s, ds. split; [apply doesl_nil|]. split; auto. split; auto. intros z. reflexivity.
  - cbn [app] in *. inversion ND as [|x y N1 N2]; subst. assert (Hq : In q R) by (apply HI; left; auto).
    destruct (Hstep s q ds HG HJ Hq) as (s1 & G1 & F1 & J1 & B1); [apply HA; left; auto|].
    assert (NZ : forall z, In z (todo ++ ds) -> z <> q /\ z <> p). { intros z Hz. split; [intros ->; contradiction|]. apply (in_R Q). apply HI. right. auto. }
    destruct (IH (q :: ds) s1) as (s2 & ds2 & G2 & J2 & I2 & B2).
    + apply (NoDup_Add (Add_app q todo ds)). split; assumption.
    + intros z Hz. apply HI. rewrite in_app_iff in Hz. cbn in *. rewrite in_app_iff. tauto.
    + apply (doesl_good _ _ _ HG G1).
    + exact J1.
    + intros z Hz. destruct (NZ z) as [Z1 Z2]; [apply in_app_iff; auto|]. apply (pv_fr A s s1 q z); auto. apply HA. right. exact Hz.
    + intros z [<-|Hz]; [exact B1|]. destruct (NZ z) as [Z1 Z2]; [apply in_app_iff; auto|]. apply (pv_fr B s s1 q z); auto.
    + exists s2, ds2. split; [cbn [flat_map]; eapply doesl_app; eauto|]. split; auto. split; auto. intros z. rewrite I2. cbn. rewrite !in_app_iff. cbn. tauto.
Qed.
Lemma iter_R f A B (K : list node_id -> sys -> Prop) s :
  (forall s q ds, Good s -> K ds s -> In q R -> pv A s q -> exists s', doesl (f q) s s' /\ fr q s s' /\ K (q :: ds) s' /\ pv B s' q) ->
  Good s -> K [] s -> (forall z, In z R -> pv A s z) -> exists s' ds', doesl (flat_map f R) s s' /\ K ds' s' /\ (forall z, In z ds' <-> In z R) /\ (forall z, In z R -> pv B s' z).
Proof.
  intros H HG HJ HA. destruct (iter_x f A B K H R [] s) as (s' & ds & G1 & J1 & I1 & B1); auto.
  - rewrite app_nil_r. apply (nd_R Q p HQ).
  - rewrite app_nil_r. apply incl_refl.
  - intros z [].
  - rewrite app_nil_r in I1. exists s', ds. split; auto. split; auto. split; auto. intros z Hz. apply B1, I1, Hz.
Qed.

Definition fol (c : seqnum) (d : nat) (lg : list T) (f : sp) : Prop :=
  s_role f = Follower /\ s_phase f = PhAccept /\ i_prom (s_is f) = n /\ s_out f = [] /\ c_bsize (i_ca (s_is f)) <= 1 /\ ms_log (i_st (s_is f)) = lg /\ i_dec (s_is f) = d /\ i_acc (s_is f) = length lg /\ s_cseq f = c.

Section Entry.
Context (e : T) (lg : list T) (d : nat) (sq : node_id -> seqnum).
Local Notation N := (length lg + 1).
Definition Aw : node_id -> option omni -> list message -> list message -> Prop := fun q o l1 l2 =>
  exists x c, o = Some x /\ e_out (o_ble x) = [] /\ fol c d lg (o_sp x) /\ sq q = nxt c /\ l1 = [MsgSP (mkPM p q (MAcceptDecide n (sq q) d [e]))] /\ l2 = [].
Definition Bw : node_id -> option omni -> list message -> list message -> Prop := fun q o l1 l2 =>
  exists x, o = Some x /\ e_out (o_ble x) = [] /\ fol (sq q) d (lg ++ [e]) (o_sp x) /\ l1 = [] /\ l2 = [].
Definition Kw (ds : list node_id) (s : sys) : Prop := exists o, nodes s p = Some o /\ e_out (o_ble o) = [] /\ wait p n R sq (lg ++ [e]) d N ds (o_sp o).

Lemma exchange_w s q ds : Good s -> Kw ds s -> In q R -> pv Aw s q -> exists s', doesl (exchange p q) s s' /\ fr q s s' /\ Kw (q :: ds) s' /\ pv Bw s' q.
Proof.
  intros HG (op & Hop & Hep & HW) HqR (o & c & Ho & He & (F1 & F2 & F3 & F4 & F5 & F6 & F7 & F8 & F9) & Hc & Hpq & Hqp). pose proof HqR as Hq. apply in_R in Hq. destruct Hq as [Hq Nqp].
  destruct (hop_x s q p _ [] o HG Nqp Ho He F4 Hpq) as (s1 & x & o1 & D1 & H1 & N1 & X1 & E1 & O1 & M1 & M1a & M1b). pose proof (doesl_good _ _ _ HG D1) as HG1.
  destruct (rest_facts s q o HG Ho) as (P1 & _). unfold sp_handle in H1. cbn [pm_msg pm_from] in H1. rewrite Hc in H1.
  destruct (acceptdecide_f _ _ _ _ _ _ H1 F3 F1 F2 F9 F5 (no_batch s q o HG Ho F5) F4) as (Y1 & Y2 & Y3 & Y4 & Y5 & Y6 & Y7 & Y8 & Y9 & Y10). { change (d <= i_dec (s_is (o_sp o))). lia. }
  change (i_acc (s_is (rest o))) with (i_acc (s_is (o_sp o))) in Y7, Y10. change (i_dec (s_is (rest o))) with (i_dec (s_is (o_sp o))) in Y6. change (i_st (s_is (rest o))) with (i_st (s_is (o_sp o))) in Y8. change (i_ca (s_is (rest o))) with (i_ca (s_is (o_sp o))) in Y9.
  rewrite F8 in Y7, Y10. rewrite F7 in Y6. rewrite F6 in Y8. rewrite P1, Hn in Y10.
  assert (M1qp := M1a p). rewrite Hqp, Y10 in M1qp. cbn [tob filter pm_to app] in M1qp. rewrite Nat.eqb_refl in M1qp. cbn [map] in M1qp.
  assert (N1p : nodes s1 p = Some op) by (rewrite O1; auto).
  destruct (deliver_x s1 p q _ [] op HG1 N1p M1qp) as (s2 & y & D2 & H2 & N2 & O2 & M2 & M2'); [discriminate|].
  unfold sp_handle in H2. cbn [pm_msg pm_from] in H2. assert (HW' : wait p n R sq (lg ++ [e]) d N ds (rest op)) by exact HW.
  pose proof (accepted_any p n R sq (lg ++ [e]) d N ds _ q y H2 HW' (eq_sym Hn)) as W2. specialize (W2 ltac:(rewrite in_R; tauto) HqR).
  exists s2. split; [|split; [|split]].
  - apply (doesl_app [_; _] [_] s s1 s2 D1). apply does_doesl; [exact D2|discriminate].
  - split; [intros z Z1 Z2; rewrite O2, O1; auto|]. intros z Z. split.
    + rewrite M2' by auto. apply M1b; auto.
    + rewrite M2' by auto. destruct (Nat.eq_dec z q) as [->|]; [contradiction|]. apply M1b; auto.
  - eexists. split; [exact N2|]. split; [exact Hep|exact W2].
  - exists o1. split; [rewrite O2 by auto; exact N1|]. split; [exact E1|]. split; [|split; [rewrite M2' by auto; exact M1|exact M2]].
    unfold fol. rewrite X1. cbn [fetched set_lam set_ls set_out s_role s_phase s_out s_is s_cseq]. rewrite Y2, Y3, Y4, Y5, Y6, Y7, Y8, Y9, app_length. cbn [length]. repeat (split; [auto; fail|]). auto.
Qed.

Definition Ad : node_id -> option omni -> list message -> list message -> Prop := fun q o l1 l2 =>
  exists x, o = Some x /\ e_out (o_ble x) = [] /\ fol (sq q) d (lg ++ [e]) (o_sp x) /\ d <= N /\ l1 = [MsgSP (mkPM p q (MDecide n (nxt (sq q)) N))] /\ l2 = [].
Definition Bd : node_id -> option omni -> list message -> list message -> Prop := fun q o l1 l2 =>
  exists x, o = Some x /\ e_out (o_ble x) = [] /\ fol (nxt (sq q)) N (lg ++ [e]) (o_sp x) /\ l1 = [] /\ l2 = [].
Lemma decide_w (op : omni) s q (ds : list node_id) : Good s -> nodes s p = Some op -> In q R -> pv Ad s q -> exists s', doesl [ADo q (EDeliver p 0)] s s' /\ fr q s s' /\ nodes s' p = Some op /\ pv Bd s' q.
Proof.
  intros HG Hop HqR (o & Ho & He & (F1 & F2 & F3 & F4 & F5 & F6 & F7 & F8 & F9) & Hd & Hpq & Hqp). pose proof HqR as Hq. apply in_R in Hq. destruct Hq as [Hq Nqp].
  destruct (deliver_x s q p _ [] o HG Ho Hpq) as (s1 & x & D1 & H1 & N1 & O1 & M1 & M1'); [discriminate|].
  rewrite app_length in F8. cbn in F8. unfold sp_handle in H1. cbn [pm_msg pm_from] in H1. destruct (decide_any _ _ _ _ _ H1 F3 F2 F9) as (Y1 & Y2 & Y3 & Y4 & Y5 & Y6 & Y7 & Y8 & Y9 & Y10).
  - change (i_dec (s_is (o_sp o)) <= N). lia.
  - symmetry. exact F8.
  - change (s_role (rest o)) with (s_role (o_sp o)) in Y1. change (s_out (rest o)) with (s_out (o_sp o)) in Y8. change (i_st (s_is (rest o))) with (i_st (s_is (o_sp o))) in Y10. change (i_ca (s_is (rest o))) with (i_ca (s_is (o_sp o))) in Y9.
    exists s1. split; [apply does_doesl; [exact D1|discriminate]|]. split; [|split].
    + split; [intros z Z1 Z2; apply O1; auto|]. intros z Z. split; apply M1'; auto.
    + rewrite O1; auto.
    + eexists. split; [exact N1|]. split; [exact He|]. split; [|split; [exact M1|unfold pv in *; rewrite M1' by auto; exact Hqp]].
      unfold fol. cbn [o_sp set_sp]. rewrite Y1, Y2, Y4, Y5, Y6, Y7, Y8, Y9, Y10, app_length. cbn [length]. repeat (split; [auto; fail|]). auto.
Qed.
End Entry.

(** The leader and the servers of [R] have the log [lg] and the decided index [d]. *)
Definition steady (lg : list T) (d : nat) (s : sys) : Prop :=
  exists op, nodes s p = Some op /\ e_out (o_ble op) = [] /\ s_pid (o_sp op) = p /\ s_role (o_sp op) = Leader /\ s_phase (o_sp op) = PhAccept /\ l_n (s_ls (o_sp op)) = n /\ i_prom (s_is (o_sp op)) = n /\ s_out (o_sp op) = []
    /\ (forall q y, vget (l_accmeta (s_ls (o_sp op))) q = Some y -> y = None) /\ c_bsize (i_ca (s_is (o_sp op))) <= 1 /\ ms_log (i_st (s_is (o_sp op))) = lg /\ i_dec (s_is (o_sp op)) = d
    /\ forall r, In r R -> exists o c, nodes s r = Some o /\ e_out (o_ble o) = [] /\ fol c d lg (o_sp o) /\ vget (l_seqs (s_ls (o_sp op))) r = Some c /\ Takeover.promd (s_ls (o_sp op)) r /\ net s p r = [] /\ net s r p = [].

Lemma acc_len s q o : Good s -> nodes s q = Some o -> i_acc (s_is (o_sp o)) = length (log_of o).
Proof.
  intros HG Ho. destruct (dec_le s q o HG Ho) as [_ X]. destruct (rest_facts s q o HG Ho) as (_ & [[T1 _] _ _] & _). change (i_st (s_is (rest o))) with (i_st (s_is (o_sp o))) in T1. unfold cnt in X. rewrite T1 in X. exact X.
Qed.

Lemma round_x lg d s e : Good s -> steady lg d s -> exists s', doesl (round p R e) s s' /\ steady (lg ++ [e]) (length lg + 1) s'.
Proof.
  intros HG (op & Nop & Eop & L1 & L2 & L3 & L4 & L5 & L6 & L7 & L8 & L9 & L10 & HF).
  destruct (rest_facts s p op HG Nop) as (_ & P2 & _ & _ & k & K1 & K2 & _).
  pose proof (acc_len s p op HG Nop) as AL. unfold log_of in AL. rewrite L9 in AL.
  (* append *)
  assert (Cc : calm (CAppend e)) by (split; intros []).
  destruct (Moves.do_exec Hus cc scs Hg s p (ECall (CAppend e)) op _ HG Nop eq_refl) as (o' & r & Hx & Ha). { intros c0 X. injection X as <-. exact Cc. }
  unfold exec in Hx. cbn [exec_call] in Hx. apply bind_inv in Hx. destruct Hx as ([x r'] & Hy & Hz). injection Hz as <- _.
  destruct (append_acc _ _ _ _ Hy) as (A1 & A2 & A3 & A4 & A5 & A6 & A7 & A8 & A9 & A10 & A11 & A12 & A13).
  { exact (ci_none _ P2). } { exact L2. } { exact L3. } { exact L8. } { exact (no_batch s p op HG Nop L8). } { exact L7. } { exact L6. } { cbn. congruence. }
  cbn [o_sp start_call set_sp set_is s_pid s_role s_phase s_ls s_is s_out i_st i_ca] in A1, A4, A5, A6, A7, A8, A9, A10, A11, A12, A13.
  change (i_prom (s_is x) = i_prom (s_is (o_sp op))) in A7. change (i_dec (s_is x) = i_dec (s_is (o_sp op))) in A8. change (i_acc (s_is x) = i_acc (s_is (o_sp op)) + 1) in A9.
  change (forall q y, q <> b_pid (l_n (s_ls (o_sp op))) -> Takeover.promd (s_ls (o_sp op)) q -> vget (l_seqs (s_ls (o_sp op))) q = Some y -> vget (l_seqs (s_ls x)) q = Some (nxt y) /\ tob q (s_out x) = [mkPM (s_pid (o_sp op)) q (MAcceptDecide (l_n (s_ls (o_sp op))) (nxt y) (i_dec (s_is (o_sp op))) [e])]) in A13.
  set (s1 := mkSys _ _) in Ha.
  assert (D1 : doesl [ADo p (ECall (CAppend e))] s s1). { apply does_doesl; [split; [exact Ha|split; exact I]|]. intros q c X. injection X as <- <-. exact Cc. }
  pose proof (doesl_good _ _ _ HG D1) as HG1.
  assert (N1 : nodes s1 p = Some (set_sp (start_call op) x)) by apply upd1_same.
  destruct (rest_facts s1 p _ HG1 N1) as (_ & _ & _ & _ & k1 & K3 & K4 & _). cbn [o_sp set_sp] in K3, K4.
  destruct (fetch_x s1 p _ N1) as (s2 & D2 & N2 & O2 & M2 & M2').
  assert (D2' : doesl [AFetch p] s1 s2) by (apply does_doesl; [exact D2|discriminate]). pose proof (doesl_good _ _ _ HG1 D2') as HG2.
  set (sq := fun r => match vget (l_seqs (s_ls (o_sp op))) r with Some c => nxt c | None => seq0 end).
  assert (RP : forall q, In q R -> q <> b_pid (l_n (s_ls (o_sp op)))). { intros q Hq. rewrite L4, Hn. apply (in_R Q) in Hq. tauto. }
  (* the exchanges *)
  destruct (iter_R (exchange p) (Aw e lg d sq) (Bw e lg d sq) (Kw e lg d sq) s2) as (s3 & ds & D3 & (o3 & N3 & E3 & W3) & I3 & B3).
  { intros s0 q ds0 X1 X2 X3 X4. apply (exchange_w e lg d sq s0 q ds0); auto. }
  { exact HG2. }
  { eexists. split; [exact N2|]. split; [reflexivity|]. unfold wait. cbn [o_sp set_ble set_sp fetched set_lam set_ls set_out s_role s_phase s_ls s_out s_is s_pid reset_latest_accept_meta l_set_accmeta l_n l_accmeta l_seqs l_proms l_accs].
    split; [congruence|]. split; [exact A2|]. split; [exact A3|]. split; [congruence|]. split; [congruence|]. split; [congruence|]. split; [congruence|]. split; [congruence|]. split; [congruence|]. split.
    { intros q Hq. apply (proj2 (A5 q)). destruct (HF q Hq) as (_ & _ & _ & _ & _ & _ & X & _). exact X. }
    split. { intros q [<-|[]]. rewrite L1 in A12. rewrite A12, A9, AL. reflexivity. }
    split. { intros q y. apply LeadLinks.vget_repeat. }
    left. split; [congruence|]. split; [reflexivity|]. split; [|intros _; left; reflexivity].
    intros q Hq. destruct (HF q Hq) as (_ & c & _ & _ & _ & X1 & X2 & _). destruct (A13 q c (RP q Hq) X2 X1) as [X3 _]. unfold sq. rewrite X1. exact X3. }
  { intros q Hq. destruct (HF q Hq) as (o & c & X1 & X2 & X3 & X4 & X5 & X6 & X7). assert (q <> p) by (apply (in_R Q) in Hq; tauto).
    exists o, c. split; [rewrite O2 by auto; unfold s1; cbn [nodes]; rewrite upd1_other by auto; exact X1|]. split; [exact X2|]. split; [exact X3|]. unfold sq. rewrite X4. split; [reflexivity|]. split.
    - destruct (M2 q) as (u & Mu & Hu). cbn [o_ble set_sp start_call] in Hu. rewrite (Hu Eop), app_nil_r in Mu. destruct (A13 q c (RP q Hq) X5 X4) as [_ Y]. cbn [o_sp set_sp] in Mu. rewrite Y, L1, L4, L10 in Mu. unfold s1 in Mu at 1. cbn [net event_net] in Mu. rewrite X6 in Mu. exact Mu.
    - rewrite M2' by auto. unfold s1. cbn [net event_net]. exact X7. }
  pose proof (doesl_good _ _ _ HG2 D3) as HG3.
  destruct W3 as (W1 & W2 & W3 & W4 & W5 & W6 & W7 & W8 & W9 & W10 & W11 & W12 & W13).
  destruct (R_ex cc scs Hg Q p HQ Hen) as [r0 Hr0].
  assert (DN : d <= length lg). { destruct (dec_le s p op HG Nop) as [X _]. rewrite L10, AL in X. exact X. }
  destruct W13 as [(_ & _ & _ & W13)|(W13 & W14)].
  { exfalso. destruct W13 as [X|X]; [lia| |].
    - apply I3 in Hr0. rewrite X in Hr0. destruct Hr0.
    - destruct (good_inv s3 HG3) as (G & HS). assert (HN : NodeInv cc G p (o_sp o3)) by (apply (y_N _ _ _ HS); unfold osp; rewrite N3; reflexivity).
      unfold is_chosen in X. rewrite (proj2 (quorum_p cc scs Hg Q p HQc Hp Hen G _ HN)) in X; [discriminate|]. eapply Nat.le_trans; [apply (len_R Q p HQ)|]. apply count_ge; [apply (nd_pR Q p HQ)|].
      intros q Hq. exists (length lg + 1). split; [apply W11; destruct Hq as [Hq|Hq]; [left; auto|right; apply I3; auto]|apply Nat.leb_refl]. }
  (* the decision is announced *)
  destruct (fetch_x s3 p o3 N3) as (s4 & D4 & N4 & O4 & M4 & M4').
  assert (D4' : doesl [AFetch p] s3 s4) by (apply does_doesl; [exact D4|discriminate]). pose proof (doesl_good _ _ _ HG3 D4') as HG4.
  destruct (iter_R (fun q => [ADo q (EDeliver p 0)]) (Ad e lg d sq) (Bd e lg sq) (fun _ x => nodes x p = Some (set_ble (set_sp o3 (fetched (o_sp o3))) (e_set_out (o_ble o3) []))) s4) as (s5 & ds5 & D5 & N5 & _ & B5).
  { intros s0 q ds0 X1 X2 X3 X4. apply (decide_w e lg d sq _ s0 q ds0); auto. }
  { exact HG4. }
  { exact N4. }
  { intros q Hq. destruct (B3 q Hq) as (o & X1 & X2 & X3 & X4 & X5). assert (q <> p) by (apply (in_R Q) in Hq; tauto). exists o. split; [rewrite O4; auto|]. split; [exact X2|]. split; [exact X3|]. split; [lia|]. split.
    - destruct (M4 q) as (u & Mu & Hu). rewrite (Hu E3), app_nil_r, X4 in Mu. destruct (W14 q Hq) as [Y _]. rewrite Y in Mu. exact Mu.
    - rewrite M4' by auto. exact X5. }
  exists s5. split.
  - unfold round. apply (doesl_app [_] _ s s1 s5 D1). apply (doesl_app [_] _ s1 s2 s5 D2'). eapply doesl_app; [exact D3|]. apply (doesl_app [_] _ s3 s4 s5 D4').
    replace (map (fun q => ADo q (EDeliver p 0)) R) with (flat_map (fun q => [ADo q (EDeliver p 0)]) R); [exact D5|]. clear. induction R as [|q l IH]; [reflexivity|]. cbn. rewrite IH. reflexivity.
  - eexists. split; [exact N5|]. cbn [o_sp o_ble set_ble set_sp fetched set_lam set_ls set_out s_role s_phase s_ls s_out s_is s_pid reset_latest_accept_meta l_set_accmeta l_n l_accmeta l_seqs l_proms l_accs].
    split; [reflexivity|]. do 5 (split; [assumption|]). split; [reflexivity|]. split; [intros q y; apply LeadLinks.vget_repeat|]. split; [assumption|]. split; [assumption|]. split; [assumption|].
    intros q Hq. destruct (B5 q Hq) as (o & X1 & X2 & X3 & X4 & X5). exists o, (nxt (sq q)). split; [exact X1|]. split; [exact X2|]. split; [exact X3|]. split; [apply (W14 q Hq)|]. split; [apply (W10 q Hq)|]. auto.
Qed.

Lemma rounds_x es : forall lg d s, Good s -> steady lg d s -> exists s' d', doesl (flat_map (round p R) es) s s' /\ steady (lg ++ es) d' s' /\ (es <> [] -> d' = length lg + length es).
Proof.
  induction es as [|e es IH]; intros lg d s HG HS.
  - exists s, d. rewrite app_nil_r. split; [apply doesl_nil|]. split; auto. intros X. contradiction.
  - destruct (round_x lg d s e HG HS) as (s1 & D1 & S1). destruct (IH (lg ++ [e]) _ s1 (doesl_good _ _ _ HG D1) S1) as (s2 & d2 & D2 & S2 & E2).
    exists s2, d2. split; [cbn [flat_map]; eapply doesl_app; eauto|]. split; [rewrite <- app_assoc in S2; exact S2|]. intros _. rewrite app_length in E2. cbn in *. destruct es as [|e' es].
    + destruct S2 as (op & X0 & _ & _ & _ & _ & _ & _ & _ & _ & _ & _ & X & _). destruct S1 as (op1 & Y). cbn in D2. destruct D2 as [D2 _]. cbn in D2. injection D2 as <-. destruct Y as (Y1 & _ & _ & _ & _ & _ & _ & _ & _ & _ & _ & Y & _). assert (op = op1) by congruence. subst op1.
 rewrite <- X, Y. reflexivity.
    + rewrite E2 by discriminate. cbn. lia.
Qed.
End Round.

(** *** From a state with a leader *)
Lemma leader_facts s op : Good s -> nodes s p = Some op -> get_current_leader op = Some (p, true) ->
  s_role (o_sp op) = Leader /\ s_phase (o_sp op) = PhAccept /\ l_n (s_ls (o_sp op)) = i_prom (s_is (o_sp op)) /\ b_pid (i_prom (s_is (o_sp op))) = p.
Proof.
  intros HG Hop HL. unfold get_current_leader, get_promise in HL. destruct (_ =? 0); [discriminate|]. injection HL as HP HF.
  destruct (good_inv s HG) as (G & HS). assert (HN : NodeInv cc G p (o_sp op)) by (apply (y_N _ _ _ HS); unfold osp; rewrite Hop; reflexivity).
  assert (Ph : s_phase (o_sp op) = PhAccept) by (destruct (s_phase (o_sp op)); try discriminate; reflexivity).
  assert (PE : i_prom (s_is (o_sp op)) = gP G p). { rewrite <- (st_prom _ _ _ _ (n_st _ _ _ _ HN)). apply (co_prom _ _ (n_coh _ _ _ _ HN)). }
  pose proof (n_role _ _ _ _ HN) as HR. rewrite Ph in HR. destruct (s_role (o_sp op)); [destruct HR as [_ X]; congruence|].
  split; auto. split; auto. split; [|exact HP]. rewrite PE. apply (la_n _ _ _ _ HR).
Qed.

Definition bsz_of (s : sys) (q : node_id) : nat := match nodes s q with Some o => c_bsize (i_ca (s_is (o_sp o))) | None => 0 end.

Lemma caught_up s op : Good s -> NoDup Q -> nodes s p = Some op -> get_current_leader op = Some (p, true) -> (forall q, In q Q -> exists o, nodes s q = Some o /\ not_ahead o op) ->
  exists s' ds, goes s s' /\ J (get_promise op) (i_st (s_is (o_sp op))) (i_ca (s_is (o_sp op))) (bsz_of s) ds s' /\ forall q, In q Q -> q <> p -> In q ds.
Proof.
  intros HG HQ Hop HL HA. destruct (leader_facts s op HG Hop HL) as (F1 & F2 & F3 & F4).
  destruct (fetch s p op HG Hp Hop) as (s1 & G1 & N1 & O1 & _ & _). pose proof (goes_good _ _ HG G1) as HG1.
  destruct (resync_all (get_promise op) F4 (i_st (s_is (o_sp op))) (i_ca (s_is (o_sp op))) (bsz_of s) (PropProgress.R Q p) [] s1) as (s2 & ds & G2 & J2 & I2).
  - rewrite app_nil_r. apply (nd_R Q p HQ).
  - intros q Hq. apply (in_R Q) in Hq. tauto.
  - rewrite app_nil_r, in_R. tauto.
  - exact HG1.
  - eexists. split; [exact N1|]. split; [reflexivity|]. split; [|intros r []]. unfold ldr. cbn [o_sp set_ble set_sp fetched set_lam set_ls set_out s_role s_phase s_ls s_out s_is reset_latest_accept_meta l_set_accmeta l_n l_accmeta].
    split; auto. split; auto. split; auto. split; auto. split; auto. intros q y. apply LeadLinks.vget_repeat.
  - intros q Hq. apply (in_R Q) in Hq. destruct Hq as [Hq Nq]. destruct (HA q Hq) as (o & Ho & HB). exists o. split; [rewrite O1; auto|]. split; [unfold bsz_of; rewrite Ho; reflexivity|exact HB].
  - exists s2, ds. split; [eapply goes_trans; eauto|]. split; auto. intros q H1 H2. apply I2. rewrite app_nil_r. apply in_R. auto.
Qed.

Lemma goes_resync s s' : goes s s' -> exists l, run cc s l = Some s' /\ all_steps h1h2 cc s l /\ Forall (resync Q p) l.
Proof.
  intros (l & R1 & R2 & R3). exists l. split; [exact R1|]. split; [exact R2|]. eapply Forall_impl; [|exact R3]. intros a H. exact H.
Qed.
End Run.

(** C49. *)
Theorem C49_leader_brings_followers_up_to_date :
  use_snapshots = false ->
  forall cc scs, good_config cc scs ->
  forall l s, all_steps h1h2 cc (init_sys cc scs) l -> only_calls (fun c => ~ compaction_call c /\ ~ reconfiguration_call c) l -> reaches cc scs l s ->
  forall Q p op, NoDup Q -> incl Q (cc_nodes cc) -> In p Q ->
  nodes s p = Some op -> get_current_leader op = Some (p, true) -> (forall q, In q Q -> exists o, nodes s q = Some o /\ not_ahead o op) ->
  exists l' s', Forall (resync Q p) l' /\ all_steps h1h2 cc (init_sys cc scs) (l ++ l') /\ reaches cc scs (l ++ l') s' /\
    forall q, In q Q -> exists o, nodes s' q = Some o /\ get_current_leader o = Some (p, true) /\ get_promise o = get_promise op /\ log_of o = log_of op /\ get_decided_idx o = get_decided_idx op.
Proof.
  intros Hus cc scs Hg l s A C Hr Q p op HQ HQc Hp Hop HL HA. assert (HG : Moves.Good cc scs s) by (exists l; auto).
  destruct (leader_facts cc scs Hg p s op HG Hop HL) as (F1 & F2 & F3 & F4).
  destruct (caught_up Hus cc scs Hg Q p HQc Hp s op HG HQ Hop HL HA) as (s' & ds & G1 & (op' & N1 & E1 & (L1 & L2 & L3 & L4 & L5 & L6 & L7) & HJ) & I1).
  pose proof (Moves.goes_good cc scs Q _ (okr_calm Q p) _ _ HG G1) as HG'.
  destruct (goes_resync cc Q p s s' G1) as (l' & R1 & R2 & R3). exists l', s'. split; auto. split; [eapply steps_join; eauto|]. split; [eapply run_join; eauto|].
  assert (P0 : p <> 0). { intros ->. unfold get_current_leader in HL. destruct (Nat.eqb_spec (b_pid (get_promise op)) 0); [discriminate|congruence]. }
  assert (GL : forall o, get_promise o = get_promise op -> s_phase (o_sp o) = PhAccept -> get_current_leader o = Some (p, true)).
  { intros o X1 X2. unfold get_current_leader. rewrite X1, X2. unfold get_promise. rewrite F4. destruct (Nat.eqb_spec p 0); [contradiction|reflexivity]. }
  assert (LG : log_of op' = log_of op) by (unfold log_of; rewrite L6; reflexivity).
  intros q Hq. destruct (Nat.eq_dec q p) as [->|Nq].
  - exists op'. assert (X : get_promise op' = get_promise op) by (unfold get_promise, i_prom; rewrite L7; reflexivity). split; auto. split; auto. split; auto. split; auto. unfold get_decided_idx, i_dec. rewrite L7. reflexivity.
  - destruct (HJ q (I1 q Hq Nq)) as (o & X1 & X2 & X3 & X4 & X5). exists o. split; auto.
    pose proof (same_log Hus cc scs Hg p (get_promise op) F4 (bsz_of s) _ s' op' q o HG' N1 L1 L2 L3 Nq X1 X3) as X6. destruct X3 as (B1 & B2 & B3 & _ & _ & _ & B7 & _).
    split; auto. split; auto. split; [congruence|]. exact B7.
Qed.

(** C50. *)
Theorem C50_steady_leader_decides_in_one_round_trip :
  use_snapshots = false ->
  forall cc scs, good_config cc scs ->
  forall l s, all_steps h1h2 cc (init_sys cc scs) l -> only_calls (fun c => ~ compaction_call c /\ ~ reconfiguration_call c) l -> reaches cc scs l s ->
  forall Q p op, NoDup Q -> incl Q (cc_nodes cc) -> In p Q -> enough cc Q ->
  nodes s p = Some op -> get_current_leader op = Some (p, true) ->
  (forall q, In q Q -> exists o, nodes s q = Some o /\ not_ahead o op /\ c_bsize (i_ca (s_is (o_sp o))) <= 1) ->
  exists l1, Forall (resync Q p) l1 /\ forall es, exists s',
    let l' := l ++ l1 ++ flat_map (round p (others Q p)) es in
    all_steps h1h2 cc (init_sys cc scs) l' /\ reaches cc scs l' s' /\
    forall q, In q Q -> exists o, nodes s' q = Some o /\ get_promise o = get_promise op /\ log_of o = log_of op ++ es /\
      (es <> [] -> get_decided_idx o = length (log_of op) + length es) /\
      forall j e, nth_error es j = Some e -> read o (length (log_of op) + j) = RSome (LDecided e).
Proof.
  intros Hus cc scs Hg l s A C Hr Q p op HQ HQc Hp Hen Hop HL HA. assert (HG : Moves.Good cc scs s) by (exists l; auto).
  destruct (leader_facts cc scs Hg p s op HG Hop HL) as (F1 & F2 & F3 & F4).
  assert (HA' : forall q, In q Q -> exists o, nodes s q = Some o /\ not_ahead o op) by (intros q Hq; destruct (HA q Hq) as (o & X1 & X2 & _); eauto).
  destruct (caught_up Hus cc scs Hg Q p HQc Hp s op HG HQ Hop HL HA') as (s1 & ds & G1 & (op' & N1 & E1 & (L1 & L2 & L3 & L4 & L5 & L6 & L7) & HJ) & I1).
  pose proof (Moves.goes_good cc scs Q _ (okr_calm Q p) _ _ HG G1) as HG1.
  destruct (goes_resync cc Q p s s1 G1) as (l1 & R1 & R2 & R3). exists l1. split; auto. intros es.
  assert (St : steady Q p (get_promise op) (log_of op) (get_decided_idx op) s1).
  { exists op'. destruct (rest_facts Hus cc scs Hg s1 p op' HG1 N1) as (P1 & _). split; auto. split; auto. split; [exact P1|]. split; auto. split; auto. split; auto. split; [unfold i_prom; rewrite L7; reflexivity|]. split; auto. split; auto.
    split; [rewrite L7; destruct (HA p Hp) as (o & X1 & _ & X3); replace op with o by congruence; exact X3|]. split; [rewrite L6; reflexivity|]. split; [unfold i_dec; rewrite L7; reflexivity|].
    intros r Hr'. apply (in_R Q) in Hr'. destruct Hr' as [Hq Nq]. destruct (HJ r (I1 r Hq Nq)) as (o & X1 & X2 & X3 & X4 & X5). exists o, (s_cseq (o_sp o)).
    pose proof (same_log Hus cc scs Hg p (get_promise op) F4 (bsz_of s) _ s1 op' r o HG1 N1 L1 L2 L3 Nq X1 X3) as X6. destruct X3 as (B1 & B2 & B3 & B4 & B5 & B6 & B7 & B8 & B9).
    assert (LG : log_of o = log_of op) by (rewrite X6; unfold log_of; rewrite L6; reflexivity).
    split; auto. split; auto. split; [|auto]. unfold fol. split; auto. split; auto. split; auto. split; auto. split.
    { rewrite B5. unfold bsz_of. destruct (HA r Hq) as (o' & Y1 & _ & Y3). rewrite Y1. exact Y3. }
    split; [exact LG|]. split; [exact B7|]. split; [|reflexivity]. rewrite <- LG. apply (acc_len Hus cc scs Hg s1 r o HG1 X1). }
  destruct (rounds_x Hus cc scs Hg Q p HQc Hp HQ Hen (get_promise op) F4 es _ _ s1 HG1 St) as (s' & d' & (D1 & D2 & D3) & S2 & E2). change (PropProgress.R Q p) with (others Q p) in D1, D2, D3.
  pose proof (doesl_good cc scs _ _ _ HG1 (conj D1 (conj D2 D3))) as HG'.
  exists s'. cbn zeta. split; [|split].
  - eapply steps_join; [exact A|exact Hr|]. eapply steps_join; eauto.
  - eapply run_join; [exact Hr|]. eapply run_join; eauto.
  - assert (Fin : forall q, In q Q -> exists o, nodes s' q = Some o /\ get_promise o = get_promise op /\ log_of o = log_of op ++ es /\ get_decided_idx o = d').
    { destruct S2 as (o & X1 & X2 & X3 & X4 & X5 & X6 & X7 & X8 & X9 & X10 & X11 & X12 & X13). intros q Hq. destruct (Nat.eq_dec q p) as [->|Nq]; [exists o; auto|].
      destruct (X13 q) as (z & c & Y1 & Y2 & (B1 & B2 & B3 & B4 & B5 & B6 & B7 & _) & _); [apply in_R; auto|]. exists z. auto. }
    intros q Hq. destruct (Fin q Hq) as (o & X1 & X2 & X3 & X4). exists o. split; auto. split; auto. split; auto. split; [intros X; rewrite X4; auto|].
    intros j e Hj. destruct (good_inv cc scs Hg s' HG') as (G & HS). pose proof (node_inv cc G s' q o HS X1) as HN. destruct (rest_facts Hus cc scs Hg s' q o HG' X1) as (_ & [[C1 _] _ _] & _). change (i_st (s_is (rest o))) with (i_st (s_is (o_sp o))) in C1.
    assert (Ne : es <> []) by (intros ->; destruct j; discriminate). assert (Lj : j < length es) by (apply nth_error_Some; congruence).
    rewrite (read_stored cc G q o (length (log_of op) + j) e (y_G _ _ _ HS) HN).
    + rewrite X4, (E2 Ne). replace (length (log_of op) + j <? length (log_of op) + length es) with true; [reflexivity|]. symmetry. apply Nat.ltb_lt. lia.
    + split; [rewrite C1; lia|]. rewrite C1, Nat.sub_0_r. unfold log_of in X3 at 1. rewrite X3, nth_error_app2 by lia. replace (length (log_of op) + j - length (log_of op)) with j by lia. exact Hj.
Qed.
End WithEntry.
Print Assumptions C49_leader_brings_followers_up_to_date.
Print Assumptions C50_steady_leader_decides_in_one_round_trip.

(** A case of both: the second run of [PropAgreement].  Server 2 is the leader; server 1, the leader of a lower ballot, has missed the
    change of the leader and has accepted an entry that nobody else has. *)
Section Case.
Local Existing Instance plain.
Definition leadsb (o : omni) (p : node_id) : bool := match get_current_leader o with Some (q, true) => q =? p | _ => false end.
Definition readyb (s : sys) (Q : list node_id) (p : node_id) : bool :=
  match nodes s p with
  | None => false
  | Some op => leadsb op p && forallb (fun q => match nodes s q with Some o => (blt (get_promise o) (get_promise op) || beq (get_promise o) (get_promise op)) && (c_bsize (i_ca (s_is (o_sp o))) <=? 1) | None => false end) Q
  end.
Lemma readyb_ok s Q p : readyb s Q p = true -> exists op, nodes s p = Some op /\ get_current_leader op = Some (p, true) /\ forall q, In q Q -> exists o, nodes s q = Some o /\ not_ahead o op /\ c_bsize (i_ca (s_is (o_sp o))) <= 1.
Proof.
  unfold readyb. destruct (nodes s p) as [op|]; [|discriminate]. intros H. apply andb_true_iff in H. destruct H as [H1 H2]. exists op. split; auto. split.
  - unfold leadsb in H1. destruct (get_current_leader op) as [[q []]|]; try discriminate. apply Nat.eqb_eq in H1. subst. reflexivity.
  - intros q Hq. rewrite forallb_forall in H2. specialize (H2 q Hq). destruct (nodes s q) as [o|]; [|discriminate]. exists o. apply andb_true_iff in H2. destruct H2 as [H2 H3]. split; auto. split; [|apply Nat.leb_le; exact H3].
    apply orb_true_iff in H2. destruct H2 as [H2|H2]; [left; exact H2|right; apply beq_spec; exact H2].
Qed.
Example C49_C50_case :
  @use_snapshots plain = false /\ good_config cc3 scs /\
  all_steps h1h2 cc3 (init_sys cc3 scs) (acts_case1 ++ acts_case2) /\
  only_calls (fun c => ~ compaction_call c /\ ~ reconfiguration_call c) (acts_case1 ++ acts_case2) /\
  reaches cc3 scs (acts_case1 ++ acts_case2) sys_case2 /\
  NoDup [1; 2; 3] /\ incl [1; 2; 3] (cc_nodes cc3) /\ In 2 [1; 2; 3] /\ enough cc3 [1; 2; 3] /\
  (exists op, nodes sys_case2 2 = Some op /\ get_current_leader op = Some (2, true) /\
     forall q, In q [1; 2; 3] -> exists o, nodes sys_case2 q = Some o /\ not_ahead o op /\ c_bsize (i_ca (s_is (o_sp o))) <= 1) /\
  obs sys_case2 1 (fun o => (get_decided_idx o, length (log_of o), get_current_leader o)) = Some (2, 3, Some (1, true)) /\
  obs sys_case2 2 (fun o => (get_decided_idx o, length (log_of o))) = Some (4, 4) /\
  length (round 2 (others [1; 2; 3] 2) 0) = 11.
Proof.
  split; [reflexivity|]. split; [exact good3|]. split; [exact case_steps2|]. split.
  { apply (calls_ok _ calmb); [|vm_compute; reflexivity]. intros []; cbn; intros; try discriminate; tauto. }
  split; [exact case_reach2|]. split; [repeat constructor; cbn; intuition discriminate|]. split; [intros q [<-|[<-|[<-|[]]]]; cbn; auto|]. split; [cbn; auto|]. split; [cbn; lia|]. split.
  { apply readyb_ok. vm_compute; reflexivity. }
  split; [vm_compute; reflexivity|]. split; vm_compute; reflexivity.
Qed.
End Case.
