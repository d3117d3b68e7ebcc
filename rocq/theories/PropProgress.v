(** * C47: a quorum is never stuck *)
From Coq Require Import List Arith Bool Lia.
Import ListNotations.
From Verif Require Import Types Config MemStore Internal LeaderState SeqPaxos Ble Omni System Basics Scen Spec Refute Ghost GhostOps Inv Op LeadLinks SysInv Reads Agree PropAgreement Local Frame PropLocal PropCalls NoPanic PropNoPanic Progress Takeover Moves.

Section WithEntry.
Context {E : EntryT}.

(** ** Specification *)

(** A step in which only servers of [Q] and messages between them take part: somebody calls
    [try_become_leader] at [p], the oldest message of a link is delivered, a message is lost, outgoing messages are fetched.
    Nobody crashes, no clock ticks. *)
Definition within (Q : list node_id) (p : node_id) (a : action) : Prop :=
  match a with
  | ADo q (ECall c) => q = p /\ c = CTryLeader
  | ADo q (EDeliver r k) => k = 0 /\ In q Q /\ In r Q
  | AFetch q => In q Q
  | ADrop r q _ => In r Q /\ In q Q
  | ACrash _ _ _ _ => False
  end.

(** The servers [Q] are enough: a read quorum, or a majority. *)
Definition enough (cc : cluster_config) (Q : list node_id) : Prop :=
  match cc_flex cc with
  | Some f => fq_read f <= length Q
  | None => length (cc_nodes cc) < 2 * length Q
  end.

(** ** Proof *)
Section Run.
Context (Hus : use_snapshots = false) (cc : cluster_config) (scs : node_id -> server_config) (Hg : good_config cc scs).
Context (Q : list node_id) (p : node_id) (HQ : NoDup Q) (HQc : incl Q (cc_nodes cc)) (Hp : In p Q) (Hen : enough cc Q).

Definition okt : node_id -> call -> Prop := fun q c => q = p /\ c = CTryLeader.
Lemma okt_calm q c : okt q c -> calm c.
Proof. intros [_ ->]. split; intros []. Qed.
Local Notation Good := (Moves.Good cc scs).
Local Notation goes := (Moves.goes cc Q okt).
Local Notation steps_join := (Moves.steps_join cc).
Local Notation run_join := (Moves.run_join cc).
Local Notation goes_refl := (Moves.goes_refl cc Q okt).
Local Notation goes_trans := (Moves.goes_trans cc Q okt).
Local Notation goes_one := (Moves.goes_one cc Q okt).
Local Notation good_run := (Moves.good_run cc scs).
Local Notation goes_good := (Moves.goes_good cc scs Q okt okt_calm).
Local Notation good_inv := (Moves.good_inv cc scs Hg).
Local Notation good_qs := (Moves.good_qs Hus cc scs Hg).
Local Notation do_exec := (Moves.do_exec Hus cc scs Hg).
Local Notation deliver := (Moves.deliver Hus cc scs Hg Q okt).
Local Notation fetch := (Moves.fetch cc scs Q okt).
Local Notation dropn := (Moves.dropn cc scs Q okt okt_calm).
Local Notation dropall := (Moves.dropall cc scs Q okt okt_calm).
Local Notation rest_facts := (Moves.rest_facts Hus cc scs Hg).
Local Notation dec_le := (Moves.dec_le Hus cc scs Hg).

Lemma two : 2 <= length Q.
Proof.
  destruct Hg as (Hv & _). unfold cluster_validate in Hv. unfold enough in Hen. apply andb_true_iff in Hv. destruct Hv as [Hv Hf]. apply andb_true_iff in Hv. destruct Hv as [Hv _]. apply Nat.ltb_lt in Hv.
  destruct (cc_flex cc) as [f|]; [|lia]. 
  repeat match goal with H : (_ && _) = true |- _ => apply andb_true_iff in H; destruct H end. repeat match goal with H : (_ <=? _) = true |- _ => apply Nat.leb_le in H end. lia.
Qed.
Definition R : list node_id := filter (fun x => negb (x =? p)) Q.
Lemma in_R q : In q R <-> In q Q /\ q <> p.
Proof. unfold R. rewrite filter_In. rewrite negb_true_iff, Nat.eqb_neq. reflexivity. Qed.
Lemma nd_R : NoDup R.
Proof. apply NoDup_filter, HQ. Qed.
Lemma nd_pR : NoDup (p :: R).
Proof. constructor; [|apply nd_R]. rewrite in_R. intros [_ H]. auto. Qed.
Lemma len_R : length Q <= length (p :: R).
Proof. apply NoDup_incl_length; auto. intros q Hq. destruct (Nat.eq_dec q p) as [->|N]; [left; auto|right; apply in_R; auto]. Qed.
Lemma R_ex : exists q, In q R.
Proof. pose proof len_R. pose proof two. destruct R as [|q l]; [cbn in *; lia|]. exists q. left. auto. Qed.

Lemma quorum_p G x : NodeInv cc G p x -> (forall k, length Q <= k -> is_prepare_quorum (l_quorum (s_ls x)) k = true) /\ (forall k, length Q <= k -> is_accept_quorum (l_quorum (s_ls x)) k = true).
Proof.
  intros HN. rewrite (n_q _ _ _ _ HN). unfold quorum_of, quorum_with. destruct Hg as (Hv & _). unfold cluster_validate in Hv. unfold enough in Hen.
  destruct (cc_flex cc) as [f|].
  - repeat match goal with H : (_ && _) = true |- _ => apply andb_true_iff in H; destruct H end. repeat match goal with H : (_ <=? _) = true |- _ => apply Nat.leb_le in H end.
    cbn. split; intros k Hk; apply Nat.leb_le; lia.
  - assert (L : length (peers_of cc p) + 1 <= length (cc_nodes cc)).
    { unfold peers_of. assert (Y : In p (cc_nodes cc)) by (apply HQc, Hp). clear - Y. revert Y. generalize (cc_nodes cc). induction l as [|y l IH]; cbn; intros [].
      - subst y. rewrite Nat.eqb_refl. cbn. pose proof (filter_length_le (fun x => negb (x =? p)) l). lia.
      - specialize (IH H). destruct (negb (y =? p)); cbn; lia. }
    cbn [is_prepare_quorum is_accept_quorum]. assert ((length (peers_of cc p) + 1) / 2 + 1 <= length Q).
    { assert ((length (peers_of cc p) + 1) / 2 < length Q); [|lia]. apply Nat.div_lt_upper_bound; lia. }
    split; intros k Hk; apply Nat.leb_le; lia.
Qed.

(** *** The servers of [Q] are there *)
Lemma good_node s q : Good s -> In q Q -> exists o, nodes s q = Some o.
Proof.
  intros HG Hq. apply (Moves.good_node cc scs Hg s q HG (HQc _ Hq)).
  assert (Y : exists r, In r Q /\ r <> q).
  { destruct (Nat.eq_dec q p) as [->|N]; [|exists p; auto]. destruct R_ex as [r Hr']. apply in_R in Hr'. exists r. exact Hr'. }
  destruct Y as (r & R1 & R2). exists r. auto.
Qed.

Lemma tryl s o : Good s -> nodes s p = Some o ->
  exists s' x, goes s s' /\ handle_leader (rest o) (set_n (e_ballot (o_ble o)) (b_n (i_prom (s_is (o_sp o))) + 1)) = Ok x /\ nodes s' p = Some (set_sp (start_call o) x) /\ onlyn p s s' /\ (forall a b, net s' a b = net s a b).
Proof.
  intros HG Ho. destruct (do_exec s p (ECall CTryLeader) o _ HG Ho eq_refl) as (o' & x & Hx & Ha). { intros c0 X. injection X as <-. split; intros []. }
  unfold exec in Hx. cbn [exec_call] in Hx. apply bind_inv in Hx. destruct Hx as (o1 & H1 & H2). injection H2 as <- _. unfold try_become_leader in H1. apply bind_inv in H1. destruct H1 as (y & H1 & H2). injection H2 as <-.
  eexists. exists y. split; [|split; [exact H1|]].
  - apply (goes_one _ _ _ Ha); [split; exact I|split; auto].
  - cbn. split; [apply upd1_same|]. split; [intros z Hz; apply upd1_other; auto|auto].
Qed.

Lemma good_ldr s o : Good s -> nodes s p = Some o ->
  let n := set_n (e_ballot (o_ble o)) (b_n (i_prom (s_is (o_sp o))) + 1) in
  b_pid n = p /\ ble n (l_n (s_ls (o_sp o))) = false /\ ble n (i_prom (s_is (o_sp o))) = false /\ s_pid (o_sp o) = p /\ s_peers (o_sp o) = peers_of cc p.
Proof.
  intros HG Ho n. destruct (good_inv s HG) as (G & HS). destruct (y_ble _ _ _ HS _ _ Ho) as (_ & B2 & _).
  assert (HN : NodeInv cc G p (o_sp o)) by (apply (y_N _ _ _ HS); unfold osp; rewrite Ho; reflexivity).
  assert (L : ble (l_n (s_ls (o_sp o))) (i_prom (s_is (o_sp o))) = true). { destruct HG as (l & Hr & _). apply (lead_ballot_le o). eapply cluster_server_state; eauto. }
  assert (P : ble n (i_prom (s_is (o_sp o))) = false).
  { destruct (ble n _) eqn:X; auto. apply ble_spec in X. unfold n, set_n, bal_lt, bal_same in X. cbn in X. lia. }
  split; [exact B2|]. split; [|split; [exact P|split; [apply (n_pid _ _ _ _ HN)|apply (n_peers _ _ _ _ HN)]]].
  destruct (ble n (l_n _)) eqn:X; auto. rewrite <- P. symmetry. apply ble_spec. apply ble_spec in X. apply ble_spec in L. unfold n, set_n, bal_lt, bal_same in *. cbn in *. lia.
Qed.

(** *** One exchange with each of the others *)

(** Only [p], [q] and the links between them change. *)
Definition fr (q : node_id) (s s' : sys) : Prop :=
  (forall z, z <> p -> z <> q -> nodes s' z = nodes s z) /\ (forall z, z <> q -> net s' p z = net s p z /\ net s' z p = net s z p).
Lemma fr_trans q a b c : fr q a b -> fr q b c -> fr q a c.
Proof.
  intros [A1 A2] [B1 B2]. split; [intros z H1 H2; rewrite B1, A1; auto|]. intros z Hz. destruct (A2 z Hz) as [X1 X2], (B2 z Hz) as [Y1 Y2]. split; congruence.
Qed.
Definition nodeok (s : sys) (q : node_id) (P : sp -> Prop) : Prop := exists o, nodes s q = Some o /\ e_out (o_ble o) = [] /\ P (o_sp o).

(** What concerns [q]. *)
Definition pv (A : node_id -> option omni -> list message -> list message -> Prop) (s : sys) (q : node_id) : Prop :=
  A q (nodes s q) (net s p q) (net s q p).
Lemma pv_fr A s s' q z : fr q s s' -> z <> q -> z <> p -> pv A s z -> pv A s' z.
Proof. intros [F1 F2] H1 H2 H. unfold pv in *. destruct (F2 z H1) as [X1 X2]. rewrite F1, X1, X2; auto. Qed.

Lemma iter (A B : node_id -> option omni -> list message -> list message -> Prop) (J : list node_id -> sys -> Prop) :
  (forall s q ds, Good s -> J ds s -> In q R -> ~ In q ds -> pv A s q -> exists s', goes s s' /\ fr q s s' /\ J (q :: ds) s' /\ pv B s' q) ->
  forall todo ds s, NoDup (todo ++ ds) -> incl (todo ++ ds) R -> Good s -> J ds s -> (forall z, In z todo -> pv A s z) -> (forall z, In z ds -> pv B s z) ->
  exists s' ds', goes s s' /\ J ds' s' /\ (forall z, In z ds' <-> In z (todo ++ ds)) /\ (forall z, In z ds' -> pv B s' z).
Proof.
  intros Hstep. induction todo as [|q todo IH]; intros ds s ND HI HG HJ HA HB.
  - exists s, ds. split; [apply goes_refl|]. split; auto. split; auto. intros z. reflexivity.
  - cbn [app] in *. inversion ND as [|x y N1 N2]; subst. assert (Hq : In q R) by (apply HI; left; auto).
    destruct (Hstep s q ds HG HJ Hq) as (s1 & G1 & F1 & J1 & B1); [intros X; apply N1, in_app_iff; auto|apply HA; left; auto|].
    assert (NZ : forall z, In z (todo ++ ds) -> z <> q /\ z <> p). { intros z Hz. split; [intros ->; contradiction|]. apply in_R. apply HI. right. auto. }
    destruct (IH (q :: ds) s1) as (s2 & ds2 & G2 & J2 & I2 & B2).
    + apply (NoDup_Add (Add_app q todo ds)). split; assumption.
    + intros z Hz. apply HI. rewrite in_app_iff in Hz. cbn in *. rewrite in_app_iff. tauto.
    + apply (goes_good _ _ HG G1).
    + exact J1.
    + intros z Hz. destruct (NZ z) as [Z1 Z2]; [apply in_app_iff; auto|]. apply (pv_fr A s s1 q z); auto. apply HA. right. exact Hz.
    + intros z [<-|Hz]; [exact B1|]. destruct (NZ z) as [Z1 Z2]; [apply in_app_iff; auto|]. apply (pv_fr B s s1 q z); auto.
    + exists s2, ds2. split; [eapply goes_trans; eauto|]. split; auto. split; auto. intros z. rewrite I2. cbn. rewrite !in_app_iff. cbn. tauto.
Qed.
Lemma iter_R (A B : node_id -> option omni -> list message -> list message -> Prop) (J : list node_id -> sys -> Prop) s : (forall s q ds, Good s -> J ds s -> In q R -> ~ In q ds -> pv A s q -> exists s', goes s s' /\ fr q s s' /\ J (q :: ds) s' /\ pv B s' q) ->
  Good s -> J [] s -> (forall z, In z R -> pv A s z) -> exists s' ds', goes s s' /\ J ds' s' /\ (forall z, In z ds' <-> In z R) /\ (forall z, In z R -> pv B s' z).
Proof.
  intros H HG HJ HA. destruct (iter A B J H R [] s) as (s' & ds & G1 & J1 & I1 & B1); auto.
  - rewrite app_nil_r. apply nd_R.
  - rewrite app_nil_r. apply incl_refl.
  - intros z [].
  - rewrite app_nil_r in I1. exists s', ds. split; auto. split; auto. split; auto. intros z Hz. apply B1, I1, Hz.
Qed.

(** Everything between [p] and [q] is lost. *)
Definition A0 (K : nat) : node_id -> option omni -> list message -> list message -> Prop := fun q o _ _ => exists x, o = Some x /\ b_n (i_prom (s_is (o_sp x))) < K.
Definition B0 (K : nat) : node_id -> option omni -> list message -> list message -> Prop := fun q o l1 l2 =>
  exists x, o = Some x /\ e_out (o_ble x) = [] /\ b_n (i_prom (s_is (o_sp x))) < K /\ s_out (o_sp x) = [] /\ l1 = [] /\ l2 = [].
Lemma clear K P s q (ds : list node_id) : Good s -> nodeok s p P -> In q R -> ~ In q ds -> pv (A0 K) s q ->
  exists s', goes s s' /\ fr q s s' /\ nodeok s' p P /\ pv (B0 K) s' q.
Proof.
  intros HG (op & Hop & He & HP) Hq _ (o & Ho & Hb). apply in_R in Hq. destruct Hq as [Hq Hqp].
  destruct (fetch s q o HG Hq Ho) as (s1 & G1 & N1 & O1 & _ & M1). pose proof (goes_good _ _ HG G1) as HG1.
  destruct (dropall p q s1 Hp Hq HG1) as (s2 & G2 & N2 & M2 & M2'). pose proof (goes_good _ _ HG1 G2) as HG2.
  destruct (dropall q p s2 Hq Hp HG2) as (s3 & G3 & N3 & M3 & M3').
  exists s3. split; [eapply goes_trans; [exact G1|eapply goes_trans; eauto]|]. split; [split|split].
  - intros z Z1 Z2. rewrite N3, N2, O1; auto.
  - intros z Z. assert (z <> q /\ p <> q) by auto. split; [rewrite M3', M2', M1; auto; tauto|rewrite M3' by tauto]. rewrite M2' by (destruct (Nat.eq_dec z p); [right; congruence|left; auto]). apply M1. auto.
  - exists op. rewrite N3, N2, O1; auto.
  - eexists. rewrite N3, N2, N1. split; [reflexivity|]. cbn. split; auto. split; auto. split; auto. split; [rewrite M3' by tauto; exact M2|exact M3].
Qed.

(** Raising the ballot of [p]. *)
Lemma raise K s : Good s -> exists s' o, goes s s' /\ onlyn p s s' /\ nodes s' p = Some o /\ K <= b_n (i_prom (s_is (o_sp o))).
Proof.
  induction K as [|K IH]; intros HG.
  - destruct (good_node s p HG Hp) as [o Ho]. exists s, o. split; [apply goes_refl|]. split; [intros z _; auto|]. split; [auto|lia].
  - destruct (IH HG) as (s1 & o & G1 & O1 & N1 & L1). pose proof (goes_good _ _ HG G1) as HG1. destruct (tryl s1 o HG1 N1) as (s2 & x & G2 & H2 & N2 & O2 & _).
    destruct (good_ldr s1 o HG1 N1) as (B1 & B2 & B3 & B4 & _). cbn zeta in B1, B2, B3.
    destruct (handle_leader_fwd _ _ _ H2 B2 B3) as (_ & _ & _ & X & _); [rewrite B1; exact B4|].
    exists s2. eexists. split; [eapply goes_trans; eauto|]. split; [intros z Hz; rewrite O2, O1; auto|]. split; [exact N2|]. cbn. rewrite X. cbn. lia.
Qed.
Lemma bound s : exists K, forall q o, In q R -> nodes s q = Some o -> b_n (i_prom (s_is (o_sp o))) < K.
Proof.
  induction R as [|x l IH]; [exists 0; intros q o []|]. destruct IH as [K HK]. destruct (nodes s x) as [o|] eqn:Ho.
  - exists (Nat.max K (S (b_n (i_prom (s_is (o_sp o)))))). intros q o' [<-|Hq] Hn; [rewrite Ho in Hn; injection Hn as <-; lia|]. specialize (HK q o' Hq Hn). lia.
  - exists K. intros q o' [<-|Hq] Hn; [congruence|eauto].
Qed.

(** *** Prepare and promise *)
Section Ballot.
Context (n : ballot) (e : T) (Hn : b_pid n = p).

Definition Fpre (x : sp) : Prop := s_role x = Follower /\ s_phase x = PhPrepare /\ i_prom (s_is x) = n /\ s_out x = [].
Definition A1 : node_id -> option omni -> list message -> list message -> Prop := fun q o l1 l2 =>
  exists x, o = Some x /\ e_out (o_ble x) = [] /\ blt (i_prom (s_is (o_sp x))) n = true /\ s_out (o_sp x) = []
    /\ l2 = [] /\ exists d na a t, l1 = MsgSP (mkPM p q (MPrepare n d na a)) :: t.
Definition B1 : node_id -> option omni -> list message -> list message -> Prop := fun q o l1 l2 =>
  exists x, o = Some x /\ e_out (o_ble x) = [] /\ Fpre (o_sp x) /\ l1 = [] /\ l2 = [].
Definition J1 (ds : list node_id) (s : sys) : Prop := nodeok s p (fun x => prepst p n e ds x \/ accst p n e ds x).

Lemma prepst_rest ds o : prepst p n e ds (o_sp o) -> prepst p n e ds (rest o).
Proof. intros []. constructor; auto. Qed.
Lemma accst_rest ds o : accst p n e ds (o_sp o) -> accst p n e ds (rest o).
Proof. intros []. constructor; auto. Qed.
Lemma fr_q q s s' : onlyn q s s' -> (forall z, z <> q -> net s' p z = net s p z /\ net s' z p = net s z p) -> fr q s s'.
Proof. intros H1 H2. split; auto. Qed.

Lemma round1 s q ds : Good s -> J1 ds s -> In q R -> ~ In q ds -> pv A1 s q -> exists s', goes s s' /\ fr q s s' /\ J1 (q :: ds) s' /\ pv B1 s' q.
Proof.
  intros HG (op & Hop & Hep & HP) Hq Hd (o & Ho & He & Hb & Hout & Hqp & d & na & a & t & Hpq). apply in_R in Hq. destruct Hq as [Hq Nqp].
  destruct (deliver s q p _ t o HG Hq Hp Ho Hpq) as (s1 & x & G1 & H1 & N1 & O1 & M1 & M1'); [discriminate|]. pose proof (goes_good _ _ HG G1) as HG1.
  cbn [sp_handle pm_msg pm_from] in H1. destruct (handle_prepare_fwd _ _ _ _ _ _ _ H1 Hb) as (X1 & X2 & X3 & pr & X4 & X5).
  destruct (rest_facts s q o HG Ho) as (P1 & _). change (s_out (rest o)) with (s_out (o_sp o)) in X5. rewrite Hout, P1 in X5. cbn [app] in X5.
  destruct (dropall p q s1 Hp Hq HG1) as (s2 & G2 & N2 & M2 & M2'). pose proof (goes_good _ _ HG1 G2) as HG2.
  assert (N2q : nodes s2 q = Some (set_sp (start_call o) x)) by (rewrite N2; exact N1).
  destruct (fetch s2 q _ HG2 Hq N2q) as (s3 & G3 & N3 & O3 & M3 & M3'). pose proof (goes_good _ _ HG2 G3) as HG3.
  destruct (M3 p) as (u & Mu & Hu). rewrite (Hu He), app_nil_r in Mu. cbn [o_sp set_sp] in Mu. rewrite X5 in Mu. cbn [tob filter pm_to] in Mu. rewrite Nat.eqb_refl in Mu.
  rewrite M2', M1', Hqp in Mu by auto. cbn [app map] in Mu.
  assert (N3p : nodes s3 p = Some op) by (rewrite O3, N2, O1; auto).
  destruct (deliver s3 p q _ [] op HG3 Hp Hq N3p Mu) as (s4 & y & G4 & H4 & N4 & O4 & M4 & M4').
  { intros _ m Hm _. destruct HP as [HP|HP]; [rewrite (ps_out _ _ _ _ _ HP) in Hm; destruct Hm|apply (as_noad _ _ _ _ _ HP _ Hm)]. }
  assert (Sy : syncN nss (pr_sync pr)). { pose proof (qs_net _ _ _ (good_qs s3 HG3) q p (mkPM q p (MPromise pr))) as X. rewrite Mu in X. apply X. left. reflexivity. }
  destruct (rest_facts s3 p op HG3 N3p) as (_ & F2 & F3 & F4 & k & F5 & F6 & F7).
  exists s4. split; [|split; [|split]].
  - eapply goes_trans; [exact G1|]. eapply goes_trans; [exact G2|]. eapply goes_trans; [exact G3|exact G4].
  - split; [intros z Z1 Z2; rewrite O4, O3, N2, O1; auto|]. intros z Z. split.
    + rewrite M4', M3', M2', M1'; auto.
    + rewrite M4' by auto. rewrite M3' by auto. destruct (Nat.eq_dec z p) as [->|N]; [rewrite M2', M1'; auto|]. rewrite M2', M1'; auto.
  - eexists. split; [exact N4|]. split; [exact Hep|]. cbn [o_sp set_sp]. unfold sp_handle in H4. cbn [pm_msg pm_from] in H4. destruct HP as [HP|HP].
    + pose proof (prepst_rest _ _ HP) as HP'. rewrite (ps_role _ _ _ _ _ HP'), (ps_ph _ _ _ _ _ HP') in H4.
      apply (promise_prep p n e ds _ _ _ _ H4 HP' X4); auto. change (length (l_seqs (s_ls (o_sp op))) = length (l_proms (s_ls (o_sp op)))). congruence.
    + pose proof (accst_rest _ _ HP) as HP'. rewrite (as_role _ _ _ _ _ HP'), (as_ph _ _ _ _ _ HP') in H4. right.
      apply (promise_acc p n e ds _ _ _ _ H4 HP' X4); auto. apply (vget_range (l_seqs (s_ls (o_sp op)))). rewrite F6. rewrite Forall_forall in F7. apply F7, HQc, Hq.
  - exists (set_ble (set_sp (set_sp (start_call o) x) (fetched x)) (e_set_out (o_ble (start_call o)) [])). split; [rewrite O4 by auto; exact N3|]. split; [reflexivity|]. split; [|split; [|exact M4]].
    + split; [exact X1|]. split; [exact X2|]. split; [exact X3|reflexivity].
    + rewrite M4', M3' by auto. exact M2.
Qed.

(** *** AcceptSync and Accepted *)
Section Len.
Context (d N : nat).
Definition Facc (x : sp) : Prop := s_role x = Follower /\ s_phase x = PhAccept /\ i_prom (s_is x) = n /\ s_cseq x = mkSeq 1 1 /\ i_dec (s_is x) = d /\ i_acc (s_is x) = N.
Definition A2 : node_id -> option omni -> list message -> list message -> Prop := fun q o l1 l2 =>
  exists x, o = Some x /\ e_out (o_ble x) = [] /\ Fpre (o_sp x) /\ l2 = [] /\ exists sy, l1 = [MsgSP (mkPM p q (MAcceptSync n (mkSeq 1 1) d sy))].
Definition B2 : node_id -> option omni -> list message -> list message -> Prop := fun q o l1 l2 =>
  exists x, o = Some x /\ Facc (o_sp x) /\ l1 = [].
Definition J2 (ds : list node_id) (s : sys) : Prop := nodeok s p (fun x => waitst p n e R d ds x /\ i_acc (s_is x) = N).

Lemma waitst_rest ds o : waitst p n e R d ds (o_sp o) -> waitst p n e R d ds (rest o).
Proof. intros []. constructor; auto. Qed.

(** What a follower accepted right after the synchronisation is the log of the leader. *)
Lemma synced s q o op ds : Good s -> In q R -> nodes s q = Some o -> nodes s p = Some op ->
  waitst p n e R d ds (o_sp op) -> s_phase (o_sp o) = PhAccept -> i_prom (s_is (o_sp o)) = n -> s_cseq (o_sp o) = mkSeq 1 1 -> c_batch (i_ca (s_is (o_sp o))) = [] ->
  i_acc (s_is (o_sp o)) = i_acc (s_is (o_sp op)) /\ i_dec (s_is (o_sp o)) <= i_acc (s_is (o_sp o)).
Proof.
  intros HG Hq Ho Hop W Hph Hpr Hsq Hba. destruct (good_inv s HG) as (G & HS). apply in_R in Hq. destruct Hq as [Hq Nqp].
  destruct (rest_facts s q o HG Ho) as (_ & C1 & _). destruct (rest_facts s p op HG Hop) as (_ & C2 & _).
  assert (S1 : i_ss (s_is (o_sp o)) = None) by exact (ci_none _ C1). assert (S2 : i_ss (s_is (o_sp op)) = None) by exact (ci_none _ C2).
  assert (O1 : osp s q = Some (o_sp o)) by (unfold osp; rewrite Ho; reflexivity). assert (O2 : osp s p = Some (o_sp op)) by (unfold osp; rewrite Hop; reflexivity).
  pose proof (y_N _ _ _ HS _ _ O1) as N1. pose proof (y_N _ _ _ HS _ _ O2) as N2.
  pose proof (co_ss _ _ (n_coh _ _ _ _ N1)) as M1. pose proof (co_ss _ _ (n_coh _ _ _ _ N2)) as M2. unfold i_ss in S1, S2. rewrite S1 in M1. rewrite S2 in M2. symmetry in M1, M2.
  pose proof (co_acc _ _ (n_coh _ _ _ _ N1)) as K1. rewrite M1 in K1. pose proof (co_acc _ _ (n_coh _ _ _ _ N2)) as K2. rewrite M2 in K2.
  split.
  - pose proof (n_role _ _ _ _ N2) as HR. rewrite (ws_role _ _ _ _ _ _ _ W), (ws_ph _ _ _ _ _ _ _ W) in HR. destruct (la_M _ _ _ _ HR) as (l & L1 & _ & L2). specialize (L2 M2).
    rewrite (ws_n _ _ _ _ _ _ _ W) in L1.
    destruct (y_link _ _ _ HS p q (not_eq_sym Nqp)) as [(_ & _ & LP & LC) LS].
    assert (V : oview s q = Some (view (o_sp o))) by (unfold oview; rewrite O1; reflexivity).
    destruct (LC _ V n Hn Hpr) as [X _]. destruct (X Hph) as (_ & _ & _ & X4). cbn [view rv_ss rv_cnt rv_cseq] in X4. unfold i_ss in X4. rewrite S1, Hba, Hsq in X4. cbn [issome length] in X4.
    destruct (LS _ O2) as [_ SN]. specialize (SN (ws_role _ _ _ _ _ _ _ W) (ws_ph _ _ _ _ _ _ _ W)).
    assert (PR : Inv.promd (o_sp op) q) by (apply (ws_pr _ _ _ _ _ _ _ W); right; apply in_R; auto). specialize (SN PR).
    unfold i_acc. rewrite K1, K2, <- L2. unfold mlen in *.
    destruct (ws_st _ _ _ _ _ _ _ W) as [(_ & _ & Y & _)|(_ & Y)].
    + destruct (SN _ (Y q (proj2 (in_R q) (conj Hq Nqp)))) as (_ & Z & _). rewrite (ws_n _ _ _ _ _ _ _ W), L1 in Z. lia.
    + destruct (Y q (proj2 (in_R q) (conj Hq Nqp))) as [Y1 Y2]. destruct (SN _ Y2) as (_ & Z & _). rewrite (ws_n _ _ _ _ _ _ _ W), L1 in Z.
      rewrite Forall_forall in LP. specialize (LP (MDecide n (mkSeq 1 2) (i_acc (s_is (o_sp op))))). destruct (LP) with (n := n) (sq := mkSeq 1 2) as (_ & _ & U); auto.
      * unfold vlink. apply in_app_iff. right. unfold nouts. rewrite O2. unfold outs. apply in_map_iff. eexists. split; [|fold (tob q (s_out (o_sp op))); rewrite Y1; left; reflexivity]. reflexivity.
      * cbn in U. destruct U as [U|U]; [lia|]. unfold spred in U. cbn in U. lia.
  - unfold i_acc, i_dec. rewrite K1, (co_dec _ _ (n_coh _ _ _ _ N1)). destruct (st_cov _ _ _ _ (n_st _ _ _ _ N1)) as [U|U]; [exact U|contradiction].
Qed.

Lemma round2 s q ds : Good s -> J2 ds s -> In q R -> ~ In q ds -> pv A2 s q -> exists s', goes s s' /\ fr q s s' /\ J2 (q :: ds) s' /\ pv B2 s' q.
Proof.
  intros HG (op & Hop & Hep & HW & HN) HqR Hd (o & Ho & He & (F1 & F2 & F3 & F4) & Hqp & sy & Hpq). pose proof HqR as Hq. apply in_R in Hq. destruct Hq as [Hq Nqp].
  destruct (deliver s q p _ [] o HG Hq Hp Ho Hpq) as (s1 & x & G1 & H1 & N1 & O1 & M1 & M1'); [discriminate|]. pose proof (goes_good _ _ HG G1) as HG1.
  assert (Sy : syncN nss (Some sy)). { pose proof (qs_net _ _ _ (good_qs s HG) p q (mkPM p q (MAcceptSync n (mkSeq 1 1) d sy))) as X. rewrite Hpq in X. apply X. left. reflexivity. }
  destruct (rest_facts s q o HG Ho) as (P1 & P2 & _).
  cbn [sp_handle pm_msg pm_from] in H1. destruct (acceptsync_fwd _ _ _ _ _ _ H1 F3 F1 F2 P2 Sy) as (X1 & X2 & X3 & X4 & X5 & X6 & fw & X7 & X8 & X9).
  change (s_out (rest o)) with (s_out (o_sp o)) in X7. rewrite F4, P1 in X7. cbn [app] in X7.
  assert (X6' : c_batch (i_ca (s_is x)) = []).
  { rewrite X6. destruct (good_inv s HG) as (G & HS). assert (O2 : osp s q = Some (o_sp o)) by (unfold osp; rewrite Ho; reflexivity). apply (n_bprep _ _ _ _ (y_N _ _ _ HS _ _ O2)). exact F2. }
  destruct (fetch s1 q _ HG1 Hq N1) as (s2 & G2 & N2 & O2 & M2 & M2'). pose proof (goes_good _ _ HG1 G2) as HG2.
  destruct (M2 p) as (u & Mu & Hu). rewrite (Hu He), app_nil_r in Mu. cbn [o_sp set_sp] in Mu. rewrite X7 in Mu. rewrite tob_app, tob_one, Nat.eqb_refl, map_app, M1', Hqp in Mu by auto. cbn [app map] in Mu.
  destruct (dropn q p _ Hq Hp _ s2 HG2 Mu) as (s3 & G3 & N3 & M3 & M3'). pose proof (goes_good _ _ HG2 G3) as HG3.
  assert (N3p : nodes s3 p = Some op) by (rewrite N3, O2, O1; auto).
  assert (N3q := N2). rewrite <- N3 in N3q.
  destruct (synced s3 q _ op ds HG3 HqR N3q N3p HW X2 X4 X3 X6') as [L1 L2]. cbn in L1. change (i_acc (s_is x) = i_acc (s_is (o_sp op))) in L1. rewrite L1 in M3.
  destruct (deliver s3 p q _ [] op HG3 Hp Hq N3p M3) as (s4 & y & G4 & H4 & N4 & O4 & M4 & M4'); [discriminate|].
  unfold sp_handle in H4. cbn [pm_msg pm_from] in H4. change (i_acc (s_is (o_sp op))) with (i_acc (s_is (rest op))) in H4.
  destruct (accepted_fwd p n e R d ds _ q _ H4 (waitst_rest _ _ HW) (eq_sym Hn) nd_R) as [W1 W2]; auto. { rewrite in_R. tauto. }
  exists s4. split; [|split; [|split]].
  - eapply goes_trans; [exact G1|]. eapply goes_trans; [exact G2|]. eapply goes_trans; [exact G3|exact G4].
  - split; [intros z Z1 Z2; rewrite O4, N3, O2, O1; auto|]. intros z Z. split.
    + rewrite M4', M3', M2', M1'; auto.
    + rewrite M4' by auto. rewrite M3' by auto. rewrite M2' by auto. destruct (Nat.eq_dec z p) as [->|N0]; rewrite M1'; auto.
  - eexists. split; [exact N4|]. split; [exact Hep|]. split; [exact W1|]. cbn [o_sp set_sp]. rewrite W2. exact HN.
  - eexists. split; [rewrite O4 by auto; exact N3q|]. split; [|rewrite M4', M3', M2' by auto; exact M1].
    split; [exact X1|]. split; [exact X2|]. split; [exact X4|]. split; [exact X3|]. split; [exact X5|]. cbn. change (i_acc (s_is x) = N). congruence.
Qed.

(** *** Decide *)
Definition A3 : node_id -> option omni -> list message -> list message -> Prop := fun q o l1 l2 =>
  exists x, o = Some x /\ Facc (o_sp x) /\ d <= N /\ l1 = [MsgSP (mkPM p q (MDecide n (mkSeq 1 2) N))].
Definition B3 : node_id -> option omni -> list message -> list message -> Prop := fun q o l1 l2 =>
  exists x, o = Some x /\ i_dec (s_is (o_sp x)) = N /\ i_acc (s_is (o_sp x)) = N.
Lemma round3 P s q (ds : list node_id) : Good s -> nodeok s p P -> In q R -> ~ In q ds -> pv A3 s q -> exists s', goes s s' /\ fr q s s' /\ nodeok s' p P /\ pv B3 s' q.
Proof.
  intros HG (op & Hop & Hep & HP) Hq Hd (o & Ho & (F1 & F2 & F3 & F4 & F5 & F6) & Hle & Hpq). apply in_R in Hq. destruct Hq as [Hq Nqp].
  destruct (deliver s q p _ [] o HG Hq Hp Ho Hpq) as (s1 & x & G1 & H1 & N1 & O1 & M1 & M1'); [discriminate|].
  cbn [sp_handle pm_msg pm_from] in H1. destruct (decide_fwd _ _ _ _ H1 F3 F2 F4) as [X1 X2].
  - change (i_dec (s_is (o_sp o)) <= N). lia.
  - symmetry. exact F6.
  - exists s1. split; [exact G1|]. split; [|split].
    + split; [intros z Z1 Z2; apply O1; auto|]. intros z Z. split; [apply M1'; auto|]. apply M1'. destruct (Nat.eq_dec z p) as [->|N0]; auto.
    + exists op. rewrite O1; auto.
    + eexists. split; [exact N1|]. auto.
Qed.
End Len.
End Ballot.

(** *** The whole schedule *)
Lemma start s : Good s -> exists s1 K op, goes s s1 /\ nodes s1 p = Some op /\ e_out (o_ble op) = [] /\ s_out (o_sp op) = [] /\ K <= b_n (i_prom (s_is (o_sp op))) /\ forall z, In z R -> pv (B0 K) s1 z.
Proof.
  intros HG. destruct (bound s) as [K HK]. destruct (raise K s HG) as (s1 & o & G1 & O1 & N1 & L1). pose proof (goes_good _ _ HG G1) as HG1.
  destruct (fetch s1 p o HG1 Hp N1) as (s2 & G2 & N2 & O2 & _). pose proof (goes_good _ _ HG1 G2) as HG2.
  destruct (iter_R (A0 K) (B0 K) (fun _ x => nodeok x p (fun y => K <= b_n (i_prom (s_is y)) /\ s_out y = [])) s2) as (s3 & ds & G3 & (op & P1 & P2 & P3 & P4) & _ & H3).
  - intros x q ds H1 H2 H3 H4 H5. apply (clear K _ x q ds); auto.
  - exact HG2.
  - eexists. split; [exact N2|]. split; [reflexivity|]. split; [exact L1|reflexivity].
  - intros z Hz. apply in_R in Hz. destruct Hz as [Z1 Z2]. destruct (good_node s z HG Z1) as [oz Hoz]. exists oz. split; [rewrite O2, O1; auto|]. apply (HK z oz); auto. apply in_R. auto.
  - exists s3, K, op. split; [eapply goes_trans; [exact G1|eapply goes_trans; eauto]|]. auto 6.
Qed.

Lemma tob_head z q0 m ps : In z ps -> exists t, tob z (map (fun q => mkPM q0 q m) ps) = mkPM q0 z m :: t.
Proof.
  induction ps as [|y ps IH]; intros []; cbn [map tob filter pm_to].
  - subst y. rewrite Nat.eqb_refl. eexists. reflexivity.
  - destruct (Nat.eqb_spec y z) as [->|]; [eexists; reflexivity|apply IH; auto].
Qed.

Lemma appended s e : Good s -> exists s1 s2 s3 n, goes s s1 /\ exec_action cc s1 (ADo p (ECall (CAppend e))) = Some s2 /\ goes s2 s3 /\ Good s3 /\ Good s2 /\ b_pid n = p /\
  J1 n e [] s3 /\ forall z, In z R -> pv (A1 n) s3 z.
Proof.
  intros HG. destruct (start s HG) as (s1 & K & op & G1 & N1 & E1 & U1 & L1 & B1). pose proof (goes_good _ _ HG G1) as HG1.
  destruct (tryl s1 op HG1 N1) as (s2 & x & G2 & H2 & N2 & O2 & M2). pose proof (goes_good _ _ HG1 G2) as HG2.
  destruct (good_ldr s1 op HG1 N1) as (T1 & T2 & T3 & T4 & T5). cbn zeta in T1, T2, T3. set (n := set_n _ _) in *.
  destruct (handle_leader_fwd _ _ _ H2 T2 T3) as (X1 & X2 & X3 & X4 & X5 & X6 & X7 & X8); [rewrite T1; exact T4|].
  change (s_pid (rest op)) with (s_pid (o_sp op)) in X6, X8. change (s_out (rest op)) with (s_out (o_sp op)) in X8. change (s_peers (rest op)) with (s_peers (o_sp op)) in X8. rewrite U1, T4, T5 in X8. rewrite T4 in X6. cbn [app] in X8.
  assert (Cc : calm (CAppend e)) by (split; intros []).
  destruct (do_exec s2 p (ECall (CAppend e)) _ _ HG2 N2 eq_refl) as (o' & r & Hx & Ha). { intros c0 X. injection X as <-. exact Cc. }
  unfold exec in Hx. cbn [exec_call] in Hx. apply bind_inv in Hx. destruct Hx as ([y r'] & Hy & Hz). injection Hz as <- _.
  destruct (rest_facts s2 p _ HG2 N2) as (P1 & P2 & _).
  apply append_fwd in Hy; auto; [|exact (ci_none _ P2)]. cbn [s_bprops rest start_call o_sp set_sp set_is] in Hy.
  set (s3 := mkSys _ _) in Ha.
  assert (HG3 : Good s3). { apply (good_run s2 [ADo p (ECall (CAppend e))] s3 HG2). { cbn [run]. rewrite Ha. reflexivity. } { split; [split; exact I|]. rewrite Ha. exact I. } intros a q c [<-|[]] Hc. injection Hc as <- <-. exact Cc. }
  assert (N3 : nodes s3 p = Some (set_sp (start_call (set_sp (start_call op) x)) y)) by apply upd1_same.
  destruct (fetch s3 p _ HG3 Hp N3) as (s4 & G4 & N4 & O4 & M4 & M4').
  exists s2, s3, s4, n. split; [eapply goes_trans; eauto|]. split; [exact Ha|]. split; [exact G4|]. split; [apply (goes_good _ _ HG3 G4)|]. split; [exact HG3|]. split; [exact T1|]. split.
  - eexists. split; [exact N4|]. split; [reflexivity|]. left. cbn [o_sp set_ble set_sp]. rewrite Hy. cbn [o_sp set_sp start_call] in P1.
    constructor; cbn; auto; [eexists; reflexivity|]. intros q. pose proof (X6 q) as Y. change (Takeover.promd (s_ls x) q <-> q = p \/ False). tauto.
  - intros z Hz. destruct (B1 z Hz) as (oz & Hoz & Bz1 & Bz2 & Bz3 & Bz4 & Bz5). pose proof Hz as Hz'. apply in_R in Hz'. destruct Hz' as [Z1 Z2].
    exists oz. split; [rewrite O4 by auto; cbn [nodes s3]; unfold s3; cbn [nodes]; rewrite upd1_other by auto; rewrite O2 by auto; exact Hoz|]. split; [exact Bz1|]. split.
    { apply blt_spec. unfold bal_lt, n. cbn. lia. }
    split; [exact Bz3|]. split.
    { rewrite M4' by auto. unfold s3. cbn [net event_net]. rewrite M2. exact Bz5. }
    destruct (M4 z) as (t & Mt & Ht). cbn [o_ble set_sp] in Ht. rewrite (Ht E1) in Mt. unfold s3 in Mt at 1. cbn [net event_net] in Mt. rewrite M2, Bz4, Hy in Mt. cbn [o_sp set_sp s_out set_bprops rest start_call set_is app] in Mt.
    rewrite X8, app_nil_r in Mt. destruct (tob_head z p (MPrepare n (i_dec (s_is x)) (i_around (s_is x)) (i_acc (s_is x))) (peers_of cc p)) as [t' Ht'].
    { unfold peers_of. apply filter_In. split; [apply HQc, Z1|]. apply negb_true_iff, Nat.eqb_neq, Z2. }
    rewrite Ht' in Mt. cbn [map] in Mt. do 4 eexists. exact Mt.
Qed.

Lemma finish n e s : b_pid n = p -> Good s -> J1 n e [] s -> (forall z, In z R -> pv (A1 n) s z) ->
  exists s' N, goes s s' /\ Good s' /\ nodeok s' p (fun x => (exists l, ms_log (i_st (s_is x)) = l ++ [e]) /\ i_dec (s_is x) = N /\ i_acc (s_is x) = N) /\ forall z, In z R -> pv (B3 N) s' z.
Proof.
  intros Hn HG HJ HA. destruct (iter_R (A1 n) (B1 n) (J1 n e) s) as (s1 & ds & G1 & (o1 & N1 & E1 & P1) & D1 & H1); auto.
  { intros x q ds X1 X2 X3 X4 X5. apply (round1 n e Hn x q ds); auto. }
  pose proof (goes_good _ _ HG G1) as HG1.
  assert (NE : forall l, (forall z, In z l <-> In z R) -> l <> []). { intros l Hl ->. destruct R_ex as [q Hq]. apply Hl in Hq. destruct Hq. }
  assert (QP : forall x o, Good x -> nodes x p = Some o -> (forall k, length Q <= k -> is_prepare_quorum (l_quorum (s_ls (o_sp o))) k = true) /\ (forall k, length Q <= k -> is_accept_quorum (l_quorum (s_ls (o_sp o))) k = true)).
  { intros x o X1 X2. destruct (good_inv x X1) as (G & HS). apply (quorum_p G). apply (y_N _ _ _ HS). unfold osp. rewrite X2. reflexivity. }
  destruct P1 as [P1|P1].
  { exfalso. destruct (ps_no _ _ _ _ _ P1) as [X|X]; [exact (NE _ D1 X)|]. rewrite (proj1 (QP _ _ HG1 N1)) in X; [discriminate|].
    eapply Nat.le_trans; [apply len_R|]. apply count_ge; [apply nd_pR|]. intros q Hq. assert (Y : Takeover.promd (s_ls (o_sp o1)) q) by (apply (ps_pr _ _ _ _ _ P1); destruct Hq as [<-|Hq]; [left; auto|right; apply D1; auto]).
    destruct Y as [m Hm]. eexists. split; [exact Hm|reflexivity]. }
  destruct (fetch s1 p o1 HG1 Hp N1) as (s2 & G2 & N2 & O2 & M2 & M2'). pose proof (goes_good _ _ HG1 G2) as HG2.
  set (d := i_dec (s_is (o_sp o1))) in *. set (N := i_acc (s_is (o_sp o1))) in *.
  destruct (iter_R (A2 n d) (B2 n d N) (J2 n e d N) s2) as (s3 & ds3 & G3 & (o3 & N3 & E3 & P3 & Q3) & D3 & H3); auto.
  { intros x q ds' X1 X2 X3 X4 X5. apply (round2 n e Hn d N x q ds'); auto. }
  { eexists. split; [exact N2|]. split; [reflexivity|]. split; [|reflexivity]. destruct P1 as [Y1 Y2 Y3 Y4 Y5 Y6 Y7 Y8 Y9 Y10 Y11]. constructor; auto.
    - intros q. pose proof (Y7 q) as Y. rewrite D1 in Y. exact Y.
    - intros q [].
    - intros q x. cbn. apply vget_repeat.
    - left. split; [reflexivity|]. split; [reflexivity|]. split; [|auto]. intros q Hq. cbn. apply Y9; [apply in_R; auto|apply D1; auto]. }
  { intros z Hz. destruct (H1 z Hz) as (oz & Z1 & Z2 & Z3 & Z4 & Z5). pose proof Hz as Hz'. apply in_R in Hz'. destruct Hz' as [Y1 Y2].
    exists oz. split; [rewrite O2; auto|]. split; [exact Z2|]. split; [exact Z3|]. split; [rewrite M2'; auto|].
    destruct (M2 z) as (t & Mt & Ht). rewrite (Ht E1), Z4 in Mt. destruct (as_done _ _ _ _ _ P1 z Y2 (proj2 (D1 z) Hz)) as (_ & sy & Hsy). rewrite Hsy in Mt. exists sy. exact Mt. }
  pose proof (goes_good _ _ HG2 G3) as HG3.
  assert (DN : forall z, In z R -> d <= N).
  { intros z Hz. destruct (H3 z Hz) as (oz & Z1 & (_ & _ & _ & _ & Z5 & Z6) & _). destruct (dec_le s3 z oz) as [Z _]; auto. lia. }
  destruct (ws_st _ _ _ _ _ _ _ P3) as [(W1 & W2 & W3 & W4)|(W1 & W2)].
  - assert (d = N).
    { destruct R_ex as [z Hz]. specialize (DN z Hz). destruct (Nat.lt_ge_cases d N) as [L|L]; [|lia]. exfalso. rewrite Q3 in W4. destruct (W4 L) as [X|X]; [exact (NE _ D3 X)|].
      unfold is_chosen in X. rewrite (proj2 (QP _ _ HG3 N3)) in X; [discriminate|]. eapply Nat.le_trans; [apply len_R|]. apply count_ge; [apply nd_pR|].
      intros q [<-|Hq]; (eexists; split; [|apply Nat.leb_refl]); [rewrite (ws_acc _ _ _ _ _ _ _ P3)|rewrite (ws_accs _ _ _ _ _ _ _ P3) by (apply D3; auto)]; f_equal; exact Q3. }
    exists s3, N. split; [eapply goes_trans; [exact G1|eapply goes_trans; eauto]|]. split; auto. split.
    + exists o3. split; auto. split; auto. split; [apply (ws_log _ _ _ _ _ _ _ P3)|]. split; [congruence|auto].
    + intros z Hz. destruct (H3 z Hz) as (oz & Z1 & (_ & _ & _ & _ & Z5 & Z6) & _). exists oz. split; auto. split; congruence.
  - destruct (fetch s3 p o3 HG3 Hp N3) as (s4 & G4 & N4 & O4 & M4 & M4'). pose proof (goes_good _ _ HG3 G4) as HG4.
    destruct (iter_R (A3 n d N) (B3 N) (fun _ x => nodeok x p (fun x => (exists l, ms_log (i_st (s_is x)) = l ++ [e]) /\ i_dec (s_is x) = N /\ i_acc (s_is x) = N)) s4) as (s5 & ds5 & G5 & P5 & _ & H5).
    + intros x q ds' X1 X2 X3 X4 X5. apply (round3 n Hn d N _ x q ds'); auto.
    + exact HG4.
    + eexists. split; [exact N4|]. split; [reflexivity|]. split; [apply (ws_log _ _ _ _ _ _ _ P3)|]. split; [|exact Q3]. change (i_dec (s_is (o_sp o3)) = N). congruence.
    + intros z Hz. destruct (H3 z Hz) as (oz & Z1 & Z2 & Z3). pose proof Hz as Hz'. apply in_R in Hz'. destruct Hz' as [Y1 Y2]. exists oz. split; [rewrite O4; auto|]. split; [exact Z2|]. split; [eauto|].
      destruct (M4 z) as (t & Mt & Ht). rewrite (Ht E3), Z3 in Mt. destruct (W2 z Hz) as [W _]. rewrite W, Q3 in Mt. exact Mt.
    + exists s5, N. split; [eapply goes_trans; [exact G1|eapply goes_trans; [exact G2|eapply goes_trans; [exact G3|eapply goes_trans; eauto]]]|]. split; [apply (goes_good _ _ HG4 G5)|]. split; auto.
Qed.

Lemma stuck_free s e : Good s -> exists l1 l2 s' i, run cc s (l1 ++ ADo p (ECall (CAppend e)) :: l2) = Some s' /\ all_steps h1h2 cc s (l1 ++ ADo p (ECall (CAppend e)) :: l2) /\
  Forall (within Q p) l1 /\ Forall (within Q p) l2 /\ forall q, In q Q -> exists o, nodes s' q = Some o /\ read o i = RSome (LDecided e) /\ get_decided_idx o = i + 1.
Proof.
  intros HG. destruct (appended s e HG) as (s1 & s2 & s3 & n & (l1 & R1 & A1 & W1) & Ha & (l2 & R2 & A2 & W2) & HG3 & HG2 & Hn & HJ & HA).
  destruct (finish n e s3 Hn HG3 HJ HA) as (s' & N & (l3 & R3 & A3 & W3) & HG' & (op & N1 & _ & (l & Hl) & Dp & Ap) & HR).
  exists l1, (l2 ++ l3), s', (N - 1).
  assert (HH : h1h2 s1 (ADo p (ECall (CAppend e)))) by (split; exact I).
  split; [|split; [|split; [exact W1|split; [apply Forall_app; auto|]]]].
  - eapply run_join; [exact R1|]. cbn [run]. rewrite Ha. eapply run_join; eauto.
  - eapply steps_join; [exact A1|exact R1|]. split; [exact HH|]. rewrite Ha. eapply steps_join; eauto.
  - destruct (good_inv s' HG') as (G & HS). destruct Hg as (Hv & H0 & _). pose proof (y_G _ _ _ HS) as HGI.
    assert (Rd : forall q o x, nodes s' q = Some o -> i_dec (s_is (o_sp o)) = N -> i_acc (s_is (o_sp o)) = N -> 1 <= N -> nth_error (ms_log (i_st (s_is (o_sp o)))) (N - 1) = Some x -> read o (N - 1) = RSome (LDecided x) /\ fixed cc G (N - 1) (Ent x)).
    { intros q o x X1 X2 X3 X4 X5. pose proof (node_inv cc G s' q o HS X1) as HN. destruct (rest_facts s' q o HG' X1) as (_ & [[C1 _] _ _] & _).
      assert (St : stored (i_st (s_is (o_sp o))) (N - 1) x). { split; change (i_st (s_is (rest o))) with (i_st (s_is (o_sp o))) in C1; rewrite C1; [lia|]. rewrite Nat.sub_0_r. exact X5. }
      pose proof (read_stored cc G q o (N - 1) x HGI HN St) as X. unfold get_decided_idx in X. rewrite X2 in X. replace (N - 1 <? N) with true in X by (symmetry; apply Nat.ltb_lt; lia).
      split; [exact X|]. apply (reports_decided cc Hv H0 G q o (N - 1) x HGI HN). apply rep_read. exact X. }
    destruct (dec_le s' p op HG' N1) as [_ Cp]. destruct (rest_facts s' p op HG' N1) as (_ & [[C1 _] _ _] & _). change (i_st (s_is (rest op))) with (i_st (s_is (o_sp op))) in C1.
    unfold cnt in Cp. rewrite Ap, C1, Hl, app_length in Cp. cbn in Cp.
    destruct (Rd p op e N1 Dp Ap) as [Rp Fp]; [lia| |]. { rewrite Hl, nth_error_app2 by lia. replace (N - 1 - length l) with 0 by lia. reflexivity. }
    intros q Hq. destruct (Nat.eq_dec q p) as [->|Nq].
    + exists op. split; auto. split; auto. unfold get_decided_idx. rewrite Dp. lia.
    + destruct (HR q (proj2 (in_R q) (conj Hq Nq))) as (o & N2 & Dq & Aq). exists o. split; auto.
      destruct (dec_le s' q o HG' N2) as [_ Cq]. destruct (rest_facts s' q o HG' N2) as (_ & [[C2 _] _ _] & _). change (i_st (s_is (rest o))) with (i_st (s_is (o_sp o))) in C2. unfold cnt in Cq. rewrite Aq, C2 in Cq.
      destruct (nth_error (ms_log (i_st (s_is (o_sp o)))) (N - 1)) as [x|] eqn:Hx; [|apply nth_error_None in Hx; lia].
      destruct (Rd q o x N2 Dq Aq) as [Rq Fq]; [lia|exact Hx|]. pose proof (fixed_agree cc Hv H0 G (N - 1) _ _ HGI Fp Fq) as X. injection X as <-.
      split; auto. unfold get_decided_idx. rewrite Dq. lia.
Qed.
End Run.

(** C47. *)
Theorem C47_quorum_never_stuck :
  use_snapshots = false ->
  forall cc scs, good_config cc scs ->
  forall l s, all_steps h1h2 cc (init_sys cc scs) l -> only_calls (fun c => ~ compaction_call c /\ ~ reconfiguration_call c) l -> reaches cc scs l s ->
  forall Q p e, NoDup Q -> incl Q (cc_nodes cc) -> In p Q -> enough cc Q ->
  exists l1 l2 s' i, let l' := l1 ++ ADo p (ECall (CAppend e)) :: l2 in
    Forall (within Q p) l1 /\ Forall (within Q p) l2 /\ all_steps h1h2 cc (init_sys cc scs) (l ++ l') /\ reaches cc scs (l ++ l') s' /\
    forall q, In q Q -> exists o, nodes s' q = Some o /\ read o i = RSome (LDecided e) /\ get_decided_idx o = i + 1.
Proof.
  intros Hus cc scs Hg l s A C Hr Q p e H1 H2 H3 H4.
  destruct (stuck_free Hus cc scs Hg Q p H1 H2 H3 H4 s e) as (l1 & l2 & s' & i & B1 & B2 & B3 & B4 & B5); [exists l; auto|].
  exists l1, l2, s', i. split; auto. split; auto. split; [eapply steps_join; eauto|]. split; [eapply run_join; eauto|]. exact B5.
Qed.
End WithEntry.
Print Assumptions C47_quorum_never_stuck.

(** A case: the second run of [PropAgreement], continued by servers 1 and 3 alone, without the leader. *)
Section Case.
Local Existing Instance plain.
Lemma steps_prefix (P : @sys plain -> action -> Prop) cc l1 : forall l2 s, all_steps P cc s (l1 ++ l2) -> all_steps P cc s l1.
Proof. induction l1 as [|a l1 IH]; cbn; intros l2 s H; auto. destruct H as [H1 H]. split; auto. destruct (exec_action cc s a); eauto. Qed.
Lemma case_steps2 : all_steps h1h2 cc3 (init_sys cc3 scs) (acts_case1 ++ acts_case2).
Proof. apply (steps_prefix h1h2 cc3 _ acts_case3). rewrite <- app_assoc. exact case_steps. Qed.
Example C47_case :
  @use_snapshots plain = false /\ good_config cc3 scs /\
  all_steps h1h2 cc3 (init_sys cc3 scs) (acts_case1 ++ acts_case2) /\
  only_calls (fun c => ~ compaction_call c /\ ~ reconfiguration_call c) (acts_case1 ++ acts_case2) /\
  reaches cc3 scs (acts_case1 ++ acts_case2) sys_case2 /\
  NoDup [1; 3] /\ incl [1; 3] (cc_nodes cc3) /\ In 3 [1; 3] /\ enough cc3 [1; 3] /\
  obs sys_case2 3 (fun o => (get_decided_idx o, get_current_leader o)) = Some (4, Some (2, true)).
Proof.
  split; [reflexivity|]. split; [exact good3|]. split; [exact case_steps2|]. split.
  { apply (calls_ok _ calmb); [|vm_compute; reflexivity]. intros []; cbn; intros; try discriminate; tauto. }
  split; [exact case_reach2|]. split; [repeat constructor; cbn; intuition discriminate|]. split; [intros q [<-|[<-|[]]]; cbn; auto|]. split; [cbn; auto|]. split; [cbn; lia|].
  vm_compute; reflexivity.
Qed.
End Case.
