(** C58: with a leader and a write quorum of followers that stay together, nothing is left
    undone. *)
From Coq Require Import List Arith Lia Bool.
From Verif Require Import Types Config MemStore Internal LeaderState SeqPaxos Ble Omni System Basics Scen Spec Refute Local Frame Ghost GhostOps Inv SysInv Agree PropRefuted PropAgreement PropLocal Quiet PropChosen.
From Verif Require Chosen Op.
Import ListNotations.

Section WithEntry.
Context {E : EntryT}.

(** ** Vocabulary *)

(** No message of sequence_paxos from [a] to [b] is under way. *)
Definition nothing_between (s : sys) (a b : nat) : Prop :=
  (forall m, ~ In (MsgSP m) (net s a b)) /\ (forall o, nodes s a = Some o -> forall m, In m (outgoing o) -> pm_to m <> b).
(** [p] leads with ballot [n] and has no stop sign in its log. *)
Definition leading (s : sys) (p : nat) (n : ballot) : Prop :=
  exists o, nodes s p = Some o /\ role_of o = (Leader, PhAccept) /\ leader_ballot o = n /\ ms_ss (storage o) = None.
(** [q] follows the leader of ballot [n]. *)
Definition following (s : sys) (q : nat) (n : ballot) : Prop :=
  exists o, nodes s q = Some o /\ role_of o = (Follower, PhAccept) /\ get_promise o = n.
(** The action loses or overtakes no message of sequence_paxos between [p] and [q], and neither
    crashes.  (Heartbeats may be lost and overtaken.) *)
Definition first_of (l : list message) (k : nat) : Prop :=
  forall m, nth_error l k = Some (MsgSP m) -> forall j m', j < k -> nth_error l j <> Some (MsgSP m').
Definition spares (p q : nat) (s : sys) (a : action) : Prop :=
  match a with
  | ADo dst (EDeliver src k) => (src = p /\ dst = q) \/ (src = q /\ dst = p) -> first_of (net s src dst) k
  | ADrop src dst k => (src = p /\ dst = q) \/ (src = q /\ dst = p) -> forall m, nth_error (net s src dst) k <> Some (MsgSP m)
  | ACrash x _ _ _ => x <> p /\ x <> q
  | _ => True
  end.
(** Leader [p] and follower [q] are in step: nothing is under way between them, the leader
    counts [q] among its followers, has recorded what [q] has accepted and used the sequence
    numbers [q] has seen, and [q] knows what is decided of its log. *)
Definition in_step (s : sys) (p q : nat) : Prop :=
  exists o oq, nodes s p = Some o /\ nodes s q = Some oq /\
  nothing_between s p q /\ nothing_between s q p /\
  (exists m, vget (l_proms (s_ls (o_sp o))) q = Some (Promised m)) /\
  vget (l_seqs (s_ls (o_sp o))) q = Some (s_cseq (o_sp oq)) /\
  acknowledged o q = Some (i_acc (s_is (o_sp oq))) /\
  Nat.min (get_decided_idx o) (i_acc (s_is (o_sp oq)) + length (c_batch (i_ca (s_is (o_sp oq))))) <= get_decided_idx oq.

(** ** Lists of messages *)
Lemma rm_sp l : forall k m, nth_error l k = Some (MsgSP m) -> (forall j m', j < k -> nth_error l j <> Some (MsgSP m')) -> pmsgs l = pm_msg m :: pmsgs (remove_nth l k).
Proof.
  induction l as [|x l IH]; intros [|k] m Hk Hj; try discriminate.
  - injection Hk as ->. reflexivity.
  - cbn in Hk. cbn [remove_nth]. destruct x as [x|x]; [exfalso; apply (Hj 0 x); [lia|reflexivity]|]. cbn. apply IH; auto. intros j m' H. apply (Hj (S j) m'). lia.
Qed.
Lemma rm_ble l : forall k, (forall m, nth_error l k <> Some (MsgSP m)) -> pmsgs (remove_nth l k) = pmsgs l.
Proof.
  induction l as [|x l IH]; intros [|k] H; auto.
  - cbn. destruct x as [m|m]; auto. exfalso. apply (H m). reflexivity.
  - cbn [remove_nth]. change (pmsgs (x :: ?y)) with (pmsgs ([x] ++ y)). rewrite !pmsgs_app, IH; auto.
Qed.
Lemma no_msgs s a b : nothing_between s a b -> pmsgs (net s a b) = [] /\ forall o, nodes s a = Some o -> outs b (s_out (o_sp o)) = [].
Proof.
  intros [H1 H2]. split.
  - induction (net s a b) as [|x l IH]; auto. cbn. destruct x as [m|m]; [exfalso; apply (H1 m); left; reflexivity|]. apply IH. intros m' Hm. apply (H1 m'). right. exact Hm.
  - intros o Ho. specialize (H2 o Ho). unfold outgoing in H2. induction (s_out (o_sp o)) as [|x l IH]; auto. rewrite outs_cons, IH by (intros m Hm; apply H2; right; exact Hm).
    destruct (Nat.eqb_spec (pm_to x) b) as [e|]; auto. exfalso. apply (H2 x); auto. left. reflexivity.
Qed.

(** ** One leader and one follower *)
Section Pair.
Context (cc : cluster_config) (P q : nat) (n : ballot) (Hpq : q <> P) (HnP : b_pid n = P).
Definition PI (s : sys) : Prop := exists oP oq a, nodes s P = Some oP /\ nodes s q = Some oq /\
  LI P q n (pmsgs (net s P q)) (s_cseq (o_sp oq)) (held (o_sp oq)) (i_dec (s_is (o_sp oq))) a (o_sp oP) /\ QI P q n (pmsgs (net s q P)) a (o_sp oq) /\
  Forall (lmsg n) (pmsgs (net s P q)) /\ Forall (qmsg n) (pmsgs (net s q P)).

Lemma net_minv G s src p m : SysInv cc G s -> In (MsgSP m) (net s src p) -> pm_from m = src /\ minv cc G src p (pm_msg m).
Proof.
  intros S H. destruct (y_net _ _ _ S src p m H) as (Hf & Hne & _). split; auto. destruct (y_link _ _ _ S src p Hne) as [(A & _) _]. rewrite Forall_forall in A. apply A. unfold vlink. apply in_app_iff. left. unfold pmsgs. apply in_flat_map. exists (MsgSP m). split; auto. left. reflexivity.
Qed.
Lemma cmp_pid a b : bcmp a b = Eq -> b_pid a = b_pid b.
Proof. unfold bcmp. destruct (Nat.compare _ _); try discriminate. destruct (Nat.compare (b_prio a) _); try discriminate. apply Nat.compare_eq. Qed.
Lemma numb_pid G src p m b sq : minv cc G src p m -> numb m = Some (b, sq) -> b_pid b = src.
Proof. intros [_ H]. destruct m; cbn; intros X; try discriminate; injection X as <- <-; apply H. Qed.
Lemma leading_live G s o : SysInv cc G s -> leading s P n -> nodes s P = Some o -> Gone n (o_sp o) -> False.
Proof.
  intros S (o' & Ho & R & Ln & Hs) Ho' Hg. rewrite Ho in Ho'. injection Ho' as <-. unfold role_of in R. injection R as R1 R2. destruct Hg as [H|[H|H]]; [congruence|exact (H Ln)|]. apply H. unfold i_ss.
  pose proof (node_inv cc G s P o' S Ho) as I. rewrite (co_ss _ _ (n_coh _ _ _ _ I)). exact Hs.
Qed.
Lemma following_live s o : following s q n -> nodes s q = Some o -> QGone n (o_sp o) -> False.
Proof.
  intros (o' & Ho & R & Ln) Ho' Hg. rewrite Ho in Ho'. injection Ho' as <-. unfold role_of in R. injection R as R1 R2. destruct Hg as [H|[H|H]]; [congruence|congruence|exact (H Ln)].
Qed.
Lemma sp_first l k m : nth_error l k = Some (MsgSP m) -> first_of l k -> pmsgs l = pm_msg m :: pmsgs (remove_nth l k).
Proof. intros H1 H2. apply rm_sp; auto. intros j m'. exact (H2 m H1 j m'). Qed.

Lemma step_pi G G' s a s' : SysInv cc G s -> SysInv cc G' s' -> PI s -> spares P q s a -> exec_action cc s a = Some s' -> leading s' P n -> following s' q n -> PI s'.
Proof.
  intros S S' (oP & oq & ar & HP & Hq & L & Q & FL & FQ) Hsp He HL HF.
  assert (HPq : (P =? q) = false) by (apply Nat.eqb_neq; auto). assert (HqP : (q =? P) = false) by (apply Nat.eqb_neq; auto).
  destruct a as [p ev|p|src dst k|p ev j sc]; cbn in He.
  - destruct (nodes s p) as [o|] eqn:Ho; [|discriminate]. destruct (event_call s p ev) as [c|] eqn:Hc; [|discriminate]. destruct (exec o c) as [[o' r]|] eqn:Hx; [|discriminate]. injection He as <-.
    destruct (Nat.eq_dec p P) as [HpP|HpP]; [|destruct (Nat.eq_dec p q) as [Hpq'|Hpq']].
    + (* the leader *)
      rewrite HpP in *. clear HpP p. rewrite HP in Ho. injection Ho as <-.
      pose proof (event_apt cc G s P oP ev c S HP Hc) as Ap.
      assert (La : lapt q n (o_sp oP) c).
      { destruct ev as [c0|src k]; cbn in Hc; [destruct c0; try discriminate; injection Hc as <-; exact I|]. destruct (nth_error (net s src P) k) as [[m|m]|] eqn:Hk; [| |discriminate]; cbn in Hc; injection Hc as <-; [|exact I]. cbn [lapt]. split.
        - intros Hf. pose proof (nth_error_In _ _ Hk) as Hi. destruct (net_minv G s src P m S Hi) as [Hf' _]. rewrite Forall_forall in FQ. apply FQ. unfold pmsgs. apply in_flat_map. exists (MsgSP m). split; [congruence|]. left. reflexivity.
        - cbn [Chosen.apt] in Ap. destruct (pm_msg m); auto. }
      destruct (exec_li P q n Hpq HnP _ _ _ _ ar oP c o' r L La Hx) as [L'|L'].
      2:{ exfalso. eapply (leading_live G'); [exact S'|exact HL|cbn; unfold upd1; rewrite Nat.eqb_refl; reflexivity|exact L']. }
      destruct ev as [c0|src k].
      * exists o', oq, (acc_after q ar c). cbn [nodes net event_net]. unfold upd1. rewrite Nat.eqb_refl, HqP. split; auto. split; auto. split; [exact L'|]. split; auto.
        cbn in Hc. destruct c0; try discriminate; injection Hc as <-; exact Q.
      * cbn in Hc. destruct (nth_error (net s src P) k) as [m0|] eqn:Hk; [|discriminate]. cbn in Hc. injection Hc as <-. pose proof (nth_error_In _ _ Hk) as Hi.
        assert (N1 : forall f, upd2 f src P (remove_nth (net s src P) k) P q = f P q) by (intros f; unfold upd2; rewrite HqP, andb_false_r; reflexivity).
        destruct (Nat.eq_dec src q) as [Hs|Hs].
        -- rewrite Hs in *. assert (N2 : event_net s P (EDeliver q k) q P = remove_nth (net s q P) k) by (cbn; unfold upd2; rewrite !Nat.eqb_refl; reflexivity).
           cbn in Hsp. specialize (Hsp (or_intror (conj eq_refl eq_refl))). exists o', oq, (acc_after q ar (CHandle m0)). cbn [nodes net]. rewrite N2. cbn [event_net]. rewrite N1. unfold upd1. rewrite Nat.eqb_refl, HqP. split; auto. split; auto. split; [exact L'|].
           destruct m0 as [m|m].
           ++ rewrite (sp_first _ _ _ Hk Hsp) in Q, FQ. pose proof (Forall_inv FQ) as F1. apply Forall_inv_tail in FQ. split; [|auto]. apply qi_pop in Q. destruct (net_minv G s q P m S Hi) as [Hf _]. cbn [acc_after]. rewrite Hf, Nat.eqb_refl. destruct (pm_msg m); exact Q.
           ++ cbn [acc_after]. rewrite rm_ble; auto. intros m1 X. congruence.
        -- assert (N2 : event_net s P (EDeliver src k) q P = net s q P) by (cbn; unfold upd2; destruct (Nat.eqb_spec q src); [congruence|reflexivity]).
           exists o', oq, (acc_after q ar (CHandle m0)). cbn [nodes net]. rewrite N2. cbn [event_net]. rewrite N1. unfold upd1. rewrite Nat.eqb_refl, HqP. split; auto. split; auto. split; [exact L'|]. split; auto.
           destruct m0 as [m|m]; auto. cbn [acc_after]. destruct (net_minv G s src P m S Hi) as [Hf _]. rewrite Hf. destruct (pm_msg m); auto. destruct (Nat.eqb_spec src q); [congruence|exact Q].
    + (* the follower *)
      rewrite Hpq' in *. clear Hpq' p. rewrite Hq in Ho. injection Ho as <-.
      assert (Qa : qapt n (o_sp oq) c).
      { destruct ev as [c0|src k]; cbn in Hc; [destruct c0; try discriminate; injection Hc as <-; exact I|]. destruct (nth_error (net s src q) k) as [[m|m]|] eqn:Hk; [| |discriminate]; cbn in Hc; injection Hc as <-; [|exact I]. cbn [qapt]. intros b sq Hb Hcmp.
        pose proof (nth_error_In _ _ Hk) as Hi. destruct (net_minv G s src q m S Hi) as [Hf Mi]. pose proof (numb_pid _ _ _ _ _ _ Mi Hb) as Hp. apply cmp_pid in Hcmp. assert (Hsrc : src = P) by congruence. rewrite Hsrc in *.
        cbn in Hsp. specialize (Hsp (or_introl (conj eq_refl eq_refl))). rewrite (sp_first _ _ _ Hk Hsp) in L, FL. apply Forall_inv in FL. assert (Hd : exists d, decof (pm_msg m) = Some d) by (destruct (pm_msg m); cbn in *; try discriminate; try tauto; eauto). destruct Hd as (d & Hd).
        destruct (li_take P q n (pm_msg m) b sq d _ _ _ _ _ _ 0 0 Hb Hd ltac:(lia) L) as [K _]. split; auto. destruct (pm_msg m); cbn in *; try discriminate; try tauto; injection Hb as <- <-; exact FL. }
      destruct (exec_q P q n Hpq HnP _ ar oq c o' r Q Qa Hx) as [[Q' T]|Q'].
      2:{ exfalso. eapply (following_live); [exact HF|cbn; unfold upd1; rewrite Nat.eqb_refl; reflexivity|exact Q']. }
      destruct ev as [c0|src k].
      * assert (Tn : takes n c = None) by (cbn in Hc; destruct c0; try discriminate; injection Hc as <-; reflexivity). rewrite Tn in T. destruct T as (T1 & T2 & T3).
        exists oP, o', ar. cbn [nodes net event_net]. unfold upd1. rewrite Nat.eqb_refl, HPq, T1, T2, T3. auto 10.
      * cbn in Hc. destruct (nth_error (net s src q) k) as [m0|] eqn:Hk; [|discriminate]. cbn in Hc. injection Hc as <-. pose proof (nth_error_In _ _ Hk) as Hi.
        assert (N1 : forall f, upd2 f src q (remove_nth (net s src q) k) q P = f q P) by (intros f; unfold upd2; rewrite HPq, andb_false_r; reflexivity).
        destruct (Nat.eq_dec src P) as [Hs|Hs].
        -- rewrite Hs in *. assert (N2 : event_net s q (EDeliver P k) P q = remove_nth (net s P q) k) by (cbn; unfold upd2; rewrite !Nat.eqb_refl; reflexivity).
           cbn in Hsp. specialize (Hsp (or_introl (conj eq_refl eq_refl))). exists oP, o', ar. cbn [nodes net]. rewrite N2. cbn [event_net]. rewrite N1. unfold upd1. rewrite Nat.eqb_refl, HPq. split; auto. split; auto.
           destruct m0 as [m|m].
           ++ rewrite (sp_first _ _ _ Hk Hsp) in L, FL. pose proof (Forall_inv FL) as F1. apply Forall_inv_tail in FL. split; [|auto]. cbn [takes] in T. destruct (numb (pm_msg m)) as [[b sq]|] eqn:Hb.
              ** assert (Hd : exists d, decof (pm_msg m) = Some d) by (destruct (pm_msg m); cbn in *; try discriminate; try tauto; eauto). destruct Hd as (d & Hd). rewrite Hd in T.
                 assert (Hbn : b = n) by (destruct (pm_msg m); cbn in *; try discriminate; try tauto; injection Hb as <- <-; exact F1). assert (Hbb : beq b n = true) by (apply beq_spec; auto). rewrite Hbb in T. destruct T as (T1 & T2 & T3). rewrite T2.
                 exact (proj2 (li_take P q n (pm_msg m) b sq d _ _ _ _ _ _ _ _ Hb Hd T3 L)).
              ** destruct T as (T1 & T2 & T3). rewrite T1, T2, T3. eapply li_pop; eauto.
           ++ cbn [takes] in T. destruct T as (T1 & T2 & T3). rewrite T1, T2, T3, rm_ble; auto. intros m1 X. congruence.
        -- assert (N2 : event_net s q (EDeliver src k) P q = net s P q) by (cbn; unfold upd2; destruct (Nat.eqb_spec P src); [congruence|reflexivity]).
           exists oP, o', ar. cbn [nodes net]. rewrite N2. cbn [event_net]. rewrite N1. unfold upd1. rewrite Nat.eqb_refl, HPq. split; auto. split; auto.
           assert (Tn : takes n (CHandle m0) = None).
           { destruct m0 as [m|m]; auto. cbn [takes]. destruct (numb (pm_msg m)) as [[b sq]|] eqn:Hb; auto. destruct (decof (pm_msg m)); auto. destruct (beq b n) eqn:Hbn; auto. exfalso. apply beq_spec in Hbn. destruct (net_minv G s src q m S Hi) as [_ Mi]. pose proof (numb_pid _ _ _ _ _ _ Mi Hb). congruence. }
           rewrite Tn in T. destruct T as (T1 & T2 & T3). rewrite T1, T2, T3. auto.
    + (* somebody else *)
      exists oP, oq, ar. cbn [nodes net]. unfold upd1. destruct (Nat.eqb_spec P p); [congruence|]. destruct (Nat.eqb_spec q p); [congruence|].
      assert (N : event_net s p ev P q = net s P q /\ event_net s p ev q P = net s q P).
      { destruct ev as [c0|src k]; cbn; auto. unfold upd2. destruct (Nat.eqb_spec q p); [congruence|]. destruct (Nat.eqb_spec P p); [congruence|]. rewrite !andb_false_r. auto. }
      destruct N as [-> ->]. auto 10.
  - destruct (nodes s p) as [o|] eqn:Ho; [|discriminate]. cbn in He. injection He as <-. cbn [nodes net] in *. unfold PI. cbn [nodes net]. rewrite !send_all_net. unfold upd1.
    destruct (Nat.eqb_spec P p) as [e1|e1]; [|destruct (Nat.eqb_spec q p) as [e2|e2]].
    + rewrite <- e1, HqP in *. rewrite HP in Ho. injection Ho as <-. eexists; exists oq, ar. split; [reflexivity|]. split; auto. rewrite pmsgs_app, pmsgs_out. cbn [o_sp set_ble set_sp].
      split; [exact (li_fetch P q n _ _ _ _ _ _ L)|]. split; auto. split; auto. apply Forall_app. split; auto. exact (li_lm _ _ _ _ _ _ _ (proj1 L)).
    + rewrite <- e2 in *. rewrite Hq in Ho. injection Ho as <-. exists oP; eexists; exists ar. split; auto. split; [reflexivity|]. rewrite pmsgs_app, pmsgs_out. cbn [o_sp set_ble set_sp].
      split; [exact L|]. split; [exact (qi_fetch P q n _ _ _ Q)|]. split; auto. apply Forall_app. split; auto. exact (qi_qm _ _ _ _ _ _ Q).
    + exists oP, oq, ar. auto 10.
  - injection He as <-. exists oP, oq, ar. cbn [nodes net]. split; auto. split; auto. cbn in Hsp.
    assert (N1 : pmsgs (upd2 (net s) src dst (remove_nth (net s src dst) k) P q) = pmsgs (net s P q)).
    { unfold upd2. destruct (Nat.eqb_spec P src) as [e1|]; auto. destruct (Nat.eqb_spec q dst) as [e2|]; auto. cbn [andb]. rewrite <- e1, <- e2 in *. apply rm_ble. apply Hsp. auto. }
    assert (N2 : pmsgs (upd2 (net s) src dst (remove_nth (net s src dst) k) q P) = pmsgs (net s q P)).
    { unfold upd2. destruct (Nat.eqb_spec q src) as [e1|]; auto. destruct (Nat.eqb_spec P dst) as [e2|]; auto. cbn [andb]. rewrite <- e1, <- e2 in *. apply rm_ble. apply Hsp. auto. }
    rewrite N1, N2. auto.
  - destruct (nodes s p) as [o|] eqn:Ho; [|discriminate]. destruct (event_call s p ev) as [c|] eqn:Hc; [|discriminate]. destruct (nth_error (crash_points o c) j) as [st|]; [|discriminate]. destruct (_ =? p); [|discriminate].
    destruct (build cc sc st) as [| |o'] eqn:Hb; try discriminate. injection He as <-. destruct Hsp as [Hs1 Hs2].
    exists oP, oq, ar. cbn [nodes net]. unfold upd1. destruct (Nat.eqb_spec P p); [congruence|]. destruct (Nat.eqb_spec q p); [congruence|].
    assert (N : event_net s p ev P q = net s P q /\ event_net s p ev q P = net s q P).
    { destruct ev as [c0|src k]; cbn; auto. unfold upd2. destruct (Nat.eqb_spec q p); [congruence|]. destruct (Nat.eqb_spec P p); [congruence|]. rewrite !andb_false_r. auto. }
    destruct N as [-> ->]. auto 10.
Qed.
Lemma start_pi G s : SysInv cc G s -> (forall o, nodes s P = Some o -> server_state o) -> in_step s P q -> leading s P n -> following s q n -> PI s.
Proof.
  intros S Hst (o & oq & Ho & Hq & B1 & B2 & Hm & Hsq & Hac & Hd) (o' & Ho' & R & Ln & Hs) (oq' & Hq' & Rq & Pn). rewrite Ho in Ho'. injection Ho' as <-. rewrite Hq in Hq'. injection Hq' as <-.
  unfold role_of in R, Rq. injection R as R1 R2. injection Rq as R3 R4. pose proof (node_inv cc G s P o S Ho) as I. pose proof (node_inv cc G s q oq S Hq) as Iq.
  destruct (no_msgs s P q B1) as [N1 N2], (no_msgs s q P B2) as [N3 N4]. specialize (N2 o Ho). specialize (N4 oq Hq).
  exists o, oq, (i_acc (s_is (o_sp oq))). rewrite N1, N3. split; auto. split; auto. split; [|split; [|split; constructor]].
  - split.
    + constructor; auto.
      * exact (n_pid _ _ _ _ I).
      * unfold i_ss. rewrite (co_ss _ _ (n_coh _ _ _ _ I)). exact Hs.
      * intros p b i Hp. assert (Hne : P <> p). { intros <-. destruct (proj1 (C33_positions_in_queue o (Hst o Ho)) _ _ _ Hp) as (m & M1 & M2 & _). pose proof (n_out _ _ _ _ I) as Fo. rewrite Forall_forall in Fo. apply (Fo m); [exact (nth_error_In _ _ M1)|exact M2]. }
        assert (HoP : osp s P = Some (o_sp o)) by (unfold osp; rewrite Ho; reflexivity). destruct (y_am _ _ _ S P p (o_sp o) HoP Hne R1 R2 b i Hp) as (-> & sq & d & es & Hn & _). split; [exact Ln|]. eauto.
      * intros b i _ j x _ Hx Hto. exfalso. apply nth_error_In in Hx. exact (proj2 B1 o Ho x Hx Hto).
      * rewrite N2. constructor.
      * exists (s_cseq (o_sp oq)). split; auto. rewrite N2. reflexivity.
    + unfold LD. rewrite N2. exact Hd.
  - constructor; auto.
    + exact (n_pid _ _ _ _ Iq).
    + rewrite N4. constructor.
    + intros i Hi. destruct (n_lam _ _ _ _ Iq _ _ Hi) as (k & Hk). rewrite HnP in Hk. eauto.
    + intros i _ j x _ Hx Hto. exfalso. apply nth_error_In in Hx. exact (proj2 B2 oq Hq x Hx Hto).
    + rewrite N4. reflexivity.
Qed.

(** Links and buffers empty: the follower has the leader's log, the leader knows it, and the
    follower has decided what the leader has decided. *)
Lemma quiet_pi G s oP oq : SysInv cc G s -> PI s -> nodes s P = Some oP -> nodes s q = Some oq -> nothing_between s P q -> nothing_between s q P -> c_batch (i_ca (s_is (o_sp oq))) = [] ->
  cnt (storage oq) = cnt (storage oP) /\ acknowledged oP q = Some (cnt (storage oP)) /\ Nat.min (get_decided_idx oP) (cnt (storage oP)) <= get_decided_idx oq <= cnt (storage oP).
Proof.
  intros S (oP' & oq' & a & HP & Hq & [L LDq] & Q & _ & _) HP' Hq' B1 B2 Hb. rewrite HP in HP'. injection HP' as ->. rewrite Hq in Hq'. injection Hq' as ->.
  destruct (no_msgs s P q B1) as [N1 N2], (no_msgs s q P B2) as [N3 N4]. specialize (N2 oP HP). specialize (N4 oq Hq).
  pose proof (node_inv cc G s P oP S HP) as I. pose proof (node_inv cc G s q oq S Hq) as Iq.
  destruct (li_ch _ _ _ _ _ _ _ L) as (sq & Hsq & Hch). rewrite N1, N2 in Hch. cbn in Hch. subst sq.
  assert (HoP : osp s P = Some (o_sp oP)) by (unfold osp; rewrite HP; reflexivity).
  assert (Hov : oview s q = Some (view (o_sp oq))) by (unfold oview, osp; rewrite Hq; reflexivity).
  destruct (y_link _ _ _ S P q (not_eq_sym Hpq)) as [(_ & _ & _ & R) Sn]. specialize (R _ Hov). destruct (Sn _ HoP) as [_ Sm].
  destruct (Sm (li_r _ _ _ _ _ _ _ L) (li_p _ _ _ _ _ _ _ L) (li_prom _ _ _ _ _ _ _ L) _ Hsq) as (_ & Hml & _). cbn in Hml. rewrite (li_n _ _ _ _ _ _ _ L) in Hml.
  pose proof (n_role _ _ _ _ I) as Ro. rewrite (li_r _ _ _ _ _ _ _ L), (li_p _ _ _ _ _ _ _ L) in Ro. destruct (la_M _ _ _ _ Ro) as (lg & Hg & Hgs & Hgl). rewrite (li_n _ _ _ _ _ _ _ L) in Hg.
  assert (Hs : ms_ss (i_st (s_is (o_sp oP))) = None) by (rewrite <- (co_ss _ _ (n_coh _ _ _ _ I)); exact (li_ss _ _ _ _ _ _ _ L)). rewrite Hs in Hgs. specialize (Hgl Hs).
  destruct (R n HnP (qi_n _ _ _ _ _ _ Q)) as [R1 _]. destruct (R1 (qi_p _ _ _ _ _ _ Q)) as (_ & _ & _ & R2). cbn [view rv_ss rv_cnt rv_cseq] in R2.
  assert (Hqs : i_ss (s_is (o_sp oq)) = None). { destruct (i_ss (s_is (o_sp oq))); auto. cbn [issome] in R2. destruct R2 as [_ (l' & R3 & R4)]. rewrite Hg in R3. injection R3 as <-. contradiction. }
  rewrite Hqs, Hb in R2. cbn [issome length] in R2. assert (Hc : cnt (storage oq) = cnt (storage oP)). { unfold storage. unfold mlen in Hml. rewrite Hg in Hml. lia. }
  assert (Hqs' : ms_ss (i_st (s_is (o_sp oq))) = None) by (rewrite <- (co_ss _ _ (n_coh _ _ _ _ Iq)); exact Hqs).
  pose proof (co_acc _ _ (n_coh _ _ _ _ Iq)) as Ca. rewrite Hqs' in Ca.
  split; auto. split.
  - unfold acknowledged. rewrite (li_a _ _ _ _ _ _ _ L). f_equal. pose proof (qi_last _ _ _ _ _ _ Q) as La. rewrite N3, N4 in La. cbn in La. unfold i_acc in La. unfold storage in *. congruence.
  - unfold LD in LDq. rewrite N1, N2 in LDq. cbn in LDq. unfold held in LDq. rewrite Hb in LDq. cbn [length] in LDq. unfold i_acc in LDq. rewrite Ca in LDq. unfold get_decided_idx, storage in *. split; [lia|].
    unfold i_dec. rewrite (co_dec _ _ (n_coh _ _ _ _ Iq)). destruct (st_cov _ _ _ _ (n_st _ _ _ _ Iq)) as [X|X]; [lia|contradiction].
Qed.

(** [Q] holds at the beginning of the run and after every step of it. *)
Definition throughout (s : sys) (l : list action) (R : sys -> Prop) : Prop :=
  forall l1 l2 s1, l = l1 ++ l2 -> run cc s l1 = Some s1 -> R s1.
Lemma run_pi (Hv : cluster_validate cc = true) (H0 : ~ In 0 (nds cc)) l : forall G s s', SysInv cc G s -> PI s -> all_steps h1h2 cc s l -> all_steps (spares P q) cc s l ->
  throughout s l (fun s1 => leading s1 P n /\ following s1 q n) -> run cc s l = Some s' -> exists G', SysInv cc G' s' /\ PI s'.
Proof.
  induction l as [|a l IH]; intros G s s' S C Hl Hsp Ht Hr; cbn in Hl, Hsp, Hr.
  - injection Hr as <-. eauto.
  - destruct Hl as [Ha Hl], Hsp as [Hs Hsp]. destruct (exec_action cc s a) as [s1|] eqn:He; [|discriminate]. destruct (step_inv cc Hv H0 G s a s1 S Ha He) as (G1 & _ & S1).
    destruct (Ht [a] l s1 eq_refl) as [T1 T2]; [cbn; rewrite He; reflexivity|]. apply (IH G1 s1 s'); auto; [exact (step_pi G G1 s a s1 S S1 C Hs He T1 T2)|].
    intros l1 l2 s2 -> R. apply (Ht (a :: l1) l2 s2 eq_refl). cbn. rewrite He. exact R.
Qed.
End Pair.

Lemma run_join cc l1 : forall l2 (s s1 : sys) r, run cc s l1 = Some s1 -> run cc s1 l2 = r -> run cc s (l1 ++ l2) = r.
Proof. induction l1 as [|a l1 IH]; cbn; intros l2 s s1 r H1 H2; [congruence|]. destruct (exec_action cc s a); [eauto|discriminate]. Qed.
Lemma all_steps_join (R : sys -> action -> Prop) cc l1 : forall l2 s s1, all_steps R cc s l1 -> run cc s l1 = Some s1 -> all_steps R cc s1 l2 -> all_steps R cc s (l1 ++ l2).
Proof.
  induction l1 as [|a l1 IH]; intros l2 s s1 H1 Hr H2; cbn in *; [injection Hr as <-; exact H2|]. destruct H1 as [H1 H3]. split; auto. destruct (exec_action cc s a); [|discriminate]. eauto.
Qed.

(** ** Theorems *)

(** C58 (what holds): leader [p] and the followers [F], together a write quorum, start in step
    and stay in ballot [n], and no message between [p] and them is lost or overtaken.  Then
    whenever nothing is under way between them and no follower has buffered entries, the
    whole log of the leader is decided, by the leader and by each of the followers. *)
Theorem C58_quiet_means_decided_partial :
  forall cc scs, good_config cc scs ->
  forall l0 s0, all_steps h1h2 cc (init_sys cc scs) l0 -> reaches cc scs l0 s0 ->
  forall p n F, NoDup F -> ~ In p F -> write_enough cc (S (length F)) -> (forall q, In q F -> in_step s0 p q) ->
  forall l, all_steps h1h2 cc s0 l -> (forall q, In q F -> all_steps (spares p q) cc s0 l) ->
  throughout cc s0 l (fun s1 => leading s1 p n /\ forall q, In q F -> following s1 q n) ->
  forall s, run cc s0 l = Some s ->
  (forall q, In q F -> nothing_between s p q /\ nothing_between s q p /\ forall o, nodes s q = Some o -> c_batch (i_ca (s_is (o_sp o))) = []) ->
  forall o, nodes s p = Some o ->
    get_decided_idx o = ms_trim (storage o) + length (ms_log (storage o)) /\
    forall q, In q F -> exists oq, nodes s q = Some oq /\
      ms_trim (storage oq) + length (ms_log (storage oq)) = get_decided_idx o /\ get_decided_idx oq = get_decided_idx o.
Proof.
  intros cc scs Hg l0 s0 Hl0 R0 p n F ND HpF HW Hst l Hl Hsp Ht s R Hend o Ho.
  destruct (reach_ch cc scs l0 s0 Hg Hl0 R0) as (G0 & S0 & _). pose proof Hg as (Hv & H0 & _).
  assert (Rs : reaches cc scs (l0 ++ l) s) by (unfold reaches in *; eapply run_join; eauto).
  assert (Hall : all_steps h1h2 cc (init_sys cc scs) (l0 ++ l)) by (eapply all_steps_join; eauto).
  destruct (Ht l [] s (eq_sym (app_nil_r l)) R) as [HLs HFs]. destruct (Ht [] l s0 eq_refl eq_refl) as [HL0 HF0].
  assert (HnP : b_pid n = p). { destruct HL0 as (o0 & Ho0 & Rr & <- & _). unfold role_of in Rr. injection Rr as R1 _. exact (proj2 (leader_facts cc G0 p _ (node_inv cc G0 s0 p o0 S0 Ho0) R1)). }
  destruct HLs as (o' & Ho' & Hro & Hln & Hss). rewrite Ho in Ho'. injection Ho' as <-.
  assert (Hpair : forall q, In q F -> exists oq, nodes s q = Some oq /\ cnt (storage oq) = cnt (storage o) /\ acknowledged o q = Some (cnt (storage o)) /\ Nat.min (get_decided_idx o) (cnt (storage o)) <= get_decided_idx oq <= cnt (storage o)).
  { intros q Hq. assert (Hpq : q <> p) by (intros ->; contradiction). destruct (HFs q Hq) as (oq & Hoq & _). exists oq. split; auto. destruct (Hend q Hq) as (E1 & E2 & E3).
    assert (P0 : PI p q n s0). { eapply start_pi; eauto. intros o0 Ho0. exact (cluster_server_state cc scs l0 s0 p o0 R0 Ho0). }
    destruct (run_pi cc p q n Hpq HnP Hv H0 l G0 s0 s S0 P0 Hl (Hsp q Hq)) as (G1 & S1 & P1); auto.
    { intros l1 l2 s1 El Rl. destruct (Ht l1 l2 s1 El Rl) as [A B]. auto. }
    eapply quiet_pi; eauto. }
  destruct (C57_nobody_acknowledges_more_than_the_leader cc scs Hg _ Hall s Rs p o Ho Hro Hss) as [Hself _]. fold (cnt (storage o)) in Hself.
  assert (Hge : cnt (storage o) <= get_decided_idx o).
  { apply (C57_equal_acknowledgements_are_decided_partial cc scs Hg _ Hall s Rs p o Ho Hro F _ ND HpF HW); eauto. intros q Hq. destruct (Hpair q Hq) as (oq & _ & _ & X & _). exact X. }
  destruct (reach_ch cc scs _ s Hg Hall Rs) as (G & S & _). pose proof (node_inv cc G s p o S Ho) as I.
  assert (Hle : get_decided_idx o <= cnt (storage o)). { unfold get_decided_idx, i_dec. rewrite (co_dec _ _ (n_coh _ _ _ _ I)). destruct (st_cov _ _ _ _ (n_st _ _ _ _ I)) as [X|X]; [exact X|contradiction]. }
  fold (cnt (storage o)). split; [lia|]. intros q Hq. destruct (Hpair q Hq) as (oq & Hoq & X1 & _ & X2). exists oq. split; auto. fold (cnt (storage oq)). lia.
Qed.
End WithEntry.

(** ** Checking concrete runs *)
Section Check.
Context {E : EntryT}.
Definition safeb (a : action) : bool := match a with ADrop _ _ _ | ACrash _ _ _ _ => false | _ => true end.
Lemma spares_ok cc p q l : forall s, forallb fifob l = true -> forallb safeb l = true -> all_steps (spares p q) cc s l.
Proof.
  induction l as [|a l IH]; intros s Hf Hs; cbn in *; auto. apply andb_true_iff in Hf, Hs. destruct Hf as [F1 F2], Hs as [S1 S2]. split; [|destruct (exec_action cc s a); auto].
  destruct a as [x [c|src k]|x|src dst k|x ev j sc]; cbn in S1; try discriminate S1; cbn; auto. destruct k; cbn in F1; [|discriminate F1]. intros _ m _ j m' Hj. lia.
Qed.
Definition isSP (m : message) : bool := match m with MsgSP _ => true | _ => false end.
Definition quietb (s : sys) (a b : nat) : bool :=
  forallb (fun m => negb (isSP m)) (net s a b) && match nodes s a with Some o => forallb (fun m => negb (pm_to m =? b)) (outgoing o) | None => true end.
Lemma quietb_ok s a b : quietb s a b = true -> nothing_between s a b.
Proof.
  unfold quietb. rewrite andb_true_iff, forallb_forall. intros [H1 H2]. split.
  - intros m Hm. specialize (H1 _ Hm). discriminate H1.
  - intros o Ho m Hm. rewrite Ho, forallb_forall in H2. specialize (H2 m Hm). apply negb_true_iff, Nat.eqb_neq in H2. exact H2.
Qed.
Definition leadb (n : ballot) (o : omni) : bool :=
  match role_of o with (Leader, PhAccept) => true | _ => false end && beq (leader_ballot o) n && match ms_ss (storage o) with None => true | _ => false end.
Definition follb (n : ballot) (o : omni) : bool := match role_of o with (Follower, PhAccept) => true | _ => false end && beq (get_promise o) n.
Definition atb (s : sys) (p : nat) (f : omni -> bool) : bool := match nodes s p with Some o => f o | None => false end.
Lemma leadb_ok s p n : atb s p (leadb n) = true -> leading s p n.
Proof.
  unfold atb, leading. destruct (nodes s p) as [o|]; [|discriminate]. unfold leadb. rewrite !andb_true_iff. intros [[A B] C]. exists o. split; auto. split; [destruct (role_of o) as [[] []]; try discriminate A; reflexivity|].
  split; [apply beq_spec; exact B|]. destruct (ms_ss (storage o)); [discriminate C|reflexivity].
Qed.
Lemma follb_ok s p n : atb s p (follb n) = true -> following s p n.
Proof.
  unfold atb, following. destruct (nodes s p) as [o|]; [|discriminate]. unfold follb. rewrite andb_true_iff. intros [A B]. exists o. split; auto. split; [destruct (role_of o) as [[] []]; try discriminate A; reflexivity|].
  apply beq_spec. exact B.
Qed.
Definition togetherb (n : ballot) (p : nat) (F : list nat) (s : sys) : bool := atb s p (leadb n) && forallb (fun q => atb s q (follb n)) F.
Lemma togetherb_ok n p F s : togetherb n p F s = true -> leading s p n /\ forall q, In q F -> following s q n.
Proof. unfold togetherb. rewrite andb_true_iff, forallb_forall. intros [A B]. split; [apply leadb_ok; exact A|]. intros q Hq. apply follb_ok. exact (B q Hq). Qed.
Fixpoint throughb (cc : cluster_config) (f : sys -> bool) (s : sys) (l : list action) : bool :=
  f s && match l with [] => true | a :: r => match exec_action cc s a with Some s' => throughb cc f s' r | None => false end end.
Lemma throughb_ok cc f (R : sys -> Prop) l : (forall s, f s = true -> R s) -> forall s, throughb cc f s l = true -> throughout cc s l R.
Proof.
  intros Hf. induction l as [|a l IH]; intros s H l1 l2 s1 El Hr; cbn in H; apply andb_true_iff in H; destruct H as [H1 H2].
  - destruct l1; [|discriminate El]. cbn in Hr. injection Hr as <-. auto.
  - destruct l1 as [|b l1]; cbn in Hr; [injection Hr as <-; auto|]. injection El as <- El. destruct (exec_action cc s a) as [s'|]; [|discriminate]. exact (IH s' H2 l1 l2 s1 El Hr).
Qed.
Definition stepb (s : sys) (p q : nat) : bool :=
  quietb s p q && quietb s q p &&
  match nodes s p, nodes s q with
  | Some o, Some oq =>
      match vget (l_proms (s_ls (o_sp o))) q with Some (Promised _) => true | _ => false end &&
      match vget (l_seqs (s_ls (o_sp o))) q with Some sq => (sq_sess sq =? sq_sess (s_cseq (o_sp oq))) && (sq_ctr sq =? sq_ctr (s_cseq (o_sp oq))) | None => false end &&
      match acknowledged o q with Some a => a =? i_acc (s_is (o_sp oq)) | None => false end &&
      (Nat.min (get_decided_idx o) (i_acc (s_is (o_sp oq)) + length (c_batch (i_ca (s_is (o_sp oq))))) <=? get_decided_idx oq)
  | _, _ => false
  end.
Lemma stepb_ok s p q : stepb s p q = true -> in_step s p q.
Proof.
  unfold stepb, in_step. destruct (nodes s p) as [o|]; [|rewrite !andb_true_iff; intros [_ X]; discriminate X]. destruct (nodes s q) as [oq|]; [|rewrite !andb_true_iff; intros [_ X]; discriminate X].
  rewrite !andb_true_iff. intros [[A B] [[[C D] F] G]]. exists o, oq. split; auto. split; auto. split; [apply quietb_ok; auto|]. split; [apply quietb_ok; auto|].
  destruct (vget (l_proms _) q) as [[ |m|]|]; try discriminate C. split; [eauto|]. destruct (vget (l_seqs _) q) as [[x y]|]; [|discriminate D]. apply andb_true_iff in D. destruct D as [D1 D2]. apply Nat.eqb_eq in D1, D2. cbn in D1, D2.
  split; [f_equal; destruct (s_cseq (o_sp oq)); cbn in *; congruence|]. destruct (acknowledged o q); [|discriminate F]. apply Nat.eqb_eq in F. split; [congruence|]. apply Nat.leb_le. exact G.
Qed.
End Check.

(** ** The full claim is false *)
Section Stuck.
Local Existing Instance plain.
(** Election timeout 5, resend timeout 2, server 1 with the highest priority. *)
Definition scsq (p : nat) := mkSC p 5 2 10 1 20 (if p =? 1 then 1 else 0).
Lemma goodq : good_config cc3 scsq.
Proof. split; [reflexivity|]. split; [cbn; lia|]. intros p Hp. cbn in Hp. destruct Hp as [<-|[<-|[<-|[]]]]; vm_compute; auto. Qed.
Definition iniq := init_sys cc3 scsq.
Definition beat : list cmd := [ Call 1 CTick; Call 2 CTick; Call 3 CTick; Settle [1; 2; 3] 8 ].
Fixpoint times (n : nat) (l : list cmd) : list cmd := match n with 0 => [] | S k => l ++ times k l end.
(** Server 1 is elected.  [reconnected 1] is called twice at server 2, and once more between the
    two Prepares that it is sent: its second Promise is about a Prepare that is older than
    its last PrepareReq.  The first Promise is answered with an AcceptSync that it accepts, the
    second with one that it then ignores.  In between the leader has appended an entry, which
    it has sent only in the second.  The same at server 3. *)
Definition sch_stuck : list cmd := times 15 beat ++
  [ Call 2 (CReconnected 1); Call 2 (CReconnected 1); Call 3 (CReconnected 1); Call 3 (CReconnected 1);
    Fetch [2; 3]; DeliverN 2 1 2; DeliverN 3 1 2; Fetch [1];
    DeliverN 1 2 1; Fetch [2]; Call 2 (CReconnected 1); Fetch [2]; DeliverN 1 2 1; Fetch [2];
    DeliverN 1 3 1; Fetch [3]; Call 3 (CReconnected 1); Fetch [3]; DeliverN 1 3 1; Fetch [3];
    DeliverN 2 1 2; Fetch [1]; DeliverN 3 1 2; Fetch [1]; Call 1 (CAppend 7); Fetch [1];
    DeliverN 2 1 1; Fetch [1]; DeliverN 3 1 1; Settle [1; 2; 3] 12 ].
Definition acts_stuck := Eval vm_compute in acts_of cc3 iniq sch_stuck.
Definition sys_stuck := match run cc3 iniq acts_stuck with Some s => s | None => iniq end.
Definition acts_still := Eval vm_compute in acts_of cc3 sys_stuck (times 40 beat).
Definition sys_still := match run cc3 sys_stuck acts_still with Some s => s | None => iniq end.
Lemma stuck_reach : reaches cc3 scsq acts_stuck sys_stuck.
Proof. apply is_some_eta. vm_compute. reflexivity. Qed.
Lemma still_run : run cc3 sys_stuck acts_still = Some sys_still.
Proof. apply is_some_eta. vm_compute. reflexivity. Qed.
Definition ticks_of (p : nat) (l : list action) : nat := length (filter (fun a => match a with ADo x (ECall CTick) => x =? p | _ => false end) l).
Definition all_quiet (s : sys) : Prop := forall a b, In a [1; 2; 3] -> In b [1; 2; 3] -> nothing_between s a b.
Definition all_quietb (s : sys) : bool := forallb (fun a => forallb (quietb s a) [1; 2; 3]) [1; 2; 3].
Lemma all_quietb_ok s : all_quietb s = true -> all_quiet s.
Proof. intros H a b Ha Hb. unfold all_quietb in H. rewrite forallb_forall in H. specialize (H a Ha). cbv beta in H. rewrite forallb_forall in H. apply quietb_ok. exact (H b Hb). Qed.
Definition undecb (n : ballot) (s : sys) : bool := all_quietb s && togetherb n 1 [2; 3] s && atb s 1 (fun o => get_decided_idx o <? length (ms_log (storage o))) &&
  forallb (fun p => atb s p (fun o => length (c_batch (i_ca (s_is (o_sp o)))) =? 0)) [1; 2; 3].
(** All of the cluster is quiet and in ballot [n], and the log of its leader is not decided. *)
Definition undecided (n : ballot) (s : sys) : Prop :=
  all_quiet s /\ leading s 1 n /\ following s 2 n /\ following s 3 n /\
  (exists o, nodes s 1 = Some o /\ get_decided_idx o < length (ms_log (storage o))) /\
  forall p o, In p [1; 2; 3] -> nodes s p = Some o -> c_batch (i_ca (s_is (o_sp o))) = [].
Lemma undecb_ok n s : undecb n s = true -> undecided n s.
Proof.
  unfold undecb. rewrite !andb_true_iff. intros [[[A B] C] D]. split; [apply all_quietb_ok; exact A|]. apply togetherb_ok in B. destruct B as [B1 B2]. split; auto. split; [apply B2; cbn; auto|]. split; [apply B2; cbn; auto|]. split.
  - unfold atb in C. destruct (nodes s 1) as [o|]; [|discriminate C]. exists o. split; auto. apply Nat.ltb_lt. exact C.
  - rewrite forallb_forall in D. intros p o Hp Ho. specialize (D p Hp). unfold atb in D. rewrite Ho in D. apply Nat.eqb_eq in D. apply length_zero_iff_nil. exact D.
Qed.
End Stuck.

(** C58 is false: no message is ever lost or overtaken and no server crashes; the cluster comes
    to rest with all servers in the accept phase of one ballot and the log of the leader not
    decided, and remains so after forty more ticks at each server. *)
Theorem C58_quiet_means_decided_refuted :
  exists (E : EntryT) cc scs l s l' s' n,
    good_config cc scs /\ cc_nodes cc = [1; 2; 3] /\ Forall fifo (l ++ l') /\ Forall (fun a => safeb a = true) (l ++ l') /\
    all_steps drained cc (init_sys cc scs) (l ++ l') /\
    reaches cc scs l s /\ undecided n s /\
    run cc s l' = Some s' /\ (forall p, In p [1; 2; 3] -> 40 <= ticks_of p l') /\ undecided n s'.
Proof.
  exists plain, cc3, scsq, acts_stuck, sys_stuck, acts_still, sys_still, (mkB 1 1 1 1).
  split; [exact goodq|]. split; [reflexivity|].
  split; [apply fifob_ok; vm_compute; reflexivity|]. split; [apply Forall_forall, forallb_forall; vm_compute; reflexivity|].
  split; [apply drained_run_ok; vm_compute; reflexivity|]. split; [exact stuck_reach|]. split; [apply undecb_ok; vm_compute; reflexivity|]. split; [exact still_run|].
  split; [intros p [<-|[<-|[<-|[]]]]; vm_compute; lia|apply undecb_ok; vm_compute; reflexivity].
Qed.

(** ** Concrete case *)
Section Case.
Local Existing Instance plain.
(** After the election the leader appends, a follower forwards a proposal, ticks go by. *)
Definition acts_q0 := Eval vm_compute in acts_of cc3 iniq (times 15 beat ++ [ Call 1 (CAppend 5); Settle [1; 2; 3] 4 ]).
Definition sys_q0 := match run cc3 iniq acts_q0 with Some s => s | None => iniq end.
Definition sch_q : list cmd := [ Call 1 (CAppend 6); Call 2 (CAppend 7); Fetch [1; 2]; DeliverN 2 1 1; Call 1 (CAppend 8) ] ++ times 7 beat.
Definition acts_q := Eval vm_compute in acts_of cc3 sys_q0 sch_q.
Definition sys_q := match run cc3 sys_q0 acts_q with Some s => s | None => iniq end.
Example C58_case :
  good_config cc3 scsq /\ all_steps h1h2 cc3 iniq acts_q0 /\ reaches cc3 scsq acts_q0 sys_q0 /\ write_enough cc3 (S (length [2])) /\ in_step sys_q0 1 2 /\
  all_steps h1h2 cc3 sys_q0 acts_q /\ all_steps (spares 1 2) cc3 sys_q0 acts_q /\
  throughout cc3 sys_q0 acts_q (fun s => leading s 1 (mkB 1 1 1 1) /\ forall q, In q [2] -> following s q (mkB 1 1 1 1)) /\
  run cc3 sys_q0 acts_q = Some sys_q /\ nothing_between sys_q 1 2 /\ nothing_between sys_q 2 1 /\
  map (fun p => obs sys_q0 p (fun o => (ms_log (storage o), get_decided_idx o))) [1; 2] = [ Some ([5], 1); Some ([5], 1) ] /\
  map (fun p => obs sys_q p (fun o => (ms_log (storage o), get_decided_idx o, c_batch (i_ca (s_is (o_sp o)))))) [1; 2] =
    [ Some ([5; 6; 7; 8], 4, []); Some ([5; 6; 7; 8], 4, []) ].
Proof.
  split; [exact goodq|].
  split; [apply h1h2_run; vm_compute; reflexivity|]. split; [apply is_some_eta; vm_compute; reflexivity|]. split; [unfold write_enough; cbn; lia|].
  split; [apply stepb_ok; vm_compute; reflexivity|]. split; [apply h1h2_run; vm_compute; reflexivity|]. split; [apply spares_ok; vm_compute; reflexivity|].
  split; [apply (throughb_ok cc3 (togetherb (mkB 1 1 1 1) 1 [2]) _ _ (togetherb_ok _ _ _)); vm_compute; reflexivity|].
  split; [apply is_some_eta; vm_compute; reflexivity|]. split; [apply quietb_ok; vm_compute; reflexivity|]. split; [apply quietb_ok; vm_compute; reflexivity|].
  split; vm_compute; reflexivity.
Qed.
End Case.

Print Assumptions C58_quiet_means_decided_refuted.
Print Assumptions C58_quiet_means_decided_partial.
