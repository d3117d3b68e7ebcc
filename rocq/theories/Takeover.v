(** * The handlers on the way of a takeover without losses

    What each handler returns when the message is the one the takeover of a new leader leads to.
    (Facts about the model; the theorem about the cluster is in PropProgress.) *)
From Coq Require Import List Arith Bool Lia.
Import ListNotations.
From Verif Require Import Types Config MemStore Internal LeaderState SeqPaxos Ble Omni System Basics Spec Ghost GhostOps Inv Op LeadLinks LeadRecv Local Frame NoPanic.

Section WithEntry.
Context {E : EntryT}.

(** No stop sign is around. *)
Definition nss : stopsign -> Prop := fun _ => False.
Lemma ci_none is : CI nss is -> i_ss is = None.
Proof. intros [_ H _]. destruct (i_ss is); [destruct H|reflexivity]. Qed.

Definition tob (q : node_id) (l : list pmessage) : list pmessage := filter (fun m => pm_to m =? q) l.
Lemma tob_app q a b : tob q (a ++ b) = tob q a ++ tob q b.
Proof. apply filter_app. Qed.
Lemma tob_one q f t m : tob q [mkPM f t m] = if t =? q then [mkPM f t m] else [].
Proof. reflexivity. Qed.

Definition promd (ls : leader_state) (q : node_id) : Prop := exists m, vget (l_proms ls) q = Some (Promised m).

Lemma bind_inv {A B} (r : res A) (f : A -> res B) y : bind r f = Ok y -> exists x, r = Ok x /\ f x = Ok y.
Proof. destruct r as [x|]; cbn; [|discriminate]. exists x. auto. Qed.
Lemma lift_inv {B} s (o : option B) y : lift s o = Ok y -> o = Some y.
Proof. destruct o; cbn; [|discriminate]. intros H. injection H as <-. auto. Qed.
Lemma lift_bind {B C} s (o : option B) (f : B -> res C) y : bind (lift s o) f = Ok y -> exists x, o = Some x /\ f x = Ok y.
Proof. intros H. apply bind_inv in H. destruct H as (x & H & H1). apply lift_inv in H. exists x. auto. Qed.

Lemma bcmp_refl b : bcmp b b = Eq.
Proof. pose proof (bcmp_spec b b) as H. destruct (bcmp b b); auto; unfold bal_lt in H; lia. Qed.

(** ** A new prepare phase *)
Lemma push_all_f l m : forall s, push_all s l m = set_out s (s_out s ++ map (fun q => mkPM (s_pid s) q m) l).
Proof.
  unfold push_all. induction l as [|p l IH]; intros s; cbn [fold_left map].
  - rewrite app_nil_r. destruct s; reflexivity.
  - rewrite IH. cbn. rewrite <- app_assoc. reflexivity.
Qed.
Lemma tob_peers p m l q : NoDup l -> tob q (map (fun r => mkPM p r m) l) = if in_dec Nat.eq_dec q l then [mkPM p q m] else [].
Proof.
  induction l as [|x l IH]; intros H; [reflexivity|]. inversion H as [|a b H1 H2]; subst. cbn [map tob filter pm_to]. fold (tob q (map (fun r => mkPM p r m) l)). rewrite (IH H2).
  destruct (Nat.eqb_spec x q) as [->|Hx].
  - destruct (in_dec Nat.eq_dec q l); [contradiction|]. destruct (in_dec Nat.eq_dec q (q :: l)) as [_|N]; [reflexivity|destruct N; left; auto].
  - destruct (in_dec Nat.eq_dec q l) as [I|I]; destruct (in_dec Nat.eq_dec q (x :: l)) as [J|J]; auto.
    + destruct J. right. auto.
    + destruct J as [J|J]; [congruence|contradiction].
Qed.

Lemma handle_leader_fwd s n s' : handle_leader s n = Ok s' -> ble n (l_n (s_ls s)) = false -> ble n (i_prom (s_is s)) = false -> s_pid s = b_pid n ->
  s_role s' = Leader /\ s_phase s' = PhPrepare /\ l_n (s_ls s') = n /\ i_prom (s_is s') = n /\ s_bprops s' = s_bprops s
  /\ (forall q, promd (s_ls s') q <-> q = s_pid s) /\ (forall q x, vget (l_seqs (s_ls s')) q = Some x -> x = seq0)
  /\ s_out s' = s_out s ++ map (fun q => mkPM (s_pid s) q (MPrepare n (i_dec (s_is s')) (i_around (s_is s')) (i_acc (s_is s')))) (s_peers s).
Proof.
  intros H H1 H2 H3. unfold handle_leader in H. rewrite H1, H2, H3, Nat.eqb_refl in H. cbn [orb] in H. cbn zeta in H.
  apply lift_bind in H. destruct H as ([ls b] & H & X). injection X as <-. rewrite push_all_f. cbn.
  unfold ls_set_promise in H. destruct (vset _ _ _) as [v|] eqn:Hv; [|discriminate]. injection H as <- _. cbn.
  assert (Hn : l_n (if meta_gt (mkMeta (i_around (s_is s)) (i_acc (fst (flush_batch (s_is s)))) (i_dec (s_is s)) (s_pid s)) meta_default then l_set_max (ls_with n (l_maxpid (s_ls s)) (l_quorum (s_ls s))) (mkMeta (i_around (s_is s)) (i_acc (fst (flush_batch (s_is s)))) (i_dec (s_is s)) (s_pid s)) None else ls_with n (l_maxpid (s_ls s)) (l_quorum (s_ls s))) = n) by (destruct (meta_gt _ _); reflexivity).
  cbn in Hn. do 5 (split; [first [reflexivity|exact Hn|idtac]|]). split; [|split; [intros q x; destruct (meta_gt _ _); apply vget_repeat|rewrite H3; reflexivity]].
  intros q. unfold promd. cbn. rewrite (vget_vset _ _ _ _ q Hv). cbn. destruct (Nat.eqb_spec q (s_pid s)) as [->|Hq].
  - split; auto. intros _. eexists. reflexivity.
  - split; [|contradiction]. intros (m & Hm). exfalso.
    assert (X : forall b : bool, vget (l_proms (if b then l_set_max (ls_with n (l_maxpid (s_ls s)) (l_quorum (s_ls s))) (mkMeta (i_around (s_is s)) (i_acc (fst (flush_batch (s_is s)))) (i_dec (s_is s)) (s_pid s)) None else ls_with n (l_maxpid (s_ls s)) (l_quorum (s_ls s)))) q = Some (Promised m) -> False).
    { intros []; cbn; intros Y; apply vget_repeat in Y; discriminate. }
    eapply X. exact Hm.
Qed.

Lemma handle_prepare_fwd s n d na a from s' : handle_prepare s n d na a from = Ok s' -> blt (i_prom (s_is s)) n = true ->
  s_role s' = Follower /\ s_phase s' = PhPrepare /\ i_prom (s_is s') = n /\ exists pr, pr_n pr = n /\ s_out s' = s_out s ++ [mkPM (s_pid s) from (MPromise pr)].
Proof.
  intros H H1. unfold handle_prepare in H. rewrite H1 in H. cbn [orb] in H. cbn zeta in H. apply bind_inv in H. destruct H as (sy & _ & H). injection H as <-.
  cbn. repeat (split; [reflexivity|]). eexists. split; [|reflexivity]. reflexivity.
Qed.

Lemma append_fwd s e s' r : sp_append s e = Ok (s', r) -> i_ss (s_is s) = None -> s_role s = Leader -> s_phase s = PhPrepare -> s' = set_bprops s (s_bprops s ++ [e]).
Proof.
  intros H H1 H2 H3. unfold sp_append, accepted_reconfiguration in H. rewrite H1 in H. unfold propose_entry in H. rewrite H2, H3 in H. cbn [bind] in H. injection H as <- _. reflexivity.
Qed.

(** ** AcceptSync *)
Record same (s s' : sp) : Prop := {
  sm_is : s_is s' = s_is s; sm_pid : s_pid s' = s_pid s; sm_peers : s_peers s' = s_peers s; sm_role : s_role s' = s_role s; sm_ph : s_phase s' = s_phase s; sm_bp : s_bprops s' = s_bprops s;
  sm_n : l_n (s_ls s') = l_n (s_ls s); sm_proms : l_proms (s_ls s') = l_proms (s_ls s); sm_accs : l_accs (s_ls s') = l_accs (s_ls s);
  sm_am : l_accmeta (s_ls s') = l_accmeta (s_ls s); sm_q : l_quorum (s_ls s') = l_quorum (s_ls s) }.
Lemma same_refl s : same s s.
Proof. constructor; reflexivity. Qed.
Lemma same_trans a b c : same a b -> same b c -> same a c.
Proof. intros [] []. constructor; congruence. Qed.

(** The message [m] was added for [to] with the next number [sq] of [to]. *)
Record sent (s s' : sp) (to : node_id) (sq : seqnum) (m : pmsg) : Prop := {
  se_same : same s s';
  se_out : s_out s' = s_out s ++ [mkPM (s_pid s) to m];
  se_seq : forall r, vget (l_seqs (s_ls s')) r = if r =? to then Some sq else vget (l_seqs (s_ls s)) r
}.

Lemma incr_f l to l' x : increment_seq_num_session l to = Some l' -> vget (l_seqs l) to = Some x ->
  exists v, l' = l_set_seqs l v /\ forall r, vget v r = if r =? to then Some (mkSeq (sq_sess x + 1) 0) else vget (l_seqs l) r.
Proof.
  unfold increment_seq_num_session. intros H Hx. rewrite Hx in H. destruct (vset _ _ _) as [v|] eqn:Hv; [|discriminate]. injection H as <-.
  exists v. split; auto. intros r. apply (vget_vset _ _ _ _ r Hv).
Qed.
Lemma next_f l to l' sq x : next_seq_num l to = Some (l', sq) -> vget (l_seqs l) to = Some x ->
  exists v, l' = l_set_seqs l v /\ sq = mkSeq (sq_sess x) (sq_ctr x + 1) /\ forall r, vget v r = if r =? to then Some sq else vget (l_seqs l) r.
Proof.
  unfold next_seq_num. intros H Hx. rewrite Hx in H. destruct (vset _ _ _) as [v|] eqn:Hv; [|discriminate]. injection H as <- <-.
  exists v. repeat split; auto. intros r. apply (vget_vset _ _ _ _ r Hv).
Qed.

Lemma accsync_f s to s' : send_accsync s to = Ok s' -> vget (l_seqs (s_ls s)) to = Some seq0 ->
  exists sy, sent s s' to (mkSeq 1 1) (MAcceptSync (l_n (s_ls s)) (mkSeq 1 1) (i_dec (s_is s)) sy).
Proof.
  intros H H0. unfold send_accsync in H. cbn zeta in H. apply lift_bind in H. destruct H as (m & _ & H). apply lift_bind in H. destruct H as (fd & _ & H).
  apply lift_bind in H. destruct H as (sy & _ & H). apply lift_bind in H. destruct H as (l1 & H1 & H). apply lift_bind in H. destruct H as ([l2 sq] & H2 & H). injection H as <-.
  destruct (incr_f _ _ _ _ H1 H0) as (v1 & -> & V1). assert (Y : vget (l_seqs (l_set_seqs (s_ls s) v1)) to = Some (mkSeq 1 0)). { cbn. rewrite V1, Nat.eqb_refl. reflexivity. }
  destruct (next_f _ _ _ _ _ H2 Y) as (v2 & -> & -> & V2). exists sy. constructor.
  - constructor; reflexivity.
  - reflexivity.
  - intros r. cbn. rewrite V2. cbn. destruct (Nat.eqb_spec r to) as [->|N]; [reflexivity|]. rewrite V1. destruct (Nat.eqb_spec r to); [contradiction|reflexivity].
Qed.

Lemma accsyncs_f ps : forall s s', for_each s ps send_accsync = Ok s' -> NoDup ps -> (forall q, In q ps -> vget (l_seqs (s_ls s)) q = Some seq0) ->
  same s s' /\ (forall r, In r ps -> vget (l_seqs (s_ls s')) r = Some (mkSeq 1 1) /\ exists sy, tob r (s_out s') = tob r (s_out s) ++ [mkPM (s_pid s) r (MAcceptSync (l_n (s_ls s)) (mkSeq 1 1) (i_dec (s_is s)) sy)])
  /\ (forall r, ~ In r ps -> vget (l_seqs (s_ls s')) r = vget (l_seqs (s_ls s)) r /\ tob r (s_out s') = tob r (s_out s))
  /\ (forall m, In m (s_out s') -> In m (s_out s) \/ is_acceptdecide m = false).
Proof.
  induction ps as [|p ps IH]; intros s s' H ND H0; cbn [for_each] in H.
  - injection H as <-. split; [apply same_refl|]. split; [intros r []|]. split; auto.
  - apply bind_inv in H. destruct H as (s1 & H1 & H). inversion ND as [|a b N1 N2]; subst.
    destruct (accsync_f _ _ _ H1 (H0 p (or_introl eq_refl))) as (sy & [Y1 Y2 Y3]).
    destruct (IH _ _ H N2) as (I1 & I2 & I3 & I4).
    { intros q Hq. rewrite Y3. destruct (Nat.eqb_spec q p) as [->|_]; [contradiction|]. apply H0. right. auto. }
    split; [exact (same_trans _ _ _ Y1 I1)|]. split; [|split].
    + intros r Hr. destruct (Nat.eq_dec r p) as [->|Np].
      * destruct (I3 p N1) as [J1 J2]. rewrite J1, J2, Y3, Y2, tob_app, tob_one, Nat.eqb_refl. split; [reflexivity|]. exists sy. reflexivity.
      * destruct Hr as [Hr|Hr]; [congruence|]. destruct (I2 r Hr) as (J1 & sy' & J2). split; auto. exists sy'. rewrite J2, Y2, tob_app, tob_one. destruct (Nat.eqb_spec p r); [congruence|].
        rewrite app_nil_r, (sm_pid _ _ Y1), (sm_n _ _ Y1), (sm_is _ _ Y1). reflexivity.
    + intros r Hr. assert (Np : r <> p) by (intros ->; apply Hr; left; auto). destruct (I3 r) as [J1 J2]; [intros X; apply Hr; right; auto|]. rewrite J1, J2, Y3, Y2, tob_app, tob_one.
      destruct (Nat.eqb_spec r p); [contradiction|]. destruct (Nat.eqb_spec p r); [congruence|]. rewrite app_nil_r. auto.
    + intros m Hm. apply I4 in Hm. destruct Hm as [Hm|Hm]; auto. rewrite Y2, in_app_iff in Hm. destruct Hm as [Hm|[<-|[]]]; auto.
Qed.

(** ** The log after a synchronisation *)
Lemma sync_f is n d sy is' a : sync_log is n d sy = Ok (is', a) -> CI nss is -> syncN nss sy ->
  CI nss is' /\ i_dec is' = d /\ i_prom is' = i_prom is /\ a = i_acc is' /\ c_batch (i_ca is') = c_batch (i_ca is).
Proof.
  intros H HC HS. pose proof (ci_sync nss is n d sy HC HS) as X. rewrite H in X. split; [exact X|]. clear X.
  unfold sync_log in H. cbn zeta in H. destruct sy as [sy|].
  - destruct HS as [HS1 HS2]. rewrite HS1 in H. cbn [bind] in H. destruct (sy_ss sy); [destruct HS2|].
    pose proof (ci_none is HC) as Hn. unfold i_ss in H, Hn. cbn in H. rewrite Hn in H. apply bind_inv in H. destruct H as (m & _ & H). injection H as <- <-. auto.
  - apply bind_inv in H. destruct H as (m & _ & H). injection H as <- <-. auto.
Qed.

(** ** Counting *)
Lemma filter_all {A} (f : A -> bool) (l : list A) : forall i, exists W, length W = length (filter f l) /\
  forall j k, nth_error l j = Some k -> f k = true -> In (S (i + j)) W.
Proof.
  induction l as [|x l IH]; intros i; cbn; [exists []; split; [reflexivity|intros [|j] k; discriminate]|].
  destruct (IH (S i)) as (W & W2 & W3). destruct (f x) eqn:Hx.
  - exists (S i :: W). split; [cbn; lia|]. intros [|j] k H1 H2; [left; lia|]. right. replace (S (i + S j)) with (S (S i + j)) by lia. apply (W3 j k); auto.
  - exists W. split; auto. intros [|j] k H1 H2; [cbn in H1; congruence|]. replace (S (i + S j)) with (S (S i + j)) by lia. apply (W3 j k); auto.
Qed.
Lemma count_ge {A} (f : A -> bool) (v : list A) l : NoDup l -> (forall q, In q l -> exists x, vget v q = Some x /\ f x = true) -> length l <= length (filter f v).
Proof.
  intros ND H. destruct (filter_all f v 0) as (W & W1 & W2). rewrite <- W1. apply NoDup_incl_length; auto. intros q Hq. destruct (H q Hq) as (x & Hx & Hf).
  apply vget_in in Hx. destruct Hx as [H1 H2]. specialize (W2 _ _ H2 Hf). replace (S (0 + (q - 1))) with q in W2 by lia. exact W2.
Qed.

(** ** Promises *)
Record prepst (p : node_id) (n : ballot) (e : T) (ds : list node_id) (s : sp) : Prop := {
  ps_pid : s_pid s = p; ps_role : s_role s = Leader; ps_ph : s_phase s = PhPrepare; ps_n : l_n (s_ls s) = n; ps_prom : i_prom (s_is s) = n;
  ps_bp : exists pre, s_bprops s = pre ++ [e]; ps_out : s_out s = [];
  ps_pr : forall q, promd (s_ls s) q <-> q = p \/ In q ds;
  ps_seq : forall q x, vget (l_seqs (s_ls s)) q = Some x -> x = seq0;
  ps_no : ds = [] \/ is_prepare_quorum (l_quorum (s_ls s)) (length (filter is_promised (l_proms (s_ls s)))) = false
}.
Definition isync (p : node_id) (n : ballot) (d : nat) (q : node_id) (l : list pmessage) : Prop :=
  exists sy, l = [mkPM p q (MAcceptSync n (mkSeq 1 1) d sy)].
Record accst (p : node_id) (n : ballot) (e : T) (ds : list node_id) (s : sp) : Prop := {
  as_pid : s_pid s = p; as_role : s_role s = Leader; as_ph : s_phase s = PhAccept; as_n : l_n (s_ls s) = n; as_prom : i_prom (s_is s) = n;
  as_log : exists l, ms_log (i_st (s_is s)) = l ++ [e];
  as_pr : forall q, promd (s_ls s) q <-> q = p \/ In q ds;
  as_acc : vget (l_accs (s_ls s)) p = Some (i_acc (s_is s));
  as_done : forall q, q <> p -> In q ds -> vget (l_seqs (s_ls s)) q = Some (mkSeq 1 1) /\ isync p n (i_dec (s_is s)) q (tob q (s_out s));
  as_rest : forall q x, q <> p -> ~ In q ds -> tob q (s_out s) = [] /\ (vget (l_seqs (s_ls s)) q = Some x -> x = seq0);
  as_noad : forall m, In m (s_out s) -> is_acceptdecide m = false
}.

Lemma setp_f l pr from c l' m : ls_set_promise l pr from c = Some (l', m) ->
  l_n l' = l_n l /\ l_seqs l' = l_seqs l /\ l_accs l' = l_accs l /\ l_accmeta l' = l_accmeta l /\ l_quorum l' = l_quorum l
  /\ (forall q, promd l' q <-> q = from \/ promd l q) /\ m = is_prepare_quorum (l_quorum l') (length (filter is_promised (l_proms l')))
  /\ (l_maxsync l' = pr_sync pr \/ l_maxsync l' = l_maxsync l).
Proof.
  unfold ls_set_promise. set (k := mkMeta _ _ _ _). set (l1 := if c && _ then _ else _).
  assert (X : l_n l1 = l_n l /\ l_seqs l1 = l_seqs l /\ l_accs l1 = l_accs l /\ l_accmeta l1 = l_accmeta l /\ l_quorum l1 = l_quorum l /\ l_proms l1 = l_proms l /\ (l_maxsync l1 = pr_sync pr \/ l_maxsync l1 = l_maxsync l)).
  { unfold l1. destruct (c && _); cbn; auto 10. }
  clearbody l1. destruct X as (X1 & X2 & X3 & X4 & X5 & X6 & X7). destruct (vset _ _ _) as [v|] eqn:Hv; [|discriminate]. intros H. injection H as <- <-. cbn.
  do 5 (split; [assumption|]). split; [|split; [reflexivity|exact X7]].
  intros q. unfold promd. cbn. rewrite (vget_vset _ _ _ _ q Hv), X6. destruct (Nat.eqb_spec q from) as [->|N].
  - split; auto. intros _. eexists. reflexivity.
  - split; [auto|]. intros [->|H]; [contradiction|exact H].
Qed.

Lemma majority_fwd p n e ds s s' : handle_majority_promises s = Ok s' ->
  s_pid s = p -> p = b_pid n -> l_n (s_ls s) = n -> i_prom (s_is s) = n -> (exists pre, s_bprops s = pre ++ [e]) -> s_out s = [] ->
  (forall q, promd (s_ls s) q <-> q = p \/ In q ds) -> (forall q x, vget (l_seqs (s_ls s)) q = Some x -> x = seq0) -> length (l_seqs (s_ls s)) = length (l_proms (s_ls s)) ->
  CI nss (s_is s) -> syncN nss (l_maxsync (s_ls s)) -> s_bss s = None -> accst p n e ds s'.
Proof.
  intros H Hp Hpn Hn Hpr [pre Hb] Ho HP HQ HL HC HM Hbs. unfold handle_majority_promises in H. cbn [take_max_promise_sync] in H. cbn zeta in H. cbn [s_ls set_ls s_is] in H.
  apply bind_inv in H. destruct H as ([is acc] & H1 & H). destruct (sync_f _ _ _ _ _ _ H1 HC HM) as (C1 & C2 & C3 & C4 & C5).
  unfold accepted_reconfiguration in H. cbn [s_is set_is] in H. rewrite (ci_none _ C1) in H. cbn [s_bprops set_is set_ls] in H.
  destruct (s_bprops s) as [|b0 bs] eqn:Hbb; [destruct pre; discriminate|]. unfold append_entries_without_batching in H. cbn [s_bss set_bprops set_is set_ls s_is set_state] in H.
  rewrite Hbs in H. cbn zeta in H. apply lift_bind in H. destruct H as (ls & HA & H). apply lift_bind in H. destruct H as (ps & HF & H).
  unfold set_accepted_idx in HA. destruct (vset _ _ _) as [va|] eqn:Hva; [|discriminate]. injection HA as <-. cbn [s_ls set_ls] in HF. destruct (gpf_spec _ _ HF) as [ND FS]. cbn in FS.
  assert (FS' : forall b, In b ps <-> b <> p /\ In b ds).
  { intros b. rewrite FS, Hn, <- Hpn. pose proof (HP b) as X. unfold promd in X. rewrite X. split; intros [Y1 Y2]; split; auto. destruct Y2; [contradiction|auto]. }
  destruct (accsyncs_f _ _ _ H ND) as (S1 & S2 & S3 & S4).
  { intros q Hq. cbn. apply FS in Hq. destruct Hq as [_ [m Hm]]. apply vget_in in Hm. destruct Hm as [Hm1 Hm2]. destruct (nth_error (l_seqs (s_ls s)) (q - 1)) as [x|] eqn:Hx.
    - assert (Y : vget (l_seqs (s_ls s)) q = Some x). { replace q with (S (q - 1)) by lia. apply LeadLinks.vget_nth. exact Hx. } rewrite Y. f_equal. apply (HQ _ _ Y).
    - apply nth_error_None in Hx. assert (q - 1 < length (l_proms (s_ls s))) by (apply nth_error_Some; congruence). lia. }
  cbn in S2, S3, S4. constructor.
  - rewrite (sm_pid _ _ S1). exact Hp.
  - rewrite (sm_role _ _ S1). reflexivity.
  - rewrite (sm_ph _ _ S1). reflexivity.
  - rewrite (sm_n _ _ S1). exact Hn.
  - rewrite (sm_is _ _ S1). cbn. unfold i_prom in *. cbn. congruence.
  - rewrite (sm_is _ _ S1). cbn. rewrite Hb. exists (ms_log (i_st is) ++ pre). apply app_assoc.
  - intros q. unfold promd. rewrite (sm_proms _ _ S1). cbn. apply HP.
  - rewrite (sm_is _ _ S1), (sm_accs _ _ S1). cbn. cbn in Hva. rewrite (vget_vset _ _ _ _ p Hva), Hp, Nat.eqb_refl. reflexivity.
  - intros q Q1 Q2. destruct (S2 q) as (Y1 & sy & Y2); [apply FS'; auto|]. split; auto. exists sy. rewrite Y2, Ho, (sm_is _ _ S1). cbn. rewrite Hn, Hp. reflexivity.
  - intros q x Q1 Q2. destruct (S3 q) as (Y1 & Y2); [rewrite FS'; tauto|]. rewrite Y1, Y2, Ho. split; [reflexivity|]. apply HQ.
  - intros m Hm. apply S4 in Hm. rewrite Ho in Hm. destruct Hm as [[]|Hm]; exact Hm.
Qed.

Lemma promise_prep p n e ds s pr q s' : handle_promise_prepare s pr q = Ok s' -> prepst p n e ds s -> pr_n pr = n -> p = b_pid n ->
  length (l_seqs (s_ls s)) = length (l_proms (s_ls s)) -> CI nss (s_is s) -> syncN nss (l_maxsync (s_ls s)) -> syncN nss (pr_sync pr) -> s_bss s = None ->
  prepst p n e (q :: ds) s' \/ accst p n e (q :: ds) s'.
Proof.
  intros H [] Hn Hp HL HC HM HS Hb. unfold handle_promise_prepare in H. rewrite Hn, ps_n0, beq_refl in H. apply lift_bind in H. destruct H as ([ls maj] & H1 & H).
  pose proof (setp_f _ _ _ _ _ _ H1) as (X1 & X2 & X3 & X4 & X5 & X6 & X7 & X8).
  assert (PR : forall r, promd ls r <-> r = p \/ In r (q :: ds)). { intros r. rewrite X6, ps_pr0. cbn. split; intros [->|Y]; auto; destruct Y; auto. }
  destruct maj.
  - right. apply (majority_fwd p n e (q :: ds) _ _ H); auto; cbn.
    + congruence.
    + intros r x. rewrite X2. apply ps_seq0.
    + rewrite X2, HL. unfold ls_set_promise in H1. destruct (vset _ _ _) as [v|] eqn:Hv; [|discriminate]. injection H1 as <- _. cbn. rewrite (vset_len _ _ _ _ Hv). destruct (true && _); reflexivity.
    + destruct X8 as [->| ->]; auto.
  - left. injection H as <-. constructor; auto; cbn; try congruence.
    intros r x. rewrite X2. apply ps_seq0.
Qed.

Lemma promise_acc p n e ds s pr q s' : handle_promise_accept s pr q = Ok s' -> accst p n e ds s -> pr_n pr = n -> q <> p -> ~ In q ds ->
  vget (l_seqs (s_ls s)) q <> None -> accst p n e (q :: ds) s'.
Proof.
  intros H [] Hn Hq Hd Hv. unfold handle_promise_accept in H. rewrite Hn, as_n0, beq_refl in H. apply lift_bind in H. destruct H as ([ls maj] & H1 & H).
  pose proof (setp_f _ _ _ _ _ _ H1) as (X1 & X2 & X3 & X4 & X5 & X6 & X7 & X8).
  assert (PR : forall r, promd ls r <-> r = p \/ In r (q :: ds)). { intros r. rewrite X6, as_pr0. cbn. split; intros [->|Y]; auto; destruct Y; auto. }
  destruct (vget (l_seqs (s_ls s)) q) as [x|] eqn:Hx; [|contradiction]. assert (x = seq0) by (apply (as_rest0 q x); auto). subst x.
  destruct (accsync_f _ _ _ H) as (sy & [S1 S2 S3]); [cbn; congruence|]. cbn in S2, S3.
  constructor.
  - rewrite (sm_pid _ _ S1). auto.
  - rewrite (sm_role _ _ S1). auto.
  - rewrite (sm_ph _ _ S1). auto.
  - rewrite (sm_n _ _ S1). cbn. congruence.
  - rewrite (sm_is _ _ S1). auto.
  - rewrite (sm_is _ _ S1). auto.
  - intros r. unfold promd. rewrite (sm_proms _ _ S1). apply PR.
  - rewrite (sm_is _ _ S1), (sm_accs _ _ S1). cbn. congruence.
  - intros r R1 R2. rewrite S3, (sm_is _ _ S1), S2, X2, tob_app, tob_one. cbn [s_is set_ls]. destruct (Nat.eqb_spec r q) as [->|N].
    + split; auto. rewrite Nat.eqb_refl. exists sy. rewrite (proj1 (as_rest0 q seq0 Hq Hd)). cbn. rewrite X1, as_n0, as_pid0. reflexivity.
    + destruct R2 as [R2|R2]; [congruence|]. destruct (Nat.eqb_spec q r); [congruence|]. rewrite app_nil_r. apply as_done0; auto.
  - intros r x R1 R2. assert (N : r <> q /\ ~ In r ds) by (split; [intros ->; apply R2; left; auto|intros Y; apply R2; right; auto]). rewrite S3, S2, X2, tob_app, tob_one.
    destruct (Nat.eqb_spec r q); [tauto|]. destruct (Nat.eqb_spec q r); [intuition congruence|]. rewrite app_nil_r. apply as_rest0; tauto.
  - intros m Hm. rewrite S2, in_app_iff in Hm. destruct Hm as [Hm|[<-|[]]]; auto.
Qed.

(** ** The follower synchronises *)
Lemma acceptsync_fwd s n d sy from s' : handle_acceptsync s n (mkSeq 1 1) d sy from = Ok s' -> i_prom (s_is s) = n -> s_role s = Follower -> s_phase s = PhPrepare ->
  CI nss (s_is s) -> syncN nss (Some sy) ->
  s_role s' = Follower /\ s_phase s' = PhAccept /\ s_cseq s' = mkSeq 1 1 /\ i_prom (s_is s') = n /\ i_dec (s_is s') = d /\ c_batch (i_ca (s_is s')) = c_batch (i_ca (s_is s))
  /\ exists fw, s_out s' = s_out s ++ fw ++ [mkPM (s_pid s) from (MAccepted n (i_acc (s_is s')))] /\ length fw <= 1 /\ Forall (fun m => pm_to m = b_pid n) fw.
Proof.
  intros H Hn Hr Hph HC HS. unfold handle_acceptsync, check_valid_ballot in H. rewrite Hn in H. rewrite bcmp_refl, Hr, Hph in H. cbn [role_eqb phase_eqb andb] in H.
  cbn zeta in H. cbn [s_is set_cprom] in H. apply bind_inv in H. destruct H as ([is a] & H1 & H). destruct (sync_f _ _ _ _ _ _ H1 HC HS) as (C1 & C2 & C3 & C4 & C5). cbn [s_is set_is] in H. rewrite (ci_none _ C1) in H.
  unfold forward_buffered_proposals in H. cbn [s_bprops set_is set_cprom] in H. injection H as <-. 
  destruct (s_bprops s) as [|b bs].
  - cbn. do 6 (split; [congruence|]). exists []. split; [rewrite C4; reflexivity|]. split; auto.
  - unfold forward_proposals. destruct (_ && _).
    + cbn. do 6 (split; [congruence|]). exists [mkPM (s_pid s) (b_pid (i_prom is)) (MProposalForward (b :: bs))]. split; [rewrite C4; rewrite <- app_assoc; reflexivity|]. split; auto.
      constructor; [|constructor]. cbn. congruence.
    + cbn. do 6 (split; [congruence|]). exists []. split; [rewrite C4; reflexivity|]. split; auto.
Qed.

(** ** The leader decides *)
Record waitst (p : node_id) (n : ballot) (e : T) (R : list node_id) (d : nat) (ds : list node_id) (s : sp) : Prop := {
  ws_pid : s_pid s = p; ws_role : s_role s = Leader; ws_ph : s_phase s = PhAccept; ws_n : l_n (s_ls s) = n; ws_prom : i_prom (s_is s) = n;
  ws_log : exists l, ms_log (i_st (s_is s)) = l ++ [e];
  ws_pr : forall q, promd (s_ls s) q <-> q = p \/ In q R;
  ws_acc : vget (l_accs (s_ls s)) p = Some (i_acc (s_is s));
  ws_accs : forall q, In q ds -> vget (l_accs (s_ls s)) q = Some (i_acc (s_is s));
  ws_am : forall q x, vget (l_accmeta (s_ls s)) q = Some x -> x = None;
  ws_st : (i_dec (s_is s) = d /\ s_out s = [] /\ (forall q, In q R -> vget (l_seqs (s_ls s)) q = Some (mkSeq 1 1))
           /\ (d < i_acc (s_is s) -> ds = [] \/ is_chosen (s_ls s) (i_acc (s_is s)) = false))
       \/ (i_dec (s_is s) = i_acc (s_is s) /\ forall q, In q R -> tob q (s_out s) = [mkPM p q (MDecide n (mkSeq 1 2) (i_acc (s_is s)))] /\ vget (l_seqs (s_ls s)) q = Some (mkSeq 1 2))
}.

Lemma decide_to_f d s to s' : handle_accepted_to d s to = Ok s' -> (forall x, vget (l_accmeta (s_ls s)) to = Some x -> x = None) -> vget (l_seqs (s_ls s)) to = Some (mkSeq 1 1) ->
  sent s s' to (mkSeq 1 2) (MDecide (l_n (s_ls s)) (mkSeq 1 2) d).
Proof.
  intros H H0 H1. unfold handle_accepted_to in H. apply lift_bind in H. destruct H as (r & Hr & H). unfold get_latest_accdec, get_latest_accept_meta in Hr.
  destruct (vget (l_accmeta (s_ls s)) to) as [x|] eqn:Hx; [|discriminate]. rewrite (H0 x eq_refl) in Hr. injection Hr as <-.
  unfold send_decide in H. apply lift_bind in H. destruct H as ([l sq] & H2 & H). injection H as <-. destruct (next_f _ _ _ _ _ H2 H1) as (v & -> & -> & V).
  constructor; [constructor; reflexivity|reflexivity|]. exact V.
Qed.
Lemma decide_all_f d ps : forall s s', for_each s ps (handle_accepted_to d) = Ok s' -> NoDup ps -> (forall q, In q ps -> vget (l_seqs (s_ls s)) q = Some (mkSeq 1 1)) -> (forall q x, vget (l_accmeta (s_ls s)) q = Some x -> x = None) ->
  same s s' /\ (forall r, In r ps -> tob r (s_out s') = tob r (s_out s) ++ [mkPM (s_pid s) r (MDecide (l_n (s_ls s)) (mkSeq 1 2) d)] /\ vget (l_seqs (s_ls s')) r = Some (mkSeq 1 2))
  /\ (forall r, ~ In r ps -> tob r (s_out s') = tob r (s_out s) /\ vget (l_seqs (s_ls s')) r = vget (l_seqs (s_ls s)) r).
Proof.
  induction ps as [|p ps IH]; intros s s' H ND H0 HA; cbn [for_each] in H.
  - injection H as <-. split; [apply same_refl|]. split; [intros r []|]. auto.
  - apply bind_inv in H. destruct H as (s1 & H1 & H). inversion ND as [|a b N1 N2]; subst.
    destruct (decide_to_f _ _ _ _ H1 (HA p) (H0 p (or_introl eq_refl))) as [Y1 Y2 Y3].
    destruct (IH _ _ H N2) as (I1 & I2 & I3).
    { intros q Hq. rewrite Y3. destruct (Nat.eqb_spec q p) as [->|_]; [contradiction|]. apply H0. right. auto. }
    { intros q x. rewrite (sm_am _ _ Y1). apply HA. }
    split; [exact (same_trans _ _ _ Y1 I1)|]. split.
    + intros r Hr. destruct (Nat.eq_dec r p) as [->|Np].
      * destruct (I3 p N1) as [J1 J2]. rewrite J1, J2, Y2, Y3, tob_app, tob_one, Nat.eqb_refl. auto.
      * destruct Hr as [Hr|Hr]; [congruence|]. destruct (I2 r Hr) as [J1 J2]. rewrite J1, J2, Y2, tob_app, tob_one. destruct (Nat.eqb_spec p r); [congruence|].
        rewrite app_nil_r, (sm_pid _ _ Y1), (sm_n _ _ Y1). auto.
    + intros r Hr. assert (Np : r <> p) by (intros ->; apply Hr; left; auto). destruct (I3 r) as [J1 J2]; [intros X; apply Hr; right; auto|]. rewrite J1, J2, Y2, Y3, tob_app, tob_one.
      destruct (Nat.eqb_spec p r); [congruence|]. destruct (Nat.eqb_spec r p); [congruence|]. rewrite app_nil_r. auto.
Qed.

Lemma accepted_fwd p n e R d ds s q s' : handle_accepted s n (i_acc (s_is s)) q = Ok s' -> waitst p n e R d ds s -> p = b_pid n -> NoDup R -> ~ In p R -> In q R -> waitst p n e R d (q :: ds) s' /\ i_acc (s_is s') = i_acc (s_is s).
Proof.
  intros H [] Hp ND NP Hq. unfold handle_accepted in H. rewrite ws_n0, beq_refl, ws_role0, ws_ph0 in H. cbn [role_eqb phase_eqb andb] in H. apply lift_bind in H. destruct H as (ls & HA & H).
  unfold set_accepted_idx in HA. destruct (vset _ _ _) as [va|] eqn:Hva; [|discriminate]. injection HA as <-. cbn zeta in H. cbn [s_is s_ls set_ls] in H.
  assert (VA : forall r, vget va r = if r =? q then Some (i_acc (s_is s)) else vget (l_accs (s_ls s)) r) by (intros r; apply (vget_vset _ _ _ _ r Hva)).
  assert (VD : forall r, In r (q :: ds) -> vget va r = Some (i_acc (s_is s))).
  { intros r [<-|Hr]; rewrite VA; [rewrite Nat.eqb_refl; auto|]. destruct (r =? q); auto. }
  destruct ((i_dec (s_is s) <? i_acc (s_is s)) && is_chosen (l_set_accs (s_ls s) va) (i_acc (s_is s))) eqn:Hc.
  - apply andb_true_iff in Hc. destruct Hc as [Hc1 Hc2]. apply Nat.ltb_lt in Hc1. destruct ws_st0 as [(W1 & W2 & W3 & W4)|(W1 & _)]; [|lia].
    apply lift_bind in H. destruct H as (ps & HF & H). destruct (gpf_spec _ _ HF) as [ND' FS]. cbn in FS.
    assert (FS' : forall b, In b ps <-> In b R).
    { intros b. rewrite FS, ws_n0, <- Hp. pose proof (ws_pr0 b) as X. unfold promd in X. rewrite X. split; [intros [Y1 [Y2|Y2]]; [contradiction|auto]|]. intros Y. split; auto. intros ->. contradiction. }
    destruct (decide_all_f _ _ _ _ H ND') as (S1 & S2 & S3); cbn; auto. { intros r Hr. apply W3, FS', Hr. }
    cbn in S2, S3. split; [|rewrite (sm_is _ _ S1); reflexivity]. constructor.
    + rewrite (sm_pid _ _ S1). auto.
    + rewrite (sm_role _ _ S1). auto.
    + rewrite (sm_ph _ _ S1). auto.
    + rewrite (sm_n _ _ S1). auto.
    + rewrite (sm_is _ _ S1). auto.
    + rewrite (sm_is _ _ S1). auto.
    + intros r. unfold promd. rewrite (sm_proms _ _ S1). apply ws_pr0.
    + rewrite (sm_is _ _ S1), (sm_accs _ _ S1). cbn. rewrite VA. destruct (p =? q); auto.
    + intros r Hr. rewrite (sm_is _ _ S1), (sm_accs _ _ S1). cbn. apply VD. auto.
    + intros r x. rewrite (sm_am _ _ S1). apply ws_am0.
    + right. rewrite (sm_is _ _ S1). split; [reflexivity|]. intros r Hr. destruct (S2 r) as [J1 J2]; [apply FS'; auto|]. rewrite J1, J2, W2, ws_n0, ws_pid0. auto.
  - injection H as <-. split; [|reflexivity]. constructor; cbn; auto.
    + rewrite VA. destruct (p =? q); auto.
    + destruct ws_st0 as [(W1 & W2 & W3 & W4)|(W1 & W2)]; [|right; split; auto]. left. split; auto. split; auto. split; auto. intros L. right.
      apply andb_false_iff in Hc. destruct Hc as [Hc|Hc]; auto. apply Nat.ltb_ge in Hc. lia.
Qed.

(** ** The follower decides *)
Lemma decide_fwd s n d s' : handle_decide s n (mkSeq 1 2) d = Ok s' -> i_prom (s_is s) = n -> s_phase s = PhAccept -> s_cseq s = mkSeq 1 1 -> i_dec (s_is s) <= d -> d = i_acc (s_is s) -> i_dec (s_is s') = d /\ i_acc (s_is s') = d.
Proof.
  intros H Hn Hph Hq Hd Ha. unfold handle_decide, check_valid_ballot in H. rewrite Hn, bcmp_refl, Hph in H. cbn [phase_eqb andb] in H. unfold handle_sequence_num in H. rewrite Hq in H. change (check_msg_status (mkSeq 1 1) (mkSeq 1 2)) with Expected in H. cbn zeta iota in H.
  unfold update_decided in H. cbn [s_is set_cseq] in H. destruct (Nat.leb_spec d (i_dec (s_is s))).
  - injection H as <-. cbn. split; [lia|auto].
  - rewrite <- Ha, Nat.ltb_irrefl in H. injection H as <-. split; [reflexivity|]. rewrite Ha. reflexivity.
Qed.
End WithEntry.
