(** * C32, C16: batching, and the numbered messages of a session *)
From Coq Require Import List Arith Bool Lia.
Import ListNotations.
From Verif Require Import Types Config MemStore Internal LeaderState SeqPaxos Ble Omni System Basics Scen Spec Refute PropAgreement Local Frame PropLocal PropCalls.

Section WithEntry.
Context {E : EntryT}.

(** ** C32 *)

(** The operations on the log of a storage that may leave entries in the batch or flush it. *)
Inductive batch_op :=
| BEntry (e : T)             (* append_entry_with_batching *)
| BEntries (es : list T)     (* append_entries_with_batching *)
| BAccept (es : list T)      (* append_entries_and_get_accepted_idx *)
| BFlush                     (* flush_batch *)
| BFlushGet                  (* flush_batch_and_get_entries *)
| BStopSign (ss : stopsign). (* append_stopsign *)

(** What was appended by an operation. *)
Definition op_entries (x : batch_op) : list T :=
  match x with BEntry e => [e] | BEntries es | BAccept es => es | _ => [] end.

(** An operation and the entries that it reports as flushed (for those that report them). *)
Definition do_op (s : istore) (x : batch_op) : istore * option (nat * list T) :=
  match x with
  | BEntry e => append_entry_with_batching s e
  | BEntries es => append_entries_with_batching s es
  | BAccept es => let '(s', _) := append_entries_and_get_accepted_idx s es in (s', None)
  | BFlush => let '(s', _) := flush_batch s in (s', None)
  | BFlushGet => flush_batch_and_get_entries s
  | BStopSign ss => i_append_stopsign s ss
  end.
Definition do_ops (s : istore) (l : list batch_op) : istore := fold_left (fun s x => fst (do_op s x)) l s.

Definition all_of (s : istore) : list T := ms_log (i_st s) ++ c_batch (i_ca s).
Definition is_ss (x : batch_op) : bool := match x with BStopSign _ => true | _ => false end.

Ltac opfin := repeat split; rewrite ?app_nil_r, <- ?app_assoc; auto; unfold i_acc; cbn -[app length]; rewrite ?app_length; cbn [length] in *; try lia; try congruence.
Lemma op_one s x : length (c_batch (i_ca s)) < c_bsize (i_ca s) ->
  let s' := fst (do_op s x) in
  all_of s' = all_of s ++ op_entries x /\ length (c_batch (i_ca s')) < c_bsize (i_ca s') /\ c_bsize (i_ca s') = c_bsize (i_ca s) /\
  i_acc s' + length (ms_log (i_st s)) = i_acc s + length (ms_log (i_st s')) + (if is_ss x then 1 else 0) /\
  match snd (do_op s x) with
  | Some (acc, es) => ms_log (i_st s') = ms_log (i_st s) ++ es /\ es ++ c_batch (i_ca s') = c_batch (i_ca s) ++ op_entries x /\ acc + (if is_ss x then 1 else 0) = i_acc s'
  | None => True
  end.
Proof.
  intros H. unfold all_of. destruct x as [e|es|es| | |ss]; cbn [do_op op_entries is_ss].
  - unfold append_entry_with_batching, cache_append_entry, take_entries_if_batch_is_full. cbn [c_bsize c_batch c_set_batch]. destruct (Nat.leb_spec (c_bsize (i_ca s)) (length (c_batch (i_ca s) ++ [e]))) as [L|L]; cbn -[app length].
    + opfin.
    + opfin.
  - unfold append_entries_with_batching, cache_append_entries, take_entries_if_batch_is_full. cbn [c_bsize c_batch c_set_batch]. destruct (Nat.leb_spec (c_bsize (i_ca s)) (length (c_batch (i_ca s) ++ es))) as [L|L]; cbn -[app length].
    + opfin.
    + opfin.
  - unfold append_entries_and_get_accepted_idx, cache_append_entries, take_entries_if_batch_is_full. cbn [c_bsize c_batch c_set_batch]. destruct (Nat.leb_spec (c_bsize (i_ca s)) (length (c_batch (i_ca s) ++ es))) as [L|L]; cbn -[app length].
    + opfin.
    + opfin.
  - cbn -[app length]. opfin.
  - unfold flush_batch_and_get_entries. destruct (c_batch (i_ca s)) as [|e l] eqn:Hb; cbn -[app length].
    + rewrite Hb, !app_nil_r. opfin.
    + opfin.
  - unfold i_append_stopsign, cache_append_stopsign. cbn [c_batch c_set_ss]. destruct (c_batch (i_ca s)) as [|e l] eqn:Hb; cbn -[app length].
    + rewrite Hb, !app_nil_r. opfin.
    + opfin.
Qed.

(** For every batch size and every sequence of operations: nothing is lost, duplicated or
    reordered, a batch is never full, and the accepted index grows by what was flushed. *)
Theorem C32_batching_keeps_all_entries :
  forall l s, length (c_batch (i_ca s)) < c_bsize (i_ca s) ->
  let s' := do_ops s l in
  ms_log (i_st s') ++ c_batch (i_ca s') = ms_log (i_st s) ++ c_batch (i_ca s) ++ flat_map op_entries l /\
  length (c_batch (i_ca s')) < c_bsize (i_ca s') /\ c_bsize (i_ca s') = c_bsize (i_ca s) /\
  (exists flushed, ms_log (i_st s') = ms_log (i_st s) ++ flushed /\ i_acc s' = i_acc s + length flushed + length (filter is_ss l)).
Proof.
  unfold do_ops. induction l as [|x l IH]; intros s H; cbn [fold_left flat_map filter].
  - rewrite app_nil_r. split; auto. split; auto. split; auto. exists []. rewrite app_nil_r. cbn. split; auto. lia.
  - destruct (op_one s x H) as (H1 & H2 & H3 & H4 & _). destruct (IH _ H2) as (K1 & K2 & K3 & fl & K4 & K5). unfold all_of in *.
    split; [rewrite K1, app_assoc, H1, <- !app_assoc; reflexivity|]. split; [exact K2|]. split; [congruence|].
    assert (X : exists f0, ms_log (i_st (fst (do_op s x))) = ms_log (i_st s) ++ f0).
    { clear. unfold do_op. destruct x as [e|es|es| | |ss].
      - unfold append_entry_with_batching, cache_append_entry, take_entries_if_batch_is_full. destruct (_ <=? _); cbn -[app]; [eauto|exists []; rewrite app_nil_r; auto].
      - unfold append_entries_with_batching, cache_append_entries, take_entries_if_batch_is_full. destruct (_ <=? _); cbn -[app]; [eauto|exists []; rewrite app_nil_r; auto].
      - unfold append_entries_and_get_accepted_idx, cache_append_entries, take_entries_if_batch_is_full. destruct (_ <=? _); cbn -[app]; [eauto|exists []; rewrite app_nil_r; auto].
      - cbn -[app]. eauto.
      - unfold flush_batch_and_get_entries. destruct (c_batch (i_ca s)); cbn -[app]; [exists []; rewrite app_nil_r; auto|eauto].
      - unfold i_append_stopsign, cache_append_stopsign. cbn [c_batch c_set_ss]. destruct (c_batch (i_ca s)); cbn -[app]; [exists []; rewrite app_nil_r; auto|eauto]. }
    destruct X as [f0 X]. exists (f0 ++ fl). split; [rewrite K4, X, <- app_assoc; reflexivity|]. rewrite K5. rewrite X, app_length in H4. rewrite app_length. destruct (is_ss x); cbn [length]; lia.
Qed.

(** The entries that a leader sends on are the flushed ones: what it reports is a part of the
    batch followed by the new entries, and it is what was put into the log. *)
Theorem C32_reported_entries_are_the_flushed_ones :
  forall s x s' acc es, length (c_batch (i_ca s)) < c_bsize (i_ca s) -> do_op s x = (s', Some (acc, es)) ->
  ms_log (i_st s') = ms_log (i_st s) ++ es /\ es ++ c_batch (i_ca s') = c_batch (i_ca s) ++ op_entries x /\
  acc = i_acc s + length es.
Proof.
  intros s x s' acc es H Hd. destruct (op_one s x H) as (H1 & H2 & H3 & H4 & H5). rewrite Hd in *. cbn [fst snd] in *. destruct H5 as (H5 & H6 & H7). split; [auto|]. split; [auto|]. rewrite H5, app_length in H4. destruct (is_ss x); lia.
Qed.

(** In every state of a server the batch is shorter than the batch size. *)
Theorem C32_batch_is_never_full :
  forall o, server_state o -> length (c_batch (i_ca (s_is (o_sp o)))) < c_bsize (i_ca (s_is (o_sp o))).
Proof. intros o H. apply own_state in H. apply (il_bs _ _ _ (lc_is _ _ _ _ H)). Qed.

(** ** C16 *)

(** The number of a numbered message of ballot [n]. *)
Definition number (n : ballot) (m : pmsg) : option seqnum :=
  match m with
  | MAcceptDecide b q _ _ | MAcceptStopSign b q _ | MDecide b q _ => if beq b n then Some q else None
  | _ => None
  end.
Definition msg_entries (m : pmsg) : list T := match m with MAcceptDecide _ _ _ es => es | _ => [] end.
Definition msg_ss (m : pmsg) (old : option stopsign) : option stopsign := match m with MAcceptStopSign _ _ ss => Some ss | _ => old end.
Definition msg_dec (m : pmsg) : nat := match m with MAcceptDecide _ _ d _ | MDecide _ _ d => d | _ => 0 end.

Definition succ_of (c q : seqnum) : Prop := q = mkSeq (sq_sess c) (sq_ctr c + 1).
Definition not_newer (c q : seqnum) : Prop := sq_sess q < sq_sess c \/ sq_sess q = sq_sess c /\ sq_ctr q <= sq_ctr c.

(** The messages that a follower should apply, and whether it should notice a gap.  [c] is the
    number that it applied last. *)
Inductive applies (n : ballot) : seqnum -> list pmsg -> list pmsg -> seqnum -> bool -> Prop :=
| ap_nil c : applies n c [] [] c false
| ap_next c m l q a c' g : number n m = Some q -> succ_of c q -> applies n q l a c' g -> applies n c (m :: l) (m :: a) c' g
| ap_old c m l q a c' g : number n m = Some q -> not_newer c q -> applies n c l a c' g -> applies n c (m :: l) a c' g
| ap_gap c m l q : number n m = Some q -> ~ succ_of c q -> ~ not_newer c q -> applies n c (m :: l) [] c true.

(** The applied messages carry consecutive numbers, in order and without repetition. *)
Lemma applies_numbers n c l a c' g : applies n c l a c' g ->
  (forall i m, nth_error a i = Some m -> number n m = Some (mkSeq (sq_sess c) (sq_ctr c + 1 + i))) /\ c' = mkSeq (sq_sess c) (sq_ctr c + length a).
Proof.
  induction 1 as [c|c m l q a c' g H1 H2 _ [I1 I2]|c m l q a c' g H1 H2 _ I|c m l q H1 H2 H3].
  - split; [intros [|i] m H; discriminate|]. cbn. rewrite Nat.add_0_r. destruct c; reflexivity.
  - unfold succ_of in H2. subst q. cbn [sq_sess sq_ctr] in *. split.
    + intros [|i] x Hx; cbn in Hx; [injection Hx as <-; rewrite H1, Nat.add_0_r; reflexivity|]. rewrite (I1 _ _ Hx). do 2 f_equal. lia.
    + rewrite I2. f_equal. cbn [length]. lia.
  - exact I.
  - split; [intros [|i] m0 H; discriminate|]. cbn. rewrite Nat.add_0_r. destruct c; reflexivity.
Qed.

Lemma status_expected c q : check_msg_status c q = Expected <-> succ_of c q.
Proof.
  unfold check_msg_status, succ_of. destruct q as [a b], c as [s k]. cbn. destruct (Nat.eqb_spec a s), (Nat.eqb_spec b (k + 1)); subst; cbn; split; auto; try congruence; unfold seq_le; cbn;
   intros X; try (injection X; lia); destruct (_ || _); discriminate.
Qed.
Lemma seq_le_spec q c : seq_le q c = true <-> not_newer c q.
Proof. unfold seq_le, not_newer. rewrite orb_true_iff, andb_true_iff, Nat.ltb_lt, Nat.eqb_eq, Nat.leb_le. tauto. Qed.
Lemma status_outdated c q : check_msg_status c q = Outdated <-> not_newer c q.
Proof.
  rewrite <- seq_le_spec. unfold check_msg_status. destruct ((sq_sess q =? sq_sess c) && (sq_ctr q =? sq_ctr c + 1)) eqn:H.
  - split; [discriminate|]. intros X. apply seq_le_spec in X. unfold not_newer in X. apply andb_true_iff in H. destruct H as [H1 H2]. apply Nat.eqb_eq in H1, H2. lia.
  - destruct (seq_le q c); split; auto; discriminate.
Qed.

(** *** One message *)
Section Step.
Context (b0 : ballot) (A : T -> Prop) (q0 : list pmessage).
Let L := Loc b0 A q0.

Definition kept_but_is (s s' : sp) : Prop :=
  s_role s' = s_role s /\ s_phase s' = s_phase s /\ s_cseq s' = s_cseq s /\ s_pid s' = s_pid s.
Lemma reply_kept s n a : L s -> exists s', reply_accepted s n a = Ok s' /\ s_is s' = s_is s /\ kept_but_is s s'.
Proof.
  intros H. unfold reply_accepted. pose proof (latest_accepted_ok _ _ _ s n H) as X. destruct (get_latest_accepted s n) as [[k|]|]; [| |congruence]; cbn [lift bind].
  - eexists. split; [reflexivity|]. unfold mod_accdec, kept_but_is. destruct (nth_error _ _); cbn; auto.
  - eexists. split; [reflexivity|]. unfold kept_but_is. cbn. auto.
Qed.
Lemma aegai_all s es s' r : append_entries_and_get_accepted_idx s es = (s', r) -> all_of s' = all_of s ++ es /\ i_prom s' = i_prom s /\ i_dec s' = i_dec s /\ ms_ss (i_st s') = ms_ss (i_st s).
Proof.
  unfold append_entries_and_get_accepted_idx, cache_append_entries, take_entries_if_batch_is_full. unfold all_of. destruct (_ <=? _); cbn; intros X; injection X as <- <-; cbn; rewrite ?app_nil_r, ?app_assoc; auto.
Qed.
Lemma update_decided_all s d s' r : update_decided s d = (s', r) ->
  all_of (s_is s') = all_of (s_is s) /\ i_prom (s_is s') = i_prom (s_is s) /\ i_dec (s_is s') <= Nat.max (i_dec (s_is s)) d /\ ms_ss (i_st (s_is s')) = ms_ss (i_st (s_is s)) /\ kept_but_is s s'.
Proof.
  unfold update_decided, all_of, kept_but_is. destruct (Nat.leb_spec d (i_dec (s_is s))) as [H|H]; [intros X; injection X as <- <-; repeat split; auto; lia|].
  destruct (i_acc (s_is s) <? d); cbn; intros X; injection X as <- <-; cbn; rewrite ?app_nil_r; repeat split; auto; unfold i_dec in *; cbn; lia.
Qed.

Lemma step_msg s n m from to q : L s -> s_role s = Follower -> s_phase s = PhAccept -> i_prom (s_is s) = n -> b_pid n <> s_pid s -> Forall A (msg_entries m) -> number n m = Some q ->
  exists s', sp_handle s (mkPM from to m) = Ok s' /\ i_prom (s_is s') = n /\ s_pid s' = s_pid s /\
  match check_msg_status (s_cseq s) q with
  | Expected => s_role s' = Follower /\ s_phase s' = PhAccept /\ s_cseq s' = q /\ all_of (s_is s') = all_of (s_is s) ++ msg_entries m /\
      ms_ss (i_st (s_is s')) = msg_ss m (ms_ss (i_st (s_is s))) /\ i_dec (s_is s') <= Nat.max (i_dec (s_is s)) (msg_dec m)
  | Outdated => s' = s
  | DroppedPreceding => s_role s' = Follower /\ s_phase s' = PhRecover /\ s_cseq s' = s_cseq s /\ s_is s' = s_is s /\ s_out s' = s_out s ++ [mkPM (s_pid s) (b_pid n) (MPrepareReq n)]
  end.
Proof.
  intros H Hr Hp Hn Hpid HA Hq.
  assert (Hc : check_valid_ballot s n = (s, true)). { unfold check_valid_ballot. rewrite Hn. assert (X : bcmp n n = Eq) by (pose proof (bcmp_spec n n); destruct (bcmp n n); auto; unfold bal_lt in *; lia). rewrite X. reflexivity. }
  assert (Hrec : reconnected s (b_pid n) = push (set_state s Follower PhRecover) (b_pid n) (MPrepareReq n)).
  { unfold reconnected, sp_leader, sp_promise. destruct (Nat.eqb_spec (b_pid n) (s_pid s)); [contradiction|]. rewrite Hn, Nat.eqb_refl. cbn. unfold sp_promise. cbn. rewrite Hn. reflexivity. }
  assert (Hloc : L (set_cseq s q)) by (apply loc_cseq; exact H).
  assert (Hdrop : forall s1, s1 = reconnected s (b_pid n) -> i_prom (s_is s1) = n /\ s_pid s1 = s_pid s /\ s_role s1 = Follower /\ s_phase s1 = PhRecover /\ s_cseq s1 = s_cseq s /\ s_is s1 = s_is s /\ s_out s1 = s_out s ++ [mkPM (s_pid s) (b_pid n) (MPrepareReq n)]).
  { intros s1 ->. rewrite Hrec. cbn. auto 10. }
  destruct m as [| | | |b q' d es| | |b q' d| | |b q' ss|]; try discriminate Hq; cbn [number] in Hq; destruct (beq b n) eqn:Hb; try discriminate Hq; injection Hq as ->; apply beq_spec in Hb; subst b; unfold sp_handle; cbn [pm_msg pm_from].
  - unfold handle_acceptdecide. rewrite Hc, Hr, Hp. cbn [role_eqb phase_eqb andb]. unfold handle_sequence_num. destruct (check_msg_status (s_cseq s) q).
    + destruct (append_entries_and_get_accepted_idx (s_is (set_cseq s q)) es) as [is r1] eqn:Ha. pose proof (il_aegai _ _ _ es (lc_is _ _ _ _ Hloc) HA) as X. rewrite Ha in X. cbn [fst] in X. destruct (aegai_all _ _ _ _ Ha) as (A1 & A2 & A3 & A4).
      assert (H3 : L (set_is (set_cseq s q) is)) by (apply loc_is; auto). pose proof (update_decided_ok _ _ _ _ d H3) as H4. destruct (update_decided (set_is (set_cseq s q) is) d) as [s4 r2] eqn:Hu. cbn [fst] in H4. destruct (update_decided_all _ _ _ _ Hu) as (U1 & U2 & U3 & U4 & U5 & U6 & U7 & U8). cbn in U1, U2, U3, U4, U5, U6, U7, U8.
      assert (F : forall s', s_is s' = s_is s4 -> kept_but_is s4 s' -> i_prom (s_is s') = n /\ s_pid s' = s_pid s /\ s_role s' = Follower /\ s_phase s' = PhAccept /\ s_cseq s' = q /\ all_of (s_is s') = all_of (s_is s) ++ es /\ ms_ss (i_st (s_is s')) = ms_ss (i_st (s_is s)) /\ i_dec (s_is s') <= Nat.max (i_dec (s_is s)) d).
      { intros s' E1 (E2 & E3 & E4 & E5). rewrite E1, E2, E3, E4, E5, U1, U4, U5, U6, U7, U8, A4. cbn in A1, A2, A3. rewrite A3 in U3. repeat split; auto; congruence. }
      destruct (match r2 with Some _ => r2 | None => r1 end) as [k|].
      * destruct (reply_kept s4 n k H4) as (s5 & R1 & R2 & R3). exists s5. split; [exact R1|]. cbn [msg_entries msg_ss msg_dec]. apply F; auto.
      * exists s4. split; [reflexivity|]. cbn [msg_entries msg_ss msg_dec]. apply F; auto. unfold kept_but_is. auto.
    + eexists. split; [reflexivity|]. apply Hdrop. reflexivity.
    + exists s. auto.
  - unfold handle_decide. rewrite Hc, Hp. cbn [phase_eqb andb]. unfold handle_sequence_num. destruct (check_msg_status (s_cseq s) q).
    + pose proof (update_decided_ok _ _ _ _ d Hloc) as H4. destruct (update_decided (set_cseq s q) d) as [s4 r2] eqn:Hu. cbn [fst] in H4. destruct (update_decided_all _ _ _ _ Hu) as (U1 & U2 & U3 & U4 & U5 & U6 & U7 & U8). cbn in U1, U2, U3, U4, U5, U6, U7, U8.
      assert (F : forall s', s_is s' = s_is s4 -> kept_but_is s4 s' -> i_prom (s_is s') = n /\ s_pid s' = s_pid s /\ s_role s' = Follower /\ s_phase s' = PhAccept /\ s_cseq s' = q /\ all_of (s_is s') = all_of (s_is s) ++ [] /\ ms_ss (i_st (s_is s')) = ms_ss (i_st (s_is s)) /\ i_dec (s_is s') <= Nat.max (i_dec (s_is s)) d).
      { intros s' E1 (E2 & E3 & E4 & E5). rewrite E1, E2, E3, E4, E5, U1, U4, U5, U6, U7, U8, app_nil_r. repeat split; auto; congruence. }
      destruct r2 as [k|].
      * destruct (reply_kept s4 n k H4) as (s5 & R1 & R2 & R3). exists s5. split; [exact R1|]. cbn [msg_entries msg_ss msg_dec]. apply F; auto.
      * exists s4. split; [reflexivity|]. cbn [msg_entries msg_ss msg_dec]. apply F; auto. unfold kept_but_is. auto.
    + eexists. split; [reflexivity|]. apply Hdrop. reflexivity.
    + exists s. auto.
  - unfold handle_accept_stopsign. rewrite Hc, Hr, Hp. cbn [role_eqb phase_eqb andb]. unfold handle_sequence_num. destruct (check_msg_status (s_cseq s) q).
    + set (s3 := set_is (set_cseq s q) (fst (flush_batch (s_is (set_cseq s q))))). assert (H3 : L s3) by (apply loc_is; auto; apply il_flush, (lc_is _ _ _ _ Hloc)).
      pose proof (il_setss _ _ _ (Some ss) (lc_is _ _ _ _ H3)) as X. unfold i_set_stopsign in *.
      assert (Y : forall c, L (set_is s3 (put_st (set_ca (s_is s3) (c_set_ss c (Some ss))) (ms_set_stopsign (i_st (set_ca (s_is s3) (c_set_ss c (Some ss)))) (Some ss)))) -> c_batch c = [] -> c_prom c = n -> c_dec c = i_dec (s_is s) ->
        exists s', reply_accepted (set_is s3 (put_st (set_ca (s_is s3) (c_set_ss c (Some ss))) (ms_set_stopsign (i_st (set_ca (s_is s3) (c_set_ss c (Some ss)))) (Some ss)))) n
             (i_acc (put_st (set_ca (s_is s3) (c_set_ss c (Some ss))) (ms_set_stopsign (i_st (set_ca (s_is s3) (c_set_ss c (Some ss)))) (Some ss)))) = Ok s' /\ i_prom (s_is s') = n /\ s_pid s' = s_pid s /\ s_role s' = Follower /\ s_phase s' = PhAccept /\ s_cseq s' = q /\ all_of (s_is s') = all_of (s_is s) ++ [] /\ ms_ss (i_st (s_is s')) = Some ss /\ i_dec (s_is s') <= Nat.max (i_dec (s_is s)) 0).
      { intros c Lc C1 C2 C3. match goal with |- exists s', reply_accepted _ _ ?a = _ /\ _ => destruct (reply_kept _ n a Lc) as (s5 & R1 & R2 & R3 & R4 & R5 & R6) end. exists s5. split; [exact R1|]. rewrite R2, R3, R4, R5, R6. unfold i_prom, i_dec, all_of in *. cbn. rewrite C1, C2, C3. cbn. rewrite !app_nil_r. repeat split; auto. lia. }
      cbn [msg_entries msg_ss msg_dec]. destruct (c_ss (i_ca (s_is s3))); cbn [bind] in X |- *; apply Y; try reflexivity; try exact Hn; apply loc_is; auto.
    + eexists. split; [reflexivity|]. apply Hdrop. reflexivity.
    + exists s. auto.
Qed.
(** In the recover phase numbered messages are not applied at all. *)
Lemma step_recover s n m from to q : s_phase s = PhRecover -> i_prom (s_is s) = n -> number n m = Some q -> sp_handle s (mkPM from to m) = Ok s.
Proof.
  intros Hp Hn Hq.
  assert (Hc : check_valid_ballot s n = (s, true)). { unfold check_valid_ballot. rewrite Hn. assert (X : bcmp n n = Eq) by (pose proof (bcmp_spec n n); destruct (bcmp n n); auto; unfold bal_lt in *; lia). rewrite X. reflexivity. }
  destruct m as [| | | |b q' d es| | |b q' d| | |b q' ss|]; try discriminate Hq; cbn [number] in Hq; destruct (beq b n) eqn:Hb; try discriminate Hq; apply beq_spec in Hb; subst b; unfold sp_handle; cbn [pm_msg pm_from].
  - unfold handle_acceptdecide. rewrite Hc, Hp. destruct (s_role s); reflexivity.
  - unfold handle_decide. rewrite Hc, Hp. reflexivity.
  - unfold handle_accept_stopsign. rewrite Hc, Hp. destruct (s_role s); reflexivity.
Qed.
End Step.

(** Delivery of a list of messages. *)
Fixpoint handle_all (o : omni) (l : list pmessage) : res omni :=
  match l with
  | [] => Ok o
  | m :: r => '(o, _) <- exec o (CHandle (MsgSP m)) ;; handle_all o r
  end.

Theorem C16_follower_applies_consecutive_messages :
  forall o l, server_state o -> role_of o = (Follower, PhAccept) -> b_pid (get_promise o) <> own_pid o ->
  Forall (fun m => number (get_promise o) (pm_msg m) <> None) l ->
  exists o' app c gap,
    handle_all o l = Ok o' /\ applies (get_promise o) (s_cseq (o_sp o)) (map pm_msg l) app c gap /\
    held o' = held o ++ flat_map msg_entries app /\
    ms_ss (storage o') = fold_left (fun x m => msg_ss m x) app (ms_ss (storage o)) /\
    get_decided_idx o' <= fold_left (fun x m => Nat.max x (msg_dec m)) app (get_decided_idx o) /\
    s_cseq (o_sp o') = c /\ get_promise o' = get_promise o /\
    role_of o' = (if gap then (Follower, PhRecover) else (Follower, PhAccept)) /\
    (gap = true -> In (mkPM (own_pid o) (b_pid (get_promise o)) (MPrepareReq (get_promise o))) (outgoing o')).
Proof.
  intros o l. revert o. induction l as [|[from to m] l IH]; intros o Hs Hr Hp Hl.
  - exists o, [], (s_cseq (o_sp o)), false. cbn. rewrite app_nil_r. split; [reflexivity|]. split; [constructor|]. repeat split; auto. discriminate.
  - inversion Hl as [|? ? H1 H2]; subst. cbn [pm_msg] in H1. destruct (number (get_promise o) m) as [q|] eqn:Hq; [|congruence]. clear H1.
    injection Hr as Hr1 Hr2. pose proof (state_loc _ Hs) as Hloc.
    assert (Hall : forall l, Forall (@any E) l) by (intros; apply any_all).
    destruct (step_msg _ _ _ (rest o) (get_promise o) m from to q Hloc Hr1 Hr2 eq_refl Hp (Hall _) Hq) as (s' & Hh & Hn & Hpid & Hst).
    cbn [handle_all map pm_msg]. assert (He : exec o (CHandle (MsgSP (mkPM from to m))) = Ok (set_sp (start_call o) s', RUnit)). { unfold exec. cbn [exec_call handle_incoming]. fold (rest o). rewrite Hh. reflexivity. }
    rewrite He. cbn [bind]. set (o1 := set_sp (start_call o) s') in *. assert (Hs1 : server_state o1). { destruct Hs as (cc & sc & o0 & B & Lv). exists cc, sc, o0. split; [auto|]. eapply lv_step; eauto. eapply sv_call; eauto. }
    assert (Hpr : get_promise o1 = get_promise o) by exact Hn. assert (Hpid1 : own_pid o1 = own_pid o) by exact Hpid.
    change (s_cseq (rest o)) with (s_cseq (o_sp o)) in Hst. destruct (check_msg_status (s_cseq (o_sp o)) q) eqn:Hck.
    + apply status_expected in Hck. destruct Hst as (S1 & S2 & S3 & S4 & S5 & S6).
      assert (Hr1' : role_of o1 = (Follower, PhAccept)) by (unfold role_of, o1; cbn; congruence).
      destruct (IH o1 Hs1 Hr1' ltac:(congruence)) as (o' & app & c & gap & K1 & K2 & K3 & K4 & K5 & K6 & K7 & K8 & K9). { rewrite Hpr. exact H2. }
      rewrite Hpr in *. rewrite Hpid1 in *. exists o', (m :: app), c, gap. split; [exact K1|]. split; [eapply ap_next; eauto; unfold o1 in K2; cbn in K2; rewrite S3 in K2; exact K2|].
      split; [rewrite K3; cbn [flat_map]; rewrite app_assoc; f_equal; exact S4|]. split; [rewrite K4; cbn [fold_left]; f_equal; exact S5|].
      split; [|auto]. cbn [fold_left]. eapply Nat.le_trans; [exact K5|]. assert (Mono : forall a x y, x <= y -> fold_left (fun x m => Nat.max x (msg_dec m)) a x <= fold_left (fun x m => Nat.max x (msg_dec m)) a y). { clear. induction a as [|z a IH]; cbn; intros x y H; auto. apply IH. lia. } apply Mono. exact S6.
    + destruct Hst as (S1 & S2 & S3 & S4 & S5).
      assert (Hrest : forall l' o2, get_promise o2 = get_promise o -> s_phase (o_sp o2) = PhRecover -> Forall (fun m => number (get_promise o) (pm_msg m) <> None) l' ->
         exists o3, handle_all o2 l' = Ok o3 /\ o_sp (start_call o3) = o_sp (start_call o2)).
      { clear - E. induction l' as [|[f t x] l' IH]; intros o2 P1 P2 F; [exists o2; auto|]. inversion F as [|? ? F1 F2]; subst. cbn [pm_msg] in F1. destruct (number (get_promise o) x) as [k|] eqn:Hk; [|congruence].
        cbn [handle_all]. unfold exec. cbn [exec_call handle_incoming]. rewrite (step_recover _ (get_promise o) _ f t k); auto. cbn [bind]. destruct (IH (set_sp (start_call o2) (o_sp (start_call o2)))) as (o3 & I1 & I2); auto. exists o3. split; [exact I1|]. rewrite I2. reflexivity. }
      destruct (Hrest l o1) as (o3 & R1 & R2); auto.
      change (rest o3 = rest o1) in R2.
      exists o3, [], (s_cseq (o_sp o)), true. split; [exact R1|]. split. { eapply ap_gap; eauto; intros X; [apply status_expected in X|apply status_outdated in X]; congruence. }
      cbn [flat_map fold_left]. rewrite app_nil_r.
      split; [change (all_of (s_is (rest o3)) = all_of (s_is (rest o))); rewrite R2; unfold rest at 1, o1; cbn; rewrite S4; reflexivity|].
      split; [change (ms_ss (i_st (s_is (rest o3))) = ms_ss (i_st (s_is (rest o)))); rewrite R2; unfold rest at 1, o1; cbn; rewrite S4; reflexivity|].
      split; [change (i_dec (s_is (rest o3)) <= i_dec (s_is (rest o))); rewrite R2; unfold rest at 1, o1; unfold i_dec; cbn; rewrite S4; apply Nat.le_refl|].
      split; [change (s_cseq (rest o3) = s_cseq (o_sp o)); rewrite R2; exact S3|].
      split; [change (i_prom (s_is (rest o3)) = i_prom (s_is (rest o))); rewrite R2; unfold rest at 1, o1; unfold i_prom; cbn; rewrite S4; reflexivity|].
      split; [change ((s_role (rest o3), s_phase (rest o3)) = (Follower, PhRecover)); rewrite R2; unfold rest, o1; cbn; congruence|].
      intros _. change (In (mkPM (own_pid o) (b_pid (get_promise o)) (MPrepareReq (get_promise o))) (s_out (rest o3))). rewrite R2. unfold rest, o1. cbn. rewrite S5. apply in_or_app. right. left. reflexivity.
    + apply status_outdated in Hck. subst s'. destruct (IH o1 Hs1) as (o' & app & c & gap & K1 & K2 & K3 & K4 & K5 & K6 & K7 & K8 & K9); [unfold role_of, o1; cbn; congruence|congruence|rewrite Hpr; exact H2|].
      rewrite Hpr in *. rewrite Hpid1 in *. exists o', app, c, gap. split; [exact K1|]. split; [eapply ap_old; eauto|]. split; [exact K3|]. split; [exact K4|]. split; [exact K5|]. auto.
Qed.

(** The number of the AcceptSync starts the sequence. *)
Theorem C16_acceptsync_starts_session :
  forall o from to sq dec sy o' r, role_of o = (Follower, PhPrepare) ->
  exec o (CHandle (MsgSP (mkPM from to (MAcceptSync (get_promise o) sq dec sy)))) = Ok (o', r) ->
  role_of o' = (Follower, PhAccept) /\ s_cseq (o_sp o') = sq.
Proof.
  intros o from to sq dec sy o' r Hr He. injection Hr as Hr1 Hr2. unfold exec in He. cbn [exec_call handle_incoming] in He. fold (rest o) in He. unfold sp_handle in He. cbn [pm_msg pm_from] in He. unfold handle_acceptsync in He.
  assert (Hc : check_valid_ballot (rest o) (get_promise o) = (rest o, true)). { unfold check_valid_ballot. change (i_prom (s_is (rest o))) with (get_promise o). assert (X : bcmp (get_promise o) (get_promise o) = Eq) by (pose proof (bcmp_spec (get_promise o) (get_promise o)); destruct (bcmp _ _); auto; unfold bal_lt in *; lia). rewrite X. reflexivity. }
  rewrite Hc in He. change (s_role (rest o)) with (s_role (o_sp o)) in He. change (s_phase (rest o)) with (s_phase (o_sp o)) in He. rewrite Hr1, Hr2 in He. cbn [role_eqb phase_eqb andb] in He.
  destruct (sync_log _ _ _ _) as [[is acc]|]; [|discriminate]. cbn [bind] in He. injection He as <- _. split; reflexivity.
Qed.
End WithEntry.

Print Assumptions C32_batching_keeps_all_entries.
Print Assumptions C32_reported_entries_are_the_flushed_ones.
Print Assumptions C32_batch_is_never_full.
Print Assumptions C16_follower_applies_consecutive_messages.
Print Assumptions C16_acceptsync_starts_session.

(** ** Concrete cases *)
Section Case.
Local Existing Instance plain.

(** Batch size 3; two entries wait in the batch. *)
Definition batch3 : istore := mkIS ms_default (mkCache 3 [7; 8 : @T plain] bdef bdef 0 0 0 None) [].
Example C32_case :
  length (c_batch (i_ca batch3)) < c_bsize (i_ca batch3) /\
  let s := do_ops batch3 [BEntry (9 : @T plain); BEntries [1; 2]; BFlushGet; BAccept [3]] in
  (ms_log (i_st s), c_batch (i_ca s), i_acc s) = ([7; 8; 9; 1; 2], [3], 5).
Proof. vm_compute. split; [lia|reflexivity]. Qed.

(** Server 3 follows server 2 in ballot 2 and has applied number 4 of session 1.  It gets the
    numbers 4, 5, 5, 6 and 8, 7: it applies 5 and 6 and notices the gap before 8. *)
Definition ad (q v : nat) : pmessage := mkPM 2 3 (MAcceptDecide (mkB 1 2 0 2) (mkSeq 1 q) 0 [v : @T plain]).
Example C16_case :
  obs sys_case2 3 (fun o => (role_of o, get_promise o, own_pid o, s_cseq (o_sp o), held o)) = Some ((Follower, PhAccept), mkB 1 2 0 2, 3, mkSeq 1 4, [11; 12; 13; 14]) /\
  obs sys_case2 3 (fun o => match handle_all o [ad 4 20; ad 5 21; ad 5 22; ad 6 23; ad 8 24; ad 7 25] with
      | Ok o' => Some (role_of o', s_cseq (o_sp o'), held o') | Panic _ => None end) =
    Some (Some ((Follower, PhRecover), mkSeq 1 6, [11; 12; 13; 14; 21; 23])).
Proof. vm_compute. auto. Qed.
End Case.
