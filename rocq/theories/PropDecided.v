(** * The decided index

    The part of C06 that holds: only a synchronisation by a leader can lower the decided index. *)
From Coq Require Import List Arith Bool Lia.
Import ListNotations.
From Verif Require Import Types Config MemStore Internal LeaderState SeqPaxos Ble Omni System Spec Basics Scen Refute
  Ghost GhostOps Inv SysInv Agree PropRefuted PropAgreement Reads Local PropLocal Frame PropRead Prims.

Section WithEntry.
Context {E : EntryT}.

(** ** The promise that a candidate gave itself *)
Section Own.
Context (p : node_id).

(** While the server [p] is preparing, the promise it gave itself holds its decided index. *)
Record OP (s : sp) : Prop := {
  op_pid : s_pid s = p;
  op_own : s_role s = Leader -> s_phase s = PhPrepare ->
    exists m, vget (l_proms (s_ls s)) p = Some (Promised m) /\ pmt_dec m = i_dec (s_is s)
}.

Definition dok (r : res sp) : Prop := match r with Ok s => OP s | Panic _ => True end.
Definition dok2 {B} (r : res (sp * B)) : Prop := match r with Ok (s, _) => OP s | Panic _ => True end.
Lemma lift_d {B} s (o : option B) (f : B -> res sp) : (forall b, o = Some b -> dok (f b)) -> dok (bind (lift s o) f).
Proof. intros Hf. destruct o; cbn; auto. Qed.
Lemma bind_d (r : res sp) f : dok r -> (forall s, OP s -> dok (f s)) -> dok (bind r f).
Proof. destruct r; cbn; auto. Qed.
Lemma for_each_d f : (forall s q, OP s -> dok (f s q)) -> forall l s, OP s -> dok (for_each s l f).
Proof. intros Hf. induction l as [|q l IH]; cbn; intros s H; auto. apply bind_d; auto. Qed.

Lemma op_is s x : OP s -> i_dec x = i_dec (s_is s) -> OP (set_is s x).
Proof. intros [H1 H2] He. constructor; auto. cbn. rewrite He. auto. Qed.
Lemma op_is' s x : OP s -> s_phase s <> PhPrepare -> OP (set_is s x).
Proof. intros [H1 H2] He. constructor; auto. cbn. intros _ X. congruence. Qed.
Lemma op_follower s ph : OP s -> OP (set_state s Follower ph).
Proof. intros [H1 H2]. constructor; auto. discriminate. Qed.
Lemma op_accept s r : OP s -> OP (set_state s r PhAccept).
Proof. intros [H1 H2]. constructor; auto. discriminate. Qed.
Lemma op_bp s x : OP s -> OP (set_bprops s x).
Proof. intros []. constructor; auto. Qed.
Lemma op_bss s x : OP s -> OP (set_bss s x).
Proof. intros []. constructor; auto. Qed.
Lemma op_cseq s x : OP s -> OP (set_cseq s x).
Proof. intros []. constructor; auto. Qed.
Lemma op_cprom s x : OP s -> OP (set_cprom s x).
Proof. intros []. constructor; auto. Qed.
Lemma op_lam s x : OP s -> OP (set_lam s x).
Proof. intros []. constructor; auto. Qed.
Lemma op_out s x : OP s -> OP (set_out s x).
Proof. intros []. constructor; auto. Qed.
Lemma op_ls s x : OP s -> vget (l_proms x) p = vget (l_proms (s_ls s)) p -> OP (set_ls s x).
Proof. intros [H1 H2] He. constructor; auto. cbn. rewrite He. auto. Qed.
Lemma op_push s to m : OP s -> OP (push s to m).
Proof. apply op_out. Qed.
Lemma op_push_all m : forall l s, OP s -> OP (push_all s l m).
Proof. unfold push_all. induction l as [|q l IH]; cbn; intros s H; auto. apply IH, op_push; auto. Qed.
Lemma op_mod s idx f : OP s -> OP (mod_accdec s idx f).
Proof. intros H. unfold mod_accdec. destruct (nth_error _ _); auto. apply op_out; auto. Qed.
Hint Resolve op_follower op_accept op_bp op_bss op_cseq op_cprom op_lam op_out op_push op_push_all op_mod : dp.

Lemma pr_setacc l q i l' : set_accepted_idx l q i = Some l' -> l_proms l' = l_proms l.
Proof. unfold set_accepted_idx. destruct (vset _ _ _); [|discriminate]. intros X. injection X as <-. reflexivity. Qed.
Lemma pr_setmeta l q i l' : set_latest_accept_meta l q i = Some l' -> l_proms l' = l_proms l.
Proof. unfold set_latest_accept_meta. destruct (vset _ _ _); [|discriminate]. intros X. injection X as <-. reflexivity. Qed.
Lemma pr_next l q l' sq : next_seq_num l q = Some (l', sq) -> l_proms l' = l_proms l.
Proof. unfold next_seq_num. destruct (vget _ _); [|discriminate]. destruct (vset _ _ _); [|discriminate]. intros X. injection X as <- _. reflexivity. Qed.
Lemma pr_incr l q l' : increment_seq_num_session l q = Some l' -> l_proms l' = l_proms l.
Proof. unfold increment_seq_num_session. destruct (vget _ _); [|discriminate]. destruct (vset _ _ _); [|discriminate]. intros X. injection X as <-. reflexivity. Qed.
Lemma vset_other {B} (l l' : list B) q x : vset l q x = Some l' -> q <> p -> vget l' p = vget l p.
Proof.
  intros H Hq. destruct (vset_inv _ _ _ _ H) as (i & -> & Hi & ->). unfold vget, pid_to_idx, sub_chk. destruct (Nat.leb_spec 1 p); auto.
  rewrite upd_nth by auto. destruct (Nat.eqb_spec (p - 1) i); auto. lia.
Qed.
Lemma vset_same {B} (l l' : list B) x : vset l p x = Some l' -> vget l' p = Some x.
Proof.
  intros H. destruct (vset_inv _ _ _ _ H) as (i & Hp & Hi & ->). unfold vget, pid_to_idx, sub_chk. destruct (Nat.leb_spec 1 p); [|lia].
  rewrite upd_nth by auto. destruct (Nat.eqb_spec (p - 1) i); auto. lia.
Qed.
Lemma pr_reset l q x l' : option_map (l_set_proms l) (vset (l_proms l) q x) = Some l' -> q <> p -> vget (l_proms l') p = vget (l_proms l) p.
Proof. destruct (vset _ _ _) eqn:Hv; [|discriminate]. intros X Hq. injection X as <-. cbn. eapply vset_other; eauto. Qed.
Lemma setp_proms l pr from c l' m : ls_set_promise l pr from c = Some (l', m) ->
  vset (l_proms l) from (Promised (mkMeta (pr_na pr) (pr_acc pr) (pr_dec pr) from)) = Some (l_proms l').
Proof.
  unfold ls_set_promise. assert (E1 : forall b : bool, l_proms (if b then l_set_max l (mkMeta (pr_na pr) (pr_acc pr) (pr_dec pr) from) (pr_sync pr) else l) = l_proms l) by (intros []; reflexivity).
  rewrite E1. destruct (vset _ _ _); [|discriminate]. intros X. injection X as <- _. reflexivity.
Qed.

Lemma op_setacc s q i l' : OP s -> set_accepted_idx (s_ls s) q i = Some l' -> OP (set_ls s l').
Proof. intros H Hl. apply op_ls; auto. rewrite (pr_setacc _ _ _ _ Hl). reflexivity. Qed.
Lemma send_ad_to_d dec es s q : OP s -> dok (send_acceptdecide_to dec es s q).
Proof.
  intros H. unfold send_acceptdecide_to. apply lift_d. intros [idx|] _; [cbn; auto with dp|]. apply lift_d. intros l1 H1. apply lift_d. intros [l2 sq] H2. cbn.
  apply op_push, op_ls; auto. rewrite (pr_next _ _ _ _ H2), (pr_setmeta _ _ _ _ H1). reflexivity.
Qed.
Lemma send_ad_d s es : OP s -> dok (send_acceptdecide s es).
Proof. intros H. unfold send_acceptdecide. apply lift_d. intros l _. apply for_each_d; auto. intros. apply send_ad_to_d; auto. Qed.
Lemma meta_d s (is : istore) r : OP s -> i_dec is = i_dec (s_is s) ->
  dok (match r with Some (acc, es) => ls <- lift (set_is s is) (set_accepted_idx (s_ls s) (s_pid s) acc) ;; send_acceptdecide (set_ls (set_is s is) ls) es
       | None => Ok (set_is s is) end).
Proof.
  intros H Hd. destruct r as [[acc es]|]; [|cbn; apply op_is; auto]. apply lift_d. intros ls Hl. apply send_ad_d. apply (op_setacc (set_is s is) _ _ _ (op_is s is H Hd) Hl).
Qed.
Lemma dec_fifb s r : i_dec (fst (flush_if_full_batch s r)) = i_dec s.
Proof. destruct r; reflexivity. Qed.
Lemma dec_tiff s b : i_dec (fst (let '(c, r) := take_entries_if_batch_is_full (c_set_batch (i_ca s) b) in flush_if_full_batch (set_ca s c) r)) = i_dec s.
Proof. unfold take_entries_if_batch_is_full. destruct (_ <=? _); reflexivity. Qed.
Lemma dec_aewb s e : i_dec (fst (append_entry_with_batching s e)) = i_dec s.
Proof. apply dec_tiff. Qed.
Lemma dec_aeswb s es : i_dec (fst (append_entries_with_batching s es)) = i_dec s.
Proof. apply dec_tiff. Qed.
Lemma dec_fbge s : i_dec (fst (flush_batch_and_get_entries s)) = i_dec s.
Proof. unfold flush_batch_and_get_entries. destruct (c_batch (i_ca s)); reflexivity. Qed.
Lemma dec_astop s ss : i_dec (fst (i_append_stopsign s ss)) = i_dec s.
Proof. unfold i_append_stopsign, cache_append_stopsign. cbn -[app length]. destruct (c_batch (i_ca s)); reflexivity. Qed.
Lemma dec_aegai s es : i_dec (fst (append_entries_and_get_accepted_idx s es)) = i_dec s.
Proof. unfold append_entries_and_get_accepted_idx, cache_append_entries, take_entries_if_batch_is_full. destruct (_ <=? _); reflexivity. Qed.
Lemma dec_setss s ss s' a : i_set_stopsign s (Some ss) = Ok (s', a) -> i_dec s' = i_dec s.
Proof. unfold i_set_stopsign. destruct (c_ss (i_ca s)); cbn; intros X; injection X as <- _; reflexivity. Qed.
Lemma dec_trim s i s' r : try_trim s i = Ok (s', r) -> i_dec s' = i_dec s.
Proof.
  unfold try_trim, ilift, ipanic. destruct (dec_without_ss s) as [ld|]; [|discriminate].
  destruct (Nat.compare i (i_dec s)); [| |intros X; injection X as <- _; auto]; (destruct (i_comp s <? _); [|intros X; injection X as <- _; auto]);
  (destruct (ms_write _ _); cbn; [|discriminate]; intros X; injection X as <- _; auto).
Qed.
Lemma dec_snap s i s' r : try_snapshot s i = Ok (s', r) -> i_dec s' = i_dec s.
Proof.
  unfold try_snapshot, ilift, ipanic. destruct (dec_without_ss s) as [ld|]; [|discriminate].
  assert (Main : forall new, (if i_comp s <? new then
          match create_snapshot s new with
          | CPanic => Panic (i_tr s)
          | CErr e => Ok (s, Some e)
          | COk sn =>
              m <- (match ms_write (i_st s) [OpTrim new; OpSetComp new; OpSetSnapshot (Some sn)] with Some a => Ok a | None => Panic (i_tr s) end) ;;
              let s := put_st s m in Ok (set_ca s (c_set_comp (i_ca s) new), None)
          end else Ok (s, None)) = Ok (s', r) -> i_dec s' = i_dec s).
  { intros new. destruct (i_comp s <? new); [|intros X; injection X as <- _; auto]. destruct (create_snapshot s new); [|intros X; injection X as <- _; auto|discriminate].
    destruct (ms_write _ _); cbn; [|discriminate]. intros X; injection X as <- _; auto. }
  cbn zeta. destruct i as [i|]; [|apply Main]. destruct (Nat.compare i (i_dec s)); [apply Main|apply Main|intros X; injection X as <- _; auto].
Qed.

Lemma accept_entry_d s e : OP s -> dok (accept_entry_leader s e).
Proof. intros H. unfold accept_entry_leader. pose proof (dec_aewb (s_is s) e) as X. destruct (append_entry_with_batching _ _) as [is r]. apply (meta_d s is r); auto. Qed.
Lemma accept_entries_d s es : OP s -> dok (accept_entries_leader s es).
Proof. intros H. unfold accept_entries_leader. pose proof (dec_aeswb (s_is s) es) as X. destruct (append_entries_with_batching _ _) as [is r]. apply (meta_d s is r); auto. Qed.
Lemma flush_leader_d s : OP s -> dok (flush_batch_leader s).
Proof. intros H. unfold flush_batch_leader. pose proof (dec_fbge (s_is s)) as X. destruct (flush_batch_and_get_entries _) as [is r]. apply (meta_d s is r); auto. Qed.
Lemma resend_d s (b : bool) to : forall l q, (if b then option_map (fun q => (s_ls s, q)) (get_seq_num (s_ls s) to) else next_seq_num (s_ls s) to) = Some (l, q) -> l_proms l = l_proms (s_ls s).
Proof. intros l q. destruct b; [|apply pr_next]. destruct (get_seq_num _ _); cbn; [|discriminate]. intros X. injection X as <- <-. reflexivity. Qed.
Lemma send_ss_d ss b s to : OP s -> dok (send_accept_stopsign ss b s to).
Proof. intros H. unfold send_accept_stopsign. apply lift_d. intros [l q] Hl. apply resend_d in Hl. cbn. apply op_push, op_ls; auto. congruence. Qed.
Lemma send_decide_d d b s to : OP s -> dok (send_decide d b s to).
Proof. intros H. unfold send_decide. apply lift_d. intros [l q] Hl. apply resend_d in Hl. cbn. apply op_push, op_ls; auto. congruence. Qed.
Lemma accept_ss_d s ss : OP s -> dok (accept_stopsign_leader s ss).
Proof.
  intros H. unfold accept_stopsign_leader. pose proof (dec_astop (s_is s) ss) as X. destruct (i_append_stopsign _ _) as [is r]. cbn [fst] in X. apply bind_d.
  - destruct r as [[acc es]|]; [apply send_ad_d|cbn]; apply op_is; auto.
  - intros s1 H2. apply lift_d. intros ls Hl. apply lift_d. intros l _. apply for_each_d; [|eapply op_setacc; eauto]. intros. apply send_ss_d; auto.
Qed.
Lemma forward_props_d s es : OP s -> OP (forward_proposals s es).
Proof. intros H. unfold forward_proposals. destruct (_ && _); auto with dp. Qed.
Lemma forward_ss_d s ss : OP s -> OP (forward_stopsign s ss).
Proof. intros H. unfold forward_stopsign. destruct (_ && _); auto with dp. destruct (s_bss s); auto with dp. Qed.
Lemma handle_leader_d s n : OP s -> dok (handle_leader s n).
Proof.
  intros H. unfold handle_leader. destruct (_ || _); [exact H|]. destruct (Nat.eqb_spec (s_pid s) (b_pid n)) as [He|]; [|cbn; auto with dp]. cbn zeta.
  apply lift_d. intros [ls m] Hl. cbn [dok]. apply op_push_all. destruct H as [H1 H2]. apply setp_proms in Hl.
  constructor; [exact H1|]. cbn [s_role s_phase s_ls s_is set_state set_ls set_is]. intros _ _. cbn [s_pid set_is set_ls] in Hl. rewrite H1 in Hl. apply vset_same in Hl. eexists. split; [exact Hl|]. reflexivity.
Qed.
Lemma handle_preparereq_d s n from : OP s -> from <> p -> dok (handle_preparereq s n from).
Proof.
  intros H Hf. unfold handle_preparereq. destruct (_ && _); [|exact H]. apply lift_d. intros l1 H1. apply lift_d. intros l2 H2. cbn. apply op_push, op_ls; auto.
  rewrite (pr_setmeta _ _ _ _ H2). eapply pr_reset; eauto.
Qed.
Lemma fwd_prop_d s es : OP s -> dok (handle_forwarded_proposal s es).
Proof.
  intros H. unfold handle_forwarded_proposal. destruct (accepted_reconfiguration s); [exact H|].
  destruct (s_role s), (s_phase s); cbn [dok]; try (apply forward_props_d; auto); auto with dp. apply accept_entries_d; auto.
Qed.
Lemma fwd_ss_d s ss : OP s -> dok (handle_forwarded_stopsign s ss).
Proof.
  intros H. unfold handle_forwarded_stopsign. destruct (accepted_reconfiguration s); [exact H|].
  destruct (s_role s), (s_phase s); cbn [dok]; try (apply forward_ss_d; auto); auto with dp. apply accept_ss_d; auto.
Qed.
Lemma send_accsync_d s to : OP s -> dok (send_accsync s to).
Proof.
  intros H. unfold send_accsync. apply lift_d. intros m _. apply lift_d. intros fd _. apply lift_d. intros sy Hsy.
  apply lift_d. intros l1 H1. apply lift_d. intros [l2 sq] H2. cbn. apply op_push, op_ls; auto. rewrite (pr_next _ _ _ _ H2), (pr_incr _ _ _ H1). reflexivity.
Qed.
Lemma majority_d s : OP s -> dok (handle_majority_promises s).
Proof.
  intros H. unfold handle_majority_promises, take_max_promise_sync. cbn zeta.
  set (s1 := set_ls s (l_set_max (s_ls s) (l_maxmeta (s_ls s)) None)). assert (H1 : s_pid s1 = p) by (exact (op_pid _ H)).
  destruct (sync_log _ _ _ _) as [[is acc]|tr]; [|exact I]. cbn [bind].
  match goal with |- dok (let '(_, _) := ?e in _) => assert (Hx : s_pid (fst e) = p); [|destruct e as [s3 acc3]; cbn [fst] in Hx] end.
  { destruct (accepted_reconfiguration (set_is s1 is)); [exact H1|].
    match goal with |- s_pid (fst (let '(_, _) := ?e in _)) = _ => assert (Hx : s_pid (fst e) = p); [|destruct e as [s3 acc3]; cbn [fst] in Hx] end.
    { destruct (s_bprops _) as [|e es]; [exact H1|]. destruct (append_entries_without_batching _ _) as [is2 acc2]. exact H1. }
    destruct (s_bss s3) as [ss|]; auto. }
  assert (H4 : OP (set_state s3 Leader PhAccept)) by (constructor; [exact Hx|discriminate]).
  apply lift_d. intros ls Hl. assert (H5 : OP (set_ls (set_state s3 Leader PhAccept) ls)) by (eapply op_setacc; eauto).
  apply lift_d. intros l _. apply for_each_d; auto. intros. apply send_accsync_d; auto.
Qed.
Lemma op_setp s pr from c ls m : OP s -> from <> p -> ls_set_promise (s_ls s) pr from c = Some (ls, m) -> OP (set_ls s ls).
Proof. intros H Hf Hl. apply op_ls; auto. apply setp_proms in Hl. eapply vset_other; eauto. Qed.
Lemma promise_prepare_d s pr from : OP s -> from <> p -> dok (handle_promise_prepare s pr from).
Proof.
  intros H Hf. unfold handle_promise_prepare. destruct (beq _ _); [|exact H]. apply lift_d. intros [ls m] Hl. apply op_setp in Hl; auto. destruct m; [apply majority_d; auto|exact Hl].
Qed.
Lemma promise_accept_d s pr from : OP s -> from <> p -> dok (handle_promise_accept s pr from).
Proof.
  intros H Hf. unfold handle_promise_accept. destruct (beq _ _); [|exact H]. apply lift_d. intros [ls m] Hl. apply send_accsync_d. eapply op_setp; eauto.
Qed.
Lemma phase_acc s : phase_eqb (s_phase s) PhAccept = true -> s_phase s <> PhPrepare.
Proof. destruct (s_phase s); discriminate. Qed.
Lemma handle_accepted_d s n a from : OP s -> dok (handle_accepted s n a from).
Proof.
  intros H. unfold handle_accepted. destruct (beq n (l_n (s_ls s)) && (role_eqb (s_role s) Leader && phase_eqb (s_phase s) PhAccept)) eqn:Hg; [|exact H]. rewrite !andb_true_iff in Hg. destruct Hg as (_ & _ & Hg). apply phase_acc in Hg. apply lift_d. intros ls Hl. assert (H1 : OP (set_ls s ls)) by (eapply op_setacc; eauto).
  destruct (_ && _); [|exact H1]. apply lift_d. intros l _. apply for_each_d.
  - intros s1 q H2. unfold handle_accepted_to. apply lift_d. intros [idx|] _; [cbn; auto with dp|apply send_decide_d; auto].
  - apply op_is'; auto. 
Qed.
Lemma notaccepted_d s n from : OP s -> from <> p -> dok (handle_notaccepted s n from).
Proof.
  intros H Hf. unfold handle_notaccepted. destruct (_ && _); [|exact H]. apply lift_d. intros ls Hl. apply op_ls; auto. eapply pr_reset; eauto.
Qed.
Lemma prepare_all_d l : forall s, OP s -> OP (fold_left send_prepare l s).
Proof. induction l as [|q l IH]; cbn; intros s H; auto. apply IH, op_push; auto. Qed.
Lemma resend_leader_d s : OP s -> dok (resend_messages_leader s).
Proof.
  intros H. unfold resend_messages_leader. destruct (s_phase s); [| |exact H|exact H].
  - apply lift_d. intros l _. apply prepare_all_d; auto.
  - apply bind_d.
    + destruct (i_ss (s_is s)) as [ss|]; [|exact H]. apply lift_d. intros l _. apply for_each_d; auto. intros s1 q H1. unfold resend_ss_to.
      destruct (stopsign_is_decided _); [apply send_decide_d; auto|]. apply lift_d. intros a _. destruct (a =? _); [exact H1|apply send_ss_d; auto].
    + intros s1 H1. apply lift_d. intros l _. apply prepare_all_d; auto.
Qed.
Lemma reconnected_d s q : OP s -> OP (reconnected s q).
Proof. intros H. unfold reconnected. destruct (q =? s_pid s); auto. apply op_push. destruct (q =? sp_leader s); auto with dp. Qed.
Lemma handle_prepare_d s n d na a from : OP s -> dok (handle_prepare s n d na a from).
Proof.
  intros H. unfold handle_prepare. destruct (_ || _); [|exact H]. cbn zeta. match goal with |- dok (bind ?e ?f) => destruct e as [sy|tr] end; [|exact I]. cbn [bind dok].
  constructor; [exact (op_pid _ H)|discriminate].
Qed.
Lemma check_valid_d s b : OP s -> OP (fst (check_valid_ballot s b)) /\ s_phase (fst (check_valid_ballot s b)) = s_phase s \/ snd (check_valid_ballot s b) = false.
Proof.
  intros H. unfold check_valid_ballot. destruct (bcmp _ _); cbn [fst snd]; auto with dp.
Qed.
Lemma check_valid_d1 s b : OP s -> OP (fst (check_valid_ballot s b)).
Proof. intros H. unfold check_valid_ballot. destruct (bcmp _ _); cbn [fst]; auto with dp. apply reconnected_d; auto. Qed.
Lemma seqnum_d s q from : OP s -> OP (fst (handle_sequence_num s q from)) /\ (snd (handle_sequence_num s q from) = Expected -> s_phase (fst (handle_sequence_num s q from)) = s_phase s).
Proof.
  intros H. unfold handle_sequence_num. destruct (check_msg_status _ _); cbn [fst snd]; split; auto with dp; try discriminate. apply reconnected_d; auto.
Qed.
Lemma reply_d s n a : OP s -> dok (reply_accepted s n a).
Proof. intros H. unfold reply_accepted. apply lift_d. intros [idx|] _; cbn; auto with dp. Qed.
Lemma acceptsync_d s n q d sy from : OP s -> dok (handle_acceptsync s n q d sy from).
Proof.
  intros H. unfold handle_acceptsync. pose proof (check_valid_d1 s n H) as H1. destruct (check_valid_ballot s n) as [s1 v]. cbn [fst] in H1. destruct (_ && _); [|exact H1].
  destruct (sync_log _ _ _ _) as [[is acc]|tr]; [|exact I]. cbn [bind dok]. apply op_push, op_lam, op_cseq. constructor; [|discriminate].
  cbn [s_pid set_state]. destruct (i_ss _); [exact (op_pid _ H1)|]. unfold forward_buffered_proposals, forward_proposals. cbn [s_bprops set_is set_cprom].
  destruct (s_bprops s1); [exact (op_pid _ H1)|]. destruct (_ && _); exact (op_pid _ H1).
Qed.
Lemma update_decided_d s d : OP s -> s_phase s <> PhPrepare -> OP (fst (update_decided s d)).
Proof. intros H Hp. unfold update_decided. destruct (d <=? _); auto. destruct (_ <? d); [destruct (flush_batch _)|]; cbn [fst]; apply op_is'; auto. Qed.
Lemma acceptdecide_d s n q d es : OP s -> dok (handle_acceptdecide s n q d es).
Proof.
  intros H. unfold handle_acceptdecide. pose proof (check_valid_d1 s n H) as H1. destruct (check_valid_ballot s n) as [s1 v]. cbn [fst] in H1. destruct (_ && _) eqn:Hg; [|exact H1].
  rewrite !andb_true_iff in Hg. destruct Hg as (_ & _ & Hg). apply phase_acc in Hg.
  destruct (seqnum_d s1 q (b_pid n) H1) as [H2 Hp]. destruct (handle_sequence_num s1 q (b_pid n)) as [s2 st]. cbn [fst snd] in H2, Hp. destruct st; [|exact H2|exact H2].
  specialize (Hp eq_refl). destruct (append_entries_and_get_accepted_idx _ _) as [is r1].
  pose proof (update_decided_d (set_is s2 is) d (op_is' s2 is H2 ltac:(congruence)) ltac:(cbn; congruence)) as H4. destruct (update_decided _ _) as [s4 r2]. cbn [fst] in H4.
  destruct (match r2 with Some _ => r2 | None => r1 end); [apply reply_d; auto|exact H4].
Qed.
Lemma accept_ss_f_d s n q ss : OP s -> dok (handle_accept_stopsign s n q ss).
Proof.
  intros H. unfold handle_accept_stopsign. pose proof (check_valid_d1 s n H) as H1. destruct (check_valid_ballot s n) as [s1 v]. cbn [fst] in H1. destruct (_ && _) eqn:Hg; [|exact H1].
  rewrite !andb_true_iff in Hg. destruct Hg as (_ & _ & Hg). apply phase_acc in Hg.
  destruct (seqnum_d s1 q (b_pid n) H1) as [H2 Hp]. destruct (handle_sequence_num s1 q (b_pid n)) as [s2 st]. cbn [fst snd] in H2, Hp. destruct st; [|exact H2|exact H2].
  specialize (Hp eq_refl). cbn zeta. destruct (i_set_stopsign _ _) as [[is acc]|tr]; [|exact I]. cbn [bind]. apply reply_d. apply op_is'; [apply op_is'; auto|cbn]; congruence.
Qed.
Lemma decide_d s n q d : OP s -> dok (handle_decide s n q d).
Proof.
  intros H. unfold handle_decide. pose proof (check_valid_d1 s n H) as H1. destruct (check_valid_ballot s n) as [s1 v]. cbn [fst] in H1. destruct (_ && _) eqn:Hg; [|exact H1].
  rewrite !andb_true_iff in Hg. destruct Hg as (_ & Hg). apply phase_acc in Hg.
  destruct (seqnum_d s1 q (b_pid n) H1) as [H2 Hp]. destruct (handle_sequence_num s1 q (b_pid n)) as [s2 st]. cbn [fst snd] in H2, Hp. destruct st; [|exact H2|exact H2].
  specialize (Hp eq_refl). pose proof (update_decided_d s2 d H2 ltac:(congruence)) as H4. destruct (update_decided _ _) as [s4 r2]. cbn [fst] in H4. destruct r2; [apply reply_d; auto|exact H4].
Qed.
Lemma resend_follower_d s : OP s -> OP (resend_messages_follower s).
Proof.
  intros H. unfold resend_messages_follower, send_preparereq_to_all_peers. destruct (s_phase s); auto with dp. destruct (s_cprom s) as [pr|]; auto with dp.
Qed.
Lemma flush_follower_d s : OP s -> dok (flush_batch_follower s).
Proof. intros H. unfold flush_batch_follower. assert (X : i_dec (fst (flush_batch (s_is s))) = i_dec (s_is s)) by reflexivity. destruct (flush_batch _) as [is a]. cbn [fst] in X. pose proof (op_is s is H X). destruct (_ <? a); [apply reply_d|cbn]; auto with dp. Qed.
Lemma trim_d s i : OP s -> dok2 (sp_trim s i).
Proof.
  intros H. unfold sp_trim. destruct (s_role s); [exact H|]. destruct (get_min_all_accepted_idx _) as [mn|]; cbn [lift bind]; [|exact I].
  assert (Main : forall k, dok2 ('(is, r) <- try_trim (s_is s) k ;;
        let s := set_is s is in
        match r with
        | None => Ok (push_all s (s_peers s) (MCompaction (CmpTrim k)), None)
        | Some e => Ok (s, Some e)
        end)).
  { intros k. destruct (try_trim _ _) as [[is r]|tr] eqn:Hk; [|exact I]. cbn [bind]. apply dec_trim in Hk. pose proof (op_is s is H Hk). destruct r; cbn [dok2]; auto with dp. }
  cbn zeta. destruct i as [i|]; [|apply Main]. destruct (i <=? mn); [apply Main|exact H].
Qed.
Lemma snapshot_d s i l : OP s -> dok2 (sp_snapshot s i l).
Proof. intros H. unfold sp_snapshot. destruct (try_snapshot _ _) as [[is r]|tr] eqn:Hk; [|exact I]. cbn [bind]. apply dec_snap in Hk. pose proof (op_is s is H Hk). destruct r; cbn [dok2]; auto with dp. destruct l; auto with dp. Qed.
Lemma compaction_d s c : OP s -> dok (handle_compaction s c).
Proof.
  intros H. unfold handle_compaction. destruct c as [i|i].
  - destruct (try_trim _ _) as [[is r]|tr] eqn:Hk; [|exact I]. apply dec_trim in Hk. cbn. apply op_is; auto.
  - pose proof (snapshot_d s i true H) as X. destruct (sp_snapshot s i true) as [[s1 r]|tr]; exact X.
Qed.
Lemma sp_handle_d s m : OP s -> pm_from m <> p -> dok (sp_handle s m).
Proof.
  intros H Hf. unfold sp_handle. destruct (pm_msg m) as [n|n d na a|pr|n q d sy|n q d es|n a|n|n q d|es|c|n q ss|ss].
  - apply handle_preparereq_d; auto.
  - apply handle_prepare_d; auto.
  - destruct (s_role s) eqn:Hr, (s_phase s); try exact H; [apply promise_prepare_d|apply promise_accept_d]; auto.
  - apply acceptsync_d; auto.
  - apply acceptdecide_d; auto.
  - apply handle_accepted_d; auto.
  - apply notaccepted_d; auto.
  - apply decide_d; auto.
  - apply fwd_prop_d; auto.
  - apply compaction_d; auto.
  - apply accept_ss_f_d; auto.
  - apply fwd_ss_d; auto.
Qed.
Lemma propose_d s e : OP s -> dok (propose_entry s e).
Proof. intros H. unfold propose_entry. destruct (s_role s), (s_phase s); cbn [dok]; try (apply forward_props_d; auto); auto with dp. apply accept_entry_d; auto. Qed.
Lemma append_d s e : OP s -> dok2 (sp_append s e).
Proof.
  intros H. unfold sp_append. destruct (accepted_reconfiguration s); [exact H|]. pose proof (propose_d s e H) as X. destruct (propose_entry s e); exact X.
Qed.
Lemma reconfigure_d s c m : OP s -> dok2 (sp_reconfigure s c m).
Proof.
  intros H. unfold sp_reconfigure. destruct (accepted_reconfiguration s); [exact H|]. cbn zeta.
  match goal with |- dok2 (bind ?e _) => assert (X : dok e); [|destruct e; exact X] end.
  destruct (s_role s), (s_phase s); cbn [dok]; try (apply forward_ss_d; auto); auto with dp. apply accept_ss_d; auto.
Qed.

Definition doko {B} (r : res (omni * B)) : Prop := match r with Ok (o, _) => OP (o_sp o) | Panic _ => True end.
Definition doko1 (r : res omni) : Prop := match r with Ok o => OP (o_sp o) | Panic _ => True end.
Lemma resend_timeout_d s : OP s -> dok (resend_message_timeout s).
Proof. intros H. unfold resend_message_timeout. destruct (s_role s); [apply resend_follower_d; auto|apply resend_leader_d; auto]. Qed.
Lemma flush_timeout_d s : OP s -> dok (flush_batch_timeout s).
Proof. intros H. unfold flush_batch_timeout. destruct (s_role s), (s_phase s); try exact H; [apply flush_follower_d|apply flush_leader_d]; auto. Qed.
Lemma tick_d o : OP (o_sp o) -> doko1 (tick o).
Proof.
  intros H. unfold tick. destruct (clock_tick (o_eclk o)) as [ec f1]. 
  match goal with |- doko1 (bind ?e _) => assert (X : doko1 e); [|destruct e as [o1|tr]; [|exact X]] end.
  { destruct f1; [|exact H]. unfold election_timeout. destruct (hb_timeout _ _ _) as [b [n|]]; [|exact H]. pose proof (handle_leader_d (o_sp o) n H) as X.
    cbn [o_sp]. destruct (handle_leader _ _); exact X. }
  cbn [bind]. cbn [doko1] in X. destruct (clock_tick (o_rclk o1)) as [rc f2].
  match goal with |- doko1 (bind ?e _) => assert (X2 : doko1 e); [|destruct e as [o2|tr]; [|exact X2]] end.
  { destruct f2; [|exact X]. cbn [o_sp]. pose proof (resend_timeout_d _ X) as Y. destruct (resend_message_timeout (o_sp o1)); exact Y. }
  cbn [bind]. cbn [doko1] in X2. destruct (clock_tick (o_fclk o2)) as [fc f3]. destruct f3; [|exact X2]. cbn [o_sp].
  pose proof (flush_timeout_d _ X2) as Y. destruct (flush_batch_timeout (o_sp o2)); exact Y.
Qed.
Lemma exec_d o c : OP (o_sp o) -> (forall m, c = CHandle (MsgSP m) -> pm_from m <> p) -> doko (exec o c).
Proof.
  intros H0 Hc. unfold exec. assert (H : OP (o_sp (start_call o))) by (destruct H0; constructor; auto). clear H0. set (o1 := start_call o) in *. clearbody o1. destruct c as [e|cc0 meta| |i|i l|q| |q|m]; cbn [exec_call].
  - pose proof (append_d _ e H) as X. destruct (sp_append _ _) as [[s r]|]; exact X.
  - unfold reconfigure. destruct (cluster_validate cc0); [|exact H]. pose proof (reconfigure_d (o_sp o1) cc0 meta H) as X. destruct (sp_reconfigure _ _ _) as [[s r]|]; exact X.
  - pose proof (tick_d o1 H) as X. destruct (tick o1); exact X.
  - pose proof (trim_d (o_sp o1) i H) as X. destruct (sp_trim _ _) as [[s r]|]; exact X.
  - pose proof (snapshot_d (o_sp o1) i l H) as X. destruct (sp_snapshot _ _ _) as [[s r]|]; exact X.
  - cbn. apply reconnected_d; auto.
  - unfold try_become_leader. pose proof (handle_leader_d (o_sp o1) (set_n (e_ballot (o_ble o1)) (b_n (sp_promise (o_sp o1)) + 1)) H) as X. destruct (handle_leader _ _); exact X.
  - exact H.
  - unfold handle_incoming. destruct m as [m|m]; [|exact H]. pose proof (sp_handle_d (o_sp o1) m H (Hc m eq_refl)) as X. destruct (sp_handle _ _); exact X.
Qed.
Lemma take_d o buf o' l : OP (o_sp o) -> take_outgoing_messages o buf = (o', l) -> OP (o_sp o').
Proof.
  intros H. unfold take_outgoing_messages, sp_take_outgoing. intros X. destruct H. destruct buf; injection X as <- _; constructor; auto.
Qed.
Lemma build_d cc sc st o : build cc sc st = BOk o -> sc_pid sc = p -> OP (o_sp o).
Proof.
  unfold build. destruct (config_validate cc sc); [|discriminate]. unfold sp_with. destruct (peers_of _ _); [discriminate|].
  destruct (ms_prom st); intros X Hp; injection X as <-; constructor; auto; discriminate.
Qed.
End Own.

(** ** Calls that do not lower the decided index *)

Lemma sync_dec s n d sy s' a : sync_log s n d sy = Ok (s', a) -> i_dec s' = d /\ ms_dec (i_st s') = d /\ i_tr s' = i_tr s ++ [i_st s'].
Proof.
  unfold sync_log, ilift, ipanic. destruct sy as [sy|].
  2: { destruct (ms_write _ _) eqn:Hw; cbn [bind]; [|discriminate]. intros X. injection X as <- _. apply write_fields in Hw. destruct Hw as (_ & _ & W & _). split; [reflexivity|]. split; [exact W|reflexivity]. }
  destruct (sy_snap sy) as [[c|dl]|]; cbn [bind].
  2: destruct (create_decided_snapshot _); [|discriminate|discriminate]; destruct (s_merge _ _); [|discriminate]; cbn [bind].
  all: unfold i_ss; cbn [i_ca set_ca c_ss c_set_acc]; destruct (sy_ss sy); [|destruct (c_ss _)]; cbn [i_st i_tr set_ca bind];
    (match goal with |- context [ms_write ?a ?b] => destruct (ms_write a b) eqn:Hw end; cbn [bind]; [|discriminate]; intros X; injection X as <- _; apply write_fields in Hw; destruct Hw as (_ & _ & W & _);
     split; [reflexivity|]; split; [exact W|reflexivity]).
Qed.

Lemma max_dec_ge l m : In (Promised m) (l_proms l) -> pmt_dec m <= get_max_decided_idx l.
Proof.
  unfold get_max_decided_idx. intros H.
  assert (Main : forall ps a, (In (Promised m) ps \/ pmt_dec m <= a) -> pmt_dec m <= fold_left (fun a p => match p with Promised m => Nat.max a (pmt_dec m) | _ => a end) ps a).
  { induction ps as [|x ps IH]; cbn; intros a [Ha|Ha]; auto; try tauto; apply IH.
    - destruct Ha as [->|Ha]; auto. right. lia.
    - right. destruct x; lia. }
  apply Main. auto.
Qed.

(** What is left of the record of storage writes: old ones, and new ones with a decided index of at least [d]. *)
Definition trk (d : nat) (tr tr' : list mstore) : Prop := forall st, In st tr' -> In st tr \/ d <= ms_dec st.
Lemma trk_refl d tr : trk d tr tr.
Proof. intros st H. auto. Qed.
Lemma trk_snoc d tr tr' st : trk d tr tr' -> d <= ms_dec st -> trk d tr (tr' ++ [st]).
Proof. intros H Hd x Hx. apply in_app_or in Hx. destruct Hx as [Hx|[<-|[]]]; auto. Qed.

Section Maj.
Context (d : nat) (tr0 : list mstore).
Definition MI (x : istore) : Prop := d <= i_dec x /\ d <= ms_dec (i_st x) /\ trk d tr0 (i_tr x).
Definition mres (r : res sp) : Prop := match r with Ok s => MI (s_is s) | Panic tr => trk d tr0 tr end.

Lemma mi_append x es : MI x -> MI (fst (append_entries_without_batching x es)).
Proof. intros (H1 & H2 & H3). split; [exact H1|]. split; [exact H2|]. apply trk_snoc; auto. Qed.
Lemma mi_stop x ss : MI x -> MI (fst (i_append_stopsign x ss)).
Proof.
  intros (H1 & H2 & H3). unfold i_append_stopsign, cache_append_stopsign. cbn -[app length].
  destruct (c_batch (i_ca x)); (split; [exact H1|]; split; [exact H2|]); cbn; repeat apply trk_snoc; auto.
Qed.
Lemma lift_mi {B} s (o : option B) (f : B -> res sp) : MI (s_is s) -> (forall b, o = Some b -> mres (f b)) -> mres (bind (lift s o) f).
Proof. intros H Hf. destruct o; cbn; auto. apply H. Qed.
Lemma send_accsync_mi s to : MI (s_is s) -> mres (send_accsync s to).
Proof.
  intros H. unfold send_accsync. apply lift_mi; auto. intros m _. apply lift_mi; auto. intros fd _. apply lift_mi; auto. intros sy Hsy.
  apply lift_mi; auto. intros l1 H1. apply lift_mi; auto. intros [l2 sq] H2. exact H.
Qed.
Lemma for_accsync_mi l : forall s, MI (s_is s) -> mres (for_each s l send_accsync).
Proof.
  induction l as [|q l IH]; cbn [for_each]; intros s H; [exact H|]. pose proof (send_accsync_mi s q H) as X. destruct (send_accsync s q) as [s1|tr]; cbn [bind]; [|exact X]. apply IH. exact X.
Qed.
Lemma majority_mi s : i_tr (s_is s) = tr0 -> d <= get_max_decided_idx (s_ls s) -> mres (handle_majority_promises s).
Proof.
  intros Ht Hd. unfold handle_majority_promises, take_max_promise_sync. cbn zeta.
  set (s1 := set_ls s (l_set_max (s_ls s) (l_maxmeta (s_ls s)) None)).
  destruct (sync_log _ _ _ _) as [[is acc]|tr] eqn:Hsy.
  2: { cbn [bind mres]. apply sync_panic in Hsy. subst tr. cbn. rewrite Ht. apply trk_refl. }
  apply sync_dec in Hsy. destruct Hsy as (S1 & S2 & S3). cbn [bind].
  assert (H2 : MI is). { change (get_max_decided_idx (s_ls s1)) with (get_max_decided_idx (s_ls s)) in *. split; [lia|]. split; [lia|]. rewrite S3. apply trk_snoc; [|lia]. cbn. rewrite Ht. apply trk_refl. }
  match goal with |- mres (let '(_, _) := ?e in _) => assert (Hx : MI (s_is (fst e))); [|destruct e as [s3 acc3]; cbn [fst] in Hx] end.
  { destruct (accepted_reconfiguration (set_is s1 is)); [exact H2|].
    match goal with |- MI (s_is (fst (let '(_, _) := ?e in _))) => assert (Hx : MI (s_is (fst e))); [|destruct e as [s3 acc3]; cbn [fst] in Hx] end.
    { destruct (s_bprops _) as [|e es]; [exact H2|]. pose proof (mi_append is (e :: es) H2) as Ha. change (s_is (set_bprops (set_is s1 is) [])) with is.
      destruct (append_entries_without_batching _ _) as [is2 acc2]. exact Ha. }
    destruct (s_bss s3) as [ss|]; [|exact Hx]. cbn [fst]. apply (mi_stop (s_is s3) ss Hx). }
  apply lift_mi; [exact Hx|]. intros ls Hls. apply lift_mi; [exact Hx|]. intros l _. apply for_accsync_mi. exact Hx.
Qed.
End Maj.

(** A promise never lowers the decided index of the candidate. *)
Lemma promise_mi p s pr from d : OP p s -> from <> p -> i_dec (s_is s) = d -> ms_dec (i_st (s_is s)) = d -> i_tr (s_is s) = [] -> mres d [] (sp_handle s (mkPM from p (MPromise pr))).
Proof.
  intros H Hf Hd Hd2 Ht. assert (HM : MI d [] (s_is s)). { split; [lia|]. split; [lia|]. rewrite Ht. apply trk_refl. }
  unfold sp_handle. cbn [pm_msg pm_from]. destruct (s_role s) eqn:Hr, (s_phase s) eqn:Hp; try exact HM.
  - unfold handle_promise_prepare. destruct (beq _ _); [|exact HM]. apply lift_mi; [exact HM|]. intros [ls m] Hl.
    destruct m; [|exact HM]. apply majority_mi; [exact Ht|].
    pose proof (op_setp p s pr from true ls true H Hf Hl) as [_ H1]. destruct (H1 Hr Hp) as (m & Hm & He). cbn [s_is set_ls s_ls] in *. rewrite Hd in He. rewrite <- He. apply max_dec_ge.
    unfold vget in Hm. destruct (pid_to_idx p); [|discriminate]. eapply nth_error_In; eauto.
  - unfold handle_promise_accept. destruct (beq _ _); [|exact HM]. apply lift_mi; [exact HM|]. intros [ls m] Hl. apply send_accsync_mi. exact HM.
Qed.

(** Delivery of an AcceptSync. *)
Definition is_acceptsync (m : message) : bool := match m with MsgSP (mkPM _ _ (MAcceptSync _ _ _ _)) => true | _ => false end.

(** The decided indexes and the accepted index are at least [d]. *)
Definition FL (d : nat) (x : istore) : Prop := d <= i_dec x /\ d <= ms_dec (i_st x) /\ d <= i_acc x.
Lemma fl_prim d x y : FL d x -> prim (fun _ _ _ => False) (fun _ => True) False True True True True (fun _ => True) x y -> FL d y.
Proof.
  intros (F1 & F2 & F3) H. destruct H as [s b|s es|s ss Hp Hn Hb|s ss s' a Hp He|s n HPR Hn|s e Hd Hc|s n e sy s' a Ha He|s n e sy s' a Hl Hm He|s i s' r Ht He|s i s' r Hs He].
  - split; [|split]; auto.
  - split; [exact F1|]. split; [exact F2|]. change (d <= i_acc s + length es). lia.
  - unfold i_append_stopsign, cache_append_stopsign. cbn. rewrite Hb. split; [exact F1|]. split; [exact F2|]. change (d <= i_acc s + 1). lia.
  - unfold i_set_stopsign in He. destruct (c_ss (i_ca s)); cbn in He; injection He as <- _; (split; [exact F1|]; split; [exact F2|]); [exact F3|]. change (d <= i_acc s + 1). lia.
  - split; [|split]; auto.
  - change (d <= e /\ d <= e /\ d <= i_acc s). lia.
  - contradiction.
  - contradiction.
  - pose proof (dec_trim _ _ _ _ He) as D. unfold try_trim, ilift, ipanic in He. destruct (dec_without_ss s) as [ld|]; [|discriminate].
    assert (Main : forall new, (if i_comp s <? new then
          m <- (match ms_write (i_st s) [OpTrim new; OpSetComp new] with Some a => Ok a | None => Panic (i_tr s) end) ;;
          let s := put_st s m in Ok (set_ca s (c_set_comp (i_ca s) new), None) else Ok (s, None)) = Ok (s', r) -> FL d s').
    { intros new. destruct (i_comp s <? new); [|intros X; injection X as <- _; split; [|split]; auto]. match goal with |- context [ms_write ?a ?b] => destruct (ms_write a b) eqn:Hw end; cbn [bind]; [|intros X; discriminate X]. intros X. injection X as <- _.
      apply write_fields in Hw. destruct Hw as (_ & _ & W & _). split; [|split]; auto. cbn. rewrite W. exact F2. }
    cbn zeta in He. destruct (Nat.compare i (i_dec s)); [apply (Main _ He)|apply (Main _ He)|injection He as <- _; split; [|split]; auto].
  - unfold try_snapshot, ilift, ipanic in He. destruct (dec_without_ss s) as [ld|]; [|discriminate].
    assert (Main : forall new, (if i_comp s <? new then
          match create_snapshot s new with
          | CPanic => Panic (i_tr s)
          | CErr e => Ok (s, Some e)
          | COk sn =>
              m <- (match ms_write (i_st s) [OpTrim new; OpSetComp new; OpSetSnapshot (Some sn)] with Some a => Ok a | None => Panic (i_tr s) end) ;;
              let s := put_st s m in Ok (set_ca s (c_set_comp (i_ca s) new), None)
          end else Ok (s, None)) = Ok (s', r) -> FL d s').
    { intros new. destruct (i_comp s <? new); [|intros X; injection X as <- _; split; [|split]; auto]. destruct (create_snapshot s new); [|intros X; injection X as <- _; split; [|split]; auto|discriminate].
      match goal with |- context [ms_write ?a ?b] => destruct (ms_write a b) eqn:Hw end; cbn [bind]; [|intros X; discriminate X]. intros X. injection X as <- _.
      apply write_fields in Hw. destruct Hw as (_ & _ & W & _). split; [|split]; auto. cbn. rewrite W. exact F2. }
    cbn zeta in He. destruct i as [i|]; [|apply (Main _ He)]. destruct (Nat.compare i (i_dec s)); [apply (Main _ He)|apply (Main _ He)|injection He as <- _; split; [|split]; auto].
Qed.

(** One call of a server whose log is as long as its decided index says. *)
Definition from_ok (p : node_id) (c : call) : Prop := forall m, c = CHandle (MsgSP m) -> pm_from m <> p.
Lemma call_kept p o c : OP p (o_sp o) -> from_ok p c -> (forall m, c = CHandle m -> is_acceptsync m = false) ->
  readable (s_is (o_sp o)) -> get_decided_idx o <= i_acc (s_is (o_sp o)) ->
  (forall o' r, exec o c = Ok (o', r) -> get_decided_idx o <= get_decided_idx o') /\
  (forall st, In st (crash_points o c) -> get_decided_idx o <= ms_dec st).
Proof.
  intros HO Hf Hs HR Ha. set (d := get_decided_idx o) in *. assert (Hd : ms_dec (storage o) = d) by (symmetry; apply (rd_dec _ HR)).
  destruct (match c with CHandle (MsgSP (mkPM _ _ (MPromise _))) => true | _ => false end) eqn:Hc.
  - destruct c as [| | | | | | | |m]; try discriminate. destruct m as [m|]; [|discriminate]. destruct m as [from to m]. destruct m as [| |pr| | | | | | | | |]; try discriminate.
    assert (HO' : OP p (o_sp (start_call o))) by (destruct HO; constructor; auto).
    pose proof (promise_mi p (o_sp (start_call o)) pr from d HO' (Hf _ eq_refl) eq_refl Hd eq_refl) as X.
    unfold crash_points, exec. cbn [exec_call handle_incoming]. unfold sp_handle in *. cbn [pm_msg pm_from] in *.
    match type of X with mres _ _ ?e => destruct e as [s1|tr] end; cbn [bind mres] in *.
    + split.
      * intros o' r Y. injection Y as <- _. apply X.
      * intros st [<-|Hin]; [unfold storage in Hd; lia|]. cbn in Hin. destruct X as (_ & _ & X). destruct (X _ Hin) as [[]|]; auto.
    + split; [discriminate|]. intros st [<-|Hin]; [unfold storage in Hd; lia|]. destruct (X _ Hin) as [[]|]; auto.
  - assert (Hm : may_call (fun _ _ _ => False) (fun _ => True) False True True True True (fun _ => True) o c).
    { destruct c as [| | | | | | | |m]; cbn; auto. destruct m as [m|]; auto. specialize (Hs _ eq_refl). destruct m as [from to m]. cbn in *. destruct m as [| | | | | | | | |[]| |]; cbn; auto; discriminate. }
    assert (F0 : FL d (s_is (o_sp (start_call o)))). { split; [apply le_n|]. split; [unfold storage in Hd; cbn; lia|exact Ha]. }
    split.
    + intros o' r He. destruct (exec_prims _ (fun _ => True) _ _ _ _ _ _ o c o' r I Hm I He) as [P _].
      apply (prims_inv _ _ _ _ _ _ _ _ (FL d) (fl_prim d) _ _ P F0).
    + intros st Hin. destruct (crash_prims _ (fun _ => True) _ _ _ _ _ _ o c st I Hm I Hin) as [->|(is & P & Hi)]; [lia|].
      destruct (prims_tr _ _ _ _ _ _ _ _ (FL d) _ _ (fl_prim d) P F0 eq_refl) as [_ T]. destruct (T _ Hi) as (x & Fx & <-). apply Fx.
Qed.

(** ** Clusters *)
Definition AllOP (s : sys) : Prop := forall p o, nodes s p = Some o -> OP p (o_sp o).
Lemma event_from cc G s p ev c : SysInv cc G s -> event_call s p ev = Some c -> from_ok p c.
Proof.
  intros HS He m ->. destruct ev as [c0|src k]; cbn in He; [destruct c0; discriminate|]. destruct (nth_error (net s src p) k) as [x|] eqn:Hk; [|discriminate]. injection He as ->.
  apply nth_error_In in Hk. destruct (y_net _ _ _ HS _ _ _ Hk) as (-> & Hne & _). exact Hne.
Qed.
Lemma allop_step cc G s a s' : SysInv cc G s -> AllOP s -> exec_action cc s a = Some s' -> AllOP s'.
Proof.
  intros HS HA He. destruct a as [p ev|p|src dst k|p ev j sc]; cbn in He.
  - destruct (nodes s p) as [o|] eqn:Ho; [|discriminate]. destruct (event_call s p ev) as [c|] eqn:Hc; [|discriminate].
    destruct (exec o c) as [[o' r]|] eqn:Hx; [|discriminate]. injection He as <-. intros q x. cbn. unfold upd1. destruct (Nat.eqb_spec q p) as [->|]; [|apply HA].
    intros X. injection X as <-. pose proof (exec_d p o c (HA _ _ Ho) (event_from _ _ _ _ _ _ HS Hc)) as Y. rewrite Hx in Y. exact Y.
  - destruct (nodes s p) as [o|] eqn:Ho; [|discriminate]. destruct (take_outgoing_messages o []) as [o' l] eqn:Ht. injection He as <-.
    intros q x. cbn. unfold upd1. destruct (Nat.eqb_spec q p) as [->|]; [|apply HA]. intros X. injection X as <-. pose proof (take_d p o [] o' l (HA _ _ Ho) Ht) as Y. cbn in Ht. injection Ht as <- _. exact Y.
  - injection He as <-. exact HA.
  - destruct (nodes s p) as [o|] eqn:Ho; [|discriminate]. destruct (event_call s p ev) as [c|] eqn:Hc; [|discriminate].
    destruct (nth_error (crash_points o c) j) as [st|] eqn:Hst; [|discriminate].
    destruct (Nat.eqb_spec (sc_pid sc) p) as [Hsc|]; [|discriminate].
    destruct (build cc sc st) as [| |o'] eqn:Hb; try discriminate. injection He as <-.
    intros q x. cbn. unfold upd1. destruct (Nat.eqb_spec q p) as [->|]; [|apply HA]. intros X. injection X as <-. eapply build_d; eauto.
Qed.
Lemma allop_run cc (Hv : cluster_validate cc = true) (H0 : ~ In 0 (nds cc)) l : forall G s s', SysInv cc G s -> AllOP s -> all_steps h1h2 cc s l -> run cc s l = Some s' -> AllOP s'.
Proof.
  induction l as [|a l IH]; intros G s s' HS HA Hl Hr; cbn in *.
  - injection Hr as <-. auto.
  - destruct Hl as [Ha Hl]. destruct (exec_action cc s a) as [s1|] eqn:He; [|discriminate].
    destruct (step_inv cc Hv H0 G s a s1 HS Ha He) as (G1 & L1 & S1). exact (IH G1 s1 s' S1 (allop_step cc G s a s1 HS HA He) Hl Hr).
Qed.
Lemma allop_init cc scs : AllOP (init_sys cc scs).
Proof.
  intros p o. cbn. destruct (existsb (Nat.eqb p) (cc_nodes cc) && (sc_pid (scs p) =? p)) eqn:Hx; [|discriminate].
  apply andb_true_iff in Hx. destruct Hx as [_ Hsc]. apply Nat.eqb_eq in Hsc. destruct (build cc (scs p) ms_default) as [| |o1] eqn:Hb; try discriminate. intros X. injection X as ->. eapply build_d; eauto.
Qed.

(** The action delivers an AcceptSync to [p]. *)
Definition syncs (s : sys) (a : action) (p : node_id) : Prop :=
  exists src k m, action_event a = Some (p, EDeliver src k) /\ nth_error (net s src p) k = Some m /\ is_acceptsync m = true.

(** C06, the part that holds: at a server without a stop sign only an AcceptSync can lower the
    decided index; a crash in the middle of the call and the restart do not lower it either. *)
Theorem C06_only_acceptsync_lowers_decided_partial :
  forall cc scs, good_config cc scs ->
  forall l, all_steps h1h2 cc (init_sys cc scs) l -> forall s, reaches cc scs l s ->
  forall a s', exec_action cc s a = Some s' ->
  forall p o o', nodes s p = Some o -> nodes s' p = Some o' -> ms_ss (storage o) = None -> ~ syncs s a p ->
    get_decided_idx o <= get_decided_idx o'.
Proof.
  intros cc scs HG l Hh s R a s' He p o o' N N' Hss Hns. pose proof (cluster_server_state _ _ _ _ _ _ R N) as HSt.
  destruct (C41_decided_le_accepted cc scs HG l Hh s R p o N Hss) as [Hacc _]. destruct HG as (Hv & H0 & _).
  destruct (one_moment cc Hv H0 scs l s Hh R) as [G HS].
  pose proof (allop_run cc Hv H0 l _ _ _ (init_inv cc scs) (allop_init cc scs) Hh R p o N) as HO.
  assert (Hcall : forall ev c, event_call s p ev = Some c -> (action_event a = Some (p, ev)) -> forall m, c = CHandle m -> is_acceptsync m = false).
  { intros ev c Hc Ha m ->. destruct (is_acceptsync m) eqn:Hm; auto. exfalso. apply Hns. destruct ev as [c0|src k]; cbn in Hc; [destruct c0; discriminate|].
    destruct (nth_error (net s src p) k) as [x|] eqn:Hk; [|discriminate]. injection Hc as ->. exists src, k, m. auto. }
  destruct a as [q ev|q|src dst k|q ev j sc]; cbn in He.
  - destruct (nodes s q) as [oq|] eqn:Ho; [|discriminate]. destruct (event_call s q ev) as [c|] eqn:Hc; [|discriminate].
    destruct (exec oq c) as [[o1 r]|] eqn:Hx; [|discriminate]. injection He as <-. cbn in N'. unfold upd1 in N'. destruct (Nat.eqb_spec p q) as [->|]; [|rewrite N in N'; injection N' as ->; auto].
    injection N' as ->. rewrite N in Ho. injection Ho as <-.
    apply (proj1 (call_kept q o c HO (event_from _ _ _ _ _ _ HS Hc) (Hcall ev c Hc eq_refl) (state_readable o HSt) Hacc) _ _ Hx).
  - destruct (nodes s q) as [oq|] eqn:Ho; [|discriminate]. injection He as <-. cbn in N'. unfold upd1 in N'.
    destruct (Nat.eqb_spec p q) as [->|]; [|rewrite N in N'; injection N' as ->; auto]. rewrite N in Ho. injection Ho as <-. injection N' as <-. apply le_n.
  - injection He as <-. cbn in N'. rewrite N in N'. injection N' as ->. auto.
  - destruct (nodes s q) as [oq|] eqn:Ho; [|discriminate]. destruct (event_call s q ev) as [c|] eqn:Hc; [|discriminate].
    destruct (nth_error (crash_points oq c) j) as [st|] eqn:Hst; [|discriminate]. apply nth_error_In in Hst.
    destruct (Nat.eqb_spec (sc_pid sc) q) as [Hsc|]; [|discriminate].
    destruct (build cc sc st) as [| |o1] eqn:Hb; try discriminate. injection He as <-. cbn in N'. unfold upd1 in N'.
    destruct (Nat.eqb_spec p q) as [->|]; [|rewrite N in N'; injection N' as ->; auto]. injection N' as ->. rewrite N in Ho. injection Ho as <-.
    pose proof (proj2 (call_kept q o c HO (event_from _ _ _ _ _ _ HS Hc) (Hcall ev c Hc eq_refl) (state_readable o HSt) Hacc) st Hst) as Hle.
    unfold build in Hb. destruct (config_validate cc sc); [|discriminate]. unfold sp_with in Hb. destruct (peers_of _ _); [discriminate|]. destruct (ms_prom st); injection Hb as <-; exact Hle.
Qed.

End WithEntry.

Print Assumptions C06_only_acceptsync_lowers_decided_partial.

(** ** Concrete case: server 1 has decided 2 entries and handles the Accepted of server 2 for index 3;
    then server 3, which has decided 2, becomes leader with the promise of server 2. *)
Section Case.
Local Existing Instance plain.
Lemma not_syncs (s : @sys plain) a p src k : action_event a = Some (p, EDeliver src k) ->
  match nth_error (net s src p) k with Some m => is_acceptsync m | None => false end = false -> ~ syncs s a p.
Proof.
  intros H1 H2 (src' & k' & m & H3 & H4 & H5). rewrite H1 in H3. injection H3 as -> ->. rewrite H4 in H2. congruence.
Qed.
Definition sch_case_p : list cmd := [ Call 3 CTryLeader; Fetch [3]; DeliverN 3 2 1; Fetch [2] ].
Definition acts_case_p := Eval vm_compute in acts_of cc3 sys_case_acc sch_case_p.
Definition sys_case_p := match run cc3 sys_case_acc acts_case_p with Some s => s | None => ini end.
Example C06_case :
  all_steps h1h2 cc3 ini ((acts_case1 ++ acts_case_acc) ++ acts_case_p) /\ reaches cc3 scs ((acts_case1 ++ acts_case_acc) ++ acts_case_p) sys_case_p /\
  obs sys_case_p 1 (fun o => (get_decided_idx o, ms_ss (storage o))) = Some (2, None) /\ ~ syncs sys_case_p (ADo 1 (EDeliver 2 0)) 1 /\
  obs sys_case_p 3 (fun o => (get_decided_idx o, ms_ss (storage o), role_of o)) = Some (2, None, (Leader, PhPrepare)) /\ ~ syncs sys_case_p (ADo 3 (EDeliver 2 0)) 3 /\
  match run cc3 sys_case_p [ADo 1 (EDeliver 2 0); ADo 3 (EDeliver 2 0)] with
  | Some s' => (obs s' 1 get_decided_idx, obs s' 3 (fun o => (get_decided_idx o, role_of o))) = (Some 3, Some (2, (Leader, PhAccept)))
  | None => False
  end.
Proof.
  split; [apply h1h2_run; vm_compute; reflexivity|].
  split; [eapply run_app_ok; [exact (proj1 C12_case)|]; apply is_some_eta; vm_compute; reflexivity|].
  split; [vm_compute; reflexivity|]. split; [eapply not_syncs; [reflexivity|vm_compute; reflexivity]|].
  split; [vm_compute; reflexivity|]. split; [eapply not_syncs; [reflexivity|vm_compute; reflexivity]|]. vm_compute. reflexivity.
Qed.
End Case.
