(** * C48: a leader that is heard is not replaced *)
From Coq Require Import List Arith Bool Lia.
Import ListNotations.
From Verif Require Import Types Config MemStore Internal LeaderState SeqPaxos Ble Omni System Basics Scen Spec Refute Ghost GhostOps Inv PropAgreement Local Frame PropLocal PropCalls PropElect SysInv Agree Prims PropRounds.

Section WithEntry.
Context {E : EntryT}.

(** ** Specification *)

(** Smaller than [b], or [b] itself. *)
Definition upto (b x : ballot) : Prop := blt x b = true \/ x = b.
(** A heartbeat reply that does not speak against the leader of [b]. *)
Definition backs (b : ballot) (r : hb_reply) : Prop :=
  upto b (hr_ballot r) /\ upto b (hr_leader r) /\ (hr_ballot r = b -> hr_happy r = true).
(** No server, reply or promise knows a ballot above [b], and the server of [b] regards itself as
    leader.  (The others need not know [b] yet.) *)
Record on_top (b : ballot) (s : sys) : Prop := {
  top_node : forall q o, nodes s q = Some o ->
    upto b (own_ballot o) /\ upto b (election_view o) /\ upto b (get_promise o) /\
    (forall r, In r (replies o) -> backs b r) /\
    (forall f t r, In (mkBM f t (HbReply r)) (e_out (o_ble o)) -> backs b r);
  top_net : forall p q f t r, In (MsgBLE (mkBM f t (HbReply r))) (net s p q) -> backs b r;
  top_leader : forall o, nodes s (b_pid b) = Some o -> own_ballot o = b /\ election_view o = b /\ e_happy (o_ble o) = true
}.
(** Before an election timeout the heartbeats of the leader arrive, and the leader has the
    replies of a quorum. *)
Definition heard (b : ballot) (s : sys) (a : action) : Prop :=
  match action_event a with
  | Some (q, ECall CTick) =>
      forall o, nodes s q = Some o -> election_due o ->
        if q =? b_pid b
        then (if role_eqb (fst (role_of o)) Leader && phase_eqb (snd (role_of o)) PhAccept then write_quorum else read_quorum) o (length (replies o) + 1)
        else exists r, In r (replies o) /\ hr_ballot r = b
  | _ => True
  end.
(** Nobody asks for another leader, and the server of [b] does not restart.  (Others may.) *)
Definition undisturbed (b : ballot) (a : action) : Prop :=
  match action_event a with
  | Some (_, ECall CTryLeader) | Some (_, ECall (CSetPriority _)) => False
  | _ => True
  end /\
  match a with ACrash q _ _ _ => q <> b_pid b /\ 2 <= b_n b | _ => True end.

(** ** Ballots *)

Lemma upto_ble b x : upto b x -> ble x b = true.
Proof. intros [H| ->]; [|apply ble_refl]. apply ble_spec. left. apply blt_spec. exact H. Qed.
Lemma upto_top b x : upto b x -> ble b x = true -> x = b.
Proof. intros [H| ->]; auto. intros X. apply blt_spec in H. apply ble_spec in X. unfold bal_lt, bal_same in *. lia. Qed.
Lemma upto_trans b x y : ble_ x y -> upto b y -> upto b x.
Proof.
  intros [H| ->]; auto. left. apply blt_spec. destruct H0 as [K| ->]; [|exact H]. apply blt_spec in K. unfold bal_lt in *. lia.
Qed.
Lemma upto_bgt b x : upto b x -> bgt x b = false.
Proof.
  intros H. apply upto_ble in H. rewrite bgt_blt. destruct (blt b x) eqn:X; auto. apply blt_spec in X. apply ble_spec in H. unfold bal_lt, bal_same in *. lia.
Qed.

(** ** The election timeout *)

Definition quorum_ok (x : bles) (st : role * phase) (n : nat) : bool :=
  match st with (Leader, PhAccept) => is_accept_quorum (e_quorum x) n | _ => is_prepare_quorum (e_quorum x) n end.
Lemma hb_top b x st prom : upto b (e_leader x) -> upto b prom -> (forall r, In r (e_replies x) -> backs b r) -> b_pid (e_ballot x) = e_pid x ->
  (e_pid x = b_pid b -> e_ballot x = b /\ e_leader x = b /\ quorum_ok x st (length (e_replies x) + 1) = true) ->
  (e_pid x <> b_pid b -> exists r, In r (e_replies x) /\ hr_ballot r = b) ->
  e_ballot (fst (hb_timeout x st prom)) = e_ballot x /\ e_leader (fst (hb_timeout x st prom)) = b /\ e_happy (fst (hb_timeout x st prom)) = true /\
  forall n, snd (hb_timeout x st prom) = Some n -> n = b.
Proof.
  intros HL HP HR Hpid Hl Hf. unfold hb_timeout. destruct (update_leader_view x) as (v & [Hv1 Hv2] & ->).
  assert (Ev : v = b).
  { apply upto_top.
    - destruct Hv1 as [<-|Hv1]; auto. apply in_map_iff in Hv1. destruct Hv1 as (r & <- & Hr). apply (HR r Hr).
    - apply Hv2. destruct (Nat.eq_dec (e_pid x) (b_pid b)) as [e|n]; [left; apply (Hl e)|]. right. destruct (Hf n) as (r & Hr & <-). apply in_map. exact Hr. }
  subst v. set (x1 := update_happiness (e_set_leader x b) st).
  assert (Hh : e_happy x1 = true).
  { unfold x1, update_happiness. cbn [e_happy e_set_happy e_leader e_set_leader e_ballot e_replies e_quorum]. destruct (beq b (e_ballot x)) eqn:Hb.
    - apply beq_spec in Hb. assert (e : e_pid x = b_pid b) by congruence. destruct (Hl e) as (_ & _ & Hq).
      assert (Hfl : filter (fun r => ble (hr_leader r) (e_ballot x)) (e_replies x) = e_replies x).
      { rewrite <- Hb. clear -HR. induction (e_replies x) as [|r l IH]; cbn; auto. rewrite (upto_ble b (hr_leader r)); [|apply (HR r); left; auto]. f_equal. apply IH. intros y Hy. apply HR. right; auto. }
      rewrite Hfl. unfold quorum_ok in Hq. change (e_quorum (e_set_leader x b)) with (e_quorum x). destruct st as [[|] [| | |]]; rewrite Hq; reflexivity.
    - assert (n : e_pid x <> b_pid b). { intros e. destruct (Hl e) as (X & _). rewrite X in Hb. assert (beq b b = true) by (apply beq_spec; reflexivity). congruence. }
      destruct (Hf n) as (r & Hr & Er). apply existsb_exists. exists r. split; [exact Hr|]. rewrite Er. assert (B : beq b b = true) by (apply beq_spec; reflexivity). rewrite B. apply (HR r Hr). exact Er. }
  assert (Ht : check_takeover x1 = x1) by (unfold check_takeover; rewrite Hh; reflexivity). rewrite Ht.
  change (e_leader (new_hb_round x1)) with b. rewrite (upto_bgt b prom HP). change (e_leader (new_hb_round x1)) with b. change (e_ballot (new_hb_round x1)) with (e_ballot x).
  cbn [fst snd]. split; [reflexivity|]. split; [reflexivity|]. split; [exact Hh|]. intros n. destruct (beq b (e_ballot x)) eqn:Hb; [|discriminate]. apply beq_spec in Hb. congruence.
Qed.

(** ** The promise *)

(** The cached and the persistent promise are at most [b]. *)
Definition PB (b : ballot) (x : istore) : Prop := upto b (i_prom x) /\ upto b (promised (i_st x)).
Definition prom_kept (x y : istore) : Prop := i_prom y = i_prom x /\ ms_prom (i_st y) = ms_prom (i_st x).
Lemma pb_kept b x y : prom_kept x y -> PB b x -> PB b y.
Proof. intros [H1 H2] [H3 H4]. split; [rewrite H1; exact H3|]. unfold promised in *. rewrite H2. exact H4. Qed.
Lemma sync_prom s n d sy s' a : sync_log s n d sy = Ok (s', a) -> prom_kept s s'.
Proof.
  unfold sync_log, ilift, ipanic, prom_kept. destruct sy as [sy|].
  2: { match goal with |- context [ms_write ?a ?b] => destruct (ms_write a b) eqn:Hw end; cbn; [|discriminate]. intros X. injection X as <- _. apply write_fields in Hw. destruct Hw as (W & _). split; [reflexivity|exact W]. }
  destruct (sy_snap sy) as [[c|dl]|]; cbn [bind].
  2: destruct (create_decided_snapshot _); [|discriminate|discriminate]; destruct (s_merge _ _); [|discriminate]; cbn [bind].
  all: unfold i_ss; cbn [i_ca set_ca c_ss c_set_acc]; destruct (sy_ss sy); [|destruct (c_ss _)]; cbn [i_st i_tr set_ca bind];
    (match goal with |- context [ms_write ?a ?b] => destruct (ms_write a b) eqn:Hw end; cbn; [|discriminate]; intros X; injection X as <- _; apply write_fields in Hw; destruct Hw as (W & _); split; [reflexivity|exact W]).
Qed.
Lemma trim_prom s i s' r : try_trim s i = Ok (s', r) -> prom_kept s s'.
Proof.
  unfold try_trim, ilift, ipanic, prom_kept. destruct (dec_without_ss s) as [ld|]; [|discriminate].
  destruct (Nat.compare i (i_dec s)); [| |intros X; injection X as <- _; auto]; (destruct (i_comp s <? _); [|intros X; injection X as <- _; auto]);
  (match goal with |- context [ms_write ?a ?b] => destruct (ms_write a b) eqn:Hw end; cbn [bind]; [|discriminate]; intros X; injection X as <- _; apply write_fields in Hw; destruct Hw as (W & _); split; [reflexivity|exact W]).
Qed.
Lemma snap_prom s i s' r : try_snapshot s i = Ok (s', r) -> prom_kept s s'.
Proof.
  unfold try_snapshot, ilift, ipanic. destruct (dec_without_ss s) as [ld|]; [|discriminate].
  assert (Main : forall new, (if i_comp s <? new then
          match create_snapshot s new with
          | CPanic => Panic (i_tr s)
          | CErr e => Ok (s, Some e)
          | COk sn =>
              m <- (match ms_write (i_st s) [OpTrim new; OpSetComp new; OpSetSnapshot (Some sn)] with Some a => Ok a | None => Panic (i_tr s) end) ;;
              let s := put_st s m in Ok (set_ca s (c_set_comp (i_ca s) new), None)
          end else Ok (s, None)) = Ok (s', r) -> prom_kept s s').
  { intros new. unfold prom_kept. destruct (i_comp s <? new); [|intros X; injection X as <- _; auto]. destruct (create_snapshot s new); [|intros X; injection X as <- _; auto|discriminate].
    match goal with |- context [ms_write ?a ?b] => destruct (ms_write a b) eqn:Hw end; cbn [bind]; [|discriminate]; intros X; injection X as <- _; apply write_fields in Hw; destruct Hw as (W & _); split; [reflexivity|exact W]. }
  cbn zeta. destruct i as [i|]; [|apply Main]. destruct (Nat.compare i (i_dec s)); [apply Main|apply Main|intros X; injection X as <- _; split; reflexivity].
Qed.
Definition allowed b := prim (fun _ _ _ => True) (fun _ => True) True True True True True (upto b).
Lemma pb_prim b x y : PB b x -> allowed b x y -> PB b y.
Proof.
  intros HB H. destruct H as [s c|s es|s ss Hp Hn Hb|s ss s' a Hp He|s n HPR Hn|s e Hd Hc|s n e sy s' a Ha He|s n e sy s' a Hl Hm He|s i s' r Ht He|s i s' r Hs He].
  - exact HB.
  - apply (pb_kept b s); [split; reflexivity|exact HB].
  - apply (pb_kept b s); [|exact HB]. unfold i_append_stopsign, cache_append_stopsign. cbn. rewrite Hb. split; reflexivity.
  - apply (pb_kept b s); [|exact HB]. unfold i_set_stopsign in He. destruct (c_ss (i_ca s)); cbn in He; injection He as <- _; split; reflexivity.
  - split; exact HPR.
  - apply (pb_kept b s); [split; reflexivity|exact HB].
  - apply (pb_kept b s); [eapply sync_prom; eauto|exact HB].
  - apply (pb_kept b s); [eapply sync_prom; eauto|exact HB].
  - apply (pb_kept b s); [eapply trim_prom; eauto|exact HB].
  - apply (pb_kept b s); [eapply snap_prom; eauto|exact HB].
Qed.

(** ** One call *)

(** The part of [on_top] about one server. *)
Definition top_at (b : ballot) (o : omni) : Prop :=
  upto b (own_ballot o) /\ upto b (election_view o) /\ upto b (get_promise o) /\
  (forall r, In r (replies o) -> backs b r) /\ (forall f t r, In (mkBM f t (HbReply r)) (e_out (o_ble o)) -> backs b r).
Definition lead_at (b : ballot) (o : omni) : Prop := own_ballot o = b /\ election_view o = b /\ e_happy (o_ble o) = true.
(** What the calls need. *)
Definition fine (b : ballot) (o : omni) (c : call) : Prop :=
  match c with
  | CTick => election_due o ->
      if e_pid (o_ble o) =? b_pid b then quorum_ok (o_ble o) (role_of o) (length (replies o) + 1) = true
      else exists r, In r (replies o) /\ hr_ballot r = b
  | CTryLeader | CSetPriority _ => False
  | CHandle (MsgSP m) => forall n d na ac, pm_msg m = MPrepare n d na ac -> upto b n
  | CHandle (MsgBLE m) => forall f t r, m = mkBM f t (HbReply r) -> backs b r
  | _ => True
  end.
Record node_top (b : ballot) (o : omni) : Prop := {
  nt_top : top_at b o;
  nt_pid : b_pid (own_ballot o) = e_pid (o_ble o);
  nt_prom : get_promise o = promised (storage o);
  nt_lead : e_pid (o_ble o) = b_pid b -> lead_at b o
}.
Lemma tick_top b o : node_top b o -> fine b o CTick -> election_due o ->
  let x := hb_timeout (o_ble o) (role_of o) (get_promise o) in
  e_ballot (fst x) = own_ballot o /\ e_leader (fst x) = b /\ e_happy (fst x) = true /\ forall n, snd x = Some n -> n = b.
Proof.
  intros [(T1 & T2 & T3 & T4 & T5) HP HQ HL] Hf Hd. specialize (Hf Hd). apply hb_top; auto.
  - intros e. destruct (HL e) as (L1 & L2 & _). rewrite e, Nat.eqb_refl in Hf. auto.
  - intros n. apply Nat.eqb_neq in n. rewrite n in Hf. exact Hf.
Qed.
Lemma may_top b o c : node_top b o -> fine b o c ->
  may_call (fun _ _ _ => True) (fun _ => True) True True True True True (upto b) o c.
Proof.
  intros HN Hf. destruct c as [e|cc0 meta| |i|i l|q| |q|[m|m]]; cbn in *; auto; try contradiction.
  - intros n [Hd Hn]. rewrite clock_due in Hd. apply Nat.eqb_eq in Hd. destruct (tick_top b o HN Hf Hd) as (_ & _ & _ & H). rewrite (H n Hn). right; reflexivity.
  - unfold may_handle. destruct (pm_msg m) as [| | | | | | | | |cp| |] eqn:Hm; auto; [eapply Hf; eauto|destruct cp; auto].
Qed.
Lemma prom_top b o c o' r : node_top b o -> fine b o c -> exec o c = Ok (o', r) -> upto b (get_promise o').
Proof.
  intros HN Hf He. destruct (exec_prims _ (fun _ => True) _ _ _ _ _ _ o c o' r I (may_top b o c HN Hf) I He) as [Hp _].
  apply (prims_inv _ _ _ _ _ _ _ _ (PB b) (pb_prim b) _ _ Hp). destruct HN as [(_ & _ & T & _) _ Q _]. split; [exact T|]. change (upto b (promised (storage o))). rewrite <- Q. exact T.
Qed.
Lemma crash_top b o c st : node_top b o -> fine b o c -> In st (crash_points o c) -> upto b (promised st).
Proof.
  intros HN Hf Hin. destruct HN as [(T1 & T2 & T & T4) P Q L] eqn:HE.
  destruct (crash_prims _ (fun _ => True) _ _ _ _ _ _ o c st I (may_top b o c HN Hf) I Hin) as [->|(is & Hp & Hi)]; [rewrite <- Q; exact T|].
  assert (HB : PB b (s_is (o_sp (start_call o)))). { split; [exact T|]. change (upto b (promised (storage o))). rewrite <- Q. exact T. }
  destruct (prims_tr _ _ _ _ _ _ _ _ (PB b) _ _ (pb_prim b) Hp HB eq_refl) as [_ X]. destruct (X st Hi) as (y & [_ Y] & <-). exact Y.
Qed.
Lemma exec_top b o c o' r : node_top b o -> fine b o c -> exec o c = Ok (o', r) ->
  top_at b o' /\ (e_pid (o_ble o) = b_pid b -> lead_at b o') /\ own_ballot o' = own_ballot o /\
  (election_view o = b -> election_view o' = b) /\ (c = CTick -> election_due o -> election_view o' = b).
Proof.
  intros HN Hf He. pose proof (prom_top b o c o' r HN Hf He) as HP'. pose proof HN as [(T1 & T2 & T3 & T4 & T5) P Q L]. apply exec_ble in He.
  assert (Same : o_ble o' = o_ble o -> top_at b o' /\ (e_pid (o_ble o) = b_pid b -> lead_at b o') /\ own_ballot o' = own_ballot o /\ (election_view o = b -> election_view o' = b)).
  { intros X. unfold top_at, lead_at, own_ballot, election_view, replies in *. rewrite X. auto 10. }
  destruct c as [e|cc0 meta| |i|i l|q| |q|[m|m]]; try contradiction; try (destruct (Same He) as (S1 & S2 & S3 & S4); split; [exact S1|]; split; [exact S2|]; split; [exact S3|]; split; [exact S4|discriminate]).
  - unfold due in He. destruct (Nat.eqb_spec (lc_time (o_eclk o) + 1) (lc_timeout (o_eclk o))) as [Hd|Hd].
    2: { destruct (Same He) as (S1 & S2 & S3 & S4). split; [exact S1|]. split; [exact S2|]. split; [exact S3|]. split; [exact S4|]. intros _ X. contradiction. }
    destruct (tick_top b o HN Hf Hd) as (X1 & X2 & X3 & _). destruct (hb_shape (o_ble o) (role_of o) (get_promise o)) as (b0 & E0 & E1 & E2 & E3). rewrite E0 in *. clear E0.
    unfold top_at, lead_at, own_ballot, election_view, replies in *. rewrite He. rewrite X1, X2, X3, E1, E3. split; [|split; [intros e; split; [apply (L e)|auto]|auto]]. split; [auto|]. split; [right; reflexivity|]. split; [auto|]. split; [intros r0 []|].
    intros f t r0 Hin. apply in_app_or in Hin. destruct Hin as [Hin|Hin]; [eapply T5; eauto|]. apply in_map_iff in Hin. destruct Hin as (y & Y & _). discriminate.
  - cbn in Hf. unfold ble_handle in He. destruct m as [f t [k|k]]; cbn [bm_msg] in He.
    + unfold top_at, lead_at, own_ballot, election_view, replies, handle_request in *. rewrite He. cbn [e_ballot e_leader e_happy e_out e_replies e_set_out e_set_round].
      split; [|split; [auto|]; split; [auto|]; split; [auto|discriminate]]. split; [auto|]. split; [auto|]. split; [auto|]. split; [auto|].
      intros f0 t0 r0 Hin. apply in_app_or in Hin. destruct Hin as [Hin|[X|[]]]; [eapply T5; eauto|]. injection X as _ _ <-. split; [exact T1|]. split; [exact T2|]. intros X. cbn in X. apply L. unfold own_ballot in P. rewrite <- P. cbn. congruence.
    + unfold handle_reply in He. destruct (_ && _); [|destruct (Same He) as (S1 & S2 & S3 & S4); split; [exact S1|]; split; [exact S2|]; split; [exact S3|]; split; [exact S4|discriminate]].
      unfold top_at, lead_at, own_ballot, election_view, replies in *. rewrite He. cbn [e_ballot e_leader e_happy e_out e_replies e_set_replies e_set_round].
      split; [|split; [auto|]; split; [auto|]; split; [auto|discriminate]]. split; [auto|]. split; [auto|]. split; [auto|]. split; [|auto].
      intros r0 Hin. apply in_app_or in Hin. destruct Hin as [Hin|[X|[]]]; [auto|]. subst r0. eapply Hf; eauto.
Qed.

(** A restarted server. *)
Lemma build_top b cc sc st o : 2 <= b_n b -> upto b (promised st) -> build cc sc st = BOk o -> top_at b o.
Proof.
  intros Hn Hp. unfold build. destruct (config_validate cc sc); [|discriminate]. destruct (sp_with _ _ _ _ _) as [x|] eqn:Hw; [|discriminate]. intros X. injection X as <-.
  assert (Hpr : upto b (i_prom (s_is x))).
  { unfold sp_with in Hw. destruct (peers_of cc (sc_pid sc)); [discriminate|]. unfold promised in Hp. destruct (ms_prom st); injection Hw as <-; exact Hp. }
  assert (Hlt : forall n prio, n < 2 -> upto b (mkB (cc_id cc) n prio (sc_pid sc))).
  { intros n prio Hx. left. apply blt_spec. unfold bal_lt. cbn. lia. }
  unfold top_at, own_ballot, election_view, replies, get_promise. cbn [o_ble o_sp]. unfold ble_with.
  assert (Hout : forall l f t r, In (mkBM f t (HbReply r)) ([] ++ map (fun p => mkBM (sc_pid sc) p (HbRequest (0 + 1))) l) -> backs b r).
  { intros l f t r Hin. apply in_map_iff in Hin. destruct Hin as (y & Y & _). discriminate. }
  unfold promised in Hp. destruct (ms_prom st) as [v|]; [destruct (negb (beq v bdef))|]; cbn [new_hb_round e_set_round e_ballot e_leader e_replies e_out e_round e_pid e_peers];
    (split; [apply Hlt; unfold recovery_round, initial_round; lia|]; split; [first [exact Hp|apply Hlt; unfold initial_round; lia]|]; split; [exact Hpr|]; split; [intros r []|]; apply Hout).
Qed.

(** ** The role of the leader *)

Section Role.
Context (s0 : sp).
(** Still leader, and not back in the prepare phase. *)
Definition rk (s : sp) : Prop := s_role s = Leader /\ (s_phase s = s_phase s0 \/ s_phase s = PhAccept).
Definition rkr (r : res sp) : Prop := match r with Ok s => rk s | Panic _ => True end.
Lemma rk_lift {B} s (o : option B) (f : B -> res sp) : (forall x, rkr (f x)) -> rkr (bind (lift s o) f).
Proof. intros H. destruct o; cbn; auto. Qed.
Lemma rk_each f l : (forall s p, rk s -> rkr (f s p)) -> forall s, rk s -> rkr (for_each s l f).
Proof. intros H. induction l as [|p l IH]; cbn; intros s K; auto. pose proof (H s p K) as X. destruct (f s p); cbn in *; auto. Qed.
Lemma rk_push_all m l : forall s, rk s -> rk (push_all s l m).
Proof. unfold push_all. induction l as [|p l IH]; cbn; intros s H; auto. Qed.
Lemma rk_mod s k f : rk s -> rk (mod_accdec s k f).
Proof. intros H. unfold mod_accdec. destruct (nth_error _ _); auto. Qed.
Lemma rk_reply s n a : rk s -> rkr (reply_accepted s n a).
Proof. intros H. unfold reply_accepted. apply rk_lift. intros [k|]; [apply rk_mod; exact H|exact H]. Qed.
Lemma rk_ad s es : rk s -> rkr (send_acceptdecide s es).
Proof.
  intros H. unfold send_acceptdecide. apply rk_lift. intros l. apply rk_each; auto. intros s1 p H1. unfold send_acceptdecide_to. apply rk_lift. intros [k|]; [apply rk_mod; exact H1|]. apply rk_lift. intros l1. apply rk_lift. intros [l2 q]. exact H1.
Qed.
Lemma rk_accept_entry s e : rk s -> rkr (accept_entry_leader s e).
Proof. intros H. unfold accept_entry_leader. destruct (append_entry_with_batching _ _) as [is [[a es]|]]; [|exact H]. apply rk_lift. intros l. apply rk_ad. exact H. Qed.
Lemma rk_accept_entries s e : rk s -> rkr (accept_entries_leader s e).
Proof. intros H. unfold accept_entries_leader. destruct (append_entries_with_batching _ _) as [is [[a es]|]]; [|exact H]. apply rk_lift. intros l. apply rk_ad. exact H. Qed.
Lemma rk_accept_ss s ss : rk s -> rkr (accept_stopsign_leader s ss).
Proof.
  intros H. unfold accept_stopsign_leader. destruct (i_append_stopsign _ _) as [is r].
  match goal with |- rkr (bind ?e _) => assert (X : rkr e); [|destruct e as [s1|]; [|exact I]] end.
  { destruct r as [[a es]|]; [apply rk_ad; exact H|exact H]. }
  cbn [bind]. apply rk_lift. intros l. apply rk_lift. intros ps. apply rk_each; [|exact X]. intros s2 p H2. unfold send_accept_stopsign. apply rk_lift. intros [l2 q]. exact H2.
Qed.
Lemma rk_accsync s p : rk s -> rkr (send_accsync s p).
Proof. intros H. unfold send_accsync. do 4 (apply rk_lift; intros ?). apply rk_lift. intros [l q]. exact H. Qed.
Lemma rk_majority s : s_role s = Leader -> rkr (handle_majority_promises s).
Proof.
  intros H. unfold handle_majority_promises. destruct (take_max_promise_sync _) as [ls sy]. destruct (sync_log _ _ _ _) as [[is acc]|]; [|exact I]. cbn [bind].
  match goal with |- rkr (let '(_, _) := ?e in _) => destruct e as [s1 acc1] end. apply rk_lift. intros l. apply rk_lift. intros ps. apply rk_each; [intros; apply rk_accsync; auto|]. split; [reflexivity|right; reflexivity].
Qed.
Lemma rk_accepted s n a from : rk s -> rkr (handle_accepted s n a from).
Proof.
  intros H. unfold handle_accepted. destruct (_ && _); [|exact H]. apply rk_lift. intros l. cbn zeta. destruct (_ && _); [|exact H]. apply rk_lift. intros ps. apply rk_each; [|exact H]. intros s1 p H1. unfold handle_accepted_to. apply rk_lift. intros [k|]; [apply rk_mod; exact H1|].
  unfold send_decide. apply rk_lift. intros [l2 q]. exact H1.
Qed.
Lemma rk_forward s es : rk s -> rk (forward_proposals s es).
Proof. intros H. unfold forward_proposals. destruct (_ && _); exact H. Qed.
Lemma rk_forward_ss s ss : rk s -> rk (forward_stopsign s ss).
Proof. intros H. unfold forward_stopsign. destruct (_ && _); [exact H|]. destruct (s_bss s); exact H. Qed.
(** A server that is the leader it has promised to. *)
Definition own_leader (s : sp) : Prop := sp_leader s = s_pid s.
Lemma rk_reconnected s p : own_leader s -> rk s -> rk (reconnected s p).
Proof. intros Ho H. unfold reconnected. rewrite Ho. destruct (p =? s_pid s); exact H. Qed.
Lemma rk_valid s n : own_leader s -> rk s -> rk (fst (check_valid_ballot s n)).
Proof. intros Ho H. unfold check_valid_ballot. destruct (bcmp _ _); [exact H|apply rk_reconnected; auto|exact H]. Qed.
Lemma own_valid s n : own_leader s -> own_leader (fst (check_valid_ballot s n)).
Proof. intros Ho. unfold check_valid_ballot. destruct (bcmp _ _); [exact Ho| |exact Ho]. unfold reconnected. destruct (_ =? s_pid s); [exact Ho|]. destruct (_ =? _); exact Ho. Qed.
Lemma rk_seq s q from : own_leader s -> rk s -> rk (fst (handle_sequence_num s q from)).
Proof. intros Ho H. unfold handle_sequence_num. destruct (check_msg_status _ _); [exact H|apply rk_reconnected; auto|exact H]. Qed.
Lemma rk_handle s m : s_phase s0 <> PhRecover -> own_leader s -> rk s -> (forall n d na ac, pm_msg m = MPrepare n d na ac -> bgt n (i_prom (s_is s)) = false) -> rkr (sp_handle s m).
Proof.
  intros Hph Ho H Hp. unfold sp_handle. pose proof H as [Hr Hph2]. destruct (pm_msg m) as [n|n d na ac|pr|n q d sy|n q d es|n a|n|n q d|es|cp|n q ss|ss] eqn:Hm.
  - unfold handle_preparereq. destruct (_ && _); [|exact H]. apply rk_lift. intros l. apply rk_lift. intros l2. exact H.
  - specialize (Hp _ _ _ _ eq_refl). unfold handle_prepare. cbn zeta. rewrite bgt_blt in Hp. rewrite Hp. cbn [orb]. replace (phase_eqb (s_phase s) PhRecover) with false; [rewrite andb_false_r; exact H|].
    destruct Hph2 as [->| ->]; [|reflexivity]. destruct (s_phase s0); auto.
  - rewrite Hr. destruct (s_phase s) eqn:Hs; try exact H.
    + unfold handle_promise_prepare. destruct (beq _ _); [|exact H]. apply rk_lift. intros [ls mj]. destruct mj; [apply rk_majority; exact Hr|exact H].
    + unfold handle_promise_accept. destruct (beq _ _); [|exact H]. apply rk_lift. intros [ls mj]. apply rk_accsync. exact H.
  - unfold handle_acceptsync. pose proof (rk_valid s n Ho H) as X. destruct (check_valid_ballot s n) as [s1 v]. cbn [fst] in X. rewrite (proj1 X). rewrite andb_false_r. exact X.
  - unfold handle_acceptdecide. pose proof (rk_valid s n Ho H) as X. destruct (check_valid_ballot s n) as [s1 v]. cbn [fst] in X. rewrite (proj1 X). rewrite andb_false_r. exact X.
  - apply rk_accepted; exact H.
  - unfold handle_notaccepted. destruct (_ && _); [|exact H]. apply rk_lift. intros l. exact H.
  - unfold handle_decide. pose proof (rk_valid s n Ho H) as X. pose proof (own_valid s n Ho) as Y. destruct (check_valid_ballot s n) as [s1 v]. cbn [fst] in X, Y. destruct (_ && _); [|exact X].
    pose proof (rk_seq s1 q (b_pid n) Y X) as Z. destruct (handle_sequence_num _ _ _) as [s2 st]. cbn [fst] in Z. destruct st; try exact Z. unfold update_decided. destruct (_ <=? _); [exact Z|]. destruct (_ <? _); [|exact Z]. destruct (flush_batch _) as [is acc]. apply rk_reply. exact Z.
  - unfold handle_forwarded_proposal. destruct (accepted_reconfiguration s); [exact H|]. rewrite Hr. destruct (s_phase s); try (apply rk_forward; exact H); [exact H|apply rk_accept_entries; exact H].
  - unfold handle_compaction, sp_snapshot. destruct cp as [i|i].
    + destruct (try_trim _ _) as [[is r]|]; exact I || exact H.
    + destruct (try_snapshot _ _) as [[is r]|]; [|exact I]. destruct r; exact H.
  - unfold handle_accept_stopsign. pose proof (rk_valid s n Ho H) as X. destruct (check_valid_ballot s n) as [s1 v]. cbn [fst] in X. rewrite (proj1 X). rewrite andb_false_r. exact X.
  - unfold handle_forwarded_stopsign. destruct (accepted_reconfiguration s); [exact H|]. rewrite Hr. destruct (s_phase s); try (apply rk_forward_ss; exact H); [exact H|apply rk_accept_ss; exact H].
Qed.
End Role.

(** The leader of [b]: it has promised [b] and is in one of the two leader states. *)
Definition leads (b : ballot) (o : omni) : Prop :=
  get_promise o = b /\ own_pid o = b_pid b /\ fst (role_of o) = Leader /\ snd (role_of o) <> PhRecover.
Lemma exec_leads b o c o' r : node_top b o -> fine b o c -> leads b o -> exec o c = Ok (o', r) ->
  fst (role_of o') = Leader /\ (snd (role_of o') = snd (role_of o) \/ snd (role_of o') = PhAccept).
Proof.
  intros HN Hf (L1 & L2 & L3 & L4) He. unfold role_of in *. cbn [fst snd] in *. change (rk (o_sp o) (o_sp o')).
  set (x := o_sp (start_call o)). assert (K : rk (o_sp o) x) by (split; [exact L3|left; reflexivity]).
  assert (Ho : own_leader x). { unfold own_leader. change (b_pid (get_promise o) = own_pid o). congruence. }
  unfold exec in He. destruct c as [e|cc0 meta| |i|i l|q| |q|[m|m]]; try contradiction; cbn [exec_call] in He.
  - fold x in He. unfold sp_append, propose_entry in He. destruct (accepted_reconfiguration x); [injection He as <- _; exact K|]. rewrite (proj1 K) in He.
    destruct (s_phase x); cbn [bind] in He; try (injection He as <- _; cbn [o_sp set_sp]; first [apply rk_forward; exact K|exact K]).
    pose proof (rk_accept_entry _ x e K) as X. destruct (accept_entry_leader x e); cbn [bind] in He; [|discriminate]. injection He as <- _. exact X.
  - unfold reconfigure in He. destruct (cluster_validate cc0); [|injection He as <- _; exact K]. fold x in He. unfold sp_reconfigure in He. destruct (accepted_reconfiguration x); [injection He as <- _; exact K|]. rewrite (proj1 K) in He. cbn zeta in He.
    destruct (s_phase x); cbn [bind] in He; try (injection He as <- _; cbn [o_sp set_sp]; first [apply rk_forward_ss; exact K|exact K]).
    pose proof (rk_accept_ss _ x (mkSS cc0 meta) K) as X. destruct (accept_stopsign_leader x _); cbn [bind] in He; [|discriminate]. injection He as <- _. exact X.
  - destruct (tick (start_call o)) as [o1|] eqn:Ht; [|discriminate]. injection He as <- _. apply tick_parts in Ht. destruct Ht as (s & Hs & (_ & _ & R1 & R2 & _)). fold x in Hs.
    assert (Es : s = x).
    { change (o_eclk (start_call o)) with (o_eclk o) in Hs. change (o_ble (start_call o)) with (o_ble o) in Hs. destruct (due (o_eclk o)) eqn:Hd; [|tauto]. apply Nat.eqb_eq in Hd.
      destruct (tick_top b o HN Hf Hd) as (_ & _ & _ & Hb). change (s_role x, s_phase x) with (role_of o) in Hs. change (sp_promise x) with (get_promise o) in Hs.
      destruct (hb_timeout _ _ _) as [b1 [n|]]; [|tauto]. cbn [snd] in Hb. rewrite (Hb n eq_refl) in Hs. destruct Hs as [_ Hs]. unfold handle_leader in Hs. change (i_prom (s_is x)) with (get_promise o) in Hs. rewrite L1, ble_refl, orb_true_r in Hs. injection Hs as <-. reflexivity. }
    subst s. split; [rewrite R1; exact L3|]. left. rewrite R2; [reflexivity|exact L3].
  - fold x in He. unfold sp_trim in He. rewrite (proj1 K) in He. destruct (get_min_all_accepted_idx (s_ls x)); cbn [lift bind] in He; [|discriminate].
    assert (Main : forall i, match (bind (bind (try_trim (s_is x) i) (fun '(is, r) => let s := set_is x is in match r with None => Ok (push_all s (s_peers s) (MCompaction (CmpTrim i)), None) | Some e => Ok (s, Some e) end)) (fun '(s, r) => Ok (set_sp (start_call o) s, RCompact r))) with Ok (o1, _) => rk (o_sp o) (o_sp o1) | Panic _ => True end).
    { intros k. destruct (try_trim (s_is x) k) as [[is [e|]]|]; cbn [bind]; [exact K|apply rk_push_all; exact K|exact I]. }
    destruct i as [i|]; [destruct (i <=? n)|].
    + specialize (Main i). cbn zeta in Main. rewrite He in Main. exact Main.
    + injection He as <- _. exact K.
    + specialize (Main n). cbn zeta in Main. rewrite He in Main. exact Main.
  - fold x in He. unfold sp_snapshot in He. destruct (try_snapshot _ _) as [[is [e|]]|]; cbn [bind] in He; [| |discriminate]; injection He as <- _; [exact K|]. destruct l; [exact K|apply rk_push_all; exact K].
  - injection He as <- _. apply rk_reconnected; [exact Ho|exact K].
  - unfold handle_incoming in He. fold x in He. pose proof (rk_handle (o_sp o) x m L4 Ho K) as X. destruct (sp_handle x m); cbn [bind] in He; [|discriminate]. injection He as <- _. apply X.
    intros n d na ac Hm. cbn in Hf. change (i_prom (s_is x)) with (get_promise o). rewrite L1. apply upto_bgt. eapply Hf; eauto.
  - injection He as <- _. exact K.
Qed.

(** ** The cluster *)

Section Cluster.
Context (cc : cluster_config) (Hv : cluster_validate cc = true) (H0 : ~ In 0 (cc_nodes cc)).

(** Messages in transit come from servers that are there. *)
Definition present (s : sys) : Prop := forall q r m, In m (net s q r) -> nodes s q <> None.

Lemma node_is_top G s b q o : SysInv cc G s -> on_top b s -> nodes s q = Some o -> node_top b o.
Proof.
  intros HS HT N. destruct (y_ble _ _ _ HS q o N) as (B1 & B2 & _). constructor.
  - exact (top_node b s HT q o N).
  - unfold own_ballot. congruence.
  - exact (co_prom _ _ (n_coh _ _ _ _ (node_inv cc G s q o HS N))).
  - intros e. apply (top_leader b s HT). congruence.
Qed.

(** A Prepare in transit is of a ballot that its sender has promised. *)
Lemma prepare_top G s b src q m n d na ac : SysInv cc G s -> present s -> on_top b s -> In (MsgSP m) (net s src q) -> pm_msg m = MPrepare n d na ac -> upto b n.
Proof.
  intros HS Hpr HT Hin Hm. destruct (y_net _ _ _ HS _ _ _ Hin) as (_ & Hne & Hsrc). destruct (y_link _ _ _ HS src q Hne) as [(A & _) _].
  assert (Hl : In (MPrepare n d na ac) (vlink s src q)). { unfold vlink. apply in_or_app. left. unfold pmsgs. apply in_flat_map. exists (MsgSP m). split; [exact Hin|]. left. exact Hm. }
  rewrite Forall_forall in A. destruct (A _ Hl) as [_ [Hp Hc]]. pose proof (y_G _ _ _ HS) as HG.
  assert (HC : exists x, gC G n = Some x).
  { destruct Hc as [Hc|[_ Hc]]; [eauto|]. destruct (g_est _ _ HG n Hc) as [_ X]; [|destruct (gC G n); [eauto|contradiction]]. intros ->. cbn in Hp. subst src. contradiction. }
  destruct HC as (((na' & ac') & d') & HC). destruct (g_cand _ _ HG _ _ _ _ HC) as ((X & _) & _). rewrite Hp in X.
  destruct (nodes s src) as [o|] eqn:N; [|elim (Hpr src q _ Hin N)].
  destruct (top_node b s HT src o N) as (_ & _ & T & _). pose proof (node_inv cc G s src o HS N) as HN. pose proof (co_prom _ _ (n_coh _ _ _ _ HN)) as Y. pose proof (st_prom _ _ _ _ (n_st _ _ _ _ HN)) as Z.
  apply (upto_trans b n (gP G src)); [exact X|]. rewrite <- Z, <- Y. exact T.
Qed.

Lemma event_fine G s b a q ev o c : SysInv cc G s -> present s -> on_top b s -> heard b s a -> undisturbed b a -> action_event a = Some (q, ev) ->
  nodes s q = Some o -> event_call s q ev = Some c -> fine b o c.
Proof.
  intros HS Hpr HT Hh [Hu _] Ha N Hc. unfold heard in Hh. rewrite Ha in *. destruct (y_ble _ _ _ HS q o N) as (B1 & _).
  destruct ev as [c0|src k]; cbn in Hc.
  - destruct c0; try discriminate; injection Hc as <-; unfold fine; auto.
    intros Hd. specialize (Hh o N Hd). rewrite B1. destruct (q =? b_pid b); [|exact Hh]. unfold quorum_ok, write_quorum, read_quorum, is_accept_quorum, is_prepare_quorum in *.
    destruct (role_of o) as [[|] [| | |]]; cbn [fst snd role_eqb phase_eqb andb] in Hh; destruct (e_quorum (o_ble o)); apply Nat.leb_le; exact Hh.
  - destruct (nth_error (net s src q) k) as [m|] eqn:Hn; [|discriminate]. injection Hc as <-. apply nth_error_In in Hn. destruct m as [m|m]; cbn.
    + intros n d na ac Hm. eapply prepare_top; eauto.
    + intros f t r ->. eapply (top_net b s HT); eauto.
Qed.

Lemma event_net_in s p ev a b m : In m (event_net s p ev a b) -> In m (net s a b).
Proof. destruct ev as [c|src k]; cbn; auto. unfold upd2. destruct (_ && _) eqn:X; auto. apply andb_true_iff in X. destruct X as [X1 X2]. apply Nat.eqb_eq in X1, X2. subst. apply remove_nth_in. Qed.

(** The state of one server over a step. *)
Definition stays (b : ballot) (a : action) (q : node_id) (o o' : omni) : Prop :=
  (not_at q a -> own_ballot o' = own_ballot o /\ (election_view o = b -> election_view o' = b)) /\
  (a = ADo q (ECall CTick) -> election_due o -> election_view o' = b).

Lemma stable_step G s a s' b : SysInv cc G s -> present s -> on_top b s -> heard b s a -> undisturbed b a -> exec_action cc s a = Some s' ->
  on_top b s' /\ forall q o, nodes s q = Some o -> exists o', nodes s' q = Some o' /\ stays b a q o o'.
Proof.
  intros HS Hpr HT Hh Hu He. destruct a as [p ev|p|src dst k|p ev j sc]; cbn [exec_action] in He.
  - destruct (nodes s p) as [o|] eqn:N; [|discriminate]. destruct (event_call s p ev) as [c|] eqn:Hc; [|discriminate].
    destruct (exec o c) as [[o1 r]|] eqn:Hx; [|discriminate]. injection He as <-.
    pose proof (event_fine G s b _ p ev o c HS Hpr HT Hh Hu eq_refl N Hc) as Hf. destruct (exec_top b o c o1 r (node_is_top G s b p o HS HT N) Hf Hx) as (X1 & X2 & X3 & X4 & X5).
    destruct (y_ble _ _ _ HS p o N) as (B1 & _). split; [constructor; cbn [nodes net]|].
    + intros q oq. unfold upd1. destruct (q =? p); [intros Z; injection Z as <-; exact X1|]. apply (top_node b s HT).
    + intros x y f t rr Hin. apply event_net_in in Hin. eapply (top_net b s HT); eauto.
    + intros oq. unfold upd1. destruct (Nat.eqb_spec (b_pid b) p) as [e|]; [intros Z; injection Z as <-; apply X2; congruence|]. apply (top_leader b s HT).
    + intros q oq Nq. cbn. unfold upd1. destruct (Nat.eqb_spec q p) as [->|Hne].
      * exists o1. split; [reflexivity|]. assert (oq = o) by congruence. subst oq. split; [auto|]. intros Z. injection Z as ->. cbn in Hc. injection Hc as <-. auto.
      * exists oq. split; [exact Nq|]. split; [auto|]. intros Z. injection Z as ->. contradiction.
  - destruct (nodes s p) as [o|] eqn:N; [|discriminate]. destruct (take_outgoing_messages o []) as [o1 l] eqn:Ht. injection He as <-.
    pose proof (top_node b s HT p o N) as (T1 & T2 & T3 & T4 & T5).
    assert (Hl : forall f t r, In (MsgBLE (mkBM f t (HbReply r))) l -> backs b r).
    { intros f t r Hin. destruct (fetch_toks o l o1 Ht) as (_ & _ & _ & sp & ->). apply in_app_or in Hin. destruct Hin as [Hin|Hin].
      - apply in_map_iff in Hin. destruct Hin as (y & Y & _). discriminate.
      - unfold outm in Hin. apply in_map_iff in Hin. destruct Hin as (y & Y & Hin). injection Y as ->. eapply T5; eauto. }
    assert (K : own_ballot o1 = own_ballot o /\ election_view o1 = election_view o /\ get_promise o1 = get_promise o /\ replies o1 = replies o /\ e_out (o_ble o1) = [] /\ e_happy (o_ble o1) = e_happy (o_ble o)).
    { unfold take_outgoing_messages, sp_take_outgoing in Ht. injection Ht as <- _. repeat split. }
    destruct K as (K1 & K2 & K3 & K4 & K5 & K6). split; [constructor; cbn [nodes net]|].
    + intros q oq. unfold upd1. destruct (q =? p); [|apply (top_node b s HT)]. intros Z. assert (oq = o1) by congruence. subst oq. rewrite K1, K2, K3, K4, K5. split; [exact T1|]. split; [exact T2|]. split; [exact T3|]. split; [exact T4|]. intros f t r [].
    + intros x y f t rr. rewrite send_all_net. destruct (x =? p); [|apply (top_net b s HT)]. rewrite in_app_iff, filter_In. intros [Z|[Z _]]; [eapply (top_net b s HT); eauto|eapply Hl; eauto].
    + intros oq. unfold upd1. destruct (Nat.eqb_spec (b_pid b) p) as [e|]; [|apply (top_leader b s HT)]. intros Z. assert (oq = o1) by congruence. subst oq. rewrite K1, K2, K6. apply (top_leader b s HT). congruence.
    + intros q oq Nq. cbn. unfold upd1. destruct (Nat.eqb_spec q p) as [->|Hne].
      * exists o1. split; [reflexivity|]. assert (oq = o) by congruence. subst oq. split; [intros _; rewrite K1, K2; auto|discriminate].
      * exists oq. split; [exact Nq|]. split; [auto|discriminate].
  - injection He as <-. split; [constructor; cbn [nodes net]|].
    + apply (top_node b s HT).
    + intros x y f t rr Hin. unfold upd2 in Hin. destruct (_ && _) eqn:X; [|eapply (top_net b s HT); eauto]. apply remove_nth_in in Hin. eapply (top_net b s HT); eauto.
    + apply (top_leader b s HT).
    + intros q oq Nq. exists oq. split; [exact Nq|]. split; [auto|discriminate].
  - destruct (nodes s p) as [o|] eqn:N; [|discriminate]. destruct (event_call s p ev) as [c|] eqn:Hc; [|discriminate]. destruct (nth_error (crash_points o c) j) as [st|] eqn:Hst; [|discriminate].
    destruct (sc_pid sc =? p); [|discriminate]. destruct (build cc sc st) as [| |o1] eqn:Hb; try discriminate. injection He as <-. apply nth_error_In in Hst.
    pose proof (event_fine G s b _ p ev o c HS Hpr HT Hh Hu eq_refl N Hc) as Hf. pose proof (crash_top b o c st (node_is_top G s b p o HS HT N) Hf Hst) as Hst'. destruct Hu as [_ [Hu1 Hu2]].
    pose proof (build_top b cc sc st o1 Hu2 Hst' Hb) as X1. split; [constructor; cbn [nodes net]|].
    + intros q oq. unfold upd1. destruct (q =? p); [intros Z; injection Z as <-; exact X1|]. apply (top_node b s HT).
    + intros x y f t rr Hin. apply event_net_in in Hin. eapply (top_net b s HT); eauto.
    + intros oq. unfold upd1. destruct (Nat.eqb_spec (b_pid b) p) as [e|]; [congruence|]. apply (top_leader b s HT).
    + intros q oq Nq. cbn. unfold upd1. destruct (Nat.eqb_spec q p) as [->|Hne].
      * exists o1. split; [reflexivity|]. split; [|discriminate]. intros Z. cbn in Z. contradiction.
      * exists oq. split; [exact Nq|]. split; [auto|discriminate].
Qed.

(** The role of the leader over a step. *)
Definition role_stays (o o' : omni) : Prop := fst (role_of o') = Leader /\ (snd (role_of o) = PhAccept -> snd (role_of o') = PhAccept).
Lemma leads_step G s a s' b o : SysInv cc G s -> present s -> on_top b s -> heard b s a -> undisturbed b a -> exec_action cc s a = Some s' ->
  nodes s (b_pid b) = Some o -> get_promise o = b -> fst (role_of o) = Leader -> exists o', nodes s' (b_pid b) = Some o' /\ role_stays o o'.
Proof.
  intros HS Hpr HT Hh Hu He N Hp Hr. assert (Same : role_stays o o) by (split; auto).
  assert (HL : leads b o).
  { pose proof (node_inv cc G s _ o HS N) as HN. split; [exact Hp|]. split; [exact (n_pid _ _ _ _ HN)|]. split; [exact Hr|]. pose proof (n_role _ _ _ _ HN) as X. unfold role_of in *. cbn [fst snd] in *. rewrite Hr in X. intros Y. rewrite Y in X. exact X. }
  destruct a as [p ev|p|src dst k|p ev j sc]; cbn [exec_action] in He.
  - destruct (nodes s p) as [o1|] eqn:N1; [|discriminate]. destruct (event_call s p ev) as [c|] eqn:Hc; [|discriminate].
    destruct (exec o1 c) as [[o2 r]|] eqn:Hx; [|discriminate]. injection He as <-. cbn [nodes]. unfold upd1. destruct (Nat.eqb_spec (b_pid b) p) as [e|]; [|exists o; split; auto].
    assert (o1 = o) by congruence. subst o1. exists o2. split; [reflexivity|]. rewrite e in N.
    pose proof (event_fine G s b _ p ev o c HS Hpr HT Hh Hu eq_refl N Hc) as Hf. destruct (exec_leads b o c o2 r (node_is_top G s b p o HS HT N) Hf HL Hx) as [X1 X2]. split; [exact X1|]. intros Y. destruct X2 as [X2|X2]; congruence.
  - destruct (nodes s p) as [o1|] eqn:N1; [|discriminate]. destruct (take_outgoing_messages o1 []) as [o2 l] eqn:Ht. injection He as <-. cbn [nodes]. unfold upd1. destruct (Nat.eqb_spec (b_pid b) p) as [e|]; [|exists o; split; auto].
    assert (o1 = o) by congruence. subst o1. exists o2. split; [reflexivity|]. unfold take_outgoing_messages, sp_take_outgoing in Ht. injection Ht as <- _. exact Same.
  - injection He as <-. exists o. split; auto.
  - destruct (nodes s p) as [o1|] eqn:N1; [|discriminate]. destruct (event_call s p ev) as [c|] eqn:Hc; [|discriminate]. destruct (nth_error (crash_points o1 c) j) as [st|] eqn:Hst; [|discriminate].
    destruct (sc_pid sc =? p); [|discriminate]. destruct (build cc sc st) as [| |o2] eqn:Hb; try discriminate. injection He as <-. destruct Hu as [_ [Hu _]]. cbn [nodes]. unfold upd1. destruct (Nat.eqb_spec (b_pid b) p) as [e|]; [congruence|]. exists o. split; auto.
Qed.
Lemma prom_step G s a s' b q o : SysInv cc G s -> on_top b s' -> exec_action cc s a = Some s' -> nodes s q = Some o -> server_state o -> get_promise o = b ->
  exists o', nodes s' q = Some o' /\ get_promise o' = b /\ server_state o'.
Proof.
  intros HS HT He N Hss Hp. assert (R : run cc s [a] = Some s') by (cbn; rewrite He; reflexivity). destruct (run_lives cc [a] s s' q o R N) as (o' & N' & Hl).
  exists o'. split; [exact N'|]. split.
  - apply upto_top; [apply (top_node b s' HT q o' N')|]. rewrite <- Hp. apply C10_promise_never_decreases; auto.
  - destruct Hss as (c1 & sc & o0 & B & L). exists c1, sc, o0. split; [exact B|]. clear -L Hl. induction Hl as [|x y z L1 IH St]; [exact L|]. exact (lv_step _ _ _ (IH L) St).
Qed.

Lemma present_step s a s' : present s -> exec_action cc s a = Some s' -> present s'.
Proof.
  intros H He q r m Hin. assert (R : run cc s [a] = Some s') by (cbn; rewrite He; reflexivity).
  assert (K : nodes s q <> None -> nodes s' q <> None). { destruct (nodes s q) as [o|] eqn:N; [|contradiction]. destruct (run_lives cc [a] s s' q o R N) as (o' & N' & _). rewrite N'. discriminate. }
  destruct a as [p ev|p|src dst k|p ev j sc]; cbn [exec_action] in He.
  - destruct (nodes s p) as [o|]; [|discriminate]. destruct (event_call s p ev) as [c|]; [|discriminate]. destruct (exec o c) as [[o1 x]|]; [|discriminate]. apply K. injection He as <-. apply event_net_in in Hin. eapply H; eauto.
  - destruct (nodes s p) as [o|] eqn:N; [|discriminate]. destruct (take_outgoing_messages o []) as [o1 l] eqn:Ht. apply K. injection He as <-. cbn in Hin. rewrite send_all_net in Hin. destruct (Nat.eqb_spec q p) as [->|]; [congruence|eapply H; eauto].
  - apply K. injection He as <-. cbn in Hin. unfold upd2 in Hin. destruct (_ && _) eqn:X; [|eapply H; eauto]. apply andb_true_iff in X. destruct X as [X _]. apply Nat.eqb_eq in X. subst q. apply remove_nth_in in Hin. eapply H; eauto.
  - destruct (nodes s p) as [o|]; [|discriminate]. destruct (event_call s p ev) as [c|]; [|discriminate]. destruct (nth_error (crash_points o c) j) as [st|]; [|discriminate]. destruct (sc_pid sc =? p); [|discriminate]. destruct (build cc sc st); try discriminate.
    apply K. injection He as <-. apply event_net_in in Hin. eapply H; eauto.
Qed.
Lemma present_run l : forall s s', present s -> run cc s l = Some s' -> present s'.
Proof. induction l as [|a l IH]; cbn; intros s s' H Hr; [injection Hr as <-; exact H|]. destruct (exec_action cc s a) as [s1|] eqn:He; [|discriminate]. apply (IH s1 s'); auto. eapply present_step; eauto. Qed.
Lemma stable_run b l : forall G s s', SysInv cc G s -> present s -> on_top b s -> (forall q o, nodes s q = Some o -> server_state o) ->
  all_steps h1h2 cc s l -> all_steps (heard b) cc s l -> Forall (undisturbed b) l -> run cc s l = Some s' ->
  on_top b s' /\ forall q o, nodes s q = Some o -> exists o', nodes s' q = Some o' /\
    (get_promise o = b -> get_promise o' = b) /\
    (Forall (not_at q) l -> own_ballot o' = own_ballot o /\ (election_view o = b -> election_view o' = b)) /\
    (q = b_pid b -> get_promise o = b -> fst (role_of o) = Leader -> role_stays o o').
Proof.
  induction l as [|a l IH]; intros G s s' HS Hpr HT Hss A1 A2 A3 Hr.
  - injection Hr as <-. split; [exact HT|]. intros q o N. exists o. unfold role_stays. auto 10.
  - cbn in Hr. destruct (exec_action cc s a) as [s1|] eqn:He; [|discriminate]. cbn in A1, A2. rewrite He in A1, A2. destruct A1 as [A1 A1']. destruct A2 as [A2 A2']. inversion A3 as [|? ? A3a A3b]; subst.
    destruct (stable_step G s a s1 b HS Hpr HT A2 A3a He) as [HT1 K]. destruct (step_inv cc Hv H0 G s a s1 HS A1 He) as (G1 & _ & HS1).
    assert (Hss1 : forall q o, nodes s1 q = Some o -> server_state o).
    { intros q o N. destruct (nodes s q) as [o0|] eqn:N0.
      - assert (R : run cc s [a] = Some s1) by (cbn; rewrite He; reflexivity). destruct (run_lives cc [a] s s1 q o0 R N0) as (o' & N' & Hl). assert (o' = o) by congruence. subst o'.
        destruct (Hss q o0 N0) as (c1 & sc & o00 & B & L). exists c1, sc, o00. split; [exact B|]. clear -L Hl. induction Hl as [|x y z L1 IH St]; [exact L|]. exact (lv_step _ _ _ (IH L) St).
      - exfalso. clear -He N0 N. destruct a as [p ev|p|src dst k|p ev j sc]; cbn [exec_action] in He.
        + destruct (nodes s p) as [o1|] eqn:N1; [|discriminate]. destruct (event_call s p ev); [|discriminate]. destruct (exec o1 _) as [[o2 r]|]; [|discriminate]. injection He as <-. cbn in N. unfold upd1 in N. destruct (Nat.eqb_spec q p); congruence.
        + destruct (nodes s p) as [o1|] eqn:N1; [|discriminate]. destruct (take_outgoing_messages o1 []). injection He as <-. cbn in N. unfold upd1 in N. destruct (Nat.eqb_spec q p); congruence.
        + injection He as <-. cbn in N. congruence.
        + destruct (nodes s p) as [o1|] eqn:N1; [|discriminate]. destruct (event_call s p ev); [|discriminate]. destruct (nth_error _ j); [|discriminate]. destruct (_ =? p); [|discriminate]. destruct (build _ _ _); try discriminate. injection He as <-. cbn in N. unfold upd1 in N. destruct (Nat.eqb_spec q p); congruence. }
    destruct (IH G1 s1 s' HS1 (present_step s a s1 Hpr He) HT1 Hss1 A1' A2' A3b Hr) as [HT' K']. split; [exact HT'|].
    intros q o N. destruct (K q o N) as (o1 & N1 & S1 & _). destruct (K' q o1 N1) as (o2 & N2 & P2 & S2 & R2). exists o2. split; [exact N2|].
    assert (P1 : get_promise o = b -> get_promise o1 = b). { intros Hp. destruct (prom_step G s a s1 b q o HS HT1 He N (Hss q o N) Hp) as (o' & N' & X & _). congruence. }
    split; [auto|]. split.
    + intros F. inversion F as [|? ? F1 F2]; subst. destruct (S1 F1) as [X1 X2]. destruct (S2 F2) as [Y1 Y2]. split; [congruence|auto].
    + intros -> Hp Hl. destruct (leads_step G s a s1 b o HS Hpr HT A2 A3a He N Hp Hl) as (o' & N' & X1 & X2). assert (o' = o1) by congruence. subst o'. destruct (R2 eq_refl (P1 Hp) X1) as [Y1 Y2]. split; auto.
Qed.
End Cluster.

(** C48.  From a state in which no server knows a ballot above [b], whatever the cluster does next (within
    H1 and H2): as long as before each election timeout the heartbeats of the leader have arrived, nobody
    takes over, every promise of [b] and every view [b] is kept, the leader stays leader. *)
Theorem C48_heard_leader_is_not_replaced :
  forall cc scs l1 l2 s1 s2 b, good_config cc scs -> reaches cc scs l1 s1 -> run cc s1 l2 = Some s2 ->
  all_steps h1h2 cc (init_sys cc scs) (l1 ++ l2) ->
  on_top b s1 -> all_steps (heard b) cc s1 l2 -> Forall (undisturbed b) l2 ->
  on_top b s2 /\
  forall q o1, nodes s1 q = Some o1 -> exists o2, nodes s2 q = Some o2 /\
    (get_promise o1 = b -> get_promise o2 = b) /\
    ((forall ev j sc, ~ In (ACrash q ev j sc) l2) -> own_ballot o2 = own_ballot o1 /\ (election_view o1 = b -> election_view o2 = b)) /\
    (q = b_pid b -> get_promise o1 = b -> fst (role_of o1) = Leader ->
       fst (role_of o2) = Leader /\ (snd (role_of o1) = PhAccept -> snd (role_of o2) = PhAccept)).
Proof.
  intros cc scs l1 l2 s1 s2 b (Hv & H0 & _) R1 R2 Hl HT Hh Hu. destruct (all_steps_app cc h1h2 l1 l2 _ s1 Hl R1) as [A1 A2].
  destruct (one_moment cc Hv H0 scs l1 s1 A1 R1) as [G HS].
  assert (Hpr : present s1). { apply (present_run cc l1 _ s1) with (2 := R1). intros q r m []. }
  assert (Hss : forall q o, nodes s1 q = Some o -> server_state o) by (intros q o N; eapply cluster_server_state; eauto).
  destruct (stable_run cc Hv H0 b l2 G s1 s2 HS Hpr HT Hss A2 Hh Hu R2) as [X K]. split; [exact X|]. intros q o N. destruct (K q o N) as (o' & N' & K1 & K2 & K3). exists o'. split; [exact N'|]. split; [exact K1|]. split; [|exact K3].
  intros Hc. apply K2. apply Forall_forall. intros a Ha. destruct a as [p ev|p|src dst k|p ev j sc]; cbn; auto. intros ->. exact (Hc ev j sc Ha).
Qed.

(** In such a state an election timeout makes the server regard [b] as the leader; it does not take over. *)
Theorem C48_timeout_takes_up_heard_leader :
  forall cc scs l s b q o o' r, good_config cc scs -> reaches cc scs l s -> all_steps h1h2 cc (init_sys cc scs) l ->
  on_top b s -> nodes s q = Some o -> election_due o -> heard b s (ADo q (ECall CTick)) -> exec o CTick = Ok (o', r) ->
  election_view o' = b /\ own_ballot o' = own_ballot o.
Proof.
  intros cc scs l s b q o o' r (Hv & H0 & _) R Hl HT N Hd Hh He. destruct (one_moment cc Hv H0 scs l s Hl R) as [G HS].
  assert (Hpr : present s). { apply (present_run cc l _ s) with (2 := R). intros x y m []. }
  assert (Hu : undisturbed b (ADo q (ECall CTick))) by (split; exact I).
  pose proof (event_fine cc H0 G s b _ q (ECall CTick) o CTick HS Hpr HT Hh Hu eq_refl N eq_refl) as Hf.
  destruct (exec_top b o CTick o' r (node_is_top cc G s b q o HS HT N) Hf He) as (_ & _ & X & _ & Y). split; [apply Y; auto|exact X].
Qed.
End WithEntry.

(** ** Concrete case *)
Section Checks.
Context {E : EntryT}.

Definition uptob (b x : ballot) : bool := blt x b || beq x b.
Lemma uptob_ok b x : uptob b x = true -> upto b x.
Proof. unfold uptob. intros H. apply orb_true_iff in H. destruct H as [H|H]; [left; exact H|right; apply beq_spec; exact H]. Qed.
Definition backsb (b : ballot) (r : hb_reply) : bool := uptob b (hr_ballot r) && uptob b (hr_leader r) && (negb (beq (hr_ballot r) b) || hr_happy r).
Lemma backsb_ok b r : backsb b r = true -> backs b r.
Proof.
  unfold backsb. intros H. apply andb_true_iff in H. destruct H as [H H3]. apply andb_true_iff in H. destruct H as [H1 H2]. split; [apply uptob_ok; exact H1|]. split; [apply uptob_ok; exact H2|].
  intros e. assert (B : beq (hr_ballot r) b = true) by (apply beq_spec; exact e). rewrite B in H3. exact H3.
Qed.
Definition reply_ok (b : ballot) (m : ble_message) : bool := match bm_msg m with HbReply r => backsb b r | _ => true end.
Definition top_nodeb (b : ballot) (o : omni) : bool :=
  uptob b (own_ballot o) && uptob b (election_view o) && uptob b (get_promise o) && forallb (backsb b) (replies o) && forallb (reply_ok b) (e_out (o_ble o)).
Definition on_topb (b : ballot) (ps : list nat) (s : sys) : bool :=
  forallb (fun q => match nodes s q with
                    | Some o => top_nodeb b o && (negb (q =? b_pid b) || (beq (own_ballot o) b && beq (election_view o) b && e_happy (o_ble o)))
                    | None => true end) ps &&
  forallb (fun p => forallb (fun q => forallb (fun m => match m with MsgBLE x => reply_ok b x | _ => true end) (net s p q)) ps) ps.
Lemma on_topb_ok b ps s : (forall q, ~ In q ps -> nodes s q = None) -> (forall p q, ~ (In p ps /\ In q ps) -> net s p q = []) -> on_topb b ps s = true -> on_top b s.
Proof.
  intros Hn Hq H. unfold on_topb in H. apply andb_true_iff in H. destruct H as [H1 H2]. rewrite forallb_forall in H1, H2.
  assert (Hin : forall q o, nodes s q = Some o -> In q ps). { intros q o N. destruct (in_dec Nat.eq_dec q ps) as [i|i]; [exact i|]. rewrite (Hn q i) in N. discriminate. }
  constructor.
  - intros q o N. specialize (H1 q (Hin q o N)). rewrite N in H1. apply andb_true_iff in H1. destruct H1 as [H1 _]. unfold top_nodeb in H1.
    apply andb_true_iff in H1. destruct H1 as [H1 T5]. apply andb_true_iff in H1. destruct H1 as [H1 T4]. apply andb_true_iff in H1. destruct H1 as [H1 T3]. apply andb_true_iff in H1. destruct H1 as [T1 T2]. rewrite forallb_forall in T4, T5.
    split; [apply uptob_ok; exact T1|]. split; [apply uptob_ok; exact T2|]. split; [apply uptob_ok; exact T3|]. split; [intros r Hr; apply backsb_ok, T4, Hr|]. intros f t r Hr. apply backsb_ok. exact (T5 _ Hr).
  - intros p q f t r Hr. destruct (in_dec Nat.eq_dec p ps) as [i|i]; [|rewrite (Hq p q) in Hr; [destruct Hr|tauto]]. destruct (in_dec Nat.eq_dec q ps) as [j|j]; [|rewrite (Hq p q) in Hr; [destruct Hr|tauto]].
    specialize (H2 p i). rewrite forallb_forall in H2. specialize (H2 q j). rewrite forallb_forall in H2. apply backsb_ok. exact (H2 _ Hr).
  - intros o N. specialize (H1 _ (Hin _ o N)). rewrite N in H1. apply andb_true_iff in H1. destruct H1 as [_ H1]. rewrite Nat.eqb_refl in H1. cbn [negb orb] in H1. apply andb_true_iff in H1. destruct H1 as [H1 X3]. apply andb_true_iff in H1. destruct H1 as [X1 X2].
    split; [apply beq_spec; exact X1|]. split; [apply beq_spec; exact X2|exact X3].
Qed.
Definition quorumb (o : omni) : bool := quorum_ok (o_ble o) (role_of o) (length (replies o) + 1).
Definition heardb (b : ballot) (s : sys) (a : action) : bool :=
  match action_event a with
  | Some (q, ECall CTick) =>
      match nodes s q with
      | Some o => negb (lc_time (o_eclk o) + 1 =? lc_timeout (o_eclk o)) || (if q =? b_pid b then quorumb o else existsb (fun r => beq (hr_ballot r) b) (replies o))
      | None => true
      end
  | _ => true
  end.
Lemma heardb_ok b s a : heardb b s a = true -> heard b s a.
Proof.
  unfold heardb, heard. destruct (action_event a) as [[q [[]|]]|]; auto. intros H o N Hd. rewrite N in H. unfold election_due in Hd. rewrite Hd, Nat.eqb_refl in H. cbn [negb orb] in H. destruct (q =? b_pid b).
  - unfold quorumb, quorum_ok in H. unfold read_quorum, write_quorum. destruct (role_of o) as [[|] [| | |]]; cbn [fst snd role_eqb phase_eqb andb] in *; unfold is_prepare_quorum, is_accept_quorum in H; destruct (e_quorum (o_ble o)); apply Nat.leb_le; exact H.
  - apply existsb_exists in H. destruct H as (r & Hr & e). exists r. split; [exact Hr|apply beq_spec; exact e].
Qed.
Fixpoint heard_run (b : ballot) (cc : cluster_config) (s : sys) (l : list action) : bool :=
  match l with
  | [] => true
  | a :: r => heardb b s a && match exec_action cc s a with Some s' => heard_run b cc s' r | None => true end
  end.
Lemma heard_run_ok b cc l : forall s, heard_run b cc s l = true -> all_steps (heard b) cc s l.
Proof. induction l as [|a l IH]; cbn; intros s H; auto. apply andb_true_iff in H. destruct H as [H1 H2]. split; [apply heardb_ok; exact H1|]. destruct (exec_action cc s a); auto. Qed.
Definition undisturbedb (b : ballot) (a : action) : bool :=
  match action_event a with Some (_, ECall CTryLeader) | Some (_, ECall (CSetPriority _)) => false | _ => true end &&
  match a with ACrash q _ _ _ => negb (q =? b_pid b) && (2 <=? b_n b) | _ => true end.
Lemma undisturbedb_ok b l : forallb (undisturbedb b) l = true -> Forall (undisturbed b) l.
Proof.
  intros H. rewrite forallb_forall in H. apply Forall_forall. intros a Ha. specialize (H a Ha). unfold undisturbedb in H. apply andb_true_iff in H. destruct H as [H1 H2]. split.
  - destruct (action_event a) as [[q [[]|]]|]; auto; discriminate.
  - destruct a; auto. apply andb_true_iff in H2. destruct H2 as [X Y]. split; [apply Nat.eqb_neq, negb_true_iff; exact X|apply Nat.leb_le; exact Y].
Qed.
(** All messages go to servers in [ps]. *)
Fixpoint sent_to (ps : list nat) (cc : cluster_config) (s : sys) (l : list action) : bool :=
  match l with
  | [] => true
  | a :: r =>
      match a with AFetch p => match nodes s p with Some o => forallb (fun m => existsb (Nat.eqb (msg_to m)) ps) (snd (take_outgoing_messages o [])) | None => true end | _ => true end &&
      match exec_action cc s a with Some s' => sent_to ps cc s' r | None => true end
  end.
Lemma sent_to_ok ps cc l : forall s s' q, ~ In q ps -> (forall p, net s p q = []) -> sent_to ps cc s l = true -> run cc s l = Some s' -> forall p, net s' p q = [].
Proof.
  induction l as [|a l IH]; cbn [sent_to run]; intros s s' q Hq Hn H Hr; [injection Hr as <-; exact Hn|]. apply andb_true_iff in H. destruct H as [H1 H2]. destruct (exec_action cc s a) as [s1|] eqn:He; [|discriminate].
  apply (IH s1 s' q Hq) with (2 := H2) (3 := Hr). intros p. destruct (net s1 p q) as [|m w] eqn:Hw; [reflexivity|]. exfalso. assert (Hin : In m (net s1 p q)) by (rewrite Hw; left; reflexivity). clear Hw w.
  destruct a as [x ev|x|src dst k|x ev j sc]; cbn [exec_action] in He.
  - destruct (nodes s x); [|discriminate]. destruct (event_call s x ev); [|discriminate]. destruct (exec _ _) as [[o2 r]|]; [|discriminate]. injection He as <-. apply event_net_in in Hin. rewrite Hn in Hin. destruct Hin.
  - destruct (nodes s x) as [o|]; [|discriminate]. destruct (take_outgoing_messages o []) as [o1 out]. injection He as <-. cbn [net] in Hin. rewrite send_all_net, Hn in Hin. destruct (p =? x); [|destruct Hin]. apply filter_In in Hin. destruct Hin as [Z1 Z2]. cbn [snd] in H1. rewrite forallb_forall in H1. specialize (H1 m Z1).
    apply Nat.eqb_eq in Z2. apply existsb_exists in H1. destruct H1 as (y & Y1 & Y2). apply Nat.eqb_eq in Y2. apply Hq. congruence.
  - injection He as <-. cbn [net] in Hin. unfold upd2 in Hin. destruct (_ && _) eqn:X; [|rewrite Hn in Hin; destruct Hin]. apply andb_true_iff in X. destruct X as [_ X]. apply Nat.eqb_eq in X. subst q. apply remove_nth_in in Hin. rewrite Hn in Hin. destruct Hin.
  - destruct (nodes s x); [|discriminate]. destruct (event_call s x ev); [|discriminate]. destruct (nth_error _ j); [|discriminate]. destruct (_ =? x); [|discriminate]. destruct (build _ _ _); try discriminate. injection He as <-. apply event_net_in in Hin. rewrite Hn in Hin. destruct Hin.
Qed.
Lemma init_top_ok b cc scs l s ps : good_config cc scs -> all_steps h1h2 cc (init_sys cc scs) l -> reaches cc scs l s -> (forall q, In q (cc_nodes cc) -> In q ps) ->
  sent_to ps cc (init_sys cc scs) l = true -> on_topb b ps s = true -> on_top b s.
Proof.
  intros (Hv & H0 & _) Hl R Hps Hs Hb. destruct (one_moment cc Hv H0 scs l s Hl R) as [G HS].
  assert (HN : forall q, ~ In q ps -> nodes s q = None). { intros q Hq. destruct (nodes s q) as [o|] eqn:N; [|reflexivity]. elim Hq. apply Hps. exact (n_in _ _ _ _ (node_inv cc G s q o HS N)). }
  apply (on_topb_ok b ps s HN); [|exact Hb]. intros p q Hpq. destruct (in_dec Nat.eq_dec q ps) as [i|i].
  - assert (Hp : ~ In p ps) by tauto. assert (Hpr : present s). { apply (present_run cc l _ s) with (2 := R). intros x y m []. }
    destruct (net s p q) as [|m w] eqn:Hw; [reflexivity|]. elim (Hpr p q m); [rewrite Hw; left; reflexivity|apply HN, Hp].
  - exact (sent_to_ok ps cc l (init_sys cc scs) s q i (fun _ => eq_refl) Hs R p).
Qed.
End Checks.

Section Case.
Local Existing Instance plain.

(** Three servers, every tick an election timeout.  Server 1 takes over with ballot 2 while the others have
    only their own ballots.  Then the heartbeats arrive, an entry is appended and decided, server 3 restarts,
    and every server has two election timeouts. *)
Definition top48 := mkB 1 2 0 1.
Definition sch48a : list cmd :=
  [ Call 1 CTick; Call 2 CTick; Call 3 CTick; Fetch [1]; Deliver 1 2; Deliver 1 3; Fetch [2; 3]; Deliver 2 1; Deliver 3 1; Call 2 CTick; Call 3 CTick; Call 1 CTick ].
Definition acts48a := Eval vm_compute in acts_of cc3 ini1 sch48a.
Definition sys48a := match run cc3 ini1 acts48a with Some s => s | None => ini1 end.
Lemma reach48a : reaches cc3 scs1 acts48a sys48a.
Proof. apply is_some_eta. vm_compute. reflexivity. Qed.
Definition sch48b : list cmd :=
  [ Settle [1; 2; 3] 3; append 1 7; Call 2 CTick; Call 3 CTick; Call 1 CTick; Do (ACrash 3 (ECall (CAppend (8 : T))) 0 (scs1 3)); Settle [1; 2; 3] 4;
    Call 3 CTick; Call 2 CTick; Call 1 CTick ].
Definition acts48b := Eval vm_compute in acts_of cc3 sys48a sch48b.
Definition sys48b := match run cc3 sys48a acts48b with Some s => s | None => ini1 end.
Lemma run48b : run cc3 sys48a acts48b = Some sys48b.
Proof. apply is_some_eta. vm_compute. reflexivity. Qed.
Lemma good1 : good_config cc3 scs1.
Proof. split; [reflexivity|]. split; [cbn; lia|]. intros p Hp. cbn in Hp. destruct Hp as [<-|[<-|[<-|[]]]]; vm_compute; auto. Qed.
Lemma steps48 : all_steps h1h2 cc3 ini1 (acts48a ++ acts48b).
Proof. apply h1h2_run; vm_compute; reflexivity. Qed.
Lemma top48a : on_top top48 sys48a.
Proof.
  apply (init_top_ok top48 cc3 scs1 acts48a sys48a [1; 2; 3] good1).
  - apply h1h2_run; vm_compute; reflexivity.
  - exact reach48a.
  - intros q H. exact H.
  - vm_compute. reflexivity.
  - vm_compute. reflexivity.
Qed.
Lemma heard48 : all_steps (heard top48) cc3 sys48a acts48b.
Proof. apply heard_run_ok. vm_compute. reflexivity. Qed.
Lemma undisturbed48 : Forall (undisturbed top48) acts48b.
Proof. apply undisturbedb_ok. vm_compute. reflexivity. Qed.
Example C48_case :
  on_top top48 sys48b /\
  map (fun p => obs sys48a p (fun o => (own_ballot o, election_view o, get_promise o, role_of o))) [1; 2; 3] =
    [ Some (top48, top48, top48, (Leader, PhPrepare)); Some (mkB 1 1 0 2, mkB 1 1 0 2, mkB 1 1 0 2, (Leader, PhPrepare)); Some (mkB 1 1 0 3, mkB 1 1 0 3, mkB 1 1 0 3, (Leader, PhPrepare)) ] /\
  map (fun p => obs sys48b p (fun o => (own_ballot o, election_view o, get_promise o, role_of o, get_decided_idx o))) [1; 2; 3] =
    [ Some (top48, top48, top48, (Leader, PhAccept), 1); Some (mkB 1 1 0 2, top48, top48, (Follower, PhAccept), 1); Some (mkB 1 0 0 3, top48, top48, (Follower, PhAccept), 1) ].
Proof.
  split; [exact (proj1 (C48_heard_leader_is_not_replaced cc3 scs1 acts48a acts48b sys48a sys48b top48 good1 reach48a run48b steps48 top48a heard48 undisturbed48))|].
  split; vm_compute; reflexivity.
Qed.
(** At server 2 the first election timeout after the heartbeat takes up the leader. *)
Definition sys48c := match run cc3 sys48a (acts_of cc3 sys48a [Settle [1; 2; 3] 3]) with Some s => s | None => ini1 end.
Example C48_timeout_case :
  obs sys48c 2 (fun o => (election_view o, lc_time (o_eclk o) + 1, lc_timeout (o_eclk o))) = Some (mkB 1 1 0 2, 1, 1) /\
  heardb top48 sys48c (ADo 2 (ECall CTick)) = true /\ on_topb top48 [1; 2; 3] sys48c = true /\
  obs sys48c 2 (fun o => after_tick o election_view) = Some (Some top48).
Proof. vm_compute. auto. Qed.
End Case.

Print Assumptions C48_heard_leader_is_not_replaced.
Print Assumptions C48_timeout_takes_up_heard_leader.
