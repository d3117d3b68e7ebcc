(** * C45: where stop signs come from *)
From Coq Require Import List Arith Bool Lia.
Import ListNotations.
From Verif Require Import Types Config MemStore Internal LeaderState SeqPaxos Ble Omni System Basics PropBasic Scen Spec Refute PropAgreement Local Frame PropLocal Prims PropNoPanic.

Section WithEntry.
Context {E : EntryT}.

Section Stop.
Context (SP : stopsign -> Prop).

Definition okss (o : option stopsign) : Prop := match o with Some ss => SP ss | None => True end.
Definition oksy (o : option log_sync) : Prop := match o with Some sy => okss (sy_ss sy) | None => True end.
Definition okmsg (m : pmsg) : Prop :=
  match m with
  | MAcceptStopSign _ _ ss | MForwardStopSign ss => SP ss
  | MAcceptSync _ _ _ sy => okss (sy_ss sy)
  | MPromise p => oksy (pr_sync p)
  | _ => True
  end.
Definition oktr (tr : list mstore) : Prop := Forall (fun st => okss (ms_ss st)) tr.
Record IV (s : istore) : Prop := { iv_ca : okss (i_ss s); iv_st : okss (ms_ss (i_st s)); iv_tr : oktr (i_tr s) }.
Record V (s : sp) : Prop := {
  v_is : IV (s_is s);
  v_bss : okss (s_bss s);
  v_out : Forall (fun m => okmsg (pm_msg m)) (s_out s);
  v_ms : oksy (l_maxsync (s_ls s));
  v_cp : match s_cprom s with Some p => oksy (pr_sync p) | None => True end
}.

(** ** Storage *)
Definition opss (o : storage_op) : Prop := match o with OpSetStopsign x => okss x | _ => True end.
Lemma write_ss ops : forall st st', ms_write st ops = Some st' -> okss (ms_ss st) -> Forall opss ops -> okss (ms_ss st').
Proof.
  induction ops as [|o ops IH]; cbn [ms_write]; intros st st' Hw H Ho; [injection Hw as <-; auto|]. inversion Ho as [|? ? Ho1 Ho2]; subst.
  destruct (ms_op st o) as [st1|] eqn:H1; [|discriminate]. apply (IH st1 st'); auto. destruct o; cbn in H1; try (injection H1 as <-; cbn; auto).
  - unfold ms_append_on_prefix in H1. destruct (sub_chk _ _); [|discriminate]. injection H1 as <-. exact H.
  - unfold ms_do_trim in H1. destruct (sub_chk _ _); [|discriminate]. injection H1 as <-. exact H.
Qed.
Lemma v_put s m : IV s -> okss (ms_ss m) -> IV (put_st s m).
Proof. intros [A1 A2 A3] H. constructor; cbn; auto. apply Forall_app. auto. Qed.
Lemma v_ca s c : IV s -> okss (c_ss c) -> IV (set_ca s c).
Proof. intros [A1 A2 A3] H. constructor; auto. Qed.
Lemma v_awb s es : IV s -> IV (fst (append_entries_without_batching s es)).
Proof. intros H. unfold append_entries_without_batching. cbn [fst]. apply v_ca; [apply v_put; auto; apply H|apply H]. Qed.
Lemma v_fifb s r : IV s -> IV (fst (flush_if_full_batch s r)).
Proof. intros H. destruct r as [es|]; [|exact H]. exact (v_awb s es H). Qed.
Lemma v_batch s b : IV s -> IV (set_ca s (c_set_batch (i_ca s) b)).
Proof. intros H. apply v_ca; [auto|apply H]. Qed.
Lemma v_tiff s b : IV s -> IV (fst (let '(c, r) := take_entries_if_batch_is_full (c_set_batch (i_ca s) b) in flush_if_full_batch (set_ca s c) r)).
Proof.
  intros H. unfold take_entries_if_batch_is_full. destruct (_ <=? _); cbn [take_batched_entries]; apply v_fifb; [exact (v_batch s [] H)|apply v_batch, H].
Qed.
Lemma v_aegai s es : IV s -> IV (fst (append_entries_and_get_accepted_idx s es)).
Proof.
  intros H. unfold append_entries_and_get_accepted_idx, cache_append_entries, take_entries_if_batch_is_full. destruct (_ <=? _); cbn [take_batched_entries].
  - exact (v_awb (set_ca s (c_set_batch (i_ca s) [])) (c_batch (i_ca s) ++ es) (v_batch s [] H)).
  - apply v_batch, H.
Qed.
Lemma v_flush s : IV s -> IV (fst (flush_batch s)).
Proof. intros H. unfold flush_batch, take_batched_entries. apply v_awb, v_batch, H. Qed.
Lemma v_fbge s : IV s -> IV (fst (flush_batch_and_get_entries s)).
Proof. intros H. unfold flush_batch_and_get_entries. destruct (c_batch (i_ca s)); [exact H|]. unfold take_batched_entries. apply v_fifb, v_batch, H. Qed.
Lemma v_stop s ss : SP ss -> IV s -> IV (fst (i_append_stopsign s ss)).
Proof.
  intros Hs H. unfold i_append_stopsign, cache_append_stopsign. cbn zeta. cbn [c_batch c_set_ss].
  assert (H1 : forall c, c_ss c = Some ss -> IV (set_ca s c)) by (intros c Hc; apply v_ca; [auto|rewrite Hc; exact Hs]).
  unfold take_batched_entries. cbn [c_batch c_set_ss]. destruct (c_batch (i_ca s)) as [|e es].
  - cbn [flush_if_full_batch fst]. apply v_ca; [apply v_put; [apply H1; reflexivity|exact Hs]|exact Hs].
  - pose proof (v_awb (set_ca s (c_set_batch (c_set_ss (i_ca s) (Some ss)) [])) (e :: es) (H1 (c_set_batch (c_set_ss (i_ca s) (Some ss)) []) eq_refl)) as H2.
    cbn [take_batched_entries flush_if_full_batch append_entries_without_batching fst] in *.
    constructor; [exact Hs|exact Hs|]. cbn [i_tr set_ca put_st]. apply Forall_app. split; [exact (iv_tr _ H2)|]. repeat constructor. exact Hs.
Qed.
Lemma v_prom s n : IV s -> IV (i_set_promise s n).
Proof. intros H. unfold i_set_promise. apply v_put; [apply v_ca; [auto|apply H]|apply H]. Qed.
Lemma v_dec s n : IV s -> IV (i_set_decided s n).
Proof. intros H. unfold i_set_decided. apply v_put; [apply v_ca; [auto|apply H]|apply H]. Qed.
Lemma v_setss s ss s' a : SP ss -> IV s -> i_set_stopsign s (Some ss) = Ok (s', a) -> IV s'.
Proof.
  intros Hs H. unfold i_set_stopsign. destruct (c_ss (i_ca s)); cbn [bind]; intros X; injection X as <- _; apply v_put; [apply v_ca; [auto|exact Hs]|exact Hs|apply v_ca; [auto|exact Hs]|exact Hs].
Qed.
Lemma v_sync s n d sy s' a : oksy sy -> IV s -> sync_log s n d sy = Ok (s', a) -> IV s'.
Proof.
  intros Hy H. unfold sync_log, ilift, ipanic. destruct sy as [sy|].
  2: { match goal with |- context [ms_write ?a ?b] => destruct (ms_write a b) as [m|] eqn:Hw end; cbn [bind]; [|discriminate]. intros X. injection X as <- _.
       apply v_put; [apply v_ca; [auto|apply H]|]. eapply write_ss; [exact Hw|apply H|repeat constructor]. }
  cbn [oksy] in Hy.
  assert (G : forall c ops, okss (c_ss c) -> Forall opss ops ->
     (let s0 := set_ca s c in
      let s1 := set_ca s0 (c_set_acc (i_ca s0) (sy_idx sy + length (sy_suffix sy))) in
      let ops2 := ops ++ [OpAppendOnPrefix (sy_idx sy) (sy_suffix sy)] in
      let '(s2, ops3) :=
        match sy_ss sy with
        | Some ss => (set_ca s1 (c_set_acc (c_set_ss (i_ca s1) (Some ss)) (i_acc s1 + 1)), ops2 ++ [OpSetStopsign (Some ss)])
        | None => match i_ss s1 with Some _ => (set_ca s1 (c_set_ss (i_ca s1) None), ops2 ++ [OpSetStopsign None]) | None => (s1, ops2) end
        end in
      m <- (match ms_write (i_st s2) ops3 with Some a => Ok a | None => Panic (i_tr s2) end) ;;
      Ok (put_st s2 m, i_acc (put_st s2 m))) = Ok (s', a) -> IV s').
  { intros c ops Hc Hops. cbn zeta. destruct (sy_ss sy) as [ss|]; [|destruct (i_ss _)];
      (match goal with |- context [ms_write ?a ?b] => destruct (ms_write a b) as [m|] eqn:Hw end; cbn [bind]; [|discriminate]; intros X; injection X as <- _;
       apply v_put; [apply v_ca; [repeat (apply v_ca; [auto|try exact Hc])|try exact Hy; try exact Hc; try exact I]
                    |eapply write_ss; [exact Hw|apply H|]; repeat (apply Forall_app; split); auto; repeat constructor; try exact Hy]). }
  destruct (sy_snap sy) as [[c|dl]|]; cbn [bind].
  - apply G; [apply H|repeat constructor].
  - destruct (create_decided_snapshot _); try discriminate. destruct (s_merge _ _); [|discriminate]. cbn [bind]. apply G; [apply H|repeat constructor].
  - apply G; [apply H|repeat constructor].
Qed.
Lemma v_trim s i s' r : IV s -> try_trim s i = Ok (s', r) -> IV s'.
Proof.
  intros H. unfold try_trim, ilift, ipanic. destruct (dec_without_ss s) as [ld|]; [|discriminate].
  destruct (Nat.compare i (i_dec s)); [| |intros X; injection X as <- _; auto]; (destruct (i_comp s <? _); [|intros X; injection X as <- _; auto]);
  (destruct (ms_write _ _) as [m|] eqn:Hw; cbn [bind]; [|discriminate]; intros X; injection X as <- _; apply v_ca; [apply v_put; [auto|]|apply H]; eapply write_ss; [exact Hw|apply H|repeat constructor]).
Qed.
Lemma v_snap s i s' r : IV s -> try_snapshot s i = Ok (s', r) -> IV s'.
Proof.
  intros H. unfold try_snapshot, ilift, ipanic. destruct (dec_without_ss s) as [ld|]; [|discriminate].
  assert (Main : forall new, (if i_comp s <? new then
          match create_snapshot s new with
          | CPanic => Panic (i_tr s)
          | CErr e => Ok (s, Some e)
          | COk sn =>
              m <- (match ms_write (i_st s) [OpTrim new; OpSetComp new; OpSetSnapshot (Some sn)] with Some a => Ok a | None => Panic (i_tr s) end) ;;
              let s := put_st s m in Ok (set_ca s (c_set_comp (i_ca s) new), None)
          end else Ok (s, None)) = Ok (s', r) -> IV s').
  { intros new. destruct (i_comp s <? new); [|intros X; injection X as <- _; auto]. destruct (create_snapshot s new); [|intros X; injection X as <- _; auto|discriminate].
    destruct (ms_write _ _) as [m|] eqn:Hw; cbn [bind]; [|discriminate]. intros X. injection X as <- _. apply v_ca; [apply v_put; [auto|]|apply H]. eapply write_ss; [exact Hw|apply H|repeat constructor]. }
  cbn zeta. destruct i as [i|]; [|apply Main]. destruct (Nat.compare i (i_dec s)); [apply Main|apply Main|intros X; injection X as <- _; auto].
Qed.
Lemma v_create s k d sy : IV (s_is s) -> create_log_sync s k d = Some sy -> okss (sy_ss sy).
Proof.
  intros H. unfold create_log_sync. destruct (_ && _).
  - destruct (create_diff_snapshot _ _) as [[sn cp]| |]; try discriminate. destruct (ms_get_suffix _ _); [|discriminate]. intros X. injection X as <-. apply H.
  - destruct (ms_get_suffix _ _); [|discriminate]. intros X. injection X as <-. apply H.
Qed.

(** ** Servers *)
Definition vok (r : res sp) : Prop := match r with Ok s => V s | Panic tr => oktr tr end.
Definition vok2 {B} (r : res (sp * B)) : Prop := match r with Ok (s, _) => V s | Panic tr => oktr tr end.
Lemma v_panic s : V s -> oktr (i_tr (s_is s)).
Proof. intros H. apply H. Qed.
Lemma lift_v {B} s (o : option B) (f : B -> res sp) : V s -> (forall x, o = Some x -> vok (f x)) -> vok (bind (lift s o) f).
Proof. intros H Hf. destruct o; cbn; auto. apply v_panic, H. Qed.
Lemma lift_v2 {B C} s (o : option B) (f : B -> res (sp * C)) : V s -> (forall x, o = Some x -> vok2 (f x)) -> vok2 (bind (lift s o) f).
Proof. intros H Hf. destruct o; cbn; auto. apply v_panic, H. Qed.
Lemma bind_v (r : res sp) f : vok r -> (forall s, V s -> vok (f s)) -> vok (bind r f).
Proof. destruct r; cbn; auto. Qed.
Lemma for_each_v f : (forall s p, V s -> vok (f s p)) -> forall l s, V s -> vok (for_each s l f).
Proof. intros Hf. induction l as [|p l IH]; cbn; intros s H; auto. apply bind_v; auto. Qed.

Lemma vs_is s x : V s -> IV x -> V (set_is s x).
Proof. intros [] H. constructor; auto. Qed.
Lemma vs_state s r p : V s -> V (set_state s r p).
Proof. intros []. constructor; auto. Qed.
Lemma vs_bp s x : V s -> V (set_bprops s x).
Proof. intros []. constructor; auto. Qed.
Lemma vs_bss s x : V s -> okss x -> V (set_bss s x).
Proof. intros [] H. constructor; auto. Qed.
Lemma vs_cseq s x : V s -> V (set_cseq s x).
Proof. intros []. constructor; auto. Qed.
Lemma vs_cprom s : V s -> V (set_cprom s None).
Proof. intros []. constructor; cbn; auto. Qed.
Lemma vs_lam s x : V s -> V (set_lam s x).
Proof. intros []. constructor; auto. Qed.
Lemma vs_ls s x : V s -> l_maxsync x = l_maxsync (s_ls s) -> V (set_ls s x).
Proof. intros [] H. constructor; auto. cbn. rewrite H. auto. Qed.
Lemma vs_push s to m : V s -> okmsg m -> V (push s to m).
Proof. intros [] H. constructor; auto. cbn. apply Forall_app. split; auto. Qed.
Lemma vs_push_all m : okmsg m -> forall l s, V s -> V (push_all s l m).
Proof. intros Hm. unfold push_all. induction l as [|p l IH]; cbn; intros s H; auto. apply IH, vs_push; auto. Qed.
Lemma vs_mod s idx f : (forall m, okmsg m -> okmsg (f m)) -> V s -> V (mod_accdec s idx f).
Proof.
  intros Hf H. unfold mod_accdec. destruct (nth_error (s_out s) idx) as [m|] eqn:Hn; auto. destruct H as [A1 A2 A3 A4 A5]. constructor; auto.
  cbn [s_out set_out]. rewrite Forall_forall in *. intros x Hx. apply in_upd in Hx. destruct Hx as [->|Hx]; auto. cbn. apply Hf. apply A3. eapply nth_error_In; eauto.
Qed.
Lemma vs_extend s idx es d : V s -> V (mod_accdec s idx (extend_accdec es d)).
Proof. apply vs_mod. intros []; cbn; auto. Qed.
Lemma vs_redecide s idx d : V s -> V (mod_accdec s idx (redecide_accdec d)).
Proof. apply vs_mod. intros []; cbn; auto. Qed.
Lemma vs_reaccept s idx a : V s -> V (mod_accdec s idx (reaccept a)).
Proof. apply vs_mod. intros []; cbn; auto. Qed.
Ltac vpush := apply vs_push; [|exact I].
Hint Resolve vs_reaccept vs_state vs_bp vs_cseq vs_cprom vs_lam vs_push vs_push_all vs_extend vs_redecide : v.
Hint Extern 1 (okmsg _) => exact I : v.

Lemma v_setacc s p i l' : V s -> set_accepted_idx (s_ls s) p i = Some l' -> V (set_ls s l').
Proof. intros H Hl. apply vs_ls; auto. eapply ms_setacc; eauto. Qed.
Lemma vms_setp (l : leader_state) p from c l' m : oksy (l_maxsync l) -> oksy (pr_sync p) -> ls_set_promise l p from c = Some (l', m) -> oksy (l_maxsync l').
Proof. intros H Hp. unfold ls_set_promise. destruct (vset _ _ _); [|discriminate]. intros X. injection X as <- _. cbn. destruct (c && _); auto. Qed.
Lemma send_ad_to_v dec es s p : V s -> vok (send_acceptdecide_to dec es s p).
Proof.
  intros H. unfold send_acceptdecide_to. apply lift_v; auto. intros [idx|] _; [cbn; auto with v|]. apply lift_v; auto. intros l1 H1. apply lift_v; auto. intros [l2 q] H2. cbn.
  vpush; apply vs_ls; auto. apply ms_setmeta in H1. apply ms_next in H2. congruence.
Qed.
Lemma send_ad_v s es : V s -> vok (send_acceptdecide s es).
Proof. intros H. unfold send_acceptdecide. apply lift_v; auto. intros l _. apply for_each_v; auto. intros. apply send_ad_to_v; auto. Qed.
Lemma meta_v s (is : istore) r : V s -> IV is ->
  vok (match r with Some (acc, es) => ls <- lift (set_is s is) (set_accepted_idx (s_ls s) (s_pid s) acc) ;; send_acceptdecide (set_ls (set_is s is) ls) es
       | None => Ok (set_is s is) end).
Proof.
  intros H Hi. assert (H1 : V (set_is s is)) by (apply vs_is; auto). destruct r as [[acc es]|]; [|exact H1].
  apply lift_v; auto. intros ls Hl. apply send_ad_v. eapply v_setacc; eauto.
Qed.
Lemma accept_entry_v s e : V s -> vok (accept_entry_leader s e).
Proof.
  intros H. unfold accept_entry_leader. pose proof (v_tiff (s_is s) (c_batch (i_ca (s_is s)) ++ [e]) (v_is _ H)) as Hp. change (IV (fst (append_entry_with_batching (s_is s) e))) in Hp. destruct (append_entry_with_batching _ _) as [is r]. apply (meta_v s is r); auto.
Qed.
Lemma accept_entries_v s es : V s -> vok (accept_entries_leader s es).
Proof.
  intros H. unfold accept_entries_leader. pose proof (v_tiff (s_is s) (c_batch (i_ca (s_is s)) ++ es) (v_is _ H)) as Hp. change (IV (fst (append_entries_with_batching (s_is s) es))) in Hp. destruct (append_entries_with_batching _ _) as [is r]. apply (meta_v s is r); auto.
Qed.
Lemma flush_leader_v s : V s -> vok (flush_batch_leader s).
Proof.
  intros H. unfold flush_batch_leader. pose proof (v_fbge (s_is s) (v_is _ H)) as Hp. destruct (flush_batch_and_get_entries _) as [is r]. apply (meta_v s is r); auto.
Qed.
Lemma send_ss_v ss b s to : SP ss -> V s -> vok (send_accept_stopsign ss b s to).
Proof. intros Hs H. unfold send_accept_stopsign. apply lift_v; auto. intros [l q] Hl. apply resend_ms in Hl. cbn. apply vs_push; [apply vs_ls; auto|exact Hs]. Qed.
Lemma send_decide_v d b s to : V s -> vok (send_decide d b s to).
Proof. intros H. unfold send_decide. apply lift_v; auto. intros [l q] Hl. apply resend_ms in Hl. cbn. vpush; apply vs_ls; auto. Qed.
Lemma accept_ss_v s ss : SP ss -> V s -> vok (accept_stopsign_leader s ss).
Proof.
  intros Hp H. unfold accept_stopsign_leader. pose proof (v_stop (s_is s) ss Hp (v_is _ H)) as Hi. destruct (i_append_stopsign _ _) as [is r].
  assert (H1 : V (set_is s is)) by (apply vs_is; auto). apply bind_v.
  - destruct r as [[acc es]|]; [apply send_ad_v|cbn]; auto.
  - intros s1 H2. apply lift_v; auto. intros ls Hl. assert (H3 : V (set_ls s1 ls)) by (eapply v_setacc; eauto). apply lift_v; auto. intros l _. apply for_each_v; auto. intros. apply send_ss_v; auto.
Qed.
Lemma forward_props_v s es : V s -> V (forward_proposals s es).
Proof. intros H. unfold forward_proposals. destruct (_ && _); [vpush|]; auto with v. Qed.
Lemma forward_ss_v s ss : SP ss -> V s -> V (forward_stopsign s ss).
Proof. intros Hs H. unfold forward_stopsign. destruct (_ && _); auto with v. destruct (s_bss s); auto with v. apply vs_bss; auto. Qed.
Lemma handle_leader_v s n : V s -> vok (handle_leader s n).
Proof.
  intros H. unfold handle_leader. destruct (ble n (l_n (s_ls s)) || ble n (i_prom (s_is s))); [exact H|]. destruct (s_pid s =? b_pid n); [|cbn; auto with v]. cbn zeta.
  set (s1 := set_is (set_ls s _) _). set (s2 := set_is s1 _).
  assert (H1 : V s1). { unfold s1. apply vs_is; [|apply v_flush, (v_is _ H)]. destruct H. constructor; cbn; auto. }
  assert (H2 : V s2). { unfold s2. apply vs_is; auto. apply v_prom, (v_is _ H1). }
  apply lift_v; auto. intros [ls m] Hl. cbn [vok]. apply vs_push_all; [exact I|]; apply vs_state. destruct H2. constructor; auto. eapply vms_setp; [| |exact Hl]; auto; exact I.
Qed.
Lemma handle_preparereq_v s n from : V s -> vok (handle_preparereq s n from).
Proof.
  intros H. unfold handle_preparereq. destruct (_ && _); [|exact H]. apply lift_v; auto. intros l1 H1. apply lift_v; auto. intros l2 H2. cbn. vpush; apply vs_ls; auto.
  apply mx_prom in H1. apply ms_setmeta in H2. congruence.
Qed.
Lemma fwd_prop_v s es : V s -> vok (handle_forwarded_proposal s es).
Proof.
  intros H. unfold handle_forwarded_proposal. destruct (accepted_reconfiguration s); [exact H|].
  destruct (s_role s), (s_phase s); cbn [vok]; try (apply forward_props_v; auto); auto with v. apply accept_entries_v; auto.
Qed.
Lemma fwd_ss_v s ss : SP ss -> V s -> vok (handle_forwarded_stopsign s ss).
Proof.
  intros Hp H. unfold handle_forwarded_stopsign. destruct (accepted_reconfiguration s) eqn:Hr; [exact H|].
  destruct (s_role s), (s_phase s); cbn [vok]; try (apply forward_ss_v; auto); auto with v; [apply vs_bss; auto|apply accept_ss_v; auto].
Qed.
Lemma send_accsync_v s to : V s -> vok (send_accsync s to).
Proof.
  intros H. unfold send_accsync. apply lift_v; auto. intros m _. apply lift_v; auto. intros fd _. apply lift_v; auto. intros sy Hsy.
  apply lift_v; auto. intros l1 H1. apply lift_v; auto. intros [l2 sq] H2. apply ms_incr in H1. apply ms_next in H2.
  cbn. apply vs_push; [apply vs_ls; auto; congruence|]. cbn. eapply v_create; [|exact Hsy]. apply H.
Qed.
Lemma majority_v s : V s -> vok (handle_majority_promises s).
Proof.
  intros H. unfold handle_majority_promises, take_max_promise_sync. cbn zeta.
  set (s1 := set_ls s (l_set_max (s_ls s) (l_maxmeta (s_ls s)) None)). assert (H1 : V s1) by (destruct H; constructor; cbn; auto).
  destruct (sync_log _ _ _ _) as [[is acc]|tr] eqn:Hsy.
  2: { cbn [bind vok]. apply sync_panic in Hsy. subst tr. apply (v_panic _ H1). }
  cbn [bind]. assert (H2 : V (set_is s1 is)). { apply vs_is; auto. eapply v_sync; [| |exact Hsy]; [apply (v_ms _ H)|apply (v_is _ H1)]. }
  match goal with |- vok (let '(_, _) := ?e in _) => assert (Hx : V (fst e)); [|destruct e as [s3 acc3]; cbn [fst] in Hx] end.
  { destruct (accepted_reconfiguration (set_is s1 is)) eqn:Hr; [exact H2|].
    match goal with |- V (fst (let '(_, _) := ?e in _)) => assert (Hx : V (fst e)); [|destruct e as [s3 acc3]; cbn [fst] in Hx] end.
    { destruct (s_bprops _) as [|e es]; [auto|].
      pose proof (v_awb (s_is (set_bprops (set_is s1 is) [])) (e :: es) (v_is _ H2)) as Ha.
      destruct (append_entries_without_batching _ _) as [is2 acc2]. cbn [fst] in *. apply vs_is; auto with v. }
    destruct (s_bss s3) as [ss|] eqn:Hb; [|exact Hx]. cbn [fst]. apply vs_is; [apply vs_bss; auto; exact I|]. apply v_stop; [|apply (v_is _ Hx)]. pose proof (v_bss _ Hx) as Y. rewrite Hb in Y. exact Y. }
  assert (H4 : V (set_state s3 Leader PhAccept)) by auto with v.
  apply lift_v; auto. intros ls Hls. assert (H5 : V (set_ls (set_state s3 Leader PhAccept) ls)) by (eapply v_setacc; eauto).
  apply lift_v; auto. intros l _. apply for_each_v; auto. intros. apply send_accsync_v; auto.
Qed.
Lemma promise_prepare_v s p from : oksy (pr_sync p) -> V s -> vok (handle_promise_prepare s p from).
Proof.
  intros Hm H. unfold handle_promise_prepare. destruct (beq _ _); [|exact H]. apply lift_v; auto. intros [ls m] Hls.
  assert (H1 : V (set_ls s ls)). { destruct H. constructor; auto. eapply vms_setp; [| |exact Hls]; auto. } destruct m; [apply majority_v; auto|exact H1].
Qed.
Lemma promise_accept_v s p from : V s -> vok (handle_promise_accept s p from).
Proof.
  intros H. unfold handle_promise_accept. destruct (beq _ _); [|exact H]. apply lift_v; auto. intros [ls m] Hl.
  apply send_accsync_v, vs_ls; auto. eapply ms_setp0; eauto.
Qed.
Lemma handle_accepted_v s n a from : V s -> vok (handle_accepted s n a from).
Proof.
  intros H. unfold handle_accepted. destruct (_ && _); [|exact H]. apply lift_v; auto. intros ls Hl. assert (H1 : V (set_ls s ls)) by (eapply v_setacc; eauto).
  destruct (_ && _); [|exact H1].
  assert (H2 : V (set_is (set_ls s ls) (i_set_decided (s_is (set_ls s ls)) a))).
  { apply vs_is; auto. apply v_dec, (v_is _ H1). }
  apply lift_v; auto. intros l _. apply for_each_v; auto. intros s1 p H3. unfold handle_accepted_to. apply lift_v; auto. intros [idx|] _; [cbn; auto with v|apply send_decide_v; auto].
Qed.
Lemma notaccepted_v s n from : V s -> vok (handle_notaccepted s n from).
Proof.
  intros H. unfold handle_notaccepted. destruct (_ && _); [|exact H]. apply lift_v; auto. intros ls Hl. apply vs_ls; auto. eapply mx_prom; eauto.
Qed.
Lemma prepare_all_v l : forall s, V s -> V (fold_left send_prepare l s).
Proof. induction l as [|p l IH]; cbn; intros s H; auto. apply IH; vpush; auto. Qed.
Lemma resend_leader_v s : V s -> vok (resend_messages_leader s).
Proof.
  intros H. unfold resend_messages_leader. destruct (s_phase s); [| |exact H|exact H].
  - apply lift_v; auto. intros l _. apply prepare_all_v; auto.
  - apply bind_v.
    + pose proof (iv_ca _ (v_is _ H)) as Hk. destruct (i_ss (s_is s)) as [ss|]; [|exact H]. apply lift_v; auto. intros l _. apply for_each_v; auto. intros s1 p H1. unfold resend_ss_to.
      destruct (stopsign_is_decided _); [apply send_decide_v; auto|]. apply lift_v; auto. intros a _. destruct (a =? _); [exact H1|apply send_ss_v; auto].
    + intros s1 H1. apply lift_v; auto. intros l _. apply prepare_all_v; auto.
Qed.
Lemma reconnected_v s p : V s -> V (reconnected s p).
Proof. intros H. unfold reconnected. destruct (p =? s_pid s); auto. vpush. destruct (p =? sp_leader s); auto with v. Qed.
Lemma handle_prepare_v s n d na a from : V s -> vok (handle_prepare s n d na a from).
Proof.
  intros H. unfold handle_prepare. destruct (blt (i_prom (s_is s)) n || _); [|exact H]. cbn zeta.
  match goal with |- vok (bind ?e ?f) => set (s1 := set_cseq _ _) in * end.
  assert (H1 : V s1).
  { unfold s1. apply vs_cseq, vs_state, vs_is; [apply vs_is; [auto|apply v_flush, (v_is _ H)]|]. apply v_prom, v_flush, (v_is _ H). }
  match goal with |- vok (bind ?e ?f) => destruct e as [sy|tr] eqn:He end.
  - cbn [bind vok]. assert (Hm : oksy sy).
    { destruct (bgt _ _); [|destruct (_ && _); [|injection He as <-; exact I]]; (destruct (create_log_sync s1 _ _) as [x|] eqn:Hc; cbn in He; [|discriminate]); injection He as <-; eapply v_create; [apply H1|exact Hc|apply H1|exact Hc]. }
    apply vs_push; [|exact Hm]. destruct H1. constructor; auto.
  - cbn [bind vok]. assert (tr = i_tr (s_is s1)). { clear - He. destruct (bgt _ _); [|destruct (_ && _)]; [| |discriminate]; (destruct (create_log_sync _ _ _); cbn in He; [discriminate|]); injection He as <-; reflexivity. }
    subst tr. apply (v_panic _ H1).
Qed.
Lemma check_valid_v s b : V s -> V (fst (check_valid_ballot s b)).
Proof. intros H. unfold check_valid_ballot. destruct (bcmp _ _); cbn [fst]; auto with v. apply reconnected_v; auto. Qed.
Lemma seqnum_v s q from : V s -> V (fst (handle_sequence_num s q from)).
Proof. intros H. unfold handle_sequence_num. destruct (check_msg_status _ _); cbn [fst]; auto with v. apply reconnected_v; auto. Qed.
Lemma reply_v s n a : V s -> vok (reply_accepted s n a).
Proof. intros H. unfold reply_accepted. apply lift_v; auto. intros [idx|] _; cbn; auto with v. Qed.
Lemma fwd_buffered_v s : V s -> V (forward_buffered_proposals s).
Proof. intros H. unfold forward_buffered_proposals. destruct (s_bprops s); [|apply forward_props_v]; auto with v. Qed.
Lemma acceptsync_v s n q d sy from : okss (sy_ss sy) -> V s -> vok (handle_acceptsync s n q d sy from).
Proof.
  intros Ha H. unfold handle_acceptsync. pose proof (check_valid_v s n H) as H1. destruct (check_valid_ballot s n) as [s1 v]. cbn [fst] in H1. destruct (_ && _); [|exact H1].
  destruct (sync_log _ _ _ _) as [[is acc]|tr] eqn:Hs.
  2: { cbn [bind vok]. apply sync_panic in Hs. subst tr. apply (v_panic s1 H1). }
  cbn [bind vok]. assert (H2 : V (set_is (set_cprom s1 None) is)). { apply vs_is; auto with v. eapply v_sync; [| |exact Hs]; [exact Ha|apply (v_is _ H1)]. }
  vpush; apply vs_lam, vs_cseq, vs_state. destruct (i_ss _); [|apply fwd_buffered_v]; auto.
Qed.
Lemma update_decided_v s d : V s -> V (fst (update_decided s d)).
Proof.
  intros H. unfold update_decided. destruct (d <=? _); auto. destruct (_ <? d); [|cbn [fst]; apply vs_is; auto; apply v_dec, (v_is _ H)].
  pose proof (v_flush (s_is s) (v_is _ H)) as Hf. destruct (flush_batch _) as [is a]. cbn [fst snd] in *. apply vs_is; auto. apply v_dec, Hf.
Qed.
Lemma acceptdecide_v s n q d es : V s -> vok (handle_acceptdecide s n q d es).
Proof.
  intros H. unfold handle_acceptdecide. pose proof (check_valid_v s n H) as H1. destruct (check_valid_ballot s n) as [s1 v]. cbn [fst] in H1. destruct (_ && _); [|exact H1].
  pose proof (seqnum_v s1 q (b_pid n) H1) as H2. destruct (handle_sequence_num s1 q (b_pid n)) as [s2 st]. cbn [fst] in H2. destruct st; [|exact H2|exact H2].
  pose proof (v_aegai (s_is s2) es (v_is _ H2)) as Hp. destruct (append_entries_and_get_accepted_idx _ _) as [is r1].
  pose proof (update_decided_v _ d (vs_is s2 is H2 Hp)) as H4. destruct (update_decided _ _) as [s4 r2]. cbn [fst] in H4.
  destruct (match r2 with Some _ => r2 | None => r1 end); [apply reply_v; auto|exact H4].
Qed.
Lemma accept_ss_f_v s n q ss : SP ss -> V s -> vok (handle_accept_stopsign s n q ss).
Proof.
  intros Hp H. unfold handle_accept_stopsign. pose proof (check_valid_v s n H) as H1. destruct (check_valid_ballot s n) as [s1 v]. cbn [fst] in H1. destruct (_ && _); [|exact H1].
  pose proof (seqnum_v s1 q (b_pid n) H1) as H2. destruct (handle_sequence_num s1 q (b_pid n)) as [s2 st]. cbn [fst] in H2. destruct st; [|exact H2|exact H2].
  cbn zeta. assert (H3 : V (set_is s2 (fst (flush_batch (s_is s2))))) by (apply vs_is; auto; apply v_flush, (v_is _ H2)).
  destruct (i_set_stopsign _ _) as [[is acc]|tr] eqn:Hs; [|exfalso; eapply setss_panic; eauto]. cbn [bind]. apply reply_v. apply vs_is; auto.
  eapply v_setss; [exact Hp|apply (v_is _ H3)|exact Hs].
Qed.
Lemma decide_v s n q d : V s -> vok (handle_decide s n q d).
Proof.
  intros H. unfold handle_decide. pose proof (check_valid_v s n H) as H1. destruct (check_valid_ballot s n) as [s1 v]. cbn [fst] in H1. destruct (_ && _); [|exact H1].
  pose proof (seqnum_v s1 q (b_pid n) H1) as H2. destruct (handle_sequence_num s1 q (b_pid n)) as [s2 st]. cbn [fst] in H2. destruct st; [|exact H2|exact H2].
  pose proof (update_decided_v _ d H2) as H4. destruct (update_decided _ _) as [s4 r2]. cbn [fst] in H4. destruct r2; [apply reply_v; auto|exact H4].
Qed.
Lemma resend_follower_v s : V s -> V (resend_messages_follower s).
Proof.
  intros H. unfold resend_messages_follower, send_preparereq_to_all_peers. destruct (s_phase s); auto with v. destruct (s_cprom s) as [p|] eqn:Hc; auto with v.
  apply vs_push; auto. pose proof (v_cp _ H) as Y. rewrite Hc in Y. exact Y.
Qed.
Lemma flush_follower_v s : V s -> vok (flush_batch_follower s).
Proof.
  intros H. unfold flush_batch_follower. pose proof (v_flush (s_is s) (v_is _ H)) as Hp. destruct (flush_batch _) as [is a]. assert (H1 : V (set_is s is)) by (apply vs_is; auto).
  destruct (_ <? a); [apply reply_v|cbn]; auto.
Qed.
Lemma trim_v s i : V s -> vok2 (sp_trim s i).
Proof.
  intros H. unfold sp_trim. destruct (s_role s); [exact H|]. apply lift_v2; auto. intros mn _.
  assert (Main : forall k, vok2 ('(is, r) <- try_trim (s_is s) k ;;
        let s := set_is s is in
        match r with
        | None => Ok (push_all s (s_peers s) (MCompaction (CmpTrim k)), None)
        | Some e => Ok (s, Some e)
        end)).
  { intros k. destruct (try_trim _ _) as [[is r]|tr] eqn:Hk; [|cbn; apply trim_panic in Hk; subst tr; apply (v_panic _ H)]. cbn [bind].
    assert (H1 : V (set_is s is)). { apply vs_is; auto. eapply v_trim; [apply (v_is _ H)|eauto]. } destruct r; cbn [vok2]; auto with v. }
  cbn zeta. destruct i as [i|]; [|apply Main]. destruct (i <=? mn); [apply Main|exact H].
Qed.
Lemma snapshot_v s i l : V s -> vok2 (sp_snapshot s i l).
Proof.
  intros H. unfold sp_snapshot. destruct (try_snapshot _ _) as [[is r]|tr] eqn:Hk; [|cbn; apply snap_panic in Hk; subst tr; apply (v_panic _ H)]. cbn [bind].
  assert (H1 : V (set_is s is)). { apply vs_is; auto. eapply v_snap; [apply (v_is _ H)|eauto]. }
  destruct r; cbn [vok2]; auto with v. destruct l; auto with v.
Qed.
Lemma compaction_v s c : V s -> vok (handle_compaction s c).
Proof.
  intros H. unfold handle_compaction. destruct c as [i|i].
  - destruct (try_trim _ _) as [[is r]|tr] eqn:Hk; [|cbn; apply trim_panic in Hk; subst tr; apply (v_panic _ H)]. cbn. apply vs_is; auto. eapply v_trim; [apply (v_is _ H)|eauto].
  - pose proof (snapshot_v s i true H) as X. destruct (sp_snapshot s i true) as [[s1 r]|tr]; exact X.
Qed.

Lemma sp_handle_v s m : okmsg (pm_msg m) -> V s -> vok (sp_handle s m).
Proof.
  intros Hm H. unfold sp_handle. destruct (pm_msg m) as [n|n d na a|p|n q d sy|n q d es|n a|n|n q d|es|c|n q ss|ss]; cbn in Hm.
  - apply handle_preparereq_v; auto.
  - apply handle_prepare_v; auto.
  - destruct (s_role s), (s_phase s); auto; [apply promise_prepare_v|apply promise_accept_v]; auto.
  - apply acceptsync_v; auto.
  - apply acceptdecide_v; auto.
  - apply handle_accepted_v; auto.
  - apply notaccepted_v; auto.
  - apply decide_v; auto.
  - apply fwd_prop_v; auto.
  - apply compaction_v; auto.
  - apply accept_ss_f_v; auto.
  - apply fwd_ss_v; auto.
Qed.
Lemma propose_v s e : V s -> vok (propose_entry s e).
Proof. intros H. unfold propose_entry. destruct (s_role s), (s_phase s); cbn [vok]; try (apply forward_props_v; auto); auto with v. apply accept_entry_v; auto. Qed.
Lemma append_v s e : V s -> vok2 (sp_append s e).
Proof.
  intros H. unfold sp_append. destruct (accepted_reconfiguration s); [exact H|]. pose proof (propose_v s e H) as X. destruct (propose_entry s e); exact X.
Qed.
Lemma reconfigure_v s c m : SP (mkSS c m) -> V s -> vok2 (sp_reconfigure s c m).
Proof.
  intros Hp H. unfold sp_reconfigure. destruct (accepted_reconfiguration s) eqn:Hr; [exact H|]. cbn zeta.
  match goal with |- vok2 (bind ?e _) => assert (X : vok e); [|destruct e; exact X] end.
  destruct (s_role s), (s_phase s); cbn [vok]; try (apply forward_ss_v; auto); auto with v; [apply vs_bss; auto|apply accept_ss_v; auto].
Qed.

Definition voko {B} (r : res (omni * B)) : Prop := match r with Ok (o, _) => V (o_sp o) | Panic tr => oktr tr end.
Definition voko1 (r : res omni) : Prop := match r with Ok o => V (o_sp o) | Panic tr => oktr tr end.
Lemma resend_timeout_v s : V s -> vok (resend_message_timeout s).
Proof. intros H. unfold resend_message_timeout. destruct (s_role s); [apply resend_follower_v; auto|apply resend_leader_v; auto]. Qed.
Lemma flush_timeout_v s : V s -> vok (flush_batch_timeout s).
Proof. intros H. unfold flush_batch_timeout. destruct (s_role s), (s_phase s); try exact H; [apply flush_follower_v|apply flush_leader_v]; auto. Qed.
Lemma tick_v o : V (o_sp o) -> voko1 (tick o).
Proof.
  intros H. unfold tick. destruct (clock_tick (o_eclk o)) as [ec f1]. 
  match goal with |- voko1 (bind ?e _) => assert (X : voko1 e); [|destruct e as [o1|tr]; [|exact X]] end.
  { destruct f1; [|exact H]. unfold election_timeout. destruct (hb_timeout _ _ _) as [b [n|]]; [|exact H]. pose proof (handle_leader_v (o_sp o) n H) as X.
    cbn [o_sp]. destruct (handle_leader _ _); exact X. }
  cbn [bind]. cbn in X. destruct (clock_tick (o_rclk o1)) as [rc f2].
  match goal with |- voko1 (bind ?e _) => assert (X2 : voko1 e); [|destruct e as [o2|tr]; [|exact X2]] end.
  { destruct f2; [|exact X]. cbn [o_sp]. pose proof (resend_timeout_v _ X) as Y. destruct (resend_message_timeout (o_sp o1)); exact Y. }
  cbn [bind]. cbn in X2. destruct (clock_tick (o_fclk o2)) as [fc f3]. destruct f3; [|exact X2]. cbn [o_sp].
  pose proof (flush_timeout_v _ X2) as Y. destruct (flush_batch_timeout (o_sp o2)); exact Y.
Qed.

(** What a call brings in. *)
Definition okcall (c : call) : Prop :=
  match c with
  | CReconfigure c0 m => cluster_validate c0 = true -> SP (mkSS c0 m)
  | CHandle (MsgSP m) => okmsg (pm_msg m)
  | _ => True
  end.
Lemma exec_call_v o1 c : okcall c -> V (o_sp o1) -> voko (exec_call o1 c).
Proof.
  intros Hc H. destruct c as [e|cc0 meta| |i|i l|q| |q|m]; cbn [exec_call okcall] in *.
  - pose proof (append_v _ e H) as X. destruct (sp_append _ _) as [[s r]|]; exact X.
  - unfold reconfigure. destruct (cluster_validate cc0); [|exact H]. pose proof (reconfigure_v (o_sp o1) cc0 meta (Hc eq_refl) H) as X. destruct (sp_reconfigure _ _ _) as [[s r]|]; exact X.
  - pose proof (tick_v o1 H) as X. destruct (tick o1); exact X.
  - pose proof (trim_v (o_sp o1) i H) as X. destruct (sp_trim _ _) as [[s r]|]; exact X.
  - pose proof (snapshot_v (o_sp o1) i l H) as X. destruct (sp_snapshot _ _ _) as [[s r]|]; exact X.
  - cbn. apply reconnected_v; auto.
  - unfold try_become_leader. pose proof (handle_leader_v (o_sp o1) (set_n (e_ballot (o_ble o1)) (b_n (sp_promise (o_sp o1)) + 1)) H) as X. destruct (handle_leader _ _); exact X.
  - exact H.
  - unfold handle_incoming. destruct m as [m|m]; [|exact H]. pose proof (sp_handle_v (o_sp o1) m Hc H) as X. destruct (sp_handle _ _); exact X.
Qed.
Lemma v_start o : V (o_sp o) -> V (o_sp (start_call o)).
Proof. intros [[A1 A2 A3] B1 B2 B3 B4]. constructor; auto. constructor; auto. constructor. Qed.
Lemma exec_v o c o' r : okcall c -> V (o_sp o) -> exec o c = Ok (o', r) -> V (o_sp o').
Proof. intros Hc H He. pose proof (exec_call_v (start_call o) c Hc (v_start _ H)) as X. unfold exec in He. rewrite He in X. exact X. Qed.
Lemma crash_v o c st : okcall c -> V (o_sp o) -> In st (crash_points o c) -> okss (ms_ss st).
Proof.
  intros Hc H [<-|Hin]; [apply H|]. pose proof (exec_call_v (start_call o) c Hc (v_start _ H)) as X. unfold exec in Hin.
  assert (Y : oktr (match exec_call (start_call o) c with Ok (o', _) => i_tr (s_is (o_sp o')) | Panic tr => tr end)).
  { destruct (exec_call _ _) as [[o' r]|tr]; [apply X|exact X]. }
  unfold oktr in Y. rewrite Forall_forall in Y. auto.
Qed.
Lemma build_v cc sc st o : okss (ms_ss st) -> build cc sc st = BOk o -> V (o_sp o).
Proof.
  intros H. unfold build. destruct (config_validate cc sc); [|discriminate]. destruct (sp_with _ _ _ _ _) as [p|] eqn:Hp; [|discriminate]. intros X. injection X as <-. cbn [o_sp].
  unfold sp_with in Hp. destruct (peers_of _ _) as [|q l]; [discriminate|]. cbn zeta in Hp.
  assert (Hi : forall b n, IV (i_set_promise (istore_with st n) b)). { intros b n. apply v_prom. constructor; auto. constructor. }
  destruct (ms_prom st) as [b|]; injection Hp as <-; (constructor; [apply Hi|exact I| |exact I|exact I]); cbn [s_out]; [|constructor].
  rewrite Forall_forall. intros m Hm. destruct Hm as [<-|Hm]; [exact I|]. apply in_map_iff in Hm. destruct Hm as (x & <- & _). exact I.
Qed.
Lemma take_v o buf o' l : V (o_sp o) -> take_outgoing_messages o buf = (o', l) -> V (o_sp o').
Proof. intros [A B C D F]. unfold take_outgoing_messages, sp_take_outgoing. destruct buf; intros X; injection X as <- <-; (constructor; cbn; auto). Qed.

(** ** Clusters *)
Definition netS (m : message) : Prop := match m with MsgSP x => okmsg (pm_msg x) | MsgBLE _ => True end.
Definition AllV (s : sys) : Prop :=
  (forall p o, nodes s p = Some o -> V (o_sp o)) /\ (forall p q m, In m (net s p q) -> netS m).
Definition actS (a : action) : Prop :=
  match action_event a with Some (_, ECall (CReconfigure c m)) => cluster_validate c = true -> SP (mkSS c m) | _ => True end.
Lemma event_netS s p ev : AllV s -> forall a b m, In m (event_net s p ev a b) -> netS m.
Proof.
  intros [_ Hn] a b m. destruct ev as [c|src k]; cbn; [apply Hn|]. unfold upd2. destruct (_ && _); [|apply Hn]. intros Hin. apply remove_nth_in in Hin. eauto.
Qed.
Lemma event_callS s p ev c : AllV s -> match ev with ECall (CReconfigure c m) => cluster_validate c = true -> SP (mkSS c m) | _ => True end -> event_call s p ev = Some c -> okcall c.
Proof.
  intros [_ Hn] Ha. destruct ev as [c0|src k]; cbn.
  - destruct c0; intros X; try discriminate; injection X as <-; cbn; auto.
  - destruct (nth_error _ _) as [m|] eqn:Hk; cbn; [|discriminate]. intros X. injection X as <-. apply nth_error_In in Hk. apply Hn in Hk. destruct m; auto.
Qed.
Lemma send_allS p l : Forall netS l -> forall n, (forall a b m, In m (n a b) -> netS m) -> forall a b m, In m (send_all n p l a b) -> netS m.
Proof.
  induction 1 as [|x l Hx Hl IH]; cbn; auto. intros n Hn. apply IH. intros a b m. unfold send_one, upd2. destruct (_ && _); [|apply Hn].
  rewrite in_app_iff. intros [H|[<-|[]]]; eauto.
Qed.
Lemma allv_step cc s a s' : AllV s -> actS a -> exec_action cc s a = Some s' -> AllV s'.
Proof.
  intros H Ha. pose proof H as [Hs Hn]. destruct a as [p ev|p|src dst k|p ev j sc]; cbn [exec_action].
  - destruct (nodes s p) as [o|] eqn:Ho; [|discriminate]. destruct (event_call s p ev) as [c|] eqn:Hc; [|discriminate].
    destruct (exec o c) as [[o' r]|] eqn:He; [|discriminate]. intros X. injection X as <-.
    pose proof (event_callS s p ev c H Ha Hc) as Hca. pose proof (exec_v _ _ _ _ Hca (Hs _ _ Ho) He) as X1. split; cbn.
    + intros q x. unfold upd1. destruct (q =? p); [intros X; injection X as <-; auto|apply Hs].
    + apply event_netS; auto.
  - destruct (nodes s p) as [o|] eqn:Ho; [|discriminate]. destruct (take_outgoing_messages o []) as [o' l] eqn:Ht. intros X. injection X as <-.
    pose proof (Hs _ _ Ho) as Hoo. pose proof (take_v _ _ _ _ Hoo Ht) as X1. split; cbn.
    + intros q x. unfold upd1. destruct (q =? p); [intros X; injection X as <-; auto|apply Hs].
    + apply send_allS; auto. apply C33_take_outgoing_messages in Ht. destruct Ht as [-> _]. cbn. rewrite Forall_app. split; apply Forall_map; [exact (v_out _ Hoo)|]. rewrite Forall_forall. cbn. auto.
  - intros X. injection X as <-. split; cbn; auto. intros a b m. unfold upd2. destruct (_ && _); [|apply Hn]. intros Hin. apply remove_nth_in in Hin. eauto.
  - destruct (nodes s p) as [o|] eqn:Ho; [|discriminate]. destruct (event_call s p ev) as [c|] eqn:Hc; [|discriminate].
    destruct (nth_error (crash_points o c) j) as [st|] eqn:Hj; [|discriminate]. destruct (sc_pid sc =? p); [|discriminate].
    destruct (build cc sc st) as [| |o'] eqn:Hb; try discriminate. intros X. injection X as <-.
    pose proof (event_callS s p ev c H Ha Hc) as Hca. apply nth_error_In in Hj. pose proof (crash_v _ _ _ Hca (Hs _ _ Ho) Hj) as X1. split; cbn.
    + intros q x. unfold upd1. destruct (q =? p); [intros X; injection X as <-; eapply build_v; eauto|apply Hs].
    + apply event_netS; auto.
Qed.
Lemma allv_run cc l : forall s s', AllV s -> Forall actS l -> run cc s l = Some s' -> AllV s'.
Proof.
  induction l as [|a l IH]; cbn; intros s s' H Hl Hr; [injection Hr as <-; auto|]. destruct (exec_action cc s a) as [s1|] eqn:Ha; [|discriminate].
  inversion Hl; subst. apply (IH s1 s'); auto. eapply allv_step; eauto.
Qed.
Lemma allv_init cc scs : AllV (init_sys cc scs).
Proof.
  split; cbn; [|tauto]. intros p o. destruct (_ && _); [|discriminate]. destruct (build cc (scs p) ms_default) eqn:Hb; try discriminate. intros X. injection X as <-.
  eapply build_v; eauto. exact I.
Qed.
End Stop.

(** What a read shows as stop sign is the stop sign of the cache. *)
Lemma mark_no_ss d es : forall k ss b, ~ In (LStopSign ss b) (mark_entries d k es).
Proof.
  induction es as [|e es IH]; cbn [mark_entries In]; intros k ss b; [tauto|]. intros [X|X]; [destruct (k <? d); discriminate X|]. eapply IH; eauto.
Qed.
Lemma read_ss s lo hi l ss b : i_read s lo hi = Some (Some l) -> In (LStopSign ss b) l -> i_ss s = Some ss.
Proof.
  unfold i_read. cbn zeta. destruct (_ =? 0); [discriminate|].
  assert (Ht : forall k c a x, get_entry_type s k c a = Some (IxStopSign x) -> i_ss s = Some x).
  { intros k c a x. unfold get_entry_type. destruct (_ <? _); [discriminate|]. destruct (_ <? _); [discriminate|]. destruct (_ =? _); [|discriminate]. destruct (i_ss s); [|discriminate]. congruence. }
  assert (Hr : forall f t es, create_read_log_entries s f t = Some es -> ~ In (LStopSign ss b) es).
  { intros f t es. unfold create_read_log_entries. destruct (ms_get_entries _ _ _); [|discriminate]. intros X. injection X as <-. apply mark_no_ss. }
  assert (Hc : forall c, create_compacted_entry s c <> LStopSign ss b) by (intros c; unfold create_compacted_entry; destruct (ms_snap _); discriminate).
  destruct (get_entry_type s (_ - 1) _ _) as [[| |x]|] eqn:E1; try discriminate.
  - match goal with |- match ?x with _ => _ end = _ -> _ => destruct x as [[| |y]|] eqn:E2 end; try discriminate; (match goal with |- match ?x with _ => _ end = _ -> _ => destruct x as [es|] eqn:E3 end; [|discriminate]); intros X; injection X as <-; intros Hin.
    + destruct (Hr _ _ _ E3 Hin).
    + destruct Hin as [Hin|Hin]; [exfalso; exact (Hc _ Hin)|destruct (Hr _ _ _ E3 Hin)].
  - intros X. injection X as <-. intros [Hin|[]]. exfalso; exact (Hc _ Hin).
  - pose proof (Ht _ _ _ _ E1) as Hx.
    match goal with |- match ?x with _ => _ end = _ -> _ => destruct x as [[| |y]|] eqn:E2 end; try discriminate.
    + match goal with |- match ?x with _ => _ end = _ -> _ => destruct x as [es|] eqn:E3 end; [|discriminate]. intros X. injection X as <-. intros Hin. apply in_app_or in Hin. destruct Hin as [Hin|[Hin|[]]]; [destruct (Hr _ _ _ E3 Hin)|congruence].
    + match goal with |- match ?x with _ => _ end = _ -> _ => destruct x as [es|] eqn:E3 end; [|discriminate]. intros X. injection X as <-. intros Hin. destruct Hin as [Hin|Hin]; [exfalso; exact (Hc _ Hin)|]. apply in_app_or in Hin. destruct Hin as [Hin|[Hin|[]]]; [destruct (Hr _ _ _ E3 Hin)|congruence].
    + intros X. injection X as <-. intros [Hin|[]]. pose proof (Ht _ _ _ _ E2). congruence.
Qed.
Lemma at_index_in o from l i x : at_index o from l i x -> In x l.
Proof. unfold at_index. destruct (_ <? _); intros (j & H & _); eapply nth_error_In; eauto. Qed.
Lemma reports_ss o i ss b : reports o i (LStopSign ss b) -> i_ss (s_is (o_sp o)) = Some ss.
Proof.
  intros [H|lo hi l H Ha|from l H Ha].
  - unfold read in H. destruct (i_read _ _ _) as [[v|]|] eqn:Hr; try discriminate. destruct (rev v) as [|x y] eqn:Hv; [discriminate|]. injection H as ->.
    eapply read_ss; [exact Hr|]. apply in_rev. rewrite Hv. left. reflexivity.
  - unfold read_entries, to_rr in H. destruct (i_read _ _ _) as [[v|]|] eqn:Hr; try discriminate. injection H as ->. apply at_index_in in Ha. eapply read_ss; eauto.
  - unfold read_decided_suffix, to_rr, i_read_decided_suffix in H. destruct (_ <? _); [|discriminate]. destruct (i_read _ _ _) as [[v|]|] eqn:Hr; try discriminate. injection H as ->. apply at_index_in in Ha. eapply read_ss; eauto.
Qed.

(** C45.  Any schedule, any loss, any order, crashes at any write: a stop sign that a server shows, as
    decided or not, through a read or through [is_reconfigured], is exactly the configuration and
    metadata of an earlier call of [reconfigure] at some server, and that configuration is valid. *)
Theorem C45_stop_sign_was_proposed :
  forall cc scs l s p o ss, reaches cc scs l s -> nodes s p = Some o ->
  (exists i d, reports o i (LStopSign ss d)) \/ is_reconfigured o = Some ss ->
  reconfigure_called l ss /\ cluster_validate (ss_cfg ss) = true.
Proof.
  intros cc scs l s p o ss Hr Ho Hss.
  assert (H : AllV (fun x => reconfigure_called l x /\ cluster_validate (ss_cfg x) = true) s).
  { eapply allv_run; [apply allv_init| |exact Hr]. rewrite Forall_forall. intros a Ha. unfold actS. destruct (action_event a) as [[q [[]|]]|] eqn:Hae; auto. intros Hv. split; auto. exists a, q. auto. }
  destruct H as [H _]. pose proof (iv_ca _ _ (v_is _ _ (H _ _ Ho))) as X.
  assert (Hi : i_ss (s_is (o_sp o)) = Some ss).
  { destruct Hss as [(i & d & Hrep)|Hrec]; [eapply reports_ss; eauto|]. unfold is_reconfigured, sp_is_reconfigured in Hrec. destruct (i_ss _); [|discriminate]. destruct (stopsign_is_decided _); [congruence|discriminate]. }
  rewrite Hi in X. exact X.
Qed.
(** The same for the stop sign in the persistent storage, at every write of every call. *)
Theorem C45_stored_stop_sign_was_proposed :
  forall cc scs l s p o ev c st ss, reaches cc scs l s -> nodes s p = Some o -> event_call s p ev = Some c ->
  In st (crash_points o c) -> ms_ss st = Some ss ->
  reconfigure_called l ss \/ ev = ECall (CReconfigure (ss_cfg ss) (ss_meta ss)).
Proof.
  intros cc scs l s p o ev c st ss Hr Ho Hc Hin Hss.
  assert (H : AllV (fun x => reconfigure_called l x \/ ev = ECall (CReconfigure (ss_cfg x) (ss_meta x))) s).
  { eapply allv_run; [apply allv_init| |exact Hr]. rewrite Forall_forall. intros a Ha. unfold actS. destruct (action_event a) as [[q [[]|]]|] eqn:Hae; auto. intros Hv. left. exists a, q. auto. }
  pose proof (fun X => crash_v _ o c st (event_callS _ s p ev c H X Hc) (proj1 H _ _ Ho) Hin) as Y. rewrite Hss in Y. cbn in Y. apply Y.
  destruct ev as [[]|]; auto.
Qed.
End WithEntry.
Print Assumptions C45_stop_sign_was_proposed.
Print Assumptions C45_stored_stop_sign_was_proposed.

(** The run of PropAgreement.v: server 2 called [reconfigure], all three servers show it. *)
Section Case.
Local Existing Instance plain.
Example C45_case :
  reaches cc3 scs ((acts_case1 ++ acts_case2) ++ acts_case3) sys_case3 /\
  obs sys_case3 3 (fun o => read o 4) = Some (RSome (LStopSign (mkSS cc_next None) true)) /\
  obs sys_case3 1 is_reconfigured = Some (Some (mkSS cc_next None)).
Proof. split; [exact case_reach3|]. split; vm_compute; reflexivity. Qed.
End Case.
