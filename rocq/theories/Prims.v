(** * The storage operations of one call

    Every call changes the internal storage by a sequence of a few operations.  A property of
    the storage that these keep is kept by every call; no assumption is made about the messages. *)
From Coq Require Import List Arith Bool Lia.
Import ListNotations.
From Verif Require Import Types Config MemStore Internal LeaderState SeqPaxos Ble Omni System Basics Spec.

Section WithEntry.
Context {E : EntryT}.

Lemma ble_total a b : ble a b = false -> ble b a = true.
Proof. intros H. apply ble_spec. left. unfold ble in H. pose proof (bcmp_spec a b) as X. destruct (bcmp a b); try discriminate. auto. Qed.
Lemma same_refl a : bal_same a a.
Proof. repeat split. Qed.

(** The synchronisation in a message. *)
Definition sync_of (m : pmsg) : option log_sync :=
  match m with MAcceptSync _ _ _ sy => Some sy | MPromise p => pr_sync p | _ => None end.

Section Perm.
(** What is allowed: the synchronisations of AcceptSync ([AS]), those of promises ([MS]), the end of a
    prepare phase ([LD]), trims, snapshots, stop signs, changes of the decided index and the ballots
    promised ([PR]). *)
Context (AS : ballot -> nat -> log_sync -> Prop) (MS : option log_sync -> Prop) (LD TR SN SSP DC : Prop) (PR : ballot -> Prop).
(** The synchronisations that the server has already made ([OK]). *)
Context (OK : log_sync -> Prop).

Inductive prim : istore -> istore -> Prop :=
| pm_batch s b : prim s (set_ca s (c_set_batch (i_ca s) b))
| pm_append s es : prim s (fst (append_entries_without_batching s es))
| pm_stop s ss : SSP -> i_ss s = None -> c_batch (i_ca s) = [] -> prim s (fst (i_append_stopsign s ss))
| pm_setss s ss s' a : SSP -> i_set_stopsign s (Some ss) = Ok (s', a) -> prim s s'
| pm_prom s n : PR n -> ble (i_prom s) n = true -> prim s (i_set_promise s n)
| pm_dec s d : DC -> i_dec s <= d \/ d = i_acc s -> prim s (i_set_decided s d)
| pm_syncf s n d sy s' a : AS n d sy -> sync_log s n d (Some sy) = Ok (s', a) -> prim s s'
| pm_syncl s n d sy s' a : LD -> MS sy -> sync_log s n d sy = Ok (s', a) -> prim s s'
| pm_trim s i s' r : TR -> try_trim s i = Ok (s', r) -> prim s s'
| pm_snap s i s' r : SN -> try_snapshot s i = Ok (s', r) -> prim s s'.

Inductive prims : istore -> istore -> Prop :=
| ps_refl s : prims s s
| ps_step s1 s2 s3 : prims s1 s2 -> prim s2 s3 -> prims s1 s3.

Lemma prims_trans s1 s2 s3 : prims s1 s2 -> prims s2 s3 -> prims s1 s3.
Proof. intros H1 H2. induction H2 as [s|a b c Hp IH Hs]; auto. eapply ps_step; [apply IH; exact H1|exact Hs]. Qed.

Lemma prims_inv (I : istore -> Prop) : (forall s s', I s -> prim s s' -> I s') -> forall s s', prims s s' -> I s -> I s'.
Proof. intros HI s s' H. induction H as [s|a b c Hp IH Hs]; auto. intros H1. eapply HI; [apply IH; exact H1|exact Hs]. Qed.

(** ** Composed operations *)
Lemma p_awb i0 s es : prims i0 s -> prims i0 (fst (append_entries_without_batching s es)).
Proof. intros H. eapply ps_step; [exact H|apply pm_append]. Qed.
Lemma p_batch i0 s b : prims i0 s -> prims i0 (set_ca s (c_set_batch (i_ca s) b)).
Proof. intros H. eapply ps_step; [exact H|apply pm_batch]. Qed.
Lemma p_fifb i0 s r : prims i0 s -> prims i0 (fst (flush_if_full_batch s r)).
Proof. intros H. destruct r as [es|]; [|exact H]. apply (p_awb i0 s es H). Qed.
Lemma p_tiff i0 s b : prims i0 s ->
  prims i0 (fst (let '(c, r) := take_entries_if_batch_is_full (c_set_batch (i_ca s) b) in flush_if_full_batch (set_ca s c) r)).
Proof.
  intros H. unfold take_entries_if_batch_is_full. destruct (_ <=? _); cbn [take_batched_entries].
  - apply p_fifb. exact (p_batch i0 s [] H).
  - apply p_fifb, p_batch, H.
Qed.
Lemma p_aewb i0 s e : prims i0 s -> prims i0 (fst (append_entry_with_batching s e)).
Proof. apply p_tiff. Qed.
Lemma p_aeswb i0 s es : prims i0 s -> prims i0 (fst (append_entries_with_batching s es)).
Proof. apply p_tiff. Qed.
Lemma p_aegai i0 s es : prims i0 s -> prims i0 (fst (append_entries_and_get_accepted_idx s es)).
Proof.
  intros H. unfold append_entries_and_get_accepted_idx, cache_append_entries, take_entries_if_batch_is_full. destruct (_ <=? _); cbn [take_batched_entries].
  - apply (p_awb i0 (set_ca s (c_set_batch (i_ca s) [])) (c_batch (i_ca s) ++ es)). exact (p_batch i0 s [] H).
  - apply p_batch, H.
Qed.
Lemma p_flush i0 s : prims i0 s -> prims i0 (fst (flush_batch s)).
Proof. intros H. unfold flush_batch, take_batched_entries. apply p_awb, p_batch, H. Qed.
Lemma p_fbge i0 s : prims i0 s -> prims i0 (fst (flush_batch_and_get_entries s)).
Proof.
  intros H. unfold flush_batch_and_get_entries. destruct (c_batch (i_ca s)); [exact H|]. unfold take_batched_entries. apply p_fifb, p_batch, H.
Qed.
Lemma p_stop i0 s ss : SSP -> i_ss s = None -> prims i0 s -> prims i0 (fst (i_append_stopsign s ss)).
Proof.
  intros Hp Hn H. destruct (c_batch (i_ca s)) as [|e es] eqn:Hb.
  - eapply ps_step; [exact H|]. apply pm_stop; auto.
  - assert (H2 : prims i0 (fst (append_entries_without_batching (set_ca s (c_set_batch (i_ca s) [])) (e :: es)))) by (apply p_awb, p_batch, H).
    eapply ps_step; [exact H2|]. assert (He : fst (i_append_stopsign s ss) = fst (i_append_stopsign (fst (append_entries_without_batching (set_ca s (c_set_batch (i_ca s) [])) (e :: es))) ss)).
    { unfold i_append_stopsign, cache_append_stopsign. cbn -[app length]. rewrite Hb. reflexivity. }
    rewrite He. apply pm_stop; auto.
Qed.

Lemma sync_panic s n d sy tr : sync_log s n d sy = Panic tr -> tr = i_tr s.
Proof.
  unfold sync_log, ilift, ipanic. destruct sy as [sy|].
  2: { destruct (ms_write _ _); cbn; intros H; [discriminate|congruence]. }
  assert (Main : forall c ops, bind
     (let '(s, ops3) := match sy_ss sy with
        | Some ss => (set_ca (set_ca (set_ca s c) (c_set_acc c (sy_idx sy + length (sy_suffix sy)))) (c_set_acc (c_set_ss (c_set_acc c (sy_idx sy + length (sy_suffix sy))) (Some ss)) (sy_idx sy + length (sy_suffix sy) + 1)), ops ++ [OpSetStopsign (Some ss)])
        | None => match c_ss c with Some _ => (set_ca (set_ca (set_ca s c) (c_set_acc c (sy_idx sy + length (sy_suffix sy)))) (c_set_ss (c_set_acc c (sy_idx sy + length (sy_suffix sy))) None), ops ++ [OpSetStopsign None])
           | None => ((set_ca (set_ca s c) (c_set_acc c (sy_idx sy + length (sy_suffix sy)))), ops) end end in
      m <- (match ms_write (i_st s) ops3 with Some a => Ok a | None => Panic (i_tr s) end) ;; Ok (put_st s m, i_acc (put_st s m)))
     (fun x => Ok x) = Panic tr -> tr = i_tr s).
  { intros c ops. destruct (sy_ss sy); [|destruct (c_ss c)]; cbn [i_st i_tr set_ca]; (destruct (ms_write _ _); cbn; intros H; [discriminate|congruence]). }
  destruct (sy_snap sy) as [[c|dl]|]; cbn [bind].
  - unfold i_ss. cbn [i_ca set_ca c_ss c_set_acc]. destruct (sy_ss sy); [|destruct (c_ss _)]; cbn [i_st i_tr set_ca bind]; (match goal with |- context [ms_write ?a ?b] => destruct (ms_write a b) end; cbn; intros H; [discriminate|congruence]).
  - destruct (create_decided_snapshot _); [|cbn; congruence|cbn; congruence]. destruct (s_merge _ _); [|cbn; congruence]. cbn [bind].
    unfold i_ss. cbn [i_ca set_ca c_ss c_set_acc]. destruct (sy_ss sy); [|destruct (c_ss _)]; cbn [i_st i_tr set_ca bind]; (match goal with |- context [ms_write ?a ?b] => destruct (ms_write a b) end; cbn; intros H; [discriminate|congruence]).
  - unfold i_ss. cbn [i_ca set_ca c_ss c_set_acc]. destruct (sy_ss sy); [|destruct (c_ss _)]; cbn [i_st i_tr set_ca bind]; (match goal with |- context [ms_write ?a ?b] => destruct (ms_write a b) end; cbn; intros H; [discriminate|congruence]).
Qed.
Lemma trim_panic s i tr : try_trim s i = Panic tr -> tr = i_tr s.
Proof.
  unfold try_trim, ilift, ipanic. destruct (dec_without_ss s) as [ld|]; [|congruence].
  destruct (Nat.compare i (i_dec s)); [| |discriminate]; (destruct (i_comp s <? _); [|discriminate]); (destruct (ms_write _ _); cbn; [discriminate|congruence]).
Qed.
Lemma snap_panic s i tr : try_snapshot s i = Panic tr -> tr = i_tr s.
Proof.
  unfold try_snapshot, ilift, ipanic. destruct (dec_without_ss s) as [ld|]; [|congruence].
  assert (Main : forall new, (if i_comp s <? new then
          match create_snapshot s new with
          | CPanic => Panic (i_tr s)
          | CErr e => Ok (s, Some e)
          | COk sn =>
              m <- (match ms_write (i_st s) [OpTrim new; OpSetComp new; OpSetSnapshot (Some sn)] with Some a => Ok a | None => Panic (i_tr s) end) ;;
              let s := put_st s m in Ok (set_ca s (c_set_comp (i_ca s) new), None)
          end else Ok (s, None)) = Panic tr -> tr = i_tr s).
  { intros new. destruct (i_comp s <? new); [|discriminate]. destruct (create_snapshot s new); [|discriminate|congruence]. destruct (ms_write _ _); cbn; [discriminate|congruence]. }
  cbn zeta. destruct i as [i|]; [|apply Main]. destruct (Nat.compare i (i_dec s)); [apply Main|apply Main|discriminate].
Qed.
Lemma setss_panic s ss tr : i_set_stopsign s (Some ss) = Panic tr -> False.
Proof. unfold i_set_stopsign. destruct (c_ss (i_ca s)); discriminate. Qed.

(** ** Servers *)
Section From.
Context (i0 : istore).

(** The storage results from allowed operations; the synchronisations in the outgoing messages
    and in the kept promise are old ones or (if [b]) made from the present storage. *)
Definition made (b : bool) (s : sp) (sy : log_sync) : Prop := OK sy \/ (b = true /\ exists k d, create_log_sync s k d = Some sy).
Record Wg (b : bool) (s : sp) : Prop := {
  w_is : prims i0 (s_is s);
  w_ms : MS (l_maxsync (s_ls s));
  w_out : forall m sy, In m (s_out s) -> sync_of (pm_msg m) = Some sy -> made b s sy;
  w_cp : forall p sy, s_cprom s = Some p -> pr_sync p = Some sy -> made b s sy
}.
Notation W := (Wg false).
Arguments w_is {b} s.
Arguments w_ms {b} s.
Arguments w_out {b} s.
Arguments w_cp {b} s.
Lemma w_true b s : Wg b s -> Wg true s.
Proof. intros [A1 A2 A3 A4]. constructor; auto; intros m sy H1 H2; [destruct (A3 _ _ H1 H2) as [X|[-> X]]|destruct (A4 _ _ H1 H2) as [X|[-> X]]]; unfold made; auto. Qed.

Definition ptr (tr : list mstore) : Prop := exists is, prims i0 is /\ i_tr is = tr.
Definition wokg (b : bool) (r : res sp) : Prop := match r with Ok s => Wg b s | Panic tr => ptr tr end.
Definition wok2g (b : bool) {B} (r : res (sp * B)) : Prop := match r with Ok (s, _) => Wg b s | Panic tr => ptr tr end.
Notation wok := (wokg false).
Notation wok2 := (wok2g false).
Lemma w_panic b s : Wg b s -> ptr (i_tr (s_is s)).
Proof. intros [H _ _ _]. exists (s_is s). auto. Qed.
Lemma lift_w {B} b s (o : option B) (f : B -> res sp) : Wg b s -> (forall x, o = Some x -> wokg b (f x)) -> wokg b (bind (lift s o) f).
Proof. intros H Hf. destruct o; cbn; auto. eapply w_panic; eauto. Qed.
Lemma lift_w2 {B C} b s (o : option B) (f : B -> res (sp * C)) : Wg b s -> (forall x, o = Some x -> wok2g b (f x)) -> wok2g b (bind (lift s o) f).
Proof. intros H Hf. destruct o; cbn; auto. eapply w_panic; eauto. Qed.
Lemma bind_w b (r : res sp) f : wokg b r -> (forall s, Wg b s -> wokg b (f s)) -> wokg b (bind r f).
Proof. destruct r; cbn; auto. Qed.
Lemma for_each_w b f : (forall s p, Wg b s -> wokg b (f s p)) -> forall l s, Wg b s -> wokg b (for_each s l f).
Proof. intros Hf. induction l as [|p l IH]; cbn; intros s H; auto. apply bind_w; auto. Qed.

Lemma ws_is s x : W s -> prims i0 x -> W (set_is s x).
Proof.
  intros [A1 A2 A3 A4] H. constructor; auto; cbn; intros m sy X1 X2; [destruct (A3 _ _ X1 X2) as [X|[X _]]|destruct (A4 _ _ X1 X2) as [X|[X _]]]; try discriminate X; left; auto.
Qed.
Lemma ws_state b s r p : Wg b s -> Wg b (set_state s r p).
Proof. intros []. constructor; auto. Qed.
Lemma ws_bp b s x : Wg b s -> Wg b (set_bprops s x).
Proof. intros []. constructor; auto. Qed.
Lemma ws_bss b s x : Wg b s -> Wg b (set_bss s x).
Proof. intros []. constructor; auto. Qed.
Lemma ws_cseq b s x : Wg b s -> Wg b (set_cseq s x).
Proof. intros []. constructor; auto. Qed.
Lemma ws_cprom b s : Wg b s -> Wg b (set_cprom s None).
Proof. intros []. constructor; auto. discriminate. Qed.
Lemma ws_lam b s x : Wg b s -> Wg b (set_lam s x).
Proof. intros []. constructor; auto. Qed.
Lemma ws_ls b s x : Wg b s -> l_maxsync x = l_maxsync (s_ls s) -> Wg b (set_ls s x).
Proof. intros [] H. constructor; auto. cbn. rewrite H. auto. Qed.
Lemma ws_push b s to m : Wg b s -> sync_of m = None -> Wg b (push s to m).
Proof.
  intros [A1 A2 A3 A4] H. constructor; auto. cbn. intros x sy Hx Hy. apply in_app_or in Hx. destruct Hx as [Hx|[<-|[]]]; [exact (A3 _ _ Hx Hy)|cbn in Hy; congruence].
Qed.
Lemma ws_push_made b s to m sy : Wg b s -> sync_of m = Some sy -> made b s sy -> Wg b (push s to m).
Proof.
  intros [A1 A2 A3 A4] H Hm. constructor; auto. cbn. intros x y Hx Hy. apply in_app_or in Hx. destruct Hx as [Hx|[<-|[]]]; [exact (A3 _ _ Hx Hy)|cbn in Hy].
  rewrite H in Hy. injection Hy as <-. exact Hm.
Qed.
Lemma ws_push_all b m : sync_of m = None -> forall l s, Wg b s -> Wg b (push_all s l m).
Proof. intros Hm. unfold push_all. induction l as [|p l IH]; cbn; intros s H; auto. apply IH, ws_push; auto. Qed.
Lemma in_upd {A} (l : list A) i y x : In x (upd l i y) -> x = y \/ In x l.
Proof. revert i. induction l as [|z l IH]; intros [|i]; cbn; auto; intros [->|H]; auto. destruct (IH _ H); auto. Qed.
Lemma ws_mod b s idx f : (forall m, sync_of (f m) = sync_of m) -> Wg b s -> Wg b (mod_accdec s idx f).
Proof.
  intros Hf H. unfold mod_accdec. destruct (nth_error (s_out s) idx) as [m|] eqn:Hn; auto. destruct H as [A1 A2 A3 A4]. constructor; auto.
  cbn [s_out set_out]. intros x sy Hx Hy. apply in_upd in Hx. destruct Hx as [->|Hx]; [|exact (A3 _ _ Hx Hy)]. cbn [pm_msg] in Hy. rewrite Hf in Hy. apply nth_error_In in Hn. exact (A3 _ _ Hn Hy).
Qed.
Lemma ws_extend b s idx es d : Wg b s -> Wg b (mod_accdec s idx (extend_accdec es d)).
Proof. apply ws_mod. intros []; reflexivity. Qed.
Lemma ws_redecide b s idx d : Wg b s -> Wg b (mod_accdec s idx (redecide_accdec d)).
Proof. apply ws_mod. intros []; reflexivity. Qed.
Ltac wpush := apply ws_push; [|reflexivity].
Lemma ws_reaccept b s idx a : Wg b s -> Wg b (mod_accdec s idx (reaccept a)).
Proof. apply ws_mod. intros []; reflexivity. Qed.
Hint Resolve ws_reaccept ws_state ws_bp ws_bss ws_cseq ws_cprom ws_lam ws_push ws_push_all ws_extend ws_redecide : w.

Lemma ms_setp (l : leader_state) p from c l' m : MS (l_maxsync l) -> MS (pr_sync p) -> ls_set_promise l p from c = Some (l', m) -> MS (l_maxsync l').
Proof.
  intros H Hp. unfold ls_set_promise. destruct (vset _ _ _); [|discriminate]. intros X. injection X as <- _. cbn. destruct (c && _); auto.
Qed.
Lemma ms_setp0 (l : leader_state) p from l' m : ls_set_promise l p from false = Some (l', m) -> l_maxsync l' = l_maxsync l.
Proof. unfold ls_set_promise. destruct (vset _ _ _); [|discriminate]. intros X. injection X as <- _. reflexivity. Qed.
Lemma ms_next (l l' : leader_state) p q : next_seq_num l p = Some (l', q) -> l_maxsync l' = l_maxsync l.
Proof. unfold next_seq_num. destruct (vget _ _); [|discriminate]. destruct (vset _ _ _); [|discriminate]. intros X. injection X as <- _. reflexivity. Qed.
Lemma ms_incr (l l' : leader_state) p : increment_seq_num_session l p = Some l' -> l_maxsync l' = l_maxsync l.
Proof. unfold increment_seq_num_session. destruct (vget _ _); [|discriminate]. destruct (vset _ _ _); [|discriminate]. intros X. injection X as <-. reflexivity. Qed.
Lemma ms_setacc (l l' : leader_state) p i : set_accepted_idx l p i = Some l' -> l_maxsync l' = l_maxsync l.
Proof. unfold set_accepted_idx. destruct (vset _ _ _); [|discriminate]. intros X. injection X as <-. reflexivity. Qed.
Lemma ms_setmeta (l l' : leader_state) p i : set_latest_accept_meta l p i = Some l' -> l_maxsync l' = l_maxsync l.
Proof. unfold set_latest_accept_meta. destruct (vset _ _ _); [|discriminate]. intros X. injection X as <-. reflexivity. Qed.
Lemma mx_prom (l l' : leader_state) p x : option_map (l_set_proms l) (vset (l_proms l) p x) = Some l' -> l_maxsync l' = l_maxsync l.
Proof. destruct (vset _ _ _); [|discriminate]. intros X. injection X as <-. reflexivity. Qed.

Lemma w_setacc b s p i l' : Wg b s -> set_accepted_idx (s_ls s) p i = Some l' -> Wg b (set_ls s l').
Proof. intros H Hl. apply ws_ls; auto. eapply ms_setacc; eauto. Qed.
Lemma send_ad_to_w dec es s p : W s -> wok (send_acceptdecide_to dec es s p).
Proof.
  intros H. unfold send_acceptdecide_to. apply lift_w; auto. intros [idx|] _; [cbn; auto with w|]. apply lift_w; auto. intros l1 H1. apply lift_w; auto. intros [l2 q] H2. cbn.
  wpush; apply ws_ls; auto. apply ms_setmeta in H1. apply ms_next in H2. congruence.
Qed.
Lemma send_ad_w s es : W s -> wok (send_acceptdecide s es).
Proof. intros H. unfold send_acceptdecide. apply lift_w; auto. intros l _. apply for_each_w; auto. intros. apply send_ad_to_w; auto. Qed.
Lemma meta_w s (is : istore) r : W s -> prims i0 is ->
  wok (match r with Some (acc, es) => ls <- lift (set_is s is) (set_accepted_idx (s_ls s) (s_pid s) acc) ;; send_acceptdecide (set_ls (set_is s is) ls) es
       | None => Ok (set_is s is) end).
Proof.
  intros H Hi. assert (H1 : W (set_is s is)) by (apply ws_is; auto). destruct r as [[acc es]|]; [|exact H1].
  apply lift_w; auto. intros ls Hl. apply send_ad_w. eapply w_setacc; eauto.
Qed.
Lemma accept_entry_w s e : W s -> wok (accept_entry_leader s e).
Proof.
  intros H. unfold accept_entry_leader. pose proof (p_aewb i0 (s_is s) e (w_is _ H)) as Hp. destruct (append_entry_with_batching _ _) as [is r]. apply (meta_w s is r); auto.
Qed.
Lemma accept_entries_w s es : W s -> wok (accept_entries_leader s es).
Proof.
  intros H. unfold accept_entries_leader. pose proof (p_aeswb i0 (s_is s) es (w_is _ H)) as Hp. destruct (append_entries_with_batching _ _) as [is r]. apply (meta_w s is r); auto.
Qed.
Lemma flush_leader_w s : W s -> wok (flush_batch_leader s).
Proof.
  intros H. unfold flush_batch_leader. pose proof (p_fbge i0 (s_is s) (w_is _ H)) as Hp. destruct (flush_batch_and_get_entries _) as [is r]. apply (meta_w s is r); auto.
Qed.
Lemma resend_ms s (b : bool) to l q : (if b then option_map (fun q => (s_ls s, q)) (get_seq_num (s_ls s) to) else next_seq_num (s_ls s) to) = Some (l, q) -> l_maxsync l = l_maxsync (s_ls s).
Proof.
  destruct b; [|apply ms_next]. destruct (get_seq_num _ _); cbn; [|discriminate]. intros X. injection X as <- <-. auto.
Qed.
Lemma send_ss_w ss b s to : W s -> wok (send_accept_stopsign ss b s to).
Proof. intros H. unfold send_accept_stopsign. apply lift_w; auto. intros [l q] Hl. apply resend_ms in Hl. cbn. wpush; apply ws_ls; auto. Qed.
Lemma send_decide_w d b s to : W s -> wok (send_decide d b s to).
Proof. intros H. unfold send_decide. apply lift_w; auto. intros [l q] Hl. apply resend_ms in Hl. cbn. wpush; apply ws_ls; auto. Qed.
Lemma nreconf s : accepted_reconfiguration s = false -> i_ss (s_is s) = None.
Proof. unfold accepted_reconfiguration. destruct (i_ss (s_is s)); [discriminate|auto]. Qed.
Lemma accept_ss_w s ss : SSP -> accepted_reconfiguration s = false -> W s -> wok (accept_stopsign_leader s ss).
Proof.
  intros Hp Hr H. unfold accept_stopsign_leader. pose proof (p_stop i0 (s_is s) ss Hp (nreconf _ Hr) (w_is _ H)) as Hi. destruct (i_append_stopsign _ _) as [is r].
  assert (H1 : W (set_is s is)) by (apply ws_is; auto). apply bind_w.
  - destruct r as [[acc es]|]; [apply send_ad_w|cbn]; auto.
  - intros s1 H2. apply lift_w; auto. intros ls Hl. assert (H3 : W (set_ls s1 ls)) by (eapply w_setacc; eauto). apply lift_w; auto. intros l _. apply for_each_w; auto. intros. apply send_ss_w; auto.
Qed.
Lemma forward_props_w s es : W s -> W (forward_proposals s es).
Proof. intros H. unfold forward_proposals. destruct (_ && _); auto with w. Qed.
Lemma forward_ss_w s ss : W s -> W (forward_stopsign s ss).
Proof. intros H. unfold forward_stopsign. destruct (_ && _); auto with w. destruct (s_bss s); auto with w. Qed.
Lemma handle_leader_w s n : PR n -> MS None -> W s -> wok (handle_leader s n).
Proof.
  intros HPR Hms H. unfold handle_leader. destruct (ble n (l_n (s_ls s)) || ble n (i_prom (s_is s))) eqn:Hn; [exact H|]. destruct (s_pid s =? b_pid n); [|cbn; auto with w]. cbn zeta.
  apply orb_false_iff in Hn. destruct Hn as [_ Hn].
  set (s1 := set_is (set_ls s _) _). set (s2 := set_is s1 _).
  assert (H1 : W s1). { unfold s1. apply ws_is; [|apply p_flush, (w_is _ H)]. destruct H. constructor; auto. }
  assert (H2 : W s2). { unfold s2. apply ws_is; auto. eapply ps_step; [apply (w_is _ H1)|]. apply pm_prom; [exact HPR|].
    change (i_prom (s_is s1)) with (i_prom (s_is s)). destruct (ble (i_prom (s_is s)) n) eqn:Hb; auto. exfalso. clear - Hn Hb.
    apply ble_total in Hn. congruence. }
  apply lift_w; auto. intros [ls m] Hl. cbn [wokg]. apply ws_push_all; [reflexivity|]; apply ws_state. destruct H2. constructor; auto. eapply ms_setp; [| |exact Hl]; auto.
Qed.
Lemma handle_preparereq_w s n from : W s -> wok (handle_preparereq s n from).
Proof.
  intros H. unfold handle_preparereq. destruct (_ && _); [|exact H]. apply lift_w; auto. intros l1 H1. apply lift_w; auto. intros l2 H2. cbn. wpush; apply ws_ls; auto.
  apply mx_prom in H1. apply ms_setmeta in H2. congruence.
Qed.
Lemma fwd_prop_w s es : W s -> wok (handle_forwarded_proposal s es).
Proof.
  intros H. unfold handle_forwarded_proposal. destruct (accepted_reconfiguration s); [exact H|].
  destruct (s_role s), (s_phase s); cbn [wokg]; try (apply forward_props_w; auto); auto with w. apply accept_entries_w; auto.
Qed.
Lemma fwd_ss_w s ss : SSP -> W s -> wok (handle_forwarded_stopsign s ss).
Proof.
  intros Hp H. unfold handle_forwarded_stopsign. destruct (accepted_reconfiguration s) eqn:Hr; [exact H|].
  destruct (s_role s), (s_phase s); cbn [wokg]; try (apply forward_ss_w; auto); auto with w. apply accept_ss_w; auto.
Qed.
Lemma send_accsync_w s to : Wg true s -> wokg true (send_accsync s to).
Proof.
  intros H. unfold send_accsync. apply lift_w; auto. intros m _. apply lift_w; auto. intros fd _. apply lift_w; auto. intros sy Hsy.
  apply lift_w; auto. intros l1 H1. apply lift_w; auto. intros [l2 sq] H2. apply ms_incr in H1. apply ms_next in H2.
  cbn. eapply ws_push_made; [apply ws_ls; auto; congruence|reflexivity|]. right. split; [reflexivity|]. eauto.
Qed.
Lemma majority_w s : LD -> SSP -> MS None -> W s -> wokg true (handle_majority_promises s).
Proof.
  intros Hl Hp Hms H. unfold handle_majority_promises, take_max_promise_sync. cbn zeta.
  set (s1 := set_ls s (l_set_max (s_ls s) (l_maxmeta (s_ls s)) None)). assert (H1 : W s1) by (destruct H; constructor; auto).
  destruct (sync_log _ _ _ _) as [[is acc]|tr] eqn:Hsy.
  2: { cbn [bind wokg]. apply sync_panic in Hsy. subst tr. apply (w_panic _ _ H1). }
  cbn [bind]. assert (H2 : W (set_is s1 is)). { apply ws_is; auto. eapply ps_step; [apply (w_is _ H1)|]. eapply pm_syncl; [exact Hl|apply (w_ms _ H)|exact Hsy]. }
  match goal with |- wokg _ (let '(_, _) := ?e in _) => assert (Hx : W (fst e)); [|destruct e as [s3 acc3]; cbn [fst] in Hx] end.
  { destruct (accepted_reconfiguration (set_is s1 is)) eqn:Hr; [exact H2|]. apply nreconf in Hr.
    match goal with |- W (fst (let '(_, _) := ?e in _)) => assert (Hx : W (fst e) /\ i_ss (s_is (fst e)) = None); [|destruct e as [s3 acc3]; cbn [fst] in Hx] end.
    { destruct (s_bprops _) as [|e es]; [auto|].
      pose proof (p_awb i0 (s_is (set_bprops (set_is s1 is) [])) (e :: es) (w_is _ H2)) as Ha.
      assert (Hn : i_ss (fst (append_entries_without_batching (s_is (set_bprops (set_is s1 is) [])) (e :: es))) = None) by exact Hr.
      destruct (append_entries_without_batching _ _) as [is2 acc2]. cbn [fst] in *. split; [apply ws_is; auto with w|exact Hn]. }
    destruct Hx as [Hx Hn]. destruct (s_bss s3) as [ss|]; [|exact Hx]. cbn [fst]. apply ws_is; auto with w. apply p_stop; auto. apply (w_is _ Hx). }
  assert (H4 : Wg true (set_state s3 Leader PhAccept)) by (apply (w_true false); auto with w).
  apply lift_w; auto. intros ls Hls. assert (H5 : Wg true (set_ls (set_state s3 Leader PhAccept) ls)) by (eapply w_setacc; eauto).
  apply lift_w; auto. intros l _. apply for_each_w; auto. intros. apply send_accsync_w; auto.
Qed.
Lemma promise_prepare_w s p from : LD -> SSP -> MS None -> MS (pr_sync p) -> W s -> wokg true (handle_promise_prepare s p from).
Proof.
  intros Hl Hp Hms Hm H. unfold handle_promise_prepare. destruct (beq _ _); [|apply (w_true _ _ H)].
  assert (Ht : Wg true s) by (apply (w_true _ _ H)). apply lift_w; auto. intros [ls m] Hls.
  assert (H1 : W (set_ls s ls)). { destruct H. constructor; auto. eapply ms_setp; [| |exact Hls]; auto. } destruct m; [apply majority_w; auto|apply (w_true _ _ H1)].
Qed.
Lemma promise_accept_w s p from : Wg true s -> wokg true (handle_promise_accept s p from).
Proof.
  intros H. unfold handle_promise_accept. destruct (beq _ _); [|exact H]. apply lift_w; auto. intros [ls m] Hl.
  apply send_accsync_w, ws_ls; auto. eapply ms_setp0; eauto.
Qed.
Lemma handle_accepted_w s n a from : DC -> W s -> wok (handle_accepted s n a from).
Proof.
  intros Hd H. unfold handle_accepted. destruct (_ && _); [|exact H]. apply lift_w; auto. intros ls Hl. assert (H1 : W (set_ls s ls)) by (eapply w_setacc; eauto).
  destruct (_ && _) eqn:Hc; [|exact H1]. apply andb_true_iff in Hc. destruct Hc as [Hc _]. apply Nat.ltb_lt in Hc.
  assert (H2 : W (set_is (set_ls s ls) (i_set_decided (s_is (set_ls s ls)) a))).
  { apply ws_is; auto. eapply ps_step; [apply (w_is _ H1)|]. apply pm_dec; auto. left. lia. }
  apply lift_w; auto. intros l _. apply for_each_w; auto. intros s1 p H3. unfold handle_accepted_to. apply lift_w; auto. intros [idx|] _; [cbn; auto with w|apply send_decide_w; auto].
Qed.
Lemma notaccepted_w s n from : W s -> wok (handle_notaccepted s n from).
Proof.
  intros H. unfold handle_notaccepted. destruct (_ && _); [|exact H]. apply lift_w; auto. intros ls Hl. apply ws_ls; auto. eapply mx_prom; eauto.
Qed.
Lemma prepare_all_w l : forall s, W s -> W (fold_left send_prepare l s).
Proof. induction l as [|p l IH]; cbn; intros s H; auto. apply IH; wpush; auto. Qed.
Lemma resend_leader_w s : W s -> wok (resend_messages_leader s).
Proof.
  intros H. unfold resend_messages_leader. destruct (s_phase s); [| |exact H|exact H].
  - apply lift_w; auto. intros l _. apply prepare_all_w; auto.
  - apply bind_w.
    + destruct (i_ss (s_is s)) as [ss|]; [|exact H]. apply lift_w; auto. intros l _. apply for_each_w; auto. intros s1 p H1. unfold resend_ss_to.
      destruct (stopsign_is_decided _); [apply send_decide_w; auto|]. apply lift_w; auto. intros a _. destruct (a =? _); [exact H1|apply send_ss_w; auto].
    + intros s1 H1. apply lift_w; auto. intros l _. apply prepare_all_w; auto.
Qed.
Lemma reconnected_w s p : W s -> W (reconnected s p).
Proof. intros H. unfold reconnected. destruct (p =? s_pid s); auto. wpush. destruct (p =? sp_leader s); auto with w. Qed.
Lemma handle_prepare_w s n d na a from : PR n -> W s -> wokg true (handle_prepare s n d na a from).
Proof.
  intros HPR H. unfold handle_prepare. destruct (blt (i_prom (s_is s)) n || _) eqn:Hn; [|apply (w_true _ _ H)]. cbn zeta.
  match goal with |- wokg _ (bind ?e ?f) => set (s1 := set_cseq _ _) in * end.
  assert (H1 : W s1).
  { unfold s1. apply ws_cseq, ws_state, ws_is; [apply ws_is; [auto|apply p_flush, (w_is _ H)]|]. eapply ps_step; [apply p_flush, (w_is _ H)|]. apply pm_prom; [exact HPR|].
    cbn [s_is set_is]. change (i_prom (fst (flush_batch (s_is s)))) with (i_prom (s_is s)). apply orb_true_iff in Hn. destruct Hn as [Hn|Hn].
    - apply ble_spec. left. apply blt_spec. auto.
    - apply andb_true_iff in Hn. destruct Hn as [Hn _]. apply beq_spec in Hn. rewrite Hn. apply ble_spec. right. apply same_refl. }
  match goal with |- wokg _ (bind ?e ?f) => destruct e as [sy|tr] eqn:He end.
  - cbn [bind wokg]. assert (Hm : forall y, sy = Some y -> exists k d, create_log_sync s1 k d = Some y).
    { intros y ->. clear - He. destruct (bgt _ _); [|destruct (_ && _); [|discriminate]]; (destruct (create_log_sync s1 _ _) as [x|] eqn:Hc; cbn in He; [|discriminate]); injection He as <-; eauto. }
    set (pr := mkProm _ _ _ _ _). assert (H2 : Wg true (set_cprom s1 (Some pr))).
    { apply w_true in H1. destruct H1 as [A1 A2 A3 A4]. constructor; auto. cbn. intros p y Hp Hy. injection Hp as <-. right. split; [reflexivity|]. exact (Hm y Hy). }
    destruct sy as [y|]; [|apply ws_push; auto]. eapply ws_push_made; [exact H2|reflexivity|]. right. split; [reflexivity|]. exact (Hm y eq_refl).
  - cbn [bind wokg]. assert (tr = i_tr (s_is s1)). { clear - He. destruct (bgt _ _); [|destruct (_ && _)]; [| |discriminate]; (destruct (create_log_sync _ _ _); cbn in He; [discriminate|]); injection He as <-; reflexivity. }
    subst tr. apply (w_panic _ _ H1).
Qed.
Lemma check_valid_w s b : W s -> W (fst (check_valid_ballot s b)).
Proof. intros H. unfold check_valid_ballot. destruct (bcmp _ _); cbn [fst]; auto with w. apply reconnected_w; auto. Qed.
Lemma seqnum_w s q from : W s -> W (fst (handle_sequence_num s q from)).
Proof. intros H. unfold handle_sequence_num. destruct (check_msg_status _ _); cbn [fst]; auto with w. apply reconnected_w; auto. Qed.
Lemma reply_w s n a : W s -> wok (reply_accepted s n a).
Proof. intros H. unfold reply_accepted. apply lift_w; auto. intros [idx|] _; cbn; auto with w. Qed.
Lemma fwd_buffered_w s : W s -> W (forward_buffered_proposals s).
Proof. intros H. unfold forward_buffered_proposals. destruct (s_bprops s); [|apply forward_props_w]; auto with w. Qed.
Lemma acceptsync_w s n q d sy from : AS n d sy -> W s -> wok (handle_acceptsync s n q d sy from).
Proof.
  intros Ha H. unfold handle_acceptsync. pose proof (check_valid_w s n H) as H1. destruct (check_valid_ballot s n) as [s1 v]. cbn [fst] in H1. destruct (_ && _); [|exact H1].
  destruct (sync_log _ _ _ _) as [[is acc]|tr] eqn:Hs.
  2: { cbn [bind wokg]. apply sync_panic in Hs. subst tr. apply (w_panic _ s1 H1). }
  cbn [bind wokg]. assert (H2 : W (set_is (set_cprom s1 None) is)). { apply ws_is; auto with w. eapply ps_step; [apply (w_is _ H1)|]. eapply pm_syncf; eauto. }
  wpush; apply ws_lam, ws_cseq, ws_state. destruct (i_ss _); [|apply fwd_buffered_w]; auto.
Qed.
Lemma update_decided_w s d : DC -> W s -> W (fst (update_decided s d)).
Proof.
  intros Hd H. unfold update_decided. destruct (Nat.leb_spec d (i_dec (s_is s))); auto. destruct (_ <? d); [|cbn [fst]; apply ws_is; auto; eapply ps_step; [apply (w_is _ H)|]; apply pm_dec; auto; left; lia].
  pose proof (p_flush i0 (s_is s) (w_is _ H)) as Hf. assert (Hi : i_dec (fst (flush_batch (s_is s))) = i_dec (s_is s) /\ i_acc (fst (flush_batch (s_is s))) = snd (flush_batch (s_is s))) by (split; reflexivity).
  destruct (flush_batch _) as [is a]. cbn [fst snd] in *. apply ws_is; auto. eapply ps_step; [exact Hf|]. apply pm_dec; auto. destruct Hi as [-> ->]. lia.
Qed.
Lemma acceptdecide_w s n q d es : DC -> W s -> wok (handle_acceptdecide s n q d es).
Proof.
  intros Hd H. unfold handle_acceptdecide. pose proof (check_valid_w s n H) as H1. destruct (check_valid_ballot s n) as [s1 v]. cbn [fst] in H1. destruct (_ && _); [|exact H1].
  pose proof (seqnum_w s1 q (b_pid n) H1) as H2. destruct (handle_sequence_num s1 q (b_pid n)) as [s2 st]. cbn [fst] in H2. destruct st; [|exact H2|exact H2].
  pose proof (p_aegai i0 (s_is s2) es (w_is _ H2)) as Hp. destruct (append_entries_and_get_accepted_idx _ _) as [is r1].
  pose proof (update_decided_w _ d Hd (ws_is s2 is H2 Hp)) as H4. destruct (update_decided _ _) as [s4 r2]. cbn [fst] in H4.
  destruct (match r2 with Some _ => r2 | None => r1 end); [apply reply_w; auto|exact H4].
Qed.
Lemma accept_ss_f_w s n q ss : SSP -> W s -> wok (handle_accept_stopsign s n q ss).
Proof.
  intros Hp H. unfold handle_accept_stopsign. pose proof (check_valid_w s n H) as H1. destruct (check_valid_ballot s n) as [s1 v]. cbn [fst] in H1. destruct (_ && _); [|exact H1].
  pose proof (seqnum_w s1 q (b_pid n) H1) as H2. destruct (handle_sequence_num s1 q (b_pid n)) as [s2 st]. cbn [fst] in H2. destruct st; [|exact H2|exact H2].
  cbn zeta. assert (H3 : W (set_is s2 (fst (flush_batch (s_is s2))))) by (apply ws_is; auto; apply p_flush, (w_is _ H2)).
  destruct (i_set_stopsign _ _) as [[is acc]|tr] eqn:Hs; [|exfalso; eapply setss_panic; eauto]. cbn [bind]. apply reply_w. apply ws_is; auto.
  eapply ps_step; [apply (w_is _ H3)|]. eapply pm_setss; eauto.
Qed.
Lemma decide_w s n q d : DC -> W s -> wok (handle_decide s n q d).
Proof.
  intros Hd H. unfold handle_decide. pose proof (check_valid_w s n H) as H1. destruct (check_valid_ballot s n) as [s1 v]. cbn [fst] in H1. destruct (_ && _); [|exact H1].
  pose proof (seqnum_w s1 q (b_pid n) H1) as H2. destruct (handle_sequence_num s1 q (b_pid n)) as [s2 st]. cbn [fst] in H2. destruct st; [|exact H2|exact H2].
  pose proof (update_decided_w _ d Hd H2) as H4. destruct (update_decided _ _) as [s4 r2]. cbn [fst] in H4. destruct r2; [apply reply_w; auto|exact H4].
Qed.
Lemma resend_follower_w s : W s -> W (resend_messages_follower s).
Proof.
  intros H. unfold resend_messages_follower, send_preparereq_to_all_peers. destruct (s_phase s); auto with w. destruct (s_cprom s) as [p|] eqn:Hc; auto with w.
  destruct (pr_sync p) as [y|] eqn:Hy; [eapply ws_push_made; [exact H|exact Hy|]; exact (w_cp _ H _ _ Hc Hy)|apply ws_push; auto].
Qed.
Lemma flush_follower_w s : W s -> wok (flush_batch_follower s).
Proof.
  intros H. unfold flush_batch_follower. pose proof (p_flush i0 (s_is s) (w_is _ H)) as Hp. destruct (flush_batch _) as [is a]. assert (H1 : W (set_is s is)) by (apply ws_is; auto).
  destruct (_ <? a); [apply reply_w|cbn]; auto.
Qed.
Lemma trim_w s i : TR -> W s -> wok2 (sp_trim s i).
Proof.
  intros Ht H. unfold sp_trim. destruct (s_role s); [exact H|]. apply lift_w2; auto. intros mn _.
  assert (Main : forall k, wok2 ('(is, r) <- try_trim (s_is s) k ;;
        let s := set_is s is in
        match r with
        | None => Ok (push_all s (s_peers s) (MCompaction (CmpTrim k)), None)
        | Some e => Ok (s, Some e)
        end)).
  { intros k. destruct (try_trim _ _) as [[is r]|tr] eqn:Hk; [|cbn; apply trim_panic in Hk; subst tr; apply (w_panic _ _ H)]. cbn [bind].
    assert (H1 : W (set_is s is)). { apply ws_is; auto. eapply ps_step; [apply (w_is _ H)|]. eapply pm_trim; eauto. } destruct r; cbn [wok2g]; auto with w. }
  cbn zeta. destruct i as [i|]; [|apply Main]. destruct (i <=? mn); [apply Main|exact H].
Qed.
Lemma snapshot_w s i l : SN -> W s -> wok2 (sp_snapshot s i l).
Proof.
  intros Hn H. unfold sp_snapshot. destruct (try_snapshot _ _) as [[is r]|tr] eqn:Hk; [|cbn; apply snap_panic in Hk; subst tr; apply (w_panic _ _ H)]. cbn [bind].
  assert (H1 : W (set_is s is)). { apply ws_is; auto. eapply ps_step; [apply (w_is _ H)|]. eapply pm_snap; eauto. }
  destruct r; cbn [wok2g]; auto with w. destruct l; auto with w.
Qed.
Lemma compaction_w s c : match c with CmpTrim _ => TR | CmpSnapshot _ => SN end -> W s -> wok (handle_compaction s c).
Proof.
  intros Hc H. unfold handle_compaction. destruct c as [i|i].
  - destruct (try_trim _ _) as [[is r]|tr] eqn:Hk; [|cbn; apply trim_panic in Hk; subst tr; apply (w_panic _ _ H)]. cbn. apply ws_is; auto. eapply ps_step; [apply (w_is _ H)|]. eapply pm_trim; eauto.
  - pose proof (snapshot_w s i true Hc H) as X. destruct (sp_snapshot s i true) as [[s1 r]|tr]; exact X.
Qed.

(** What the handling of a message needs. *)
Definition may_handle (m : pmsg) : Prop :=
  match m with
  | MPrepare n _ _ _ => PR n
  | MPromise p => LD /\ SSP /\ MS (pr_sync p)
  | MAcceptSync n _ d sy => AS n d sy
  | MAccepted _ _ | MDecide _ _ _ | MAcceptDecide _ _ _ _ => DC
  | MCompaction (CmpTrim _) => TR
  | MCompaction (CmpSnapshot _) => SN
  | MAcceptStopSign _ _ _ | MForwardStopSign _ => SSP
  | _ => True
  end.
Lemma wok_true b r : wokg b r -> wokg true r.
Proof. destruct r; cbn; auto. apply w_true. Qed.
Lemma sp_handle_w s m : MS None -> may_handle (pm_msg m) -> W s -> wokg true (sp_handle s m).
Proof.
  intros Hms Hm H. unfold sp_handle. destruct (pm_msg m) as [n|n d na a|p|n q d sy|n q d es|n a|n|n q d|es|c|n q ss|ss]; cbn in Hm.
  2: apply handle_prepare_w; auto.
  2: { destruct Hm as (M1 & M2 & M3). pose proof (w_true _ _ H). destruct (s_role s), (s_phase s); auto; [apply promise_prepare_w|apply promise_accept_w]; auto. }
  all: apply (wok_true false).
  - apply handle_preparereq_w; auto.
  - apply acceptsync_w; auto.
  - apply acceptdecide_w; auto.
  - apply handle_accepted_w; auto.
  - apply notaccepted_w; auto.
  - apply decide_w; auto.
  - apply fwd_prop_w; auto.
  - apply compaction_w; auto.
  - apply accept_ss_f_w; auto.
  - apply fwd_ss_w; auto.
Qed.
Lemma propose_w s e : W s -> wok (propose_entry s e).
Proof. intros H. unfold propose_entry. destruct (s_role s), (s_phase s); cbn [wokg]; try (apply forward_props_w; auto); auto with w. apply accept_entry_w; auto. Qed.
Lemma append_w s e : W s -> wok2 (sp_append s e).
Proof.
  intros H. unfold sp_append. destruct (accepted_reconfiguration s); [exact H|]. pose proof (propose_w s e H) as X. destruct (propose_entry s e); exact X.
Qed.
Lemma reconfigure_w s c m : SSP -> W s -> wok2 (sp_reconfigure s c m).
Proof.
  intros Hp H. unfold sp_reconfigure. destruct (accepted_reconfiguration s) eqn:Hr; [exact H|]. cbn zeta.
  match goal with |- wok2g _ (bind ?e _) => assert (X : wok e); [|destruct e; exact X] end.
  destruct (s_role s), (s_phase s); cbn [wokg]; try (apply forward_ss_w; auto); auto with w. apply accept_ss_w; auto.
Qed.

Definition woko {B} (r : res (omni * B)) : Prop := match r with Ok (o, _) => Wg true (o_sp o) | Panic tr => ptr tr end.
Definition woko1 (r : res omni) : Prop := match r with Ok o => W (o_sp o) | Panic tr => ptr tr end.
Lemma resend_timeout_w s : W s -> wok (resend_message_timeout s).
Proof. intros H. unfold resend_message_timeout. destruct (s_role s); [apply resend_follower_w; auto|apply resend_leader_w; auto]. Qed.
Lemma flush_timeout_w s : W s -> wok (flush_batch_timeout s).
Proof. intros H. unfold flush_batch_timeout. destruct (s_role s), (s_phase s); try exact H; [apply flush_follower_w|apply flush_leader_w]; auto. Qed.
(** The ballot with which an election timeout starts a prepare phase. *)
Definition elected (o : omni) (n : ballot) : Prop :=
  snd (clock_tick (o_eclk o)) = true /\ snd (hb_timeout (o_ble o) (s_role (o_sp o), s_phase (o_sp o)) (sp_promise (o_sp o))) = Some n.
Lemma tick_w o : (forall n, elected o n -> PR n) -> MS None -> W (o_sp o) -> woko1 (tick o).
Proof.
  intros HPR Hms H. unfold tick. unfold elected in HPR. destruct (clock_tick (o_eclk o)) as [ec f1]. cbn [snd] in HPR.
  match goal with |- woko1 (bind ?e _) => assert (X : woko1 e); [|destruct e as [o1|tr]; [|exact X]] end.
  { destruct f1; [|exact H]. unfold election_timeout. cbn [o_ble o_sp]. destruct (hb_timeout _ _ _) as [b [n|]]; [|exact H]. specialize (HPR n (conj eq_refl eq_refl)). pose proof (handle_leader_w (o_sp o) n HPR Hms H) as X.
    cbn [o_sp]. destruct (handle_leader _ _); exact X. }
  cbn [bind]. cbn in X. destruct (clock_tick (o_rclk o1)) as [rc f2].
  match goal with |- woko1 (bind ?e _) => assert (X2 : woko1 e); [|destruct e as [o2|tr]; [|exact X2]] end.
  { destruct f2; [|exact X]. cbn [o_sp]. pose proof (resend_timeout_w _ X) as Y. destruct (resend_message_timeout (o_sp o1)); exact Y. }
  cbn [bind]. cbn in X2. destruct (clock_tick (o_fclk o2)) as [fc f3]. destruct f3; [|exact X2]. cbn [o_sp].
  pose proof (flush_timeout_w _ X2) as Y. destruct (flush_batch_timeout (o_sp o2)); exact Y.
Qed.

(** What a call needs. *)
Definition may_call (o : omni) (c : call) : Prop :=
  match c with
  | CReconfigure _ _ => SSP
  | CTrim _ => TR
  | CSnapshot _ _ => SN
  | CTick => forall n, elected o n -> PR n
  | CTryLeader => PR (set_n (e_ballot (o_ble o)) (b_n (sp_promise (o_sp o)) + 1))
  | CHandle (MsgSP m) => may_handle (pm_msg m)
  | _ => True
  end.
Lemma exec_call_w o1 c : MS None -> may_call o1 c -> W (o_sp o1) -> woko (exec_call o1 c).
Proof.
  intros Hms Hc H. destruct c as [e|cc0 meta| |i|i l|q| |q|m]; cbn [exec_call may_call] in *.
  - pose proof (append_w _ e H) as X. destruct (sp_append _ _) as [[s r]|]; first [exact X|exact (w_true _ _ X)].
  - unfold reconfigure. destruct (cluster_validate cc0); [|exact (w_true _ _ H)]. pose proof (reconfigure_w (o_sp o1) cc0 meta Hc H) as X. destruct (sp_reconfigure _ _ _) as [[s r]|]; first [exact X|exact (w_true _ _ X)].
  - pose proof (tick_w o1 Hc Hms H) as X. destruct (tick o1); first [exact X|exact (w_true _ _ X)].
  - pose proof (trim_w (o_sp o1) i Hc H) as X. destruct (sp_trim _ _) as [[s r]|]; first [exact X|exact (w_true _ _ X)].
  - pose proof (snapshot_w (o_sp o1) i l Hc H) as X. destruct (sp_snapshot _ _ _) as [[s r]|]; first [exact X|exact (w_true _ _ X)].
  - cbn. apply (w_true false), reconnected_w; auto.
  - unfold try_become_leader. pose proof (handle_leader_w (o_sp o1) (set_n (e_ballot (o_ble o1)) (b_n (sp_promise (o_sp o1)) + 1)) Hc Hms H) as X. destruct (handle_leader _ _); first [exact X|exact (w_true _ _ X)].
  - exact (w_true _ _ H).
  - unfold handle_incoming. destruct m as [m|m]; [|exact (w_true _ _ H)]. pose proof (sp_handle_w (o_sp o1) m Hms Hc H) as X. destruct (sp_handle _ _); first [exact X|exact (w_true _ _ X)].
Qed.
End From.

(** The promise kept by the leader is allowed. *)
Definition sync_kept (o : omni) : Prop := MS (l_maxsync (s_ls (o_sp o))).
(** The synchronisations in the outgoing messages and in the kept promise. *)
Definition offered (o : omni) (sy : log_sync) : Prop :=
  (exists m, In m (s_out (o_sp o)) /\ sync_of (pm_msg m) = Some sy) \/ (exists p, s_cprom (o_sp o) = Some p /\ pr_sync p = Some sy).

Lemma w_start o : sync_kept o -> (forall sy, offered o sy -> OK sy) -> Wg (s_is (o_sp (start_call o))) false (o_sp (start_call o)).
Proof. intros Hk Ho. constructor; [apply ps_refl|exact Hk| |]; intros m sy H1 H2; left; apply Ho; [left|right]; eauto. Qed.
(** A call that returns. *)
Lemma exec_prims_sent o c o' r : MS None -> may_call o c -> sync_kept o -> (forall sy, offered o sy -> OK sy) -> exec o c = Ok (o', r) ->
  prims (s_is (o_sp (start_call o))) (s_is (o_sp o')) /\ sync_kept o' /\
  forall sy, offered o' sy -> OK sy \/ exists k d, create_log_sync (o_sp o') k d = Some sy.
Proof.
  intros Hms Hc Hk Ho He. pose proof (exec_call_w (s_is (o_sp (start_call o))) (start_call o) c Hms Hc (w_start o Hk Ho)) as X. unfold exec in He. rewrite He in X. cbn [woko] in X.
  destruct X as [X1 X2 X3 X4]. split; [auto|]. split; [auto|]. intros sy [(m & H1 & H2)|(p & H1 & H2)]; [destruct (X3 _ _ H1 H2) as [?|[_ ?]]|destruct (X4 _ _ H1 H2) as [?|[_ ?]]]; auto.
Qed.
(** The storage writes of any call, also one that panics. *)
Lemma crash_prims_sent o c st : MS None -> may_call o c -> sync_kept o -> (forall sy, offered o sy -> OK sy) -> In st (crash_points o c) ->
  st = storage o \/ exists is, prims (s_is (o_sp (start_call o))) is /\ In st (i_tr is).
Proof.
  intros Hms Hc Hk Ho Hin. unfold crash_points in Hin. destruct Hin as [<-|Hin]; [left; reflexivity|]. right.
  pose proof (exec_call_w (s_is (o_sp (start_call o))) (start_call o) c Hms Hc (w_start o Hk Ho)) as X. unfold exec in Hin.
  destruct (exec_call (start_call o) c) as [[o' r]|tr]; cbn [woko] in X.
  - destruct X as [X1 _ _ _]. eauto.
  - destruct X as (is & X2 & X3). subst tr. eauto.
Qed.

(** Every storage state in the record was the state after one of the operations. *)
Lemma sync_tr s n d sy s' a : sync_log s n d sy = Ok (s', a) -> i_tr s' = i_tr s ++ [i_st s'].
Proof.
  unfold sync_log, ilift, ipanic. destruct sy as [sy|].
  2: { destruct (ms_write _ _); cbn; [|discriminate]. intros X. injection X as <- _. reflexivity. }
  destruct (sy_snap sy) as [[c|dl]|]; cbn [bind].
  2: destruct (create_decided_snapshot _); [|discriminate|discriminate]; destruct (s_merge _ _); [|discriminate]; cbn [bind].
  all: unfold i_ss; cbn [i_ca set_ca c_ss c_set_acc]; destruct (sy_ss sy); [|destruct (c_ss _)]; cbn [i_st i_tr set_ca bind];
    (match goal with |- context [ms_write ?a ?b] => destruct (ms_write a b) end; cbn; [|discriminate]; intros X; injection X as <- _; reflexivity).
Qed.
Lemma trim_tr s i s' r : try_trim s i = Ok (s', r) -> i_tr s' = i_tr s \/ i_tr s' = i_tr s ++ [i_st s'].
Proof.
  unfold try_trim, ilift, ipanic. destruct (dec_without_ss s) as [ld|]; [|discriminate].
  destruct (Nat.compare i (i_dec s)); [| |intros X; injection X as <- _; auto]; (destruct (i_comp s <? _); [|intros X; injection X as <- _; auto]);
  (destruct (ms_write _ _); cbn; [|discriminate]; intros X; injection X as <- _; auto).
Qed.
Lemma snap_tr s i s' r : try_snapshot s i = Ok (s', r) -> i_tr s' = i_tr s \/ i_tr s' = i_tr s ++ [i_st s'].
Proof.
  unfold try_snapshot, ilift, ipanic. destruct (dec_without_ss s) as [ld|]; [|discriminate].
  assert (Main : forall new, (if i_comp s <? new then
          match create_snapshot s new with
          | CPanic => Panic (i_tr s)
          | CErr e => Ok (s, Some e)
          | COk sn =>
              m <- (match ms_write (i_st s) [OpTrim new; OpSetComp new; OpSetSnapshot (Some sn)] with Some a => Ok a | None => Panic (i_tr s) end) ;;
              let s := put_st s m in Ok (set_ca s (c_set_comp (i_ca s) new), None)
          end else Ok (s, None)) = Ok (s', r) -> i_tr s' = i_tr s \/ i_tr s' = i_tr s ++ [i_st s']).
  { intros new. destruct (i_comp s <? new); [|intros X; injection X as <- _; auto]. destruct (create_snapshot s new); [|intros X; injection X as <- _; auto|discriminate].
    destruct (ms_write _ _); cbn; [|discriminate]. intros X; injection X as <- _; auto. }
  cbn zeta. destruct i as [i|]; [|apply Main]. destruct (Nat.compare i (i_dec s)); [apply Main|apply Main|intros X; injection X as <- _; auto].
Qed.
Lemma prim_tr s s' : prim s s' -> i_tr s' = i_tr s \/ i_tr s' = i_tr s ++ [i_st s'].
Proof.
  intros H. destruct H as [s b|s es|s ss Hp Hn Hb|s ss s' a Hp He|s n HPR Hn|s d Hd Hc|s n d sy s' a Ha He|s n d sy s' a Hl Hm He|s i s' r Ht He|s i s' r Hs He]; try (right; reflexivity).
  - left. reflexivity.
  - right. unfold i_append_stopsign, cache_append_stopsign. cbn. rewrite Hb. reflexivity.
  - right. unfold i_set_stopsign in He. destruct (c_ss (i_ca s)); cbn in He; injection He as <- _; reflexivity.
  - right. eapply sync_tr; eauto.
  - right. eapply sync_tr; eauto.
  - eapply trim_tr; eauto.
  - eapply snap_tr; eauto.
Qed.
Lemma prims_tr (I : istore -> Prop) s s' : (forall x y, I x -> prim x y -> I y) -> prims s s' -> I s -> i_tr s = [] ->
  I s' /\ forall st, In st (i_tr s') -> exists x, I x /\ i_st x = st.
Proof.
  intros HI Hp H0 Ht. induction Hp as [s|s1 s2 s3 Hp IH Hs].
  - split; auto. rewrite Ht. intros st [].
  - destruct (IH H0 Ht) as [I2 T2]. assert (I3 : I s3) by (eapply HI; eauto). split; auto. intros st Hin.
    destruct (prim_tr _ _ Hs) as [He|He]; rewrite He in Hin; auto. apply in_app_or in Hin. destruct Hin as [Hin|[<-|[]]]; auto. eauto.
Qed.
End Perm.

Lemma exec_prims AS (MS : option log_sync -> Prop) LD TR SN SSP DC PR o c o' r : MS None -> may_call AS MS LD TR SN SSP DC PR o c -> sync_kept MS o -> exec o c = Ok (o', r) ->
  prims AS MS LD TR SN SSP DC PR (s_is (o_sp (start_call o))) (s_is (o_sp o')) /\ sync_kept MS o'.
Proof.
  intros H1 H2 H3 H4. destruct (exec_prims_sent AS MS LD TR SN SSP DC PR (fun _ => True) o c o' r H1 H2 H3 (fun _ _ => I) H4) as (A & B & _). auto.
Qed.
Lemma crash_prims AS (MS : option log_sync -> Prop) LD TR SN SSP DC PR o c st : MS None -> may_call AS MS LD TR SN SSP DC PR o c -> sync_kept MS o -> In st (crash_points o c) ->
  st = storage o \/ exists is, prims AS MS LD TR SN SSP DC PR (s_is (o_sp (start_call o))) is /\ In st (i_tr is).
Proof. intros H1 H2 H3 H4. exact (crash_prims_sent AS MS LD TR SN SSP DC PR (fun _ => True) o c st H1 H2 H3 (fun _ _ => I) H4). Qed.
End WithEntry.
