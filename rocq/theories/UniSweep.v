(** * UniCache: what a call does to the queue, the batch and the progress of a server

    A sweep through all handlers, for servers with batch sizes 0 or 1.  The parameters are
    predicates: on the entries that wait to be forwarded or proposed, on the entries that a
    leader sends in AcceptDecides of a ballot, on the AcceptSyncs in the queue, on ballot and
    accepted index of a leader in the accept phase, on promise and sequence number of a follower
    in the accept phase.  The proofs of UniInv.v choose them. *)
From Coq Require Import List Arith Bool Lia.
Import ListNotations.
From Verif Require Import Types Config MemStore Internal LeaderState SeqPaxos Ble Omni System Basics Spec Ghost Inv.
From Verif Require Local SyncOps.

Section WithEntry.
Context {E : EntryT}.
Context (Un : T -> Prop) (Q : ballot -> T -> Prop) (O0 : list pmessage).

(** The AcceptSyncs of the queue [O0] are where they were. *)
Definition pre (l : list pmessage) : Prop :=
  forall i m, nth_error O0 i = Some m -> is_sync (pm_msg m) = true -> nth_error l i = Some m.
Lemma pre_app l l' : pre l -> pre (l ++ l').
Proof. intros H i m Hi Hm. specialize (H i m Hi Hm). rewrite nth_error_app1; auto. apply nth_error_Some. congruence. Qed.

Section Par.
Context (Sy : pmessage -> Prop) (WL : ballot -> nat -> Prop) (WF : ballot -> seqnum -> Prop).
Definition okm (m : pmessage) : Prop :=
  match pm_msg m with
  | MProposalForward es => Forall Un es
  | MAcceptDecide n _ _ es => Forall (Q n) es
  | MAcceptSync _ _ _ _ => Sy m
  | _ => True
  end.
Definition bal (m : pmsg) : option ballot := match m with MAcceptDecide n _ _ _ => Some n | _ => None end.
Definition metaok (s : sp) : Prop := s_role s = Leader -> forall b i, vget (l_accmeta (s_ls s)) b = Some (Some (l_n (s_ls s), i)) ->
  exists m, nth_error (s_out s) i = Some m /\ bal (pm_msg m) = Some (l_n (s_ls s)).
Record K (s : sp) : Prop := {
  k_bsz : c_bsize (i_ca (s_is s)) <= 1;
  k_bat : c_batch (i_ca (s_is s)) = [];
  k_bp : Forall Un (s_bprops s);
  k_out : Forall okm (s_out s) /\ pre (s_out s);
  k_meta : metaok s;
  k_S : s_phase s = PhAccept -> i_ss (s_is s) = None ->
    match s_role s with Leader => WL (l_n (s_ls s)) (i_acc (s_is s)) | Follower => WF (i_prom (s_is s)) (s_cseq s) end
}.
Definition Kr (r : res sp) : Prop := match r with Ok s => K s | Panic _ => True end.
Definition Kl (s : sp) : Prop := s_role s = Leader /\ K s.
Definition Klr (r : res sp) : Prop := match r with Ok s => Kl s | Panic _ => True end.

(** ** Updates *)
Record isame (a b : istore) : Prop := {
  is_bsz : c_bsize (i_ca b) <= 1;
  is_bat : c_batch (i_ca b) = [];
  is_ss : i_ss b = i_ss a;
  is_prom : i_prom b = i_prom a;
  is_acc : i_acc b = i_acc a
}.
Lemma isame_refl a : c_bsize (i_ca a) <= 1 -> c_batch (i_ca a) = [] -> isame a a.
Proof. intros. constructor; auto. Qed.
Lemma isame_tr a b c : isame a b -> isame b c -> isame a c.
Proof. intros [] []. constructor; congruence || auto. Qed.
Lemma K_is s is : isame (s_is s) is -> K s -> K (set_is s is).
Proof.
  intros [I1 I2 I3 I4 I5] [H1 H2 H3 H4 H5 H6]. constructor; auto. cbn. rewrite I3, I4, I5. exact H6.
Qed.
Definition lsame (l l' : leader_state) : Prop :=
  l_n l' = l_n l /\ forall b n i, vget (l_accmeta l') b = Some (Some (n, i)) -> vget (l_accmeta l) b = Some (Some (n, i)).
Lemma K_ls s l : lsame (s_ls s) l -> K s -> K (set_ls s l).
Proof.
  intros [L1 L2] [H1 H2 H3 H4 H5 H6]. constructor; auto.
  - intros Hr b i Hb. cbn in Hb |- *. rewrite L1 in *. apply (H5 Hr b i). apply L2. exact Hb.
  - cbn. rewrite L1. exact H6.
Qed.
Lemma Kl_ls s l : lsame (s_ls s) l -> Kl s -> Kl (set_ls s l).
Proof. intros He [H1 H2]. split; [exact H1|apply K_ls; auto]. Qed.
Lemma Kl_is s is : isame (s_is s) is -> Kl s -> Kl (set_is s is).
Proof. intros He [H1 H2]. split; [exact H1|apply K_is; auto]. Qed.
Definition plainm (m : pmsg) : Prop := match m with MProposalForward _ | MAcceptDecide _ _ _ _ | MAcceptSync _ _ _ _ => False | _ => True end.
Lemma plain_ok f t m : plainm m -> okm (mkPM f t m).
Proof. unfold okm. cbn. destruct m; cbn; tauto. Qed.
Lemma K_pushm s p m : okm (mkPM (s_pid s) p m) -> K s -> K (push s p m).
Proof.
  intros Hm [H1 H2 H3 H4 H5 H6]. constructor; auto.
  - destruct H4 as [H4 H7]. split; [|apply pre_app; exact H7]. cbn. rewrite Forall_app. split; auto.
  - intros Hr b i Hb. destruct (H5 Hr b i Hb) as (x & Hx & Hx2). exists x. split; auto. cbn. rewrite nth_error_app1; auto. apply nth_error_Some. congruence.
Qed.
Lemma K_push s p m : plainm m -> K s -> K (push s p m).
Proof. intros Hm. apply K_pushm, plain_ok, Hm. Qed.
Lemma Kl_push s p m : plainm m -> Kl s -> Kl (push s p m).
Proof. intros Hm [H1 H2]. split; [exact H1|apply K_push; auto]. Qed.
Lemma K_push_all m l : plainm m -> forall s, K s -> K (push_all s l m).
Proof. intros Hm. unfold push_all. induction l as [|p l IH]; cbn; intros s H; auto. apply IH, K_push; auto. Qed.
Lemma K_mod s k f :
  (forall m, nth_error (s_out s) k = Some m -> okm m -> okm (mkPM (pm_from m) (pm_to m) (f (pm_msg m)))) ->
  (forall m, bal (f m) = bal m /\ (is_sync m = true -> f m = m)) -> K s -> K (mod_accdec s k f).
Proof.
  intros Hf Hb [H1 H2 H3 H4 H5 H6]. unfold mod_accdec. destruct (nth_error (s_out s) k) as [m|] eqn:Hn; [|constructor; auto]. constructor; auto.
  - destruct H4 as [H4 H7]. split.
    2:{ intros i x Hi Hx. specialize (H7 i x Hi Hx). cbn. rewrite Local.upd_nth by (apply nth_error_Some; congruence). destruct (Nat.eqb_spec i k) as [->|]; [|exact H7].
        rewrite H7 in Hn. injection Hn as <-. rewrite (proj2 (Hb _) Hx). destruct x; reflexivity. }
    cbn. rewrite Forall_forall in *. intros x Hx. apply In_nth_error in Hx. destruct Hx as [j Hj]. rewrite Local.upd_nth in Hj by (apply nth_error_Some; congruence).
    destruct (j =? k); [injection Hj as <-; apply Hf; auto; apply H4; eapply nth_error_In; eauto|apply H4; eapply nth_error_In; eauto].
  - intros Hr b i Hi. destruct (H5 Hr b i Hi) as (x & Hx & Hx2). cbn [set_out s_out s_ls]. rewrite Local.upd_nth by (apply nth_error_Some; congruence).
    destruct (Nat.eqb_spec i k) as [->|]; [|eauto]. rewrite Hx in Hn. injection Hn as ->. eexists. split; [reflexivity|]. cbn. rewrite (proj1 (Hb _)). exact Hx2.
Qed.
Lemma mod_role s k f : s_role (mod_accdec s k f) = s_role s.
Proof. unfold mod_accdec. destruct (nth_error _ _); reflexivity. Qed.
Lemma okm_red d m : okm m -> okm (mkPM (pm_from m) (pm_to m) (redecide_accdec d (pm_msg m))).
Proof. destruct m as [f t m]. unfold okm. cbn. destruct m; cbn; auto. Qed.
Lemma okm_rea d m : okm m -> okm (mkPM (pm_from m) (pm_to m) (reaccept d (pm_msg m))).
Proof. destruct m as [f t m]. unfold okm. cbn. destruct m; cbn; auto. Qed.
Lemma bal_red d m : bal (redecide_accdec d m) = bal m /\ (is_sync m = true -> redecide_accdec d m = m).
Proof. destruct m; split; (reflexivity || discriminate). Qed.
Lemma bal_rea d m : bal (reaccept d m) = bal m /\ (is_sync m = true -> reaccept d m = m).
Proof. destruct m; split; (reflexivity || discriminate). Qed.
Lemma bal_ext es d m : bal (extend_accdec es d m) = bal m /\ (is_sync m = true -> extend_accdec es d m = m).
Proof. destruct m; split; (reflexivity || discriminate). Qed.
Lemma K_follower s ph : ph <> PhAccept -> K s -> K (set_state s Follower ph).
Proof. intros Hp [H1 H2 H3 H4 H5 H6]. constructor; auto; [discriminate|]. cbn. congruence. Qed.

(** ** The vectors of the leader *)
Lemma ls_refl l : lsame l l.
Proof. split; auto. Qed.
Lemma ls_tr a b c : lsame a b -> lsame b c -> lsame a c.
Proof. intros [A1 A2] [B1 B2]. split; [congruence|]. auto. Qed.
Lemma ln_incr l p l' : increment_seq_num_session l p = Some l' -> lsame l l'.
Proof. unfold increment_seq_num_session. destruct (vget _ _); [|discriminate]. destruct (vset _ _ _); [|discriminate]. intros X. injection X as <-. split; auto. Qed.
Lemma ln_next l p l' q : next_seq_num l p = Some (l', q) -> lsame l l'.
Proof. unfold next_seq_num. destruct (vget _ _); [|discriminate]. destruct (vset _ _ _); [|discriminate]. intros X. injection X as <- _. split; auto. Qed.
Lemma ln_seq l (b : bool) p l' q : (if b then option_map (fun q => (l, q)) (get_seq_num l p) else next_seq_num l p) = Some (l', q) -> lsame l l'.
Proof. destruct b; [|apply ln_next]. destruct (get_seq_num l p); [|discriminate]. intros X. injection X as <- _. apply ls_refl. Qed.
Lemma ln_acc l p a l' : set_accepted_idx l p a = Some l' -> lsame l l'.
Proof. unfold set_accepted_idx. destruct (vset _ _ _); [|discriminate]. intros X. injection X as <-. split; auto. Qed.
Lemma ln_prom l p x l' : option_map (l_set_proms l) (vset (l_proms l) p x) = Some l' -> lsame l l'.
Proof. destruct (vset _ _ _); [|discriminate]. intros X. injection X as <-. split; auto. Qed.
Lemma vset_get {A} (l l' : list A) p x q : vset l p x = Some l' -> vget l' q = Some x \/ vget l' q = vget l q.
Proof.
  intros H. destruct (Local.vset_inv _ _ _ _ H) as (i & -> & Hi & ->). unfold vget, pid_to_idx, sub_chk. destruct (1 <=? q); auto.
  rewrite Local.upd_nth by exact Hi. destruct (_ =? i); auto.
Qed.
Lemma ln_meta_none l p l' : set_latest_accept_meta l p None = Some l' -> lsame l l'.
Proof.
  unfold set_latest_accept_meta. destruct (vset _ _ _) as [v|] eqn:Hv; [|discriminate]. intros X. injection X as <-. split; auto. cbn. intros b n i Hb.
  destruct (vset_get _ _ _ _ b Hv) as [Y|Y]; rewrite Y in Hb; [discriminate|exact Hb].
Qed.
Lemma ln_setp l p f c l' m : ls_set_promise l p f c = Some (l', m) -> lsame l l'.
Proof.
  unfold ls_set_promise. set (l1 := if c && _ then _ else _). assert (H1 : lsame l l1) by (unfold l1; destruct (c && _); split; auto).
  destruct (vset _ _ _); [|discriminate]. intros X. injection X as <- _. eapply ls_tr; [exact H1|]. split; auto.
Qed.

Lemma K_lift {B} s (o : option B) (f : B -> res sp) : (forall x, o = Some x -> Kr (f x)) -> Kr (bind (lift s o) f).
Proof. intros H. destruct o; cbn; auto. Qed.
Lemma Kl_lift {B} s (o : option B) (f : B -> res sp) : (forall x, o = Some x -> Klr (f x)) -> Klr (bind (lift s o) f).
Proof. intros H. destruct o; cbn; auto. Qed.
Lemma Kl_K r : Klr r -> Kr r.
Proof. destruct r; cbn; auto. intros [_ H]. exact H. Qed.
Lemma Kl_each f l : (forall s p, Kl s -> Klr (f s p)) -> forall s, Kl s -> Klr (for_each s l f).
Proof. intros H. induction l as [|p l IH]; cbn; intros s X; auto. pose proof (H s p X) as Y. destruct (f s p); cbn in *; auto. Qed.

(** ** Storage *)
Lemma flush_same is : c_bsize (i_ca is) <= 1 -> c_batch (i_ca is) = [] -> isame is (fst (flush_batch is)) /\ snd (flush_batch is) = i_acc is.
Proof.
  intros H1 H2. unfold flush_batch, take_batched_entries. rewrite H2. cbn. split; [constructor; auto; cbn; unfold i_acc; cbn; lia|unfold i_acc; cbn; lia].
Qed.
Lemma flush_get is : c_bsize (i_ca is) <= 1 -> c_batch (i_ca is) = [] -> flush_batch_and_get_entries is = (is, None).
Proof. intros H1 H2. unfold flush_batch_and_get_entries. rewrite H2. reflexivity. Qed.
Lemma dec_same is d : c_bsize (i_ca is) <= 1 -> c_batch (i_ca is) = [] -> isame is (i_set_decided is d).
Proof. intros. constructor; auto. Qed.
Lemma trim_same is k is' r : c_bsize (i_ca is) <= 1 -> c_batch (i_ca is) = [] -> try_trim is k = Ok (is', r) -> isame is is'.
Proof.
  intros H1 H2. unfold try_trim. destruct (dec_without_ss is) as [ld|]; [|discriminate]. cbn zeta.
  assert (X : forall new, (if i_comp is <? new then m <- ilift is (ms_write (i_st is) [OpTrim new; OpSetComp new]) ;; Ok (set_ca (put_st is m) (c_set_comp (i_ca (put_st is m)) new), None) else Ok (is, None)) = Ok (is', r) -> isame is is').
  { intros new. destruct (_ <? _); [|intros X; injection X as <- _; apply isame_refl; auto]. destruct (ms_write _ _); [|discriminate]. intros X. cbn in X. injection X as <- _. constructor; auto. }
  destruct (Nat.compare _ _); [exact (X ld)|exact (X k)|]. intros Y. injection Y as <- _. apply isame_refl; auto.
Qed.
Lemma snap_same is k is' r : c_bsize (i_ca is) <= 1 -> c_batch (i_ca is) = [] -> try_snapshot is k = Ok (is', r) -> isame is is'.
Proof.
  intros H1 H2. unfold try_snapshot. destruct (dec_without_ss is) as [ld|]; [|discriminate]. cbn zeta.
  assert (X : forall new, (if i_comp is <? new then match create_snapshot is new with CPanic => ipanic is | CErr e => Ok (is, Some e) | COk sn => m <- ilift is (ms_write (i_st is) [OpTrim new; OpSetComp new; OpSetSnapshot (Some sn)]) ;; Ok (set_ca (put_st is m) (c_set_comp (i_ca (put_st is m)) new), None) end else Ok (is, None)) = Ok (is', r) -> isame is is').
  { intros new. destruct (_ <? _); [|intros X; injection X as <- _; apply isame_refl; auto].
    destruct (create_snapshot _ _); [|intros X; injection X as <- _; apply isame_refl; auto|discriminate].
    destruct (ms_write _ _); [|discriminate]. intros X. cbn in X. injection X as <- _. constructor; auto. }
  destruct k as [k|]; [|exact (X ld)]. destruct (Nat.compare _ _); [exact (X ld)|exact (X k)|]. intros Y. injection Y as <- _. apply isame_refl; auto.
Qed.

(** ** Leader *)
Lemma send_prepare_k s p : Kl s -> Kl (send_prepare s p).
Proof. intros H. apply Kl_push; [exact I|exact H]. Qed.
Lemma send_prepares_k l : forall s, Kl s -> Kl (fold_left send_prepare l s).
Proof. induction l as [|p l IH]; cbn; intros s H; auto. apply IH, send_prepare_k, H. Qed.
Lemma beq_bal a b : beq a b = true -> a = b.
Proof. apply beq_spec. Qed.
Definition keeps (s s' : sp) : Prop := s_is s' = s_is s /\ l_n (s_ls s') = l_n (s_ls s) /\ s_phase s' = s_phase s.
Lemma send_ad_k s es : Forall (Q (l_n (s_ls s))) es -> Kl s -> match send_acceptdecide s es with Ok s' => Kl s' /\ keeps s s' | Panic _ => True end.
Proof.
  intros He H. unfold send_acceptdecide. destruct (get_promised_followers _) as [ps|]; [|exact I]. cbn [lift bind].
  assert (X : forall l s1, Kl s1 -> keeps s s1 -> match for_each s1 l (send_acceptdecide_to (i_dec (s_is s)) es) with Ok s' => Kl s' /\ keeps s s' | Panic _ => True end); [|apply X; [exact H|split; auto]].
  induction l as [|p l IH]; intros s1 H1 K1; [cbn; auto|]. cbn [for_each].
  assert (Y : match send_acceptdecide_to (i_dec (s_is s)) es s1 p with Ok s' => Kl s' /\ keeps s s' | Panic _ => True end).
  2:{ destruct (send_acceptdecide_to _ _ s1 p) as [s2|]; cbn [bind]; [|exact I]. destruct Y. apply IH; auto. }
  destruct H1 as [Hr H1]. destruct K1 as (K1 & K2 & K3). rewrite <- K2 in He.
  unfold send_acceptdecide_to. destruct (get_latest_accdec s1 p) as [[k|]|] eqn:Hg; cbn [lift bind]; [| |exact I].
  - unfold get_latest_accdec in Hg. destruct (get_latest_accept_meta (s_ls s1) p) as [[[b i]|]|] eqn:Hm; try discriminate.
    destruct (beq b (l_n (s_ls s1))) eqn:Hb; [|discriminate]. apply beq_bal in Hb. subst b.
    destruct (k_meta _ H1 Hr _ _ Hm) as (m & Hm1 & Hm2). rewrite Hm1 in Hg. destruct (pm_msg m) eqn:Hpm; try discriminate. injection Hg as <-. cbn in Hm2. injection Hm2 as ->.
    split; [split; [rewrite mod_role; exact Hr|]|].
    + apply K_mod; [|apply bal_ext|exact H1]. intros m0 Hm0 Ho. assert (m0 = m) by congruence. subst m0. unfold okm in *. rewrite Hpm in *. cbn. rewrite Forall_app. auto.
    + unfold mod_accdec. rewrite Hm1. split; auto.
  - unfold set_latest_accept_meta. destruct (vset (l_accmeta (s_ls s1)) p _) as [v|] eqn:Hv; cbn [option_map lift bind]; [|exact I].
    match goal with |- context [next_seq_num ?a ?b] => destruct (next_seq_num a b) as [[l2 q]|] eqn:E2 end; cbn [lift bind]; [|exact I].
    destruct (ln_next _ _ _ _ E2) as [N1 N2]. cbn [l_set_accmeta l_n l_accmeta] in N1, N2.
    split; [split; [exact Hr|]|split; [exact K1|split; [cbn; congruence|exact K3]]].
    destruct H1 as [A1 A2 A3 A4 A5 A6]. constructor; auto.
    + destruct A4 as [A4 A7]. split; [|apply pre_app; exact A7]. cbn. rewrite Forall_app. split; [exact A4|]. repeat constructor. unfold okm. cbn. rewrite N1. exact He.
    + intros _ b i Hb. cbn in Hb |- *. apply N2 in Hb. rewrite N1 in *. destruct (vset_get _ _ _ _ b Hv) as [Y|Y].
      * rewrite Y in Hb. injection Hb as <-. rewrite nth_error_app2, Nat.sub_diag by lia. eexists. split; [reflexivity|]. cbn. congruence.
      * rewrite Y in Hb. destruct (A5 Hr b i Hb) as (x & Hx & Hx2). exists x. split; auto. rewrite nth_error_app1; auto. apply nth_error_Some. congruence.
    + cbn. rewrite N1. exact A6.
Qed.
Lemma flush_leader_k s : Kl s -> Klr (flush_batch_leader s).
Proof. intros H. unfold flush_batch_leader. rewrite flush_get by apply H. cbn. destruct s; exact H. Qed.
Lemma send_ss_k ss b s p : Kl s -> Klr (send_accept_stopsign ss b s p).
Proof. intros H. unfold send_accept_stopsign. apply Kl_lift. intros [l q] El. apply Kl_push; [exact I|]. apply Kl_ls; [eapply ln_seq; eauto|exact H]. Qed.
Lemma send_decide_k d b s p : Kl s -> Klr (send_decide d b s p).
Proof. intros H. unfold send_decide. apply Kl_lift. intros [l q] El. apply Kl_push; [exact I|]. apply Kl_ls; [eapply ln_seq; eauto|exact H]. Qed.
Lemma accept_ss_k s ss : Kl s -> Klr (accept_stopsign_leader s ss).
Proof.
  intros [Hr [H1 H2 H3 H4 H5 H6]]. unfold accept_stopsign_leader, i_append_stopsign, cache_append_stopsign. cbn [c_set_ss c_batch]. rewrite H2. cbn [flush_if_full_batch].
  cbn [bind]. apply Kl_lift. intros l El. apply Kl_lift. intros ps _. apply Kl_each; [intros; apply send_ss_k; auto|]. apply Kl_ls; [eapply ln_acc; eauto|].
  split; [exact Hr|]. constructor; auto. cbn. discriminate.
Qed.
Lemma accepted_k s n a from : K s -> Kr (handle_accepted s n a from).
Proof.
  intros H. unfold handle_accepted. destruct (beq n _ && _) eqn:Hg; [|exact H]. assert (Hl : Kl s). { split; [|exact H]. apply andb_true_iff in Hg. destruct Hg as [_ Hg]. apply andb_true_iff in Hg. destruct Hg as [Hg _]. destruct (s_role s); [discriminate|reflexivity]. }
  clear Hg. apply Kl_K, Kl_lift. intros l El. cbn zeta. assert (H1 : Kl (set_ls s l)) by (apply Kl_ls; [eapply ln_acc; eauto|exact Hl]). destruct (_ && _); [|exact H1]. apply Kl_lift. intros ps _. apply Kl_each.
  - intros s1 p X. unfold handle_accepted_to. apply Kl_lift. intros [k|] _; [|apply send_decide_k, X]. destruct X as [X1 X2]. split; [rewrite mod_role; exact X1|]. apply K_mod; [intros; apply okm_red; auto|apply bal_red|exact X2].
  - apply Kl_is; [|exact H1]. apply dec_same; apply H1.
Qed.
Lemma handle_leader_k s n : b_pid n = s_pid s -> K s -> Kr (handle_leader s n).
Proof.
  intros Hn H. unfold handle_leader. destruct (_ || _); [exact H|]. rewrite Hn, Nat.eqb_refl. apply K_lift. intros [l m] El. apply K_push_all; [exact I|].
  destruct H as [H1 H2 H3 H4 H5 H6]. destruct (flush_same (s_is s) H1 H2) as [[F1 F2 F3 F4 F5] _].
  constructor; auto; [|discriminate]. intros _ b i Hb. cbn in Hb. destruct (ln_setp _ _ _ _ _ _ El) as [L1 L2]. apply L2 in Hb. cbn in Hb. exfalso.
  unfold vget in Hb. destruct (pid_to_idx b); [|discriminate]. apply nth_error_In, repeat_spec in Hb. discriminate.
Qed.
Lemma resend_leader_k s : Kl s -> Klr (resend_messages_leader s).
Proof.
  intros H. unfold resend_messages_leader. destruct (s_phase s); try exact H; [apply Kl_lift; intros ps _; apply send_prepares_k, H|].
  match goal with |- Klr (bind ?e _) => assert (X : Klr e); [|destruct e as [s1|]; [|exact I]] end.
  { destruct (i_ss _); [|exact H]. apply Kl_lift. intros ps _. apply Kl_each; [|exact H]. intros s1 p H1. unfold resend_ss_to. destruct (stopsign_is_decided _); [apply send_decide_k, H1|]. apply Kl_lift. intros a _. destruct (_ =? _); [exact H1|apply send_ss_k, H1]. }
  cbn [bind]. apply Kl_lift. intros ps _. apply send_prepares_k, X.
Qed.

(** ** Follower *)
Lemma K_recover s : K s -> K (set_state s Follower PhRecover).
Proof. apply K_follower. discriminate. Qed.
Lemma reconnected_k s p : K s -> K (reconnected s p).
Proof. intros H. unfold reconnected. destruct (_ =? s_pid s); [exact H|]. apply K_push; [exact I|]. destruct (_ =? _); [apply K_recover|]; exact H. Qed.
Lemma valid_k s n : K s -> K (fst (check_valid_ballot s n)).
Proof. intros H. unfold check_valid_ballot. destruct (bcmp _ _); [exact H|apply reconnected_k, H|apply K_push; [exact I|exact H]]. Qed.
Lemma reply_k s n a : K s -> Kr (reply_accepted s n a).
Proof.
  intros H. unfold reply_accepted. apply K_lift. intros [k|] _; [apply K_mod; [intros; apply okm_rea; auto|apply bal_rea|exact H]|apply K_push; [exact I|]].
  destruct H as [H1 H2 H3 H4 H5 H6]. constructor; auto.
Qed.
Lemma forward_k s es : Forall Un es -> K s -> K (forward_proposals s es).
Proof.
  intros He H. unfold forward_proposals. destruct (_ && _); [apply K_pushm; [exact He|exact H]|].
  destruct H as [H1 H2 H3 H4 H5 H6]. constructor; auto. cbn. rewrite Forall_app. auto.
Qed.
Lemma K_bss s x : K s -> K (set_bss s x).
Proof. intros [H1 H2 H3 H4 H5 H6]. constructor; auto. Qed.
Lemma forward_ss_k s ss : K s -> K (forward_stopsign s ss).
Proof. intros H. unfold forward_stopsign. destruct (_ && _); [apply K_push; [exact I|exact H]|]. destruct (s_bss s); [exact H|apply K_bss, H]. Qed.
Lemma update_decided_k s d : K s -> K (fst (update_decided s d)).
Proof.
  intros H. unfold update_decided. destruct (_ <=? _); [exact H|]. destruct (flush_same (s_is s) (k_bsz _ H) (k_bat _ H)) as [F _]. destruct (_ <? _).
  - destruct (flush_batch (s_is s)) as [is a]. cbn [fst] in *. apply K_is; [|exact H]. eapply isame_tr; [exact F|]. apply dec_same; apply F.
  - apply K_is; [|exact H]. apply dec_same; apply H.
Qed.
Lemma prepare_k s n d na ac from : K s -> Kr (handle_prepare s n d na ac from).
Proof.
  intros H. unfold handle_prepare. cbn zeta. destruct (_ || _); [|exact H]. match goal with |- Kr (bind ?e _) => destruct e; [|exact I] end. cbn [bind]. apply K_push; [exact I|].
  destruct (flush_same (s_is s) (k_bsz _ H) (k_bat _ H)) as [F _]. destruct H as [H1 H2 H3 H4 H5 H6]. constructor; auto; try apply F; discriminate.
Qed.
Lemma preparereq_k s n from : K s -> Kr (handle_preparereq s n from).
Proof.
  intros H. unfold handle_preparereq. destruct (s_role s) eqn:Hr; [exact H|]. cbn [role_eqb andb]. destruct (ble _ _); [|exact H]. apply K_lift. intros l El. apply K_lift. intros l2 E2. apply send_prepare_k.
  apply Kl_ls; [|split; auto]. eapply ls_tr; [exact (ln_prom _ _ _ _ El)|exact (ln_meta_none _ _ _ E2)].
Qed.
Lemma notaccepted_k s n from : K s -> Kr (handle_notaccepted s n from).
Proof. intros H. unfold handle_notaccepted. destruct (_ && _); [|exact H]. apply K_lift. intros l El. apply K_ls; [exact (ln_prom _ _ _ _ El)|exact H]. Qed.
Lemma trim_k s k is r : K s -> try_trim (s_is s) k = Ok (is, r) -> K (set_is s is).
Proof. intros H X. apply K_is; [|exact H]. eapply trim_same; eauto; apply H. Qed.
Lemma snap_k s k is r : K s -> try_snapshot (s_is s) k = Ok (is, r) -> K (set_is s is).
Proof. intros H X. apply K_is; [|exact H]. eapply snap_same; eauto; apply H. Qed.
Lemma compaction_k s cp : K s -> Kr (handle_compaction s cp).
Proof.
  intros H. unfold handle_compaction, sp_snapshot. destruct cp as [i|i].
  - destruct (try_trim _ _) as [[is r]|] eqn:Et; [|exact I]. exact (trim_k _ _ _ _ H Et).
  - destruct (try_snapshot _ _) as [[is r]|] eqn:Et; [|exact I]. pose proof (snap_k _ _ _ _ H Et) as X. cbn [bind]. destruct r; exact X.
Qed.
Lemma forwarded_ss_k s ss : K s -> Kr (handle_forwarded_stopsign s ss).
Proof.
  intros H. unfold handle_forwarded_stopsign. destruct (accepted_reconfiguration s); [exact H|].
  destruct (s_role s) eqn:Hr, (s_phase s); try (apply forward_ss_k; exact H); [apply K_bss, H|apply Kl_K, accept_ss_k; split; auto].
Qed.
Lemma resend_k s : K s -> Kr (resend_message_timeout s).
Proof.
  intros H. unfold resend_message_timeout. destruct (s_role s) eqn:Hr; [|apply Kl_K, resend_leader_k; split; auto].
  unfold resend_messages_follower, send_preparereq_to_all_peers. destruct (s_phase s); try exact H; [|apply K_push_all; [exact I|exact H]]. destruct (s_cprom s); [apply K_push; [exact I|exact H]|apply K_push_all; [exact I|apply K_recover, H]].
Qed.
Lemma flush_k s : K s -> Kr (flush_batch_timeout s).
Proof.
  intros H. unfold flush_batch_timeout. destruct (s_role s) eqn:Hr, (s_phase s); try exact H; [|apply Kl_K, flush_leader_k; split; auto].
  unfold flush_batch_follower. destruct (flush_same (s_is s) (k_bsz _ H) (k_bat _ H)) as [F _]. destruct (flush_batch _) as [is a]. cbn [fst] in F.
  pose proof (K_is s is F H) as X. destruct (_ <? _); [apply reply_k; exact X|exact X].
Qed.
End Par.

Implicit Types (Sy : pmessage -> Prop) (WL : ballot -> nat -> Prop) (WF : ballot -> seqnum -> Prop).
Lemma K_weaken Sy WL WF Sy' WL' WF' s : (forall m, Sy m -> Sy' m) ->
  (s_phase s = PhAccept -> i_ss (s_is s) = None -> match s_role s with Leader => WL' (l_n (s_ls s)) (i_acc (s_is s)) | Follower => WF' (i_prom (s_is s)) (s_cseq s) end) ->
  K Sy WL WF s -> K Sy' WL' WF' s.
Proof.
  intros Hs HS [H1 H2 H3 H4 H5 H6]. constructor; auto. destruct H4 as [H4 H7]. split; [|exact H7]. eapply Forall_impl; [|exact H4]. intros m. unfold okm. destruct (pm_msg m); auto.
Qed.
Lemma K_any Sy WL WF WL' WF' s : s_phase s <> PhAccept -> K Sy WL WF s -> K Sy WL' WF' s.
Proof. intros Hp. apply K_weaken; [auto|]. intros; congruence. Qed.

(** ** Entries that a leader appends *)
Lemma batch_one c es : c_bsize c <= 1 -> c_batch c = [] ->
  exists c' r, cache_append_entries c es = (c', r) /\ c_batch c' = [] /\ c_bsize c' = c_bsize c /\ c_ss c' = c_ss c /\ c_prom c' = c_prom c /\ c_acc c' = c_acc c /\
    (r = Some es \/ (r = None /\ es = [])).
Proof.
  intros H1 H2. unfold cache_append_entries, take_entries_if_batch_is_full, take_batched_entries. cbn [c_set_batch c_bsize c_batch]. rewrite H2. cbn [app].
  destruct (Nat.leb_spec (c_bsize c) (length es)) as [Hl|Hl]; do 2 eexists; split; [reflexivity| |reflexivity|]; cbn.
  - repeat split; auto.
  - destruct es; [repeat split; auto|cbn in Hl; lia].
Qed.
Definition appended (s s' : sp) (es : list T) : Prop :=
  (i_st (s_is s') = ms_append_entries (i_st (s_is s)) es \/ (i_st (s_is s') = i_st (s_is s) /\ es = [])) /\
  s_role s' = Leader /\ s_phase s' = PhAccept /\ l_n (s_ls s') = l_n (s_ls s) /\ i_acc (s_is s') = i_acc (s_is s) + length es /\ i_ss (s_is s') = i_ss (s_is s).
Lemma entries_k Sy WL WF WL' WF' s es : s_role s = Leader -> s_phase s = PhAccept -> Forall (Q (l_n (s_ls s))) es -> WL' (l_n (s_ls s)) (i_acc (s_is s) + length es) ->
  K Sy WL WF s -> match accept_entries_leader s es with Ok s' => K Sy WL' WF' s' /\ appended s s' es | Panic _ => True end.
Proof.
  intros Hr Hp HQ HW [H1 H2 H3 H4 H5 H6]. unfold accept_entries_leader, append_entries_with_batching.
  destruct (batch_one (i_ca (s_is s)) es H1 H2) as (c' & r & -> & B1 & B2 & B3 & B4 & B5 & Br).
  destruct Br as [->|[-> ->]]; cbn [flush_if_full_batch].
  - unfold append_entries_without_batching. set (is := set_ca _ _).
    destruct (set_accepted_idx _ _ _) as [l|] eqn:El; cbn [lift bind]; [|exact I].
    destruct (ln_acc _ _ _ _ El) as [L1 L2].
    assert (X : Kl Sy WL' WF' (set_ls (set_is s is) l)).
    { split; [exact Hr|]. constructor.
      - cbn. rewrite B2. exact H1.
      - exact B1.
      - exact H3.
      - exact H4.
      - intros _ b i Hb. cbn in Hb |- *. rewrite L1 in *. apply L2 in Hb. cbn in Hb. apply (H5 Hr b i Hb).
      - cbn [set_ls set_is s_role s_phase s_ls s_is]. intros _ _. rewrite Hr, L1. unfold is, i_acc. cbn. rewrite B5. exact HW. }
    pose proof (send_ad_k Sy WL' WF' (set_ls (set_is s is) l) es) as Y. cbn [set_ls s_ls] in Y. rewrite L1 in Y. specialize (Y HQ X).
    destruct (send_acceptdecide _ _) as [s'|]; [|exact I]. destruct Y as [[Y1 Y2] (Y3 & Y4 & Y5)]. split; [exact Y2|].
    unfold appended. rewrite Y3, Y4, Y5. cbn [set_ls set_is s_ls s_is s_phase]. rewrite L1. split; [left; reflexivity|]. split; [exact Y1|]. split; [exact Hp|]. split; [reflexivity|]. split; [unfold is, i_acc; cbn; rewrite B5; reflexivity|].
    unfold is, i_ss. cbn. exact B3.
  - split.
    + constructor; cbn; auto; try lia. intros _ _. rewrite Hr. unfold i_acc. cbn. rewrite B5. cbn in HW. rewrite Nat.add_0_r in HW. exact HW.
    + split; [right; auto|]. cbn. repeat split; auto. unfold i_acc. cbn. lia.
Qed.
Lemma entry_is_entries s e : accept_entry_leader s e = accept_entries_leader s [e].
Proof. reflexivity. Qed.

(** ** Accepted messages of a leader *)
Definition takes (s : sp) (n : ballot) (sq : seqnum) : bool :=
  match bcmp (i_prom (s_is s)) n, check_msg_status (s_cseq s) sq with
  | Eq, Expected => role_eqb (s_role s) Follower && phase_eqb (s_phase s) PhAccept
  | _, _ => false
  end.
Lemma bcmp_refl b : bcmp b b = Eq.
Proof. unfold bcmp. rewrite !Nat.compare_refl. reflexivity. Qed.
(** What the three handlers do before they accept the message. *)
Definition gate {B} (s : sp) (n : ballot) (sq : seqnum) (r : sp -> B) (f : sp -> B) : B :=
  let '(s, valid) := check_valid_ballot s n in
  if valid && (role_eqb (s_role s) Follower && phase_eqb (s_phase s) PhAccept) then
    let '(s, st) := handle_sequence_num s sq (b_pid n) in
    match st with Expected => f s | _ => r s end
  else r s.
Lemma gate_k {B} Sy WL WF WL' WF' s n sq r (f : sp -> B) (P : B -> Prop) :
  K Sy WL WF s ->
  (takes s n sq = true -> WF' (i_prom (s_is s)) sq) ->
  (takes s n sq = false -> (forall b q, WF b q -> WF' b q) /\ (forall b q, WL b q -> WL' b q)) ->
  (forall s1, K Sy WL' WF' s1 -> P (r s1)) ->
  (takes s n sq = true -> K Sy WL' WF' (set_cseq s sq) -> s_role s = Follower -> P (f (set_cseq s sq))) ->
  P (gate s n sq r f).
Proof.
  intros H Ht Hf Hr Hg. unfold gate.
  assert (Hno : takes s n sq = false -> forall s1, K Sy WL WF s1 -> P (r s1)).
  { intros X s1 Y. apply Hr. destruct (Hf X) as [X1 X2]. apply (K_weaken Sy WL WF Sy WL' WF' s1); [auto| |exact Y]. intros Z1 Z2. pose proof (k_S _ _ _ _ Y Z1 Z2) as Z. destruct (s_role s1); auto. }
  unfold check_valid_ballot, takes in *. destruct (bcmp (i_prom (s_is s)) n) eqn:Hb.
  - cbn [andb]. destruct (role_eqb (s_role s) Follower && phase_eqb (s_phase s) PhAccept) eqn:Hrp.
    + unfold handle_sequence_num. destruct (check_msg_status (s_cseq s) sq) eqn:Hc.
      * apply andb_true_iff in Hrp. destruct Hrp as [R1 R2]. assert (R : s_role s = Follower) by (destruct (s_role s); [reflexivity|discriminate]).
        apply Hg; auto. destruct H as [H1 H2 H3 H4 H5 H6]. constructor; auto. cbn. rewrite R. intros _ _. apply Ht; reflexivity.
      * apply Hno; auto. apply reconnected_k, H.
      * apply Hno; auto.
    + destruct (check_msg_status _ _); apply Hno; auto.
  - cbn [andb]. apply Hno; auto. apply reconnected_k, H.
  - cbn [andb]. apply Hno; auto. apply K_push; [exact I|exact H].
Qed.

Section Expected.
Context (Sy : pmessage -> Prop) (WL : ballot -> nat -> Prop) (WF : ballot -> seqnum -> Prop) (WL' : ballot -> nat -> Prop) (WF' : ballot -> seqnum -> Prop).
Context (s : sp) (n : ballot) (sq : seqnum).
Context (HK : K Sy WL WF s) (Ht : takes s n sq = true -> WF' (i_prom (s_is s)) sq)
  (Hf : takes s n sq = false -> (forall b q, WF b q -> WF' b q) /\ (forall b q, WL b q -> WL' b q)).
Lemma acceptdecide_k d es : Kr Sy WL' WF' (handle_acceptdecide s n sq d es).
Proof.
  change (handle_acceptdecide s n sq d es) with (gate s n sq Ok (fun s =>
    let '(is, r1) := append_entries_and_get_accepted_idx (s_is s) es in
    let s := set_is s is in
    let '(s, r2) := update_decided s d in
    match (match r2 with Some _ => r2 | None => r1 end) with Some idx => reply_accepted s n idx | None => Ok s end)).
  apply (gate_k Sy WL WF WL' WF'); auto. intros _ X R.
  unfold append_entries_and_get_accepted_idx. destruct (batch_one (i_ca (s_is s)) es (k_bsz _ _ _ _ HK) (k_bat _ _ _ _ HK)) as (c' & r & Hc & B1 & B2 & B3 & B4 & B5 & Br).
  change (i_ca (s_is (set_cseq s sq))) with (i_ca (s_is s)). rewrite Hc.
  set (e := match r with Some fl => _ | None => _ end).
  assert (Y : K Sy WL' WF' (set_is (set_cseq s sq) (fst e))).
  { destruct X as [X1 X2 X3 X4 X5 X6]. cbn in X1, X6. rewrite R in X6. unfold e, append_entries_without_batching. destruct r as [fl|].
    - constructor; cbn; auto; [lia|]. rewrite R. unfold i_ss, i_prom. cbn. rewrite B3, B4. exact X6.
    - constructor; cbn; auto; [lia|]. rewrite R. unfold i_ss, i_prom. cbn. rewrite B3, B4. exact X6. }
  destruct e as [is r1]. cbn [fst] in Y. pose proof (update_decided_k _ _ _ _ d Y) as Z. destruct (update_decided _ _) as [s3 r2]. cbn [fst] in Z.
  destruct (match r2 with Some _ => r2 | None => r1 end); [apply reply_k|]; exact Z.
Qed.
Lemma decide_k d : Kr Sy WL' WF' (handle_decide s n sq d).
Proof.
  assert (Hup : forall s1, K Sy WL' WF' s1 -> Kr Sy WL' WF' (let '(s, r) := update_decided s1 d in match r with Some idx => reply_accepted s n idx | None => Ok s end)).
  { intros s1 X. pose proof (update_decided_k _ _ _ _ d X) as Z. destruct (update_decided _ _) as [s3 r2]. cbn [fst] in Z. destruct r2; [apply reply_k|]; exact Z. }
  destruct (s_role s) eqn:Hrole.
  - replace (handle_decide s n sq d) with (gate s n sq Ok (fun s => let '(s, r) := update_decided s d in match r with Some idx => reply_accepted s n idx | None => Ok s end)).
    { apply (gate_k Sy WL WF WL' WF'); auto. }
    unfold gate, handle_decide, check_valid_ballot. destruct (bcmp _ _); [rewrite Hrole; reflexivity|reflexivity|reflexivity].
  - assert (X : takes s n sq = false) by (unfold takes; rewrite Hrole; destruct (bcmp (i_prom (s_is s)) n), (check_msg_status (s_cseq s) sq); reflexivity). destruct (Hf X) as [F1 F2].
    assert (Hno : forall s1, K Sy WL WF s1 -> K Sy WL' WF' s1).
    { intros s1 Y. apply (K_weaken Sy WL WF Sy WL' WF' s1); [auto| |exact Y]. intros Z1 Z2. pose proof (k_S _ _ _ _ Y Z1 Z2) as Z. destruct (s_role s1); auto. }
    unfold handle_decide, check_valid_ballot. destruct (bcmp _ _); cbn [andb].
    + destruct (phase_eqb _ _); [|apply Hno; exact HK]. unfold handle_sequence_num. destruct (check_msg_status _ _).
      * apply Hup, Hno. destruct HK as [H1 H2 H3 H4 H5 H6]. constructor; auto. cbn. rewrite Hrole in *. exact H6.
      * apply Hno, reconnected_k, HK.
      * apply Hno, HK.
    + apply Hno, reconnected_k, HK.
    + apply Hno, K_push; [exact I|exact HK].
Qed.
Lemma stopsign_k ss : Kr Sy WL' WF' (handle_accept_stopsign s n sq ss).
Proof.
  unfold handle_accept_stopsign. match goal with |- Kr _ _ _ ?e => change e with (gate s n sq Ok (fun s => '(is, acc) <- i_set_stopsign (s_is (set_is s (fst (flush_batch (s_is s))))) (Some ss) ;; reply_accepted (set_is (set_is s (fst (flush_batch (s_is s)))) is) n acc)) end.
  apply (gate_k Sy WL WF WL' WF'); auto. intros _ X R. destruct (flush_same (s_is (set_cseq s sq)) (k_bsz _ _ _ _ X) (k_bat _ _ _ _ X)) as [F _].
  unfold i_set_stopsign. cbn [set_is s_is]. match goal with |- Kr _ _ _ (bind (bind ?e _) _) => assert (Hc : exists c, e = Ok c /\ c_bsize c <= 1 /\ c_batch c = []) end.
  { destruct F as [F1 F2 F3 F4 F5]. destruct (c_ss _); eexists; (split; [reflexivity|]); cbn; auto. }
  destruct Hc as (c & -> & C1 & C2). cbn [bind]. apply reply_k. destruct X as [X1 X2 X3 X4 X5 X6]. constructor; auto. cbn. discriminate.
Qed.
End Expected.

(** ** AcceptSync *)
Definition takes_sync (s : sp) (n : ballot) : bool :=
  match bcmp (i_prom (s_is s)) n with
  | Eq => role_eqb (s_role s) Follower && phase_eqb (s_phase s) PhPrepare
  | _ => false
  end.
Lemma sync_same is n d sy is' a : sync_log is n d (Some sy) = Ok (is', a) ->
  c_bsize (i_ca is') = c_bsize (i_ca is) /\ c_batch (i_ca is') = c_batch (i_ca is) /\ i_ss is' = sy_ss sy /\ i_prom is' = i_prom is.
Proof.
  unfold sync_log. set (is0 := set_ca is _).
  match goal with |- bind ?e _ = _ -> _ => assert (X : match e with Ok (is1, _) => c_bsize (i_ca is1) = c_bsize (i_ca is) /\ c_batch (i_ca is1) = c_batch (i_ca is) /\ i_prom is1 = i_prom is | Panic _ => True end); [|destruct e as [[is1 ops]|]; [|discriminate]] end.
  { destruct (sy_snap sy) as [[c|dd]|]; cbn; auto. destruct (create_decided_snapshot _); cbn; auto. destruct (s_merge _ _); cbn; auto. }
  destruct X as (X1 & X2 & X3). cbn [bind]. destruct (sy_ss sy) as [ss|].
  - destruct (ms_write _ _); [|discriminate]. cbn. intros Y. injection Y as <- _. cbn. auto.
  - unfold i_ss at 1. destruct (c_ss (i_ca (set_ca is1 _))) eqn:Hss; (destruct (ms_write _ _); [|discriminate]); cbn; intros Y; injection Y as <- _; cbn; auto.
Qed.
Lemma acceptsync_k Sy WL WF WL' WF' s n sq d sy from : K Sy WL WF s ->
  (takes_sync s n = true -> sy_ss sy = None -> WF' (i_prom (s_is s)) sq) ->
  (takes_sync s n = false -> (forall b q, WF b q -> WF' b q) /\ (forall b q, WL b q -> WL' b q)) ->
  Kr Sy WL' WF' (handle_acceptsync s n sq d sy from).
Proof.
  intros H Ht Hf. unfold handle_acceptsync.
  assert (Hno : takes_sync s n = false -> forall s1, K Sy WL WF s1 -> Kr Sy WL' WF' (Ok s1)).
  { intros X s1 Y. destruct (Hf X) as [X1 X2]. cbn. apply (K_weaken Sy WL WF Sy WL' WF' s1); [auto| |exact Y]. intros Z1 Z2. pose proof (k_S _ _ _ _ Y Z1 Z2) as Z. destruct (s_role s1); auto. }
  unfold check_valid_ballot, takes_sync in *. destruct (bcmp (i_prom (s_is s)) n) eqn:Hb; cbn [andb].
  - destruct (role_eqb (s_role s) Follower && phase_eqb (s_phase s) PhPrepare) eqn:Hrp; [|apply Hno; auto].
    destruct (sync_log _ _ _ _) as [[is acc]|] eqn:Hs; [|exact I]. cbn [bind]. destruct (sync_same _ _ _ _ _ _ Hs) as (S1 & S2 & S3 & S4).
    apply andb_true_iff in Hrp. destruct Hrp as [R1 R2]. assert (R : s_role s = Follower) by (destruct (s_role s); [reflexivity|discriminate]).
    assert (P : s_phase s = PhPrepare) by (destruct (s_phase s); (reflexivity || discriminate)).
    apply K_push; [exact I|].
    match goal with |- K _ _ _ (set_lam (set_cseq (set_state ?a _ _) _) _) => assert (Y : K Sy WL' WF' a /\ i_ss (s_is a) = sy_ss sy /\ i_prom (s_is a) = i_prom (s_is s)) end.
    { assert (X : K Sy WL' WF' (set_is (set_cprom s None) is)).
      { destruct H as [H1 H2 H3 H4 H5 H6]. constructor; auto; [cbn; rewrite S1; exact H1|cbn; rewrite S2; exact H2|]. cbn. rewrite P. discriminate. }
      destruct (i_ss (s_is (set_is (set_cprom s None) is))) eqn:Hi; [split; [exact X|split; [exact S3|exact S4]]|].
      unfold forward_buffered_proposals. cbn [set_is set_cprom s_bprops].
      assert (X2 : K Sy WL' WF' (set_bprops (set_is (set_cprom s None) is) [])).
      { destruct X as [X1 X2 X3 X4 X5 X6]. constructor; auto. constructor. }
      destruct (s_bprops s) as [|e es] eqn:He; [split; [exact X2|split; [exact S3|exact S4]]|].
      split; [apply forward_k; [rewrite <- He; apply H|exact X2]|]. unfold forward_proposals. destruct (_ && _); split; auto. }
    revert Y. match goal with |- _ -> K _ _ _ (set_lam (set_cseq (set_state ?a _ _) _) _) => generalize a end. intros a Y.
    destruct Y as ([Y1 Y2 Y3 Y4 Y5 Y6] & Y7 & Y8). constructor; auto.
    + discriminate.
    + cbn. intros _ Hn. rewrite Y8. apply Ht; [|congruence]. reflexivity.
  - apply Hno; auto. apply reconnected_k, H.
  - apply Hno; auto. apply K_push; [exact I|exact H].
Qed.

(** ** Promises *)
(** An AcceptSync that was made from the storage [is] by the leader of [n]. *)
Definition made (n : ballot) (is : istore) (m : pmessage) : Prop :=
  match pm_msg m with
  | MAcceptSync n' _ _ sy => n' = n /\ sy_ss sy = i_ss is /\ (i_ss is = None -> cnt (i_st is) <= sy_idx sy + length (sy_suffix sy))
  | _ => True
  end.
Lemma suffix_cnt st k suf : ms_get_suffix st k = Some suf -> cnt st <= k + length suf.
Proof.
  intros H. apply SyncOps.suffix_spec in H. destruct H as [Ht ->]. rewrite skipn_length. unfold cnt in *. lia.
Qed.
Lemma log_sync_made s a b sy : create_log_sync s a b = Some sy -> sy_ss sy = i_ss (s_is s) /\ (i_ss (s_is s) = None -> cnt (i_st (s_is s)) <= sy_idx sy + length (sy_suffix sy)).
Proof.
  unfold create_log_sync. destruct (_ && _).
  - destruct (create_diff_snapshot _ _) as [[sn d]| |] eqn:Hd; [|discriminate|discriminate]. destruct (ms_get_suffix _ _) as [suf|] eqn:Hs; [|discriminate]. intros X. injection X as <-. cbn. split; [reflexivity|].
    intros Hn. apply suffix_cnt in Hs. assert (d = i_dec (s_is s)); [|subst; exact Hs].
    unfold create_diff_snapshot in Hd. unfold dec_without_ss, stopsign_is_decided in Hd. unfold i_ss in Hn. rewrite Hn in Hd.
    destruct (b <=? _); [destruct (_ <? _); [destruct (create_snapshot _ _); try discriminate|]|destruct (ms_get_entries _ _ _); [destruct (s_create _); try discriminate|discriminate]]; injection Hd as _ <-; reflexivity.
  - destruct (ms_get_suffix _ _) as [suf|] eqn:Hs; [|discriminate]. intros X. injection X as <-. cbn. split; [reflexivity|]. intros _. apply (suffix_cnt _ _ _ Hs).
Qed.
Lemma accsync_k Sy WL WF s p n is : Kl Sy WL WF s -> l_n (s_ls s) = n -> s_is s = is -> (forall m, made n is m -> Sy m) ->
  match send_accsync s p with Ok s' => Kl Sy WL WF s' /\ l_n (s_ls s') = n /\ s_is s' = is | Panic _ => True end.
Proof.
  intros H Hn Hi HS. unfold send_accsync.
  destruct (get_promise_meta _ _) as [m|]; cbn [lift bind]; [|exact I].
  destruct (match ls_get_decided_idx _ _ with Some (Some d) => Some d | _ => None end) as [fd|]; cbn [lift bind]; [|exact I].
  destruct (create_log_sync _ _ _) as [sy|] eqn:Hy; cbn [lift bind]; [|exact I].
  destruct (increment_seq_num_session _ _) as [l1|] eqn:E1; cbn [lift bind]; [|exact I].
  destruct (next_seq_num _ _) as [[l q]|] eqn:E2; cbn [lift bind]; [|exact I].
  assert (L : lsame (s_ls s) l) by (eapply ls_tr; [eapply ln_incr; eauto|eapply ln_next; eauto]).
  split; [|split; [cbn; rewrite (proj1 L); exact Hn|exact Hi]].
  destruct (Kl_ls Sy WL WF s l L H) as [X1 X2]. split; [exact X1|]. apply K_pushm; [|exact X2]. cbn. apply HS. cbn. split; [exact Hn|]. rewrite <- Hi. apply (log_sync_made _ _ _ _ Hy).
Qed.
Lemma sync_none is n d is' a : sync_log is n d None = Ok (is', a) -> c_bsize (i_ca is') = c_bsize (i_ca is) /\ c_batch (i_ca is') = c_batch (i_ca is).
Proof. unfold sync_log. destruct (ms_write _ _); [|discriminate]. cbn. intros X. injection X as <- _. auto. Qed.
Lemma majority_k Sy WL WF WL' WF' s : Kl Sy WL WF s ->
  match handle_majority_promises s with
  | Ok s' => s_role s' = Leader /\ s_phase s' = PhAccept /\ l_n (s_ls s') = l_n (s_ls s) /\
      (WL' (l_n (s_ls s')) (i_acc (s_is s')) -> K (fun m => Sy m \/ made (l_n (s_ls s')) (s_is s') m) WL' WF' s')
  | Panic _ => True
  end.
Proof.
  intros [Hr [H1 H2 H3 H4 H5 H6]]. unfold handle_majority_promises, take_max_promise_sync.
  destruct (sync_log _ _ _ _) as [[is acc]|] eqn:Hs; [|exact I]. cbn [bind].
  assert (HB : c_bsize (i_ca is) <= 1 /\ c_batch (i_ca is) = []).
  { destruct (l_maxsync _); [destruct (sync_same _ _ _ _ _ _ Hs) as (S1 & S2 & _)|destruct (sync_none _ _ _ _ _ Hs) as (S1 & S2)]; rewrite S1, S2; auto. }
  destruct HB as [HB1 HB2].
  match goal with |- match (let '(_, _) := ?e in _) with _ => _ end => assert (X : s_role (fst e) = Leader /\ l_n (s_ls (fst e)) = l_n (s_ls s) /\ c_bsize (i_ca (s_is (fst e))) <= 1 /\ c_batch (i_ca (s_is (fst e))) = [] /\
     Forall Un (s_bprops (fst e)) /\ s_out (fst e) = s_out s /\ l_accmeta (s_ls (fst e)) = l_accmeta (s_ls s)); [|destruct e as [s1 acc1]; cbn [fst] in X] end.
  { set (s2 := set_is _ is). destruct (accepted_reconfiguration s2); [cbn; repeat (split; [auto; fail|]); auto|].
    assert (Y : forall s3, s_role s3 = Leader /\ l_n (s_ls s3) = l_n (s_ls s) /\ c_bsize (i_ca (s_is s3)) <= 1 /\ c_batch (i_ca (s_is s3)) = [] /\ Forall Un (s_bprops s3) /\ s_out s3 = s_out s /\ l_accmeta (s_ls s3) = l_accmeta (s_ls s) ->
      forall a, let e := match s_bss s3 with Some ss => let s := set_bss s3 None in let s := set_is s (fst (i_append_stopsign (s_is s) ss)) in (s, i_acc (s_is s)) | None => (s3, a) end in
      s_role (fst e) = Leader /\ l_n (s_ls (fst e)) = l_n (s_ls s) /\ c_bsize (i_ca (s_is (fst e))) <= 1 /\ c_batch (i_ca (s_is (fst e))) = [] /\ Forall Un (s_bprops (fst e)) /\ s_out (fst e) = s_out s /\ l_accmeta (s_ls (fst e)) = l_accmeta (s_ls s)).
    { intros s3 Z a. cbn zeta. destruct (s_bss s3); [|exact Z]. destruct Z as (Z1 & Z2 & Z3 & Z4 & Z5 & Z6 & Z7). cbn [fst set_bss set_is s_is].
      unfold i_append_stopsign, cache_append_stopsign. cbn [c_set_ss c_batch]. rewrite Z4. cbn. auto 9. }
    destruct (s_bprops s2) as [|e es] eqn:He; [apply Y; cbn; repeat (split; [auto; fail|]); auto|].
    match goal with |- context [append_entries_without_batching ?a ?b] => destruct (append_entries_without_batching a b) as [is2 acc2] eqn:Ha end. apply Y. cbn.
    unfold append_entries_without_batching in Ha. injection Ha as <- <-. cbn. repeat (split; [auto; fail|]). auto. }
  destruct X as (X1 & X2 & X3 & X4 & X5 & X6 & X7).
  destruct (set_accepted_idx _ _ _) as [l|] eqn:El; cbn [lift bind]; [|exact I]. destruct (ln_acc _ _ _ _ El) as [L1 L2]. cbn [set_state s_ls] in L1, L2.
  destruct (get_promised_followers _) as [ps|]; cbn [lift bind]; [|exact I].
  set (s4 := set_ls (set_state s1 Leader PhAccept) l).
  assert (Z : forall q s5, l_n (s_ls s5) = l_n (s_ls s) -> s_is s5 = s_is s4 -> s_phase s5 = PhAccept -> Kl (fun m => Sy m \/ made (l_n (s_ls s)) (s_is s4) m) (fun _ _ => True) WF' s5 ->
    match for_each s5 q send_accsync with Ok s' => s_role s' = Leader /\ s_phase s' = PhAccept /\ l_n (s_ls s') = l_n (s_ls s) /\ s_is s' = s_is s4 /\ Kl (fun m => Sy m \/ made (l_n (s_ls s)) (s_is s4) m) (fun _ _ => True) WF' s' | Panic _ => True end).
  { induction q as [|p q IH]; intros s5 A1 A2 A3 A4; cbn [for_each]; [split; [apply A4|auto]|].
    pose proof (accsync_k _ _ _ s5 p (l_n (s_ls s)) (s_is s4) A4 A1 A2 (fun m Hm => or_intror Hm)) as Y.
    destruct (send_accsync s5 p) as [s6|] eqn:Hsa; cbn [bind]; [|exact I]. destruct Y as (Y1 & Y2 & Y3). apply IH; auto.
    unfold send_accsync in Hsa. revert Hsa.
    destruct (get_promise_meta _ _); cbn [lift bind]; [|discriminate]. destruct (match ls_get_decided_idx _ _ with Some (Some d) => Some d | _ => None end); cbn [lift bind]; [|discriminate].
    destruct (create_log_sync _ _ _); cbn [lift bind]; [|discriminate]. destruct (increment_seq_num_session _ _); cbn [lift bind]; [|discriminate]. destruct (next_seq_num _ _) as [[? ?]|]; cbn [lift bind]; [|discriminate].
    intros Hsa. injection Hsa as <-. exact A3. }
  specialize (Z ps s4). cbn [s4 set_ls s_ls s_is s_phase set_state] in Z. rewrite L1, X2 in Z. specialize (Z eq_refl eq_refl eq_refl).
  match type of Z with ?A -> _ => assert (HA : A) end.
  { split; [reflexivity|]. constructor; auto.
    - cbn. rewrite X6. destruct H4 as [H4 H7]. split; [|exact H7]. eapply Forall_impl; [|exact H4]. intros m. unfold okm. destruct (pm_msg m); auto.
    - intros _ b i Hb. cbn in Hb |- *. rewrite L1, X2 in *. apply L2 in Hb. rewrite X7 in Hb. rewrite X6. apply (H5 Hr b i Hb).
    - intros _ _. exact I. }
  specialize (Z HA). destruct (for_each _ _ _) as [s'|]; [|exact I]. destruct Z as (Z1 & Z2 & Z3 & Z4 & _ & Z5). split; [exact Z1|]. split; [exact Z2|]. split; [exact Z3|].
  intros HW. rewrite Z3, Z4 in *. apply (K_weaken _ _ _ _ WL' WF' s') with (3 := Z5); [auto|]. intros _ _. rewrite Z1, Z3, Z4. exact HW.
Qed.
Lemma accsync_phase s p s' : send_accsync s p = Ok s' -> s_phase s' = s_phase s.
Proof.
  unfold send_accsync.
  destruct (get_promise_meta _ _); cbn [lift bind]; [|discriminate]. destruct (match ls_get_decided_idx _ _ with Some (Some d) => Some d | _ => None end); cbn [lift bind]; [|discriminate].
  destruct (create_log_sync _ _ _); cbn [lift bind]; [|discriminate]. destruct (increment_seq_num_session _ _); cbn [lift bind]; [|discriminate]. destruct (next_seq_num _ _) as [[? ?]|]; cbn [lift bind]; [|discriminate].
  intros H. injection H as <-. reflexivity.
Qed.
(** The queue after a Promise: what was in it, and AcceptSyncs made of the log as it is then. *)
Definition synced (Sy : pmessage -> Prop) (s' : sp) (m : pmessage) : Prop :=
  Sy m \/ (s_role s' = Leader /\ s_phase s' = PhAccept /\ made (l_n (s_ls s')) (s_is s') m).
Lemma promise_k Sy WL WF s m pr s' : pm_msg m = MPromise pr -> K Sy WL WF s -> sp_handle s m = Ok s' ->
  K (synced Sy s') WL WF s' \/
  (s_role s = Leader /\ s_phase s = PhPrepare /\ s_role s' = Leader /\ s_phase s' = PhAccept /\ l_n (s_ls s') = l_n (s_ls s) /\
   forall WL' WF', WL' (l_n (s_ls s')) (i_acc (s_is s')) -> K (synced Sy s') WL' WF' s').
Proof.
  intros Hm H. unfold sp_handle. rewrite Hm.
  assert (Hno : forall s1, K Sy WL WF s1 -> K (synced Sy s1) WL WF s1).
  { intros s1 X. apply (K_weaken Sy WL WF (synced Sy s1) WL WF s1); [intros; left; assumption| |exact X]. apply X. }
  destruct (s_role s) eqn:Hr; [intros X; injection X as <-; left; auto|].
  destruct (s_phase s) eqn:Hp; try (intros X; injection X as <-; left; auto; fail).
  - unfold handle_promise_prepare. destruct (beq _ _); [|intros X; injection X as <-; left; auto].
    destruct (ls_set_promise _ _ _ _) as [[l mj]|] eqn:El; cbn [lift bind]; [|discriminate].
    assert (X : Kl Sy WL WF (set_ls s l)) by (apply Kl_ls; [eapply ln_setp; eauto|split; auto]).
    destruct mj; [|intros Y; injection Y as <-; left; apply Hno; apply X].
    intros Y. right. assert (HL : l_n l = l_n (s_ls s)) by apply (ln_setp _ _ _ _ _ _ El).
    assert (Z : forall WL' WF', s_role s' = Leader /\ s_phase s' = PhAccept /\ l_n (s_ls s') = l_n (s_ls s) /\ (WL' (l_n (s_ls s')) (i_acc (s_is s')) -> K (synced Sy s') WL' WF' s')).
    { intros WL' WF'. pose proof (majority_k Sy WL WF WL' WF' _ X) as Z. rewrite Y in Z. destruct Z as (Z1 & Z2 & Z3 & Z4). split; [exact Z1|]. split; [exact Z2|]. split; [rewrite Z3; exact HL|].
      intros HW. specialize (Z4 HW). apply (K_weaken _ WL' WF' (synced Sy s') WL' WF' s') with (3 := Z4); [|apply Z4]. intros m0 [A|A]; [left; exact A|right; auto]. }
    destruct (Z WL WF) as (Z1 & Z2 & Z3 & _). repeat (split; [assumption || reflexivity|]). intros WL' WF'. apply Z.
  - unfold handle_promise_accept. destruct (beq _ _); [|intros X; injection X as <-; left; auto].
    destruct (ls_set_promise _ _ _ _) as [[l mj]|] eqn:El; cbn [lift bind]; [|discriminate].
    assert (X : Kl Sy WL WF (set_ls s l)) by (apply Kl_ls; [eapply ln_setp; eauto|split; auto]).
    intros Y. left. assert (X2 : Kl (fun m0 => Sy m0 \/ made (l_n l) (s_is s) m0) WL WF (set_ls s l)).
    { destruct X as [X1 X2]. split; [exact X1|]. apply (K_weaken Sy WL WF _ WL WF _) with (3 := X2); [auto|apply X2]. }
    pose proof (accsync_k _ _ _ (set_ls s l) (pm_from m) (l_n l) (s_is s) X2 eq_refl eq_refl (fun m Hm => or_intror Hm)) as Z. rewrite Y in Z.
    destruct Z as ([Z1 Z2] & Z3 & Z4). pose proof (accsync_phase _ _ _ Y) as Z5.
    apply (K_weaken _ WL WF _ WL WF s') with (3 := Z2); [|apply Z2]. intros m0 [A|A]; [left; exact A|right]. rewrite Z3, Z4. split; [exact Z1|]. split; [rewrite Z5; exact Hp|exact A].
Qed.

(** ** Proposals *)
Definition takes_props (s : sp) : bool := negb (accepted_reconfiguration s) && (role_eqb (s_role s) Leader && phase_eqb (s_phase s) PhAccept).
Lemma takes_props_on s : takes_props s = true -> i_ss (s_is s) = None /\ s_role s = Leader /\ s_phase s = PhAccept.
Proof.
  unfold takes_props, accepted_reconfiguration. destruct (i_ss _); [discriminate|]. destruct (s_role s); [discriminate|]. destruct (s_phase s); try discriminate. auto.
Qed.
Lemma propose_k Sy WL WF WL' WF' s e : K Sy WL WF s ->
  (takes_props s = true -> Q (l_n (s_ls s)) e /\ WL' (l_n (s_ls s)) (i_acc (s_is s) + 1)) ->
  (takes_props s = false -> Un e /\ (forall b q, WF b q -> WF' b q) /\ (forall b q, WL b q -> WL' b q)) ->
  match sp_append s e with Ok (s', _) => K Sy WL' WF' s' /\ (takes_props s = true -> appended s s' [e]) | Panic _ => True end.
Proof.
  intros H Ht Hf. destruct (takes_props s) eqn:Htp.
  - destruct (takes_props_on s Htp) as (T1 & T2 & T3). destruct (Ht eq_refl) as [HQ HW]. unfold sp_append, accepted_reconfiguration, propose_entry. rewrite T1, T2, T3, entry_is_entries.
    pose proof (entries_k Sy WL WF WL' WF' s [e] T2 T3 (Forall_cons _ HQ (Forall_nil _)) HW H) as X. destruct (accept_entries_leader s [e]); cbn [bind]; [|exact I]. destruct X. auto.
  - destruct (Hf eq_refl) as (Hu & F1 & F2).
    assert (H' : K Sy WL' WF' s). { apply (K_weaken Sy WL WF Sy WL' WF' s); [auto| |exact H]. intros Z1 Z2. pose proof (k_S _ _ _ _ H Z1 Z2) as Z. destruct (s_role s); auto. }
    assert (X : match sp_append s e with Ok (s', _) => K Sy WL' WF' s' | Panic _ => True end); [|destruct (sp_append s e) as [[s' r]|]; [split; [exact X|discriminate]|exact I]].
    unfold sp_append. unfold takes_props in Htp. destruct (accepted_reconfiguration s); [exact H'|]. cbn [negb andb] in Htp. unfold propose_entry.
    assert (Y : K Sy WL' WF' (forward_proposals s [e])) by (apply forward_k; [constructor; auto|exact H']).
    destruct (s_role s), (s_phase s); try exact Y; [|discriminate]. destruct H' as [H1 H2 H3 H4 H5 H6]. constructor; auto. cbn. rewrite Forall_app. auto.
Qed.
Lemma proposals_k Sy WL WF WL' WF' s es : K Sy WL WF s ->
  (takes_props s = true -> Forall (Q (l_n (s_ls s))) es /\ WL' (l_n (s_ls s)) (i_acc (s_is s) + length es)) ->
  (takes_props s = false -> Forall Un es /\ (forall b q, WF b q -> WF' b q) /\ (forall b q, WL b q -> WL' b q)) ->
  match handle_forwarded_proposal s es with Ok s' => K Sy WL' WF' s' /\ (takes_props s = true -> appended s s' es) | Panic _ => True end.
Proof.
  intros H Ht Hf. destruct (takes_props s) eqn:Htp.
  - destruct (takes_props_on s Htp) as (T1 & T2 & T3). destruct (Ht eq_refl) as [HQ HW]. unfold handle_forwarded_proposal, accepted_reconfiguration. rewrite T1, T2, T3.
    pose proof (entries_k Sy WL WF WL' WF' s es T2 T3 HQ HW H) as X. destruct (accept_entries_leader s es); [|exact I]. destruct X. auto.
  - destruct (Hf eq_refl) as (Hu & F1 & F2).
    assert (H' : K Sy WL' WF' s). { apply (K_weaken Sy WL WF Sy WL' WF' s); [auto| |exact H]. intros Z1 Z2. pose proof (k_S _ _ _ _ H Z1 Z2) as Z. destruct (s_role s); auto. }
    assert (X : Kr Sy WL' WF' (handle_forwarded_proposal s es)); [|destruct (handle_forwarded_proposal s es) as [s'|]; [split; [exact X|discriminate]|exact I]].
    unfold handle_forwarded_proposal. unfold takes_props in Htp. destruct (accepted_reconfiguration s); [exact H'|]. cbn [negb andb] in Htp.
    assert (Y : K Sy WL' WF' (forward_proposals s es)) by (apply forward_k; [exact Hu|exact H']).
    destruct (s_role s), (s_phase s); try exact Y; [|discriminate]. destruct H' as [H1 H2 H3 H4 H5 H6]. constructor; auto. cbn. rewrite Forall_app. auto.
Qed.
Lemma K_start Sy WL WF o : K Sy WL WF (o_sp o) <-> K Sy WL WF (o_sp (start_call o)).
Proof. split; intros [H1 H2 H3 H4 H5 H6]; constructor; auto. Qed.

(** ** The calls and messages that are not treated above *)
Definition ordinary (o : omni) (c : call) : Prop :=
  match c with
  | CAppend _ => False
  | CTick => forall n, snd (hb_timeout (o_ble o) (role_of o) (get_promise o)) = Some n -> b_pid n = s_pid (o_sp o)
  | CTryLeader => b_pid (e_ballot (o_ble o)) = s_pid (o_sp o)
  | CHandle (MsgSP m) =>
      match pm_msg m with
      | MPromise _ | MAcceptSync _ _ _ _ | MAcceptDecide _ _ _ _ | MDecide _ _ _ | MAcceptStopSign _ _ _ | MProposalForward _ => False
      | _ => True
      end
  | _ => True
  end.
Lemma exec_k Sy WL WF o c o' r : K Sy WL WF (o_sp o) -> ordinary o c -> exec o c = Ok (o', r) -> K Sy WL WF (o_sp o').
Proof.
  intros H0 Hc He. assert (H : K Sy WL WF (o_sp (start_call o))) by (exact (proj1 (K_start Sy WL WF o) H0)). clear H0.
  assert (X : match exec o c with Ok (o', _) => K Sy WL WF (o_sp o') | Panic _ => True end); [|rewrite He in X; exact X]. clear He o' r.
  unfold exec. assert (L : s_role (o_sp (start_call o)) = Leader -> Kl Sy WL WF (o_sp (start_call o))) by (intros X; split; auto).
  destruct c as [e|cc0 meta| |i|i l|q| |q|m]; cbn [exec_call].
  - destruct Hc.
  - unfold reconfigure. destruct (cluster_validate cc0); [|exact H]. unfold sp_reconfigure. destruct (accepted_reconfiguration _); [exact H|]. cbn zeta.
    match goal with |- context [bind (A := sp) ?e _] => assert (X : Kr Sy WL WF e); [|destruct e; exact X] end.
    destruct (s_role (o_sp (start_call o))) eqn:Hr, (s_phase (o_sp (start_call o))); try (apply forward_ss_k; exact H); [apply K_bss, H|apply Kl_K, accept_ss_k; auto].
  - unfold tick. destruct (clock_tick (o_eclk (start_call o))) as [ec f1].
    match goal with |- context [bind (A := omni) (bind (A := omni) ?e _) _] => assert (X : match e with Ok o1 => K Sy WL WF (o_sp o1) | Panic _ => True end); [|destruct e as [o1|]; [|exact I]] end.
    { destruct f1; [|exact H]. unfold election_timeout. unfold ordinary in Hc.
      match goal with |- context [hb_timeout ?a ?b ?c] => change (hb_timeout a b c) with (hb_timeout (o_ble o) (role_of o) (get_promise o)) end.
      destruct (hb_timeout (o_ble o) (role_of o) (get_promise o)) as [b [n|]]; [|exact H]. pose proof (handle_leader_k Sy WL WF (o_sp (start_call o)) n (Hc n eq_refl) H) as X.
      match goal with |- context [handle_leader ?a ?b] => change (handle_leader a b) with (handle_leader (o_sp (start_call o)) n) end. destruct (handle_leader _ _); exact X. }
    cbn [bind]. destruct (clock_tick (o_rclk o1)) as [rc f2].
    match goal with |- context [bind (A := omni) (bind (A := omni) ?e _) _] => assert (X2 : match e with Ok o1 => K Sy WL WF (o_sp o1) | Panic _ => True end); [|destruct e as [o2|]; [|exact I]] end.
    { destruct f2; [|exact X]. cbn [o_sp]. pose proof (resend_k Sy WL WF _ X) as Y. destruct (resend_message_timeout _); exact Y. }
    cbn [bind]. destruct (clock_tick (o_fclk o2)) as [fc f3]. destruct f3; [|exact X2]. cbn [o_sp]. pose proof (flush_k Sy WL WF _ X2) as Y. destruct (flush_batch_timeout _); exact Y.
  - unfold sp_trim. destruct (s_role (o_sp (start_call o))); [exact H|]. destruct (get_min_all_accepted_idx _) as [mn|]; [|exact I]. cbn [lift bind].
    assert (X : forall k is r, try_trim (s_is (o_sp (start_call o))) k = Ok (is, r) -> K Sy WL WF (set_is (o_sp (start_call o)) is)) by (intros; eapply trim_k; eauto).
    destruct i as [i|]; [destruct (i <=? mn); [specialize (X i)|exact H]|specialize (X mn)];
      (destruct (try_trim _ _) as [[is r]|]; [|exact I]; specialize (X _ _ eq_refl); destruct r; cbn [bind]; [exact X|apply K_push_all; [exact I|exact X]]).
  - unfold sp_snapshot. destruct (try_snapshot _ _) as [[is r]|] eqn:Et; [|exact I]. pose proof (snap_k _ _ _ _ _ _ _ H Et) as X. cbn [bind]. destruct r; [exact X|]. destruct l; [exact X|]. apply K_push_all; [exact I|exact X].
  - cbn. apply reconnected_k, H.
  - unfold try_become_leader. pose proof (handle_leader_k Sy WL WF (o_sp (start_call o)) (set_n (e_ballot (o_ble o)) (b_n (get_promise o) + 1)) Hc H) as X. match goal with |- context [handle_leader ?a ?b] => change (handle_leader a b) with (handle_leader (o_sp (start_call o)) (set_n (e_ballot (o_ble o)) (b_n (get_promise o) + 1))) end. destruct (handle_leader _ _); exact X.
  - exact H.
  - unfold handle_incoming. destruct m as [m|m]; [|exact H]. assert (X : Kr Sy WL WF (sp_handle (o_sp (start_call o)) m)); [|destruct (sp_handle _ _); exact X].
    unfold sp_handle. cbn in Hc. destruct (pm_msg m) as [n|n d na ac|pr|n q d sy|n q d es|n a|n|n q d|es|cp|n q ss|ss] eqn:Hm; try (destruct Hc; fail).
    + apply preparereq_k, H.
    + apply prepare_k, H.
    + apply accepted_k, H.
    + apply notaccepted_k, H.
    + apply compaction_k, H.
    + apply forwarded_ss_k, H.
Qed.
End WithEntry.
