(** * With trims as the only compaction, only synchronisation panics

    The sweep of NoPanic.v for runs with trims.  The remaining panic is the subtraction of the
    trimmed index from the index at which a log is to be synchronised. *)
From Coq Require Import List Arith Bool Lia.
Import ListNotations.
From Verif Require Import Types Config MemStore Internal LeaderState SeqPaxos Ble Omni System Basics Spec Local Frame NoPanic.

Section WithEntry.
Context {E : EntryT}.
Context (Hus : use_snapshots = false).

(** A stop sign counts in the accepted index. *)
Definition CI (s : istore) : Prop := i_ss s <> None -> 1 <= i_acc s.
Definition syncN (sy : option log_sync) : Prop := match sy with Some x => sy_snap x = None | None => True end.
(** Messages without snapshots. *)
Definition pmN (m : pmsg) : Prop :=
  match m with
  | MPromise p => syncN (pr_sync p)
  | MAcceptSync _ _ _ sy => syncN (Some sy)
  | MCompaction (CmpSnapshot _) => False
  | _ => True
  end.

(** The message [m] comes from a server that lacks entries below the index [k]: its Prepare
    names a smaller decided or accepted index, the AcceptSync starts before [k]; for a Promise
    that is decided together with the earlier ones. *)
Definition behind (k : nat) (m : pmsg) : Prop :=
  match m with
  | MPrepare _ d _ a => d < k \/ a < k
  | MPromise _ => 0 < k
  | MAcceptSync _ _ _ sy => sy_idx sy < k
  | _ => False
  end.

Lemma ci_eq s s' : c_ss (i_ca s') = c_ss (i_ca s) -> i_acc s <= i_acc s' -> CI s -> CI s'.
Proof. unfold CI, i_ss. intros H1 H2 H H3. rewrite H1 in H3. specialize (H H3). lia. Qed.
Lemma ci_ca s c : CI s -> c_ss c = i_ss s -> c_acc c = i_acc s -> CI (set_ca s c).
Proof. intros H H1 H2. apply (ci_eq s); auto. unfold i_acc in *. cbn. lia. Qed.
Lemma ci_awb s es : CI s -> CI (fst (append_entries_without_batching s es)).
Proof. apply ci_eq; [reflexivity|]. cbn. unfold i_acc. cbn. lia. Qed.
Lemma ci_fifb s r : CI s -> CI (fst (flush_if_full_batch s r)).
Proof. destruct r as [es|]; intros H; [|exact H]. apply (ci_awb s es H). Qed.
Lemma cae_eq c es : c_ss (fst (cache_append_entries c es)) = c_ss c /\ c_acc (fst (cache_append_entries c es)) = c_acc c.
Proof. unfold cache_append_entries, take_entries_if_batch_is_full. destruct (_ <=? _); split; reflexivity. Qed.
Lemma ci_aewb s e : CI s -> CI (fst (append_entry_with_batching s e)).
Proof.
  intros H. unfold append_entry_with_batching. destruct (cae_eq (i_ca s) [e]) as [X Y]. unfold cache_append_entries in X, Y. unfold cache_append_entry. destruct (take_entries_if_batch_is_full _).
  cbn [fst] in X, Y. apply ci_fifb, ci_ca; auto.
Qed.
Lemma ci_aeswb s es : CI s -> CI (fst (append_entries_with_batching s es)).
Proof. intros H. unfold append_entries_with_batching. destruct (cae_eq (i_ca s) es) as [X Y]. destruct (cache_append_entries _ _). cbn [fst] in X, Y. apply ci_fifb, ci_ca; auto. Qed.
Lemma ci_ss s ss : CI s -> CI (fst (i_append_stopsign s ss)).
Proof. intros H. unfold i_append_stopsign. destruct (cache_append_stopsign _ _) as [c r]. destruct (flush_if_full_batch _ _) as [s1 m]. cbn [fst]. intros _. unfold i_acc. cbn. lia. Qed.
Lemma ci_aegai s es : CI s -> CI (fst (append_entries_and_get_accepted_idx s es)).
Proof.
  intros H. unfold append_entries_and_get_accepted_idx. destruct (cae_eq (i_ca s) es) as [X Y].
  destruct (cache_append_entries _ _) as [c [fl|]]; cbn [fst] in X, Y; assert (Hc : CI (set_ca s c)) by (apply ci_ca; auto); [|exact Hc].
  apply (ci_awb (set_ca s c) fl Hc).
Qed.
Lemma ci_flush s : CI s -> CI (fst (flush_batch s)).
Proof. intros H. unfold flush_batch. cbn [take_batched_entries]. apply ci_awb, ci_ca; auto. Qed.
Lemma ci_fbge s : CI s -> CI (fst (flush_batch_and_get_entries s)).
Proof. intros H. unfold flush_batch_and_get_entries. destruct (c_batch _); [exact H|]. cbn [take_batched_entries]. apply ci_fifb, ci_ca; auto. Qed.
Lemma ci_prom s n : CI s -> CI (i_set_promise s n).
Proof. intros H. exact H. Qed.
Lemma ci_dec s n : CI s -> CI (i_set_decided s n).
Proof. intros H. exact H. Qed.
Lemma ci_setss s ss : CI s -> match i_set_stopsign s (Some ss) with Ok (s', _) => CI s' | Panic _ => False end.
Proof. intros H. unfold i_set_stopsign. destruct (c_ss (i_ca s)) eqn:Hs; cbn [bind]; intros _; cbn; unfold CI, i_ss, i_acc in *; cbn; [apply H; congruence|lia]. Qed.
Lemma ci_trim s i : IL bdef (fun _ => True) s -> CI s -> match try_trim s i with Ok (s', _) => CI s' | Panic _ => False end.
Proof.
  intros Hil H. unfold try_trim. assert (Hd : exists d, dec_without_ss s = Some d).
  { unfold dec_without_ss, stopsign_is_decided, CI, i_ss, i_acc, i_dec in *. destruct (c_ss (i_ca s)) as [ss|]; [|eauto]. destruct (Nat.eqb_spec (c_dec (i_ca s)) (c_acc (i_ca s))) as [He|]; [|eauto].
    unfold sub_chk. assert (1 <= c_acc (i_ca s)) by (apply H; discriminate). rewrite He. destruct (Nat.leb_spec 1 (c_acc (i_ca s))); [eauto|lia]. }
  destruct Hd as [d ->].
  assert (X : forall new, match (if i_comp s <? new then m <- ilift s (ms_write (i_st s) [OpTrim new; OpSetComp new]) ;; (let s := put_st s m in Ok (set_ca s (c_set_comp (i_ca s) new), None)) else Ok (s, @None compaction_err)) with Ok (s', _) => CI s' | Panic _ => False end).
  { intros new. destruct (Nat.ltb_spec (i_comp s) new) as [Hlt|]; [|exact H]. cbn [ms_write ms_op]. unfold ms_do_trim, sub_chk.
    pose proof (h_comp _ (il_coh _ _ _ Hil)) as E1. destruct (il_st _ _ _ Hil) as (_ & _ & E2). unfold i_comp in Hlt. destruct (Nat.leb_spec (ms_trim (i_st s)) new); [|lia]. cbn [ilift bind]. exact H. }
  destruct (Nat.compare i (i_dec s)); [apply X|apply X|exact H].
Qed.

(** What is written at a synchronisation without snapshot. *)
Definition op_fine (k : nat) (o : storage_op) : Prop := match o with OpTrim _ => False | OpAppendOnPrefix i _ => k <= i | _ => True end.
Lemma write_fine ops : forall m, Forall (op_fine (ms_trim m)) ops -> exists m', ms_write m ops = Some m'.
Proof.
  induction ops as [|o ops IH]; intros m Ho; [exists m; auto|]. inversion Ho as [|x y H1 H2]; subst. cbn [ms_write].
  destruct o as [e|es|k es|b|d|b|i|i|s|s]; cbn [ms_op]; try (apply IH; auto; exact H2); try contradiction.
  unfold ms_append_on_prefix. cbn in H1. unfold sub_chk. destruct (Nat.leb_spec (ms_trim m) k); [|lia]. apply IH; auto.
Qed.
Definition sync_at (sy : option log_sync) (k : nat) : Prop := match sy with Some x => sy_idx x < k | None => False end.
Lemma ci_sync s n d sy : CI s -> syncN sy -> match sync_log s n d sy with Ok (s', _) => CI s' | Panic _ => sync_at sy (ms_trim (i_st s)) end.
Proof.
  intros H Hsy. unfold sync_log. set (s1 := set_ca s _). assert (H1 : CI s1) by exact H. cbn zeta. destruct sy as [sy|].
  - cbn in Hsy. rewrite Hsy. cbn [bind].
    match goal with |- match (let '(_, _) := ?e in _) with _ => _ end => assert (X : (forall m, CI (put_st (fst e) m)) /\ i_st (fst e) = i_st s /\ (ms_trim (i_st s) <= sy_idx sy -> Forall (op_fine (ms_trim (i_st s))) (snd e))); [|destruct e as [s3 ops]; cbn [fst snd] in X] end.
    { destruct (sy_ss sy) as [ss|]; [|destruct (i_ss _) eqn:Hi]; cbn [fst snd]; (split; [|split; [reflexivity|intros; repeat (constructor; try exact I; auto)]]); intros m.
      - intros _. unfold i_acc. cbn. lia. - intros X. cbn in X. congruence. - intros X. cbn in X. unfold i_ss in Hi. cbn in Hi. unfold i_ss in X. cbn in X. congruence. }
    destruct X as (X1 & X2 & X3). rewrite X2. destruct (Nat.le_gt_cases (ms_trim (i_st s)) (sy_idx sy)) as [Hle|Hlt].
    + destruct (write_fine ops (i_st s) (X3 Hle)) as [m ->]. cbn [ilift bind]. apply X1.
    + destruct (ms_write _ _); cbn [ilift bind ipanic]; [apply X1|exact Hlt].
  - destruct (write_fine [OpSetAround n; OpSetDecided d] (i_st s1)) as [m ->]; [repeat (constructor; try exact I)|]. cbn [ilift bind]. exact H1.
Qed.

Lemma sync_comp s n d sy : syncN sy -> match sync_log s n d sy with Ok (s', _) => i_comp s' = i_comp s | Panic _ => True end.
Proof.
  intros Hsy. unfold sync_log. cbn zeta. destruct sy as [sy|].
  - cbn in Hsy. rewrite Hsy. cbn [bind]. destruct (sy_ss sy) as [ss|]; [|destruct (i_ss _)]; destruct (ms_write _ _); cbn [ilift bind ipanic]; reflexivity || exact I.
  - destruct (ms_write _ _); cbn [ilift bind ipanic]; reflexivity || exact I.
Qed.
Lemma ss_comp s ss : i_comp (fst (i_append_stopsign s ss)) = i_comp s.
Proof. unfold i_append_stopsign, cache_append_stopsign. destruct (c_batch _); reflexivity. Qed.

Section Fix.
Context (P : nat) (ps : list nat) (M : nat) (Q : quorum).
Context (HP : 1 <= P <= M) (Hps : Forall (fun p => 1 <= p <= M) ps).
Context (q0 : list pmessage).

Record Calm (s : sp) : Prop := {
  cm_pid : s_pid s = P;
  cm_is : CI (s_is s);
  cm_out : Forall (fun m => pm_from m = P /\ pmN (pm_msg m)) (s_out s);
  cm_cp : match s_cprom s with Some p => syncN (pr_sync p) | None => True end;
  cm_ms : syncN (l_maxsync (s_ls s))
}.
Notation TT := (fun _ : T => True).
Lemma FA (l : list T) : Forall TT l.
Proof. apply Forall_forall. auto. Qed.
Lemma FS sy : syncA TT sy.
Proof. destruct sy; cbn; auto using FA. Qed.
Lemma FM m : pmA TT m.
Proof. destruct m; cbn; auto using FA. apply FS. Qed.

Record NP (s : sp) : Prop := { np_loc : Loc bdef TT q0 s; np_fr : FR P ps M Q s; np_cm : Calm s }.
Definition cok (r : res sp) : Prop := match r with Ok s => Calm s | Panic _ => False end.
Definition np (r : res sp) : Prop := match r with Ok s => NP s | Panic _ => False end.
Lemma np_intro r : okr bdef TT q0 r -> fok P ps M Q r -> cok r -> np r.
Proof. destruct r; cbn; auto. intros. constructor; auto. Qed.
Lemma np_cok r : np r -> cok r.
Proof. destruct r; cbn; auto. apply np_cm. Qed.
Lemma lift_c {B} s (o : option B) (f : B -> res sp) : o <> None -> (forall b, o = Some b -> cok (f b)) -> cok (bind (lift s o) f).
Proof. intros Ho Hf. destruct o; cbn; auto. Qed.
Lemma lift_c' {B} s (o : option B) (f : B -> res sp) : (exists b, o = Some b) -> (forall b, o = Some b -> cok (f b)) -> cok (bind (lift s o) f).
Proof. intros [b Ho] Hf. apply lift_c; auto. congruence. Qed.
Lemma for_each_c (I : sp -> Prop) f l : (forall s p, In p l -> I s -> match f s p with Ok s' => I s' | Panic _ => False end) -> (forall s, I s -> Calm s) ->
  forall s, I s -> cok (for_each s l f).
Proof.
  intros Hf HI. induction l as [|p l IH]; cbn; intros s H; auto. pose proof (Hf s p (or_introl eq_refl) H) as X. destruct (f s p); [|contradiction].
  cbn. apply IH; auto. intros. apply Hf; auto. right; auto.
Qed.

(** Calmness of updates. *)
Lemma cm_set_is s x : Calm s -> CI x -> Calm (set_is s x).
Proof. intros [] H. constructor; auto. Qed.
Lemma cm_state s r p : Calm s -> Calm (set_state s r p).
Proof. intros []. constructor; auto. Qed.
Lemma cm_bp s x : Calm s -> Calm (set_bprops s x).
Proof. intros []. constructor; auto. Qed.
Lemma cm_bss s x : Calm s -> Calm (set_bss s x).
Proof. intros []. constructor; auto. Qed.
Lemma cm_cseq s x : Calm s -> Calm (set_cseq s x).
Proof. intros []. constructor; auto. Qed.
Lemma cm_lam s x : Calm s -> Calm (set_lam s x).
Proof. intros []. constructor; auto. Qed.
Lemma cm_cprom s x : Calm s -> match x with Some p => syncN (pr_sync p) | None => True end -> Calm (set_cprom s x).
Proof. intros [] H. constructor; auto. Qed.
Lemma cm_ls s x : Calm s -> syncN (l_maxsync x) -> Calm (set_ls s x).
Proof. intros [] H. constructor; auto. Qed.
Lemma cm_push s to m : Calm s -> pmN m -> Calm (push s to m).
Proof. intros [] H. constructor; auto. cbn. rewrite Forall_app. auto. Qed.
Lemma cm_push_all m : pmN m -> forall l s, Calm s -> Calm (push_all s l m).
Proof. intros Hm. unfold push_all. induction l as [|p l IH]; cbn; intros s H; auto. apply IH, cm_push; auto. Qed.
Lemma cm_mod s idx f : Calm s -> (forall m, pmN m -> pmN (f m)) -> Calm (mod_accdec s idx f).
Proof.
  intros H Hf. unfold mod_accdec. destruct (nth_error (s_out s) idx) as [m|] eqn:Hn; auto. destruct H as [H0 H1 H2 H3 H4]. constructor; auto. cbn.
  rewrite Forall_forall in *. intros x Hx. apply In_nth_error in Hx. destruct Hx as [j Hj]. rewrite upd_nth in Hj by (apply nth_error_Some; congruence).
  destruct (j =? idx); [injection Hj as <-; cbn; destruct (H2 m); [eapply nth_error_In; eauto|auto]|apply H2; eapply nth_error_In; eauto].
Qed.
Lemma ext_ok es d m : pmN m -> pmN (extend_accdec es d m).
Proof. destruct m; cbn; auto. Qed.
Lemma red_ok d m : pmN m -> pmN (redecide_accdec d m).
Proof. destruct m; cbn; auto. Qed.
Lemma rea_ok d m : pmN m -> pmN (reaccept d m).
Proof. destruct m; cbn; auto. Qed.
Hint Resolve cm_set_is cm_state cm_bp cm_bss cm_cseq cm_lam cm_cprom cm_ls cm_push cm_push_all cm_mod ext_ok red_ok rea_ok cm_is cm_ms : cm.
Hint Resolve ci_awb ci_aewb ci_aeswb ci_aegai ci_flush ci_fbge ci_prom ci_dec : cm.

(** Vectors: nothing in range fails. *)
Lemma lv_range s : NP s -> LV M Q (s_ls s).
Proof. intros H. apply (fr_ls _ _ _ _ _ (np_fr _ H)). Qed.
Lemma incr_some l p : LV M Q l -> 1 <= p <= M -> exists l', increment_seq_num_session l p = Some l' /\ l_maxsync l' = l_maxsync l /\ l_proms l' = l_proms l.
Proof.
  intros H Hp. unfold increment_seq_num_session. pose proof (lv_seqs _ _ _ H) as Hl.
  destruct (vget_some (l_seqs l) p) as [x ->]; [lia|]. destruct (vset_some (l_seqs l) p (mkSeq (sq_sess x + 1) 0)) as [v ->]; [lia|]. cbn. eauto.
Qed.
Lemma next_some l p : LV M Q l -> 1 <= p <= M -> exists l' q, next_seq_num l p = Some (l', q) /\ l_maxsync l' = l_maxsync l /\ l_proms l' = l_proms l.
Proof.
  intros H Hp. unfold next_seq_num. pose proof (lv_seqs _ _ _ H) as Hl.
  destruct (vget_some (l_seqs l) p) as [x ->]; [lia|]. destruct (vset_some (l_seqs l) p (mkSeq (sq_sess x) (sq_ctr x + 1))) as [v ->]; [lia|]. cbn. eauto 6.
Qed.
Lemma seq_some l (b : bool) p : LV M Q l -> 1 <= p <= M ->
  exists l' q, (if b then option_map (fun q => (l, q)) (get_seq_num l p) else next_seq_num l p) = Some (l', q) /\ l_maxsync l' = l_maxsync l /\ l_proms l' = l_proms l.
Proof.
  intros H Hp. destruct b; [|apply next_some; auto]. unfold get_seq_num. pose proof (lv_seqs _ _ _ H) as Hl. destruct (vget_some (l_seqs l) p) as [x ->]; [lia|]. cbn. eauto.
Qed.
Lemma setacc_some l p a : LV M Q l -> 1 <= p <= M -> exists l', set_accepted_idx l p a = Some l' /\ l_maxsync l' = l_maxsync l /\ l_proms l' = l_proms l /\ l_n l' = l_n l.
Proof.
  intros H Hp. unfold set_accepted_idx. pose proof (lv_accs _ _ _ H) as Hl. destruct (vset_some (l_accs l) p a) as [v ->]; [lia|]. cbn. eauto 6.
Qed.
Lemma setmeta_some l p a : LV M Q l -> 1 <= p <= M -> exists l', set_latest_accept_meta l p a = Some l' /\ l_maxsync l' = l_maxsync l /\ l_proms l' = l_proms l.
Proof.
  intros H Hp. unfold set_latest_accept_meta. pose proof (lv_accmeta _ _ _ H) as Hl.
  destruct (vset_some (l_accmeta l) p (option_map (fun x => (l_n l, x)) a)) as [v ->]; [lia|]. cbn. eauto.
Qed.
Lemma updprom_some l p x : LV M Q l -> 1 <= p <= M -> exists l', option_map (l_set_proms l) (vset (l_proms l) p x) = Some l' /\ l_maxsync l' = l_maxsync l.
Proof.
  intros H Hp. pose proof (lv_proms _ _ _ H) as Hl. destruct (vset_some (l_proms l) p x) as [v ->]; [lia|]. cbn. eauto.
Qed.
Lemma setp_some l p from c : LV M Q l -> 1 <= from <= M -> syncN (l_maxsync l) -> syncN (pr_sync p) ->
  exists l' m, ls_set_promise l p from c = Some (l', m) /\ syncN (l_maxsync l') /\ exists k, nth_error (l_proms l') (from - 1) = Some (Promised k) /\ pmt_pid k = from.
Proof.
  intros H Hp Hm Hs. unfold ls_set_promise. set (k := mkMeta _ _ _ _). set (l1 := if c && _ then _ else _).
  assert (H1 : length (l_proms l1) = M /\ syncN (l_maxsync l1)). { unfold l1. pose proof (lv_proms _ _ _ H). destruct (c && _); cbn; auto. }
  destruct H1 as [H1 H2]. destruct (vset (l_proms l1) from (Promised k)) as [v|] eqn:Hv.
  - eexists _, _. split; [reflexivity|]. split; [exact H2|]. exists k. destruct (vset_inv _ _ _ _ Hv) as (i & -> & Hi & ->). cbn [l_proms l_set_proms].
    rewrite upd_nth by auto. replace (i + 1 - 1) with i by lia. rewrite Nat.eqb_refl. auto.
  - destruct (vset_some (l_proms l1) from (Promised k)) as [v Hv']; [lia|congruence].
Qed.
Lemma preparable_some l : LV M Q l -> forall qs, Forall (fun p => 1 <= p <= M) qs -> exists r, get_preparable_peers l qs = Some r.
Proof.
  intros H. induction qs as [|p qs IH]; cbn; [eauto|]. intros Hq. inversion Hq as [|x y H1 H2]; subst. destruct (IH H2) as [r ->].
  pose proof (lv_proms _ _ _ H). destruct (vget_some (l_proms l) p) as [x ->]; [lia|]. destruct x; eauto.
Qed.
Lemma promised_from_spec v : forall i ld p, In p (promised_from v i ld) -> exists j m, p = i + j + 1 /\ nth_error v j = Some (Promised m).
Proof.
  induction v as [|x v IH]; cbn [promised_from]; intros i ld p Hin; [contradiction|].
  assert (Hr : In p (promised_from v (i + 1) ld) -> exists j m, p = i + j + 1 /\ nth_error (x :: v) j = Some (Promised m)).
  { intros Hr. destruct (IH _ _ _ Hr) as (j & m & -> & Hj). exists (Datatypes.S j), m. split; [lia|auto]. }
  destruct x as [|m|]; cbn [is_promised andb] in Hin; auto. destruct (negb _); [|auto]. destruct Hin as [<-|Hin]; [|auto]. exists 0, m. split; [lia|reflexivity].
Qed.
Lemma followers_some l : LV M Q l -> b_pid (l_n l) = P ->
  exists qs, get_promised_followers l = Some qs /\ forall p, In p qs -> 1 <= p <= M /\ exists m, nth_error (l_proms l) (p - 1) = Some (Promised m).
Proof.
  intros H Hn. unfold get_promised_followers. rewrite Hn. destruct (Nat.eqb_spec P 0); [lia|]. cbn [andb]. eexists. split; [reflexivity|].
  intros p Hp. destruct (promised_from_spec _ _ _ _ Hp) as (j & m & -> & Hj). assert (j < length (l_proms l)) by (apply nth_error_Some; congruence).
  rewrite (lv_proms _ _ _ H) in *. split; [lia|]. exists m. replace (0 + j + 1 - 1) with j by lia. auto.
Qed.
Lemma accdec_some s p : NP s -> 1 <= p <= M -> get_latest_accdec s p <> None.
Proof.
  intros H Hp. apply (latest_accdec_ok bdef TT q0); [apply (np_loc _ H)|]. unfold get_latest_accept_meta. pose proof (lv_accmeta _ _ _ (lv_range _ H)).
  apply vget_some. lia.
Qed.

(** ** Handlers *)
Lemma send_ad_to_c dec es s p : NP s -> 1 <= p <= M -> np (send_acceptdecide_to dec es s p).
Proof.
  intros H Hp. apply np_intro; [apply send_ad_to_ok; [apply FA|apply H]|apply send_ad_to_f, H|]. unfold send_acceptdecide_to.
  apply lift_c; [apply accdec_some; auto|]. intros [idx|] _; [cbn; destruct H; auto with cm|].
  destruct (setmeta_some (s_ls s) p (Some (length (s_out s)))) as (l1 & E1 & A1 & B1); auto using lv_range. rewrite E1. cbn [lift bind].
  destruct (lv_setmeta _ _ _ _ _ _ (lv_range _ H) E1) as [X1 _]. destruct (next_some l1 p) as (l2 & q & E2 & A2 & B2); auto. rewrite E2. cbn [lift bind cok].
  apply cm_push; [|exact I]. destruct H as [_ _ H]. apply cm_ls; auto. rewrite A2, A1. apply H.
Qed.
Lemma send_ad_c s es : NP s -> s_role s = Leader -> np (send_acceptdecide s es).
Proof.
  intros H Hr. apply np_intro; [apply send_ad_ok; [apply FA|apply H]|apply send_ad_f, H|]. unfold send_acceptdecide.
  destruct (followers_some (s_ls s)) as (qs & -> & Hq); [apply lv_range; auto|apply (fr_ldr _ _ _ _ _ (np_fr _ H)); auto|]. cbn [lift bind].
  apply (for_each_c NP); auto; [|apply np_cm]. intros s1 p Hin H1. apply (send_ad_to_c _ _ s1 p H1). apply Hq; auto.
Qed.
Lemma meta_c s (is : istore) r : NP s -> s_role s = Leader -> IL bdef TT is -> CI is ->
  cok (match r with Some (acc, es) => ls <- lift (set_is s is) (set_accepted_idx (s_ls s) (s_pid s) acc) ;; send_acceptdecide (set_ls (set_is s is) ls) es
       | None => Ok (set_is s is) end).
Proof.
  intros H Hr Hil Hci. destruct r as [[acc es]|]; [|cbn; destruct H; auto with cm].
  destruct (setacc_some (s_ls s) (s_pid s) acc) as (l' & E1 & A1 & B1 & C1); [apply lv_range; auto|rewrite (fr_pid _ _ _ _ _ (np_fr _ H)); auto|]. rewrite E1. cbn [lift bind].
  apply np_cok, send_ad_c; auto. destruct H as [L F C]. constructor.
  - apply (loc_setacc bdef TT q0 (set_is s is) (s_pid s) acc l'); auto. apply loc_is; auto.
  - apply (fr_setacc P ps M Q (set_is s is) (s_pid s) acc l'); auto. apply fr_is; auto.
  - apply cm_ls; auto with cm. rewrite A1. auto with cm.
Qed.
Lemma il_of s : NP s -> IL bdef TT (s_is s).
Proof. intros H. apply (lc_is _ _ _ _ (np_loc _ H)). Qed.
Lemma accept_entry_c s e : NP s -> s_role s = Leader -> cok (accept_entry_leader s e).
Proof.
  intros H Hr. unfold accept_entry_leader. pose proof (il_aewb bdef TT (s_is s) e (il_of _ H) I) as X1. pose proof (ci_aewb (s_is s) e (cm_is _ (np_cm _ H))) as X2.
  destruct (append_entry_with_batching _ _) as [is r]. apply (meta_c s is r); auto.
Qed.
Lemma accept_entries_c s es : NP s -> s_role s = Leader -> cok (accept_entries_leader s es).
Proof.
  intros H Hr. unfold accept_entries_leader. pose proof (il_aeswb bdef TT (s_is s) es (il_of _ H) (FA _)) as X1. pose proof (ci_aeswb (s_is s) es (cm_is _ (np_cm _ H))) as X2.
  destruct (append_entries_with_batching _ _) as [is r]. apply (meta_c s is r); auto.
Qed.
Lemma flush_leader_c s : NP s -> s_role s = Leader -> cok (flush_batch_leader s).
Proof.
  intros H Hr. unfold flush_batch_leader. destruct (il_fbge bdef TT (s_is s) (il_of _ H)) as [X1 _]. pose proof (ci_fbge (s_is s) (cm_is _ (np_cm _ H))) as X2.
  destruct (flush_batch_and_get_entries _) as [is r]. apply (meta_c s is r); auto.
Qed.
Lemma send_ss_c ss b s to : NP s -> 1 <= to <= M -> np (send_accept_stopsign ss b s to).
Proof.
  intros H Hp. apply np_intro; [apply send_ss_ok, H|apply send_ss_f, H|]. unfold send_accept_stopsign.
  destruct (seq_some (s_ls s) b to) as (l' & q & -> & A1 & B1); auto using lv_range. cbn. apply cm_push; [|exact I]. destruct H as [_ _ H]. apply cm_ls; auto. rewrite A1. auto with cm.
Qed.
Lemma send_decide_c d b s to : NP s -> 1 <= to <= M -> np (send_decide d b s to).
Proof.
  intros H Hp. apply np_intro; [apply send_decide_ok, H|apply send_decide_f, H|]. unfold send_decide.
  destruct (seq_some (s_ls s) b to) as (l' & q & -> & A1 & B1); auto using lv_range. cbn. apply cm_push; [|exact I]. destruct H as [_ _ H]. apply cm_ls; auto. rewrite A1. auto with cm.
Qed.
(** The role is not changed by the loops over the followers. *)
Lemma send_ad_to_role dec es s p : match send_acceptdecide_to dec es s p with Ok s' => s_role s' = s_role s | Panic _ => True end.
Proof.
  unfold send_acceptdecide_to. destruct (get_latest_accdec s p) as [[idx|]|]; cbn [lift bind]; [|destruct (set_latest_accept_meta _ _ _) as [l1|]; cbn; auto; destruct (next_seq_num _ _) as [[l2 q]|]; cbn; auto|exact I].
  unfold mod_accdec. destruct (nth_error _ _); reflexivity.
Qed.
Lemma for_each_role f l : (forall s p, match f s p with Ok s' => s_role s' = s_role s | Panic _ => True end) ->
  forall s, match for_each s l f with Ok s' => s_role s' = s_role s | Panic _ => True end.
Proof.
  intros Hf. induction l as [|p l IH]; cbn; intros s; auto. pose proof (Hf s p) as X. destruct (f s p) as [s1|]; cbn; auto. specialize (IH s1). destruct (for_each s1 l f); congruence.
Qed.
Lemma send_ad_role s es : match send_acceptdecide s es with Ok s' => s_role s' = s_role s | Panic _ => True end.
Proof. unfold send_acceptdecide. destruct (get_promised_followers _); cbn; auto. apply for_each_role. intros. apply send_ad_to_role. Qed.
Lemma accept_ss_c s ss : NP s -> s_role s = Leader -> cok (accept_stopsign_leader s ss).
Proof.
  intros H Hr. unfold accept_stopsign_leader. destruct (il_ss bdef TT (s_is s) ss (il_of _ H)) as [X1 _]. pose proof (ci_ss (s_is s) ss (cm_is _ (np_cm _ H))) as X2.
  destruct (i_append_stopsign _ _) as [is r]. cbn [fst] in *. cbn zeta.
  assert (H1 : NP (set_is s is)). { destruct H. constructor; [apply loc_is; auto|apply fr_is; auto|auto with cm]. }
  match goal with |- cok (bind ?e _) => assert (X : np e /\ match e with Ok s' => s_role s' = Leader | _ => True end); [|destruct e as [s2|tr]; [|destruct X as [[] _]]] end.
  { destruct r as [[a es]|]; [|split; auto]. split; [apply send_ad_c; auto|]. pose proof (send_ad_role (set_is s is) es) as Y. destruct (send_acceptdecide _ _); auto. rewrite Y. exact Hr. }
  destruct X as [X Y]. cbn in X. cbn [bind].
  destruct (setacc_some (s_ls s2) (s_pid s2) (i_acc (s_is s2))) as (l' & E1 & A1 & B1 & C1); [apply lv_range; auto|rewrite (fr_pid _ _ _ _ _ (np_fr _ X)); auto|]. rewrite E1. cbn [lift bind].
  assert (H3 : NP (set_ls s2 l')). { destruct X as [L F C]. constructor; [eapply loc_setacc; eauto|eapply fr_setacc; eauto|]. apply cm_ls; auto. rewrite A1. auto with cm. }
  destruct (followers_some (s_ls (set_ls s2 l'))) as (qs & -> & Hq); [apply lv_range; auto|apply (fr_ldr _ _ _ _ _ (np_fr _ H3)); auto|]. cbn [lift bind].
  apply (for_each_c NP); auto; [|apply np_cm]. intros s1 p Hin H4. apply (send_ss_c _ _ s1 p H4). apply Hq; auto.
Qed.
Lemma forward_props_c s es : Calm s -> Calm (forward_proposals s es).
Proof. intros H. unfold forward_proposals. destruct (_ && _); [apply cm_push; auto; exact I|auto with cm]. Qed.
Lemma forward_ss_c s ss : Calm s -> Calm (forward_stopsign s ss).
Proof. intros H. unfold forward_stopsign. destruct (_ && _); [apply cm_push; auto; exact I|]. destruct (s_bss s); auto with cm. Qed.
Lemma handle_leader_c s n : NP s -> cok (handle_leader s n).
Proof.
  intros H. unfold handle_leader. destruct (_ || _); [apply H|]. destruct (Nat.eqb_spec (s_pid s) (b_pid n)) as [He|]; [|cbn; destruct H; auto with cm]. cbn zeta.
  cbn [s_ls set_is set_ls s_pid]. pose proof (lv_range _ H) as HL. rewrite (lv_max _ _ _ HL), (lv_q _ _ _ HL).
  match goal with |- context [ls_set_promise ?l ?p ?f ?c] => destruct (setp_some l p f c) as (l' & m & E1 & A1 & _) end.
  { apply lv_with. } { rewrite (fr_pid _ _ _ _ _ (np_fr _ H)). auto. } { exact I. } { exact I. }
  rewrite E1. cbn [lift bind cok]. apply cm_push_all; [exact I|]. apply cm_state, cm_ls; [|auto]. destruct H as [_ _ [C0 C1 C2 C3 C4]]. constructor; cbn; auto with cm; try exact I.
  apply ci_prom, ci_flush; auto.
Qed.
Lemma handle_preparereq_c s n from : NP s -> 1 <= from <= M -> cok (handle_preparereq s n from).
Proof.
  intros H Hf. unfold handle_preparereq. destruct (_ && _); [|apply H]. unfold reset_promise. destruct (updprom_some (s_ls s) from NotPromised) as (l1 & E1 & A1); auto using lv_range.
  rewrite E1. cbn [lift bind]. destruct (lv_upd_prom _ _ _ _ NotPromised _ (lv_range _ H) eq_refl E1) as [X1 _]. destruct (setmeta_some l1 from None) as (l2 & E2 & A2 & _); auto.
  rewrite E2. cbn. apply cm_push; [|exact I]. destruct H as [_ _ H]. apply cm_ls; auto. rewrite A2, A1. auto with cm.
Qed.
Lemma fwd_prop_c s es : NP s -> cok (handle_forwarded_proposal s es).
Proof.
  intros H. unfold handle_forwarded_proposal. destruct (accepted_reconfiguration s); [apply H|]. pose proof (np_cm _ H).
  destruct (s_role s) eqn:Hr, (s_phase s); cbn [cok]; try (apply forward_props_c; auto); auto with cm. apply accept_entries_c; auto.
Qed.
Lemma fwd_ss_c s ss : NP s -> cok (handle_forwarded_stopsign s ss).
Proof.
  intros H. unfold handle_forwarded_stopsign. destruct (accepted_reconfiguration s); [apply H|]. pose proof (np_cm _ H).
  destruct (s_role s) eqn:Hr, (s_phase s); cbn [cok]; try (apply forward_ss_c; auto); auto with cm. apply accept_ss_c; auto.
Qed.
(** The trimmed index, as reported. *)
Lemma np_trim s : NP s -> ms_trim (i_st (s_is s)) = i_comp (s_is s).
Proof. intros H. pose proof (il_of _ H) as X. rewrite <- (proj2 (proj2 (il_st _ _ _ X))). symmetry. apply (h_comp _ (il_coh _ _ _ X)). Qed.
Definition cokp (B : Prop) (r : res sp) : Prop := match r with Ok s => Calm s | Panic _ => B end.
Lemma cok_p B r : cok r -> cokp B r.
Proof. destruct r; cbn; tauto. Qed.
Lemma sync_some s a b : match create_log_sync s a b with Some sy => syncN (Some sy) | None => a < ms_trim (i_st (s_is s)) end.
Proof.
  unfold create_log_sync. rewrite Hus. cbn [andb]. unfold ms_get_suffix, sub_chk. destruct (Nat.leb_spec (ms_trim (i_st (s_is s))) a); [reflexivity|assumption].
Qed.
Lemma send_accsync_c s to : NP s -> 1 <= to <= M -> (exists k, nth_error (l_proms (s_ls s)) (to - 1) = Some (Promised k)) ->
  match send_accsync s to with Ok s' => NP s' /\ l_proms (s_ls s') = l_proms (s_ls s) /\ i_comp (s_is s') = i_comp (s_is s) | Panic _ => 0 < i_comp (s_is s) end.
Proof.
  intros H Hp [k Hk].
  pose proof (lv_range _ H) as HL.
  assert (Hk' : vget (l_proms (s_ls s)) to = Some (Promised k)). { unfold vget, pid_to_idx, sub_chk. destruct (Nat.leb_spec 1 to); [auto|lia]. }
  assert (Hpid : pmt_pid k = to). { rewrite (lv_meta _ _ _ HL _ _ Hk). lia. }
  assert (Main : cokp (0 < i_comp (s_is s)) (send_accsync s to) /\ match send_accsync s to with Ok s' => l_proms (s_ls s') = l_proms (s_ls s) /\ i_comp (s_is s') = i_comp (s_is s) | _ => True end).
  { unfold send_accsync, get_promise_meta, ls_get_decided_idx. rewrite Hk'. cbn [lift bind]. rewrite Hpid, Hk'. cbn [lift bind].
    match goal with |- context [create_log_sync s ?a ?b] => pose proof (sync_some s a b) as Hsy; destruct (create_log_sync s a b) as [sy|]; [|cbn; rewrite (np_trim _ H) in Hsy; split; [lia|exact I]] end. cbn [lift bind].
    destruct (incr_some (s_ls s) to) as (l1 & E1 & A1 & B1); auto. rewrite E1. cbn [lift bind]. destruct (lv_incr _ _ _ _ _ HL E1) as [X1 _].
    destruct (next_some l1 to) as (l2 & q & E2 & A2 & B2); auto. rewrite E2. cbn [lift bind cokp]. split; [|cbn; split; [congruence|reflexivity]].
    apply cm_push; [|exact Hsy]. destruct H as [_ _ H]. apply cm_ls; auto. rewrite A2, A1. auto with cm. }
  pose proof (send_accsync_ok bdef TT q0 s to (np_loc _ H)) as Y1. pose proof (send_accsync_f P ps M Q s to (np_fr _ H)) as Y2. destruct Main as [M1 M2].
  destruct (send_accsync s to); [|exact M1]. split; [constructor; auto|exact M2].
Qed.
Lemma send_accsyncs_c qs : forall s, NP s -> (forall p, In p qs -> 1 <= p <= M /\ exists k, nth_error (l_proms (s_ls s)) (p - 1) = Some (Promised k)) -> cokp (0 < i_comp (s_is s)) (for_each s qs send_accsync).
Proof.
  induction qs as [|p qs IH]; cbn [for_each]; intros s H Hq; [apply H|]. destruct (Hq p (or_introl eq_refl)) as [Hr Hk]. pose proof (send_accsync_c s p H Hr Hk) as X.
  destruct (send_accsync s p) as [s1|]; [|exact X]. destruct X as (X1 & X2 & X3). cbn [bind]. rewrite <- X3. apply IH; auto. intros q Hin. rewrite X2. apply Hq. right. auto.
Qed.
Lemma majority_c s : NP s -> s_role s = Leader -> cokp (0 < i_comp (s_is s)) (handle_majority_promises s).
Proof.
  intros H Hr. unfold handle_majority_promises, take_max_promise_sync. cbn zeta.
  set (s1 := set_ls s (l_set_max (s_ls s) (l_maxmeta (s_ls s)) None)).
  assert (H1 : NP s1). { destruct H as [L F C]. constructor; [apply loc_ls; auto; exact I|apply fr_lset; auto; split; auto; apply lv_take, F|apply cm_ls; auto; exact I]. }
  pose proof (il_sync bdef TT (s_is s1) (l_n (s_ls s1)) (get_max_decided_idx (s_ls s1)) (l_maxsync (s_ls s)) (il_of _ H1) (FS _)) as Y1.
  pose proof (ci_sync (s_is s1) (l_n (s_ls s1)) (get_max_decided_idx (s_ls s1)) (l_maxsync (s_ls s)) (cm_is _ (np_cm _ H1)) (cm_ms _ (np_cm _ H))) as Y2.
  pose proof (sync_comp (s_is s1) (l_n (s_ls s1)) (get_max_decided_idx (s_ls s1)) (l_maxsync (s_ls s)) (cm_ms _ (np_cm _ H))) as Y3.
  destruct (sync_log _ _ _ _) as [[is acc]|tr]; [|cbn; change (s_is s1) with (s_is s) in Y2; rewrite (np_trim _ H) in Y2; destruct (l_maxsync (s_ls s)); cbn in Y2; [lia|contradiction]]. cbn in Y1. cbn [bind].
  assert (H2 : NP (set_is s1 is)). { destruct H1 as [L F C]. constructor; [apply loc_is; auto|apply fr_is; auto|auto with cm]. }
  match goal with |- cokp _ (let '(_, _) := ?e in _) => assert (Hx : NP (fst e) /\ s_role (fst e) = Leader /\ i_comp (s_is (fst e)) = i_comp (s_is s)); [|destruct e as [s3 acc3]; cbn [fst] in Hx] end.
  { destruct (accepted_reconfiguration (set_is s1 is)); [split; auto|].
    match goal with |- NP (fst (let '(_, _) := ?e in _)) /\ _ => assert (Hx : NP (fst e) /\ s_role (fst e) = Leader /\ i_comp (s_is (fst e)) = i_comp (s_is s)); [|destruct e as [s3 acc3]; cbn [fst] in Hx] end.
    { destruct (s_bprops _) as [|e es]; [split; auto|]. set (s2 := set_bprops (set_is s1 is) []).
      assert (H3 : NP s2). { destruct H2 as [L F C]. constructor; [apply loc_bp; auto|apply fr_bp; auto|apply cm_bp; auto]. }
      pose proof (il_awb bdef TT (s_is s2) (e :: es) (il_of _ H3) (FA _)) as Z1. pose proof (ci_awb (s_is s2) (e :: es) (cm_is _ (np_cm _ H3))) as Z2.
      unfold append_entries_without_batching in *. cbn [fst] in *. split; [|split; auto]. destruct H3 as [L F C]. constructor; [apply loc_is; auto|apply fr_is; auto|auto with cm]. }
    destruct Hx as (Hx & Hy & Hz). destruct (s_bss s3) as [ss|]; [|split; auto]. cbn [fst]. split; [|split; [auto|rewrite <- Hz; apply ss_comp]].
    set (s4 := set_bss s3 None). assert (H4 : NP s4). { destruct Hx as [L F C]. constructor; [apply loc_bss; auto|apply fr_bss; auto|apply cm_bss; auto; exact I]. }
    destruct (il_ss bdef TT (s_is s4) ss (il_of _ H4)) as [Z1 _]. pose proof (ci_ss (s_is s4) ss (cm_is _ (np_cm _ H4))) as Z2.
    destruct H4 as [L F C]. constructor; [apply loc_is; auto|apply fr_is; auto|auto with cm]. }
  destruct Hx as (Hx & Hy & Hz).
  assert (H4 : NP (set_state s3 Leader PhAccept)). { destruct Hx as [L F C]. constructor; [apply loc_state; auto| |apply cm_state; auto]. destruct F. constructor; auto. }
  destruct (setacc_some (s_ls (set_state s3 Leader PhAccept)) (s_pid (set_state s3 Leader PhAccept)) acc3) as (l' & E1 & A1 & B1 & C1); [apply lv_range; auto|rewrite (fr_pid _ _ _ _ _ (np_fr _ H4)); auto|]. rewrite E1. cbn [lift bind].
  assert (H5 : NP (set_ls (set_state s3 Leader PhAccept) l')). { destruct H4 as [L F C]. constructor; [eapply loc_setacc; eauto|eapply fr_setacc; eauto|]. apply cm_ls; auto. rewrite A1. auto with cm. }
  destruct (followers_some (s_ls (set_ls (set_state s3 Leader PhAccept) l'))) as (qs & -> & Hq); [apply lv_range; auto|apply (fr_ldr _ _ _ _ _ (np_fr _ H5)); auto|]. cbn [lift bind].
  rewrite <- Hz. apply (send_accsyncs_c qs (set_ls (set_state s3 Leader PhAccept) l')); auto.
Qed.
Lemma promise_prepare_c s p from : NP s -> s_role s = Leader -> 1 <= from <= M -> syncN (pr_sync p) -> cokp (0 < i_comp (s_is s)) (handle_promise_prepare s p from).
Proof.
  intros H Hr Hf Hs. unfold handle_promise_prepare. destruct (beq _ _); [|apply H].
  destruct (setp_some (s_ls s) p from true) as (l' & m & E1 & A1 & _); [apply lv_range; auto|auto|apply H|auto|]. rewrite E1. cbn [lift bind].
  assert (H1 : NP (set_ls s l')).
  { destruct H as [L F C]. constructor; [|apply fr_lset; auto; eapply lv_setp; eauto; apply F|apply cm_ls; auto].
    destruct (setp_ok TT _ _ _ _ _ _ E1 (FS _) (FS _)) as (K1 & K2). apply loc_ls; auto. }
  destruct m; [apply (majority_c (set_ls s l')); auto|apply H1].
Qed.
Lemma promise_accept_c s p from : NP s -> 1 <= from <= M -> syncN (pr_sync p) -> cokp (0 < i_comp (s_is s)) (handle_promise_accept s p from).
Proof.
  intros H Hf Hs. unfold handle_promise_accept. destruct (beq _ _); [|apply H].
  destruct (setp_some (s_ls s) p from false) as (l' & m & E1 & A1 & k & Hk & _); [apply lv_range; auto|auto|apply H|auto|]. rewrite E1. cbn [lift bind].
  assert (H1 : NP (set_ls s l')).
  { destruct H as [L F C]. constructor; [|apply fr_lset; auto; eapply lv_setp; eauto; apply F|apply cm_ls; auto].
    destruct (setp_ok TT _ _ _ _ _ _ E1 (FS _) (FS _)) as (K1 & K2). apply loc_ls; auto. }
  pose proof (send_accsync_c (set_ls s l') from H1 Hf (ex_intro _ k Hk)) as X. destruct (send_accsync _ _); [apply X|exact X].
Qed.
Lemma handle_accepted_to_c d s p : NP s -> 1 <= p <= M -> np (handle_accepted_to d s p).
Proof.
  intros H Hp. apply np_intro; [apply handle_accepted_to_ok, H| |].
  - unfold handle_accepted_to. apply lift_f. intros [idx|] _; [cbn; apply fr_mod, H|apply send_decide_f, H].
  - unfold handle_accepted_to. apply lift_c; [apply accdec_some; auto|]. intros [idx|] _; [cbn; destruct H; auto with cm|apply np_cok, send_decide_c; auto].
Qed.
Lemma handle_accepted_c s n a from : NP s -> 1 <= from <= M -> cok (handle_accepted s n a from).
Proof.
  intros H Hf. unfold handle_accepted. destruct (beq n (l_n (s_ls s)) && _) eqn:Hg; [|apply H].
  assert (Hr : s_role s = Leader). { apply andb_true_iff in Hg. destruct Hg as [_ Hg]. apply andb_true_iff in Hg. destruct Hg as [Hg _]. destruct (s_role s); [discriminate|auto]. } clear Hg.
  destruct (setacc_some (s_ls s) from a) as (l' & E1 & A1 & B1 & C1); [apply lv_range; auto|auto|]. rewrite E1. cbn [lift bind].
  assert (H1 : NP (set_ls s l')). { destruct H as [L F C]. constructor; [eapply loc_setacc; eauto|eapply fr_setacc; eauto|]. apply cm_ls; auto. rewrite A1. auto with cm. }
  destruct (_ && _); [|apply H1].
  assert (H2 : NP (set_is (set_ls s l') (i_set_decided (s_is (set_ls s l')) a))).
  { pose proof (il_dec bdef TT _ a (il_of _ H1)). pose proof (ci_dec _ a (cm_is _ (np_cm _ H1))). destruct H1 as [L F C]. constructor; [apply loc_is; auto|apply fr_is; auto|auto with cm]. }
  destruct (followers_some (s_ls (set_is (set_ls s l') (i_set_decided (s_is (set_ls s l')) a)))) as (qs & -> & Hq); [apply lv_range; auto|apply (fr_ldr _ _ _ _ _ (np_fr _ H2)); auto|]. cbn [lift bind].
  apply (for_each_c NP); auto; [|apply np_cm]. intros s1 p Hin H4. apply (handle_accepted_to_c _ s1 p H4). apply Hq; auto.
Qed.
Lemma notaccepted_c s n from : NP s -> 1 <= from <= M -> cok (handle_notaccepted s n from).
Proof.
  intros H Hf. unfold handle_notaccepted. destruct (_ && _); [|apply H]. unfold lost_promise. destruct (updprom_some (s_ls s) from PromisedHigher) as (l1 & -> & A1); auto using lv_range.
  cbn. destruct H as [_ _ H]. apply cm_ls; auto. rewrite A1. auto with cm.
Qed.
Lemma prepare_all_c l : forall s, Calm s -> Calm (fold_left send_prepare l s).
Proof. induction l as [|p l IH]; cbn; intros s H; auto. apply IH, cm_push; auto. exact I. Qed.
Lemma resend_ss_to_c ss d s f : NP s -> 1 <= f <= M -> np (resend_ss_to ss d s f).
Proof.
  intros H Hf. unfold resend_ss_to. destruct (stopsign_is_decided _); [apply send_decide_c; auto|].
  pose proof (lv_accs _ _ _ (lv_range _ H)). unfold ls_get_accepted_idx. destruct (vget_some (l_accs (s_ls s)) f) as [a ->]; [lia|]. cbn [lift bind].
  destruct (a =? _); [exact H|apply send_ss_c; auto].
Qed.
Lemma for_each_np f l : (forall s p, In p l -> NP s -> np (f s p)) -> forall s, NP s -> np (for_each s l f).
Proof.
  induction l as [|p l IH]; cbn; intros Hf s H; auto. pose proof (Hf s p (or_introl eq_refl) H) as X. destruct (f s p); [|contradiction]. cbn. apply IH; auto.
Qed.
Lemma resend_leader_c s : NP s -> s_role s = Leader -> cok (resend_messages_leader s).
Proof.
  intros H Hr. unfold resend_messages_leader.
  assert (Hpeers : forall s, NP s -> Forall (fun p => 1 <= p <= M) (s_peers s)) by (intros s1 H1; rewrite (fr_peers _ _ _ _ _ (np_fr _ H1)); auto).
  destruct (s_phase s); [| |apply H|apply H].
  - destruct (preparable_some (s_ls s) (lv_range _ H) (s_peers s) (Hpeers _ H)) as [r ->]. cbn. apply prepare_all_c, H.
  - match goal with |- cok (bind ?e _) => assert (X : np e); [|destruct e as [s2|tr]; [|destruct X]] end.
    { destruct (i_ss (s_is s)) as [ss|]; [|exact H].
      destruct (followers_some (s_ls s)) as (qs & -> & Hq); [apply lv_range; auto|apply (fr_ldr _ _ _ _ _ (np_fr _ H)); auto|]. cbn [lift bind].
      apply for_each_np; auto. intros s1 p Hin H1. apply resend_ss_to_c; auto. apply Hq; auto. }
    cbn in X. cbn [bind]. destruct (preparable_some (s_ls s2) (lv_range _ X) (s_peers s2) (Hpeers _ X)) as [r ->]. cbn. apply prepare_all_c, X.
Qed.
Lemma reconnected_c s p : Calm s -> Calm (reconnected s p).
Proof. intros H. unfold reconnected. destruct (p =? s_pid s); auto. apply cm_push; [|exact I]. destruct (p =? sp_leader s); auto with cm. Qed.
Lemma handle_prepare_c s n d na a from : NP s -> cokp (d < i_comp (s_is s) \/ a < i_comp (s_is s)) (handle_prepare s n d na a from).
Proof.
  intros H. unfold handle_prepare. destruct (_ || _); [|apply H]. cbn zeta.
  match goal with |- cokp _ (bind ?e ?f) => assert (X : match e with Ok sy => syncN sy | Panic _ => d < i_comp (s_is s) \/ a < i_comp (s_is s) end); [|destruct e as [sy|tr]; [|exact X]] end.
  { destruct (bgt _ _); [|destruct (_ && _); [|exact I]].
    - match goal with |- context [create_log_sync ?s1 ?a1 ?b1] => pose proof (sync_some s1 a1 b1) as Y; destruct (create_log_sync s1 a1 b1) end; [exact Y|]. cbn. left. rewrite <- (np_trim _ H). exact Y.
    - match goal with |- context [create_log_sync ?s1 ?a1 ?b1] => pose proof (sync_some s1 a1 b1) as Y; destruct (create_log_sync s1 a1 b1) end; [exact Y|]. cbn. right. rewrite <- (np_trim _ H). exact Y. }
  destruct H as [_ _ H]. cbn [bind cokp]. apply cm_push; [|exact X]. apply cm_cprom; [|exact X]. apply cm_cseq, cm_state, cm_set_is; [auto with cm|apply ci_prom, ci_flush; auto with cm].
Qed.
Lemma check_valid_c s b : Calm s -> Calm (fst (check_valid_ballot s b)).
Proof. intros H. unfold check_valid_ballot. destruct (bcmp _ _); cbn [fst]; auto with cm; [apply reconnected_c; auto|apply cm_push; auto; exact I]. Qed.
Lemma seqnum_c s q from : Calm s -> Calm (fst (handle_sequence_num s q from)).
Proof. intros H. unfold handle_sequence_num. destruct (check_msg_status _ _); cbn [fst]; auto with cm. apply reconnected_c; auto. Qed.
Lemma reply_c s n a : NP s -> cok (reply_accepted s n a).
Proof.
  intros H. unfold reply_accepted. apply lift_c; [eapply latest_accepted_ok, H|]. intros [idx|] _; cbn; destruct H as [_ _ H]; [auto with cm|]. apply cm_push; [auto with cm|exact I].
Qed.
Lemma fwd_buffered_c s : Calm s -> Calm (forward_buffered_proposals s).
Proof. intros H. unfold forward_buffered_proposals. destruct (s_bprops s); [|apply forward_props_c]; auto with cm. Qed.
Lemma acceptsync_c s n q d sy from : NP s -> syncN (Some sy) -> cokp (sy_idx sy < i_comp (s_is s)) (handle_acceptsync s n q d sy from).
Proof.
  intros H Hs. unfold handle_acceptsync. pose proof (check_valid_c s n (np_cm _ H)) as H1.
  assert (Hst : s_is (fst (check_valid_ballot s n)) = s_is s). { unfold check_valid_ballot, reconnected. destruct (bcmp _ _); [|destruct (_ =? s_pid s); [|destruct (_ =? sp_leader s)]|]; reflexivity. }
  destruct (check_valid_ballot s n) as [s1 v]. cbn [fst] in H1, Hst. destruct (_ && _); [|exact H1]. cbn zeta.
  set (s2 := set_cprom s1 None). assert (H2 : Calm s2) by (apply cm_cprom; auto; exact I).
  pose proof (ci_sync (s_is s2) n d (Some sy) (cm_is _ H2) Hs) as X. destruct (sync_log _ _ _ _) as [[is acc]|tr].
  - cbn [bind cokp]. apply cm_push; [|exact I]. apply cm_lam, cm_cseq, cm_state. destruct (i_ss _); [|apply fwd_buffered_c]; auto with cm.
  - cbn. cbn in X. rewrite Hst, (np_trim _ H) in X. exact X.
Qed.
Lemma update_decided_c s d : Calm s -> Calm (fst (update_decided s d)).
Proof.
  intros H. unfold update_decided. destruct (d <=? _); auto. destruct (_ <? d); [|cbn; auto with cm].
  pose proof (ci_flush (s_is s) (cm_is _ H)) as X. destruct (flush_batch _); cbn [fst] in *; auto with cm.
Qed.
Lemma check_valid_np s b : NP s -> NP (fst (check_valid_ballot s b)).
Proof. intros []. constructor; [apply check_valid_ok; auto|apply check_valid_f; auto|apply check_valid_c; auto]. Qed.
Lemma seqnum_np s q from : NP s -> NP (fst (handle_sequence_num s q from)).
Proof. intros []. constructor; [apply seqnum_ok; auto|apply seqnum_f; auto|apply seqnum_c; auto]. Qed.
Lemma update_decided_np s d : NP s -> NP (fst (update_decided s d)).
Proof. intros []. constructor; [apply update_decided_ok; auto|apply update_decided_f; auto|apply update_decided_c; auto]. Qed.
Lemma set_is_np s is : NP s -> IL bdef TT is -> CI is -> NP (set_is s is).
Proof. intros [] H1 H2. constructor; [apply loc_is; auto|apply fr_is; auto|auto with cm]. Qed.
Lemma acceptdecide_c s n q d es : NP s -> cok (handle_acceptdecide s n q d es).
Proof.
  intros H. unfold handle_acceptdecide. pose proof (check_valid_np s n H) as H1. destruct (check_valid_ballot s n) as [s1 v]. cbn [fst] in H1. destruct (_ && _); [|apply H1].
  pose proof (seqnum_np s1 q (b_pid n) H1) as H2. destruct (handle_sequence_num s1 q (b_pid n)) as [s2 st]. cbn [fst] in H2. destruct st; [|apply H2|apply H2].
  pose proof (il_aegai bdef TT (s_is s2) es (il_of _ H2) (FA _)) as X1. pose proof (ci_aegai (s_is s2) es (cm_is _ (np_cm _ H2))) as X2.
  destruct (append_entries_and_get_accepted_idx _ _) as [is r1]. cbn [fst] in *.
  pose proof (update_decided_np _ d (set_is_np s2 is H2 X1 X2)) as H4. destruct (update_decided _ _) as [s4 r2]. cbn [fst] in H4.
  destruct (match r2 with Some _ => r2 | None => r1 end); [apply reply_c; auto|apply H4].
Qed.
Lemma accept_ss_f_c s n q ss : NP s -> cok (handle_accept_stopsign s n q ss).
Proof.
  intros H. unfold handle_accept_stopsign. pose proof (check_valid_np s n H) as H1. destruct (check_valid_ballot s n) as [s1 v]. cbn [fst] in H1. destruct (_ && _); [|apply H1].
  pose proof (seqnum_np s1 q (b_pid n) H1) as H2. destruct (handle_sequence_num s1 q (b_pid n)) as [s2 st]. cbn [fst] in H2. destruct st; [|apply H2|apply H2]. cbn zeta.
  pose proof (il_flush bdef TT (s_is s2) (il_of _ H2)) as X1. pose proof (ci_flush (s_is s2) (cm_is _ (np_cm _ H2))) as X2. cbn [s_is set_is].
  pose proof (il_setss bdef TT _ (Some ss) X1) as Y1. pose proof (ci_setss _ ss X2) as Y2. destruct (i_set_stopsign _ _) as [[is acc]|tr]; [|exact Y2]. cbn in Y1. cbn [bind].
  apply reply_c. apply set_is_np; auto. apply set_is_np; auto.
Qed.
Lemma decide_c s n q d : NP s -> cok (handle_decide s n q d).
Proof.
  intros H. unfold handle_decide. pose proof (check_valid_np s n H) as H1. destruct (check_valid_ballot s n) as [s1 v]. cbn [fst] in H1. destruct (_ && _); [|apply H1].
  pose proof (seqnum_np s1 q (b_pid n) H1) as H2. destruct (handle_sequence_num s1 q (b_pid n)) as [s2 st]. cbn [fst] in H2. destruct st; [|apply H2|apply H2].
  pose proof (update_decided_np _ d H2) as H4. destruct (update_decided _ _) as [s4 r2]. cbn [fst] in H4. destruct r2; [apply reply_c; auto|apply H4].
Qed.
Lemma resend_follower_c s : Calm s -> Calm (resend_messages_follower s).
Proof.
  intros H. unfold resend_messages_follower, send_preparereq_to_all_peers. destruct (s_phase s); auto; [|apply cm_push_all; [exact I|auto]].
  pose proof (cm_cp _ H) as Hc. destruct (s_cprom s) as [p|]; [apply cm_push; auto|]. apply cm_push_all; [exact I|auto with cm].
Qed.
Lemma flush_follower_c s : NP s -> cok (flush_batch_follower s).
Proof.
  intros H. unfold flush_batch_follower. pose proof (il_flush bdef TT (s_is s) (il_of _ H)) as X1. pose proof (ci_flush (s_is s) (cm_is _ (np_cm _ H))) as X2.
  destruct (flush_batch _) as [is a]. cbn [fst] in *. pose proof (set_is_np s is H X1 X2). destruct (_ <? a); [apply reply_c|]; auto. apply H0.
Qed.
Lemma trim_handled_c s c : NP s -> pmN (MCompaction c) -> cok (handle_compaction s c).
Proof.
  intros H Hc. destruct c as [i|i]; [|contradiction]. unfold handle_compaction. pose proof (ci_trim (s_is s) i (il_of _ H) (cm_is _ (np_cm _ H))) as X.
  destruct (try_trim _ _) as [[is r]|]; [|contradiction]. cbn. destruct H as [_ _ H]. auto with cm.
Qed.
Lemma sp_handle_c s m : NP s -> 1 <= pm_from m <= M -> pmN (pm_msg m) -> cokp (behind (i_comp (s_is s)) (pm_msg m)) (sp_handle s m).
Proof.
  intros H Hf Hm. unfold sp_handle. destruct (pm_msg m) as [n|n d na a|p|n q d sy|n q d es|n a|n|n q d|es|c|n q ss|ss]; cbn [behind].
  - apply handle_preparereq_c; auto.
  - apply handle_prepare_c, H.
  - cbn in Hm. destruct (s_role s) eqn:Hr, (s_phase s); try apply H; [apply promise_prepare_c|apply promise_accept_c]; auto.
  - apply acceptsync_c; auto.
  - apply acceptdecide_c; auto.
  - apply handle_accepted_c; auto.
  - apply notaccepted_c; auto.
  - apply decide_c; auto.
  - apply fwd_prop_c; auto.
  - apply trim_handled_c; auto.
  - apply accept_ss_f_c; auto.
  - apply fwd_ss_c; auto.
Qed.
Definition cok2 {B} (r : res (sp * B)) : Prop := match r with Ok (s, _) => Calm s | Panic _ => False end.
Lemma append_c s e : NP s -> cok2 (sp_append s e).
Proof.
  intros H. unfold sp_append. destruct (accepted_reconfiguration s); [apply H|].
  assert (X : cok (propose_entry s e)).
  { unfold propose_entry. pose proof (np_cm _ H). destruct (s_role s) eqn:Hr, (s_phase s); cbn [cok]; try (apply forward_props_c; auto); auto with cm. apply accept_entry_c; auto. }
  destruct (propose_entry s e); exact X.
Qed.
Lemma reconfigure_c s c m : NP s -> cok2 (sp_reconfigure s c m).
Proof.
  intros H. unfold sp_reconfigure. destruct (accepted_reconfiguration s); [apply H|]. cbn zeta.
  match goal with |- cok2 (bind ?e _) => assert (X : cok e); [|destruct e; exact X] end. pose proof (np_cm _ H).
  destruct (s_role s) eqn:Hr, (s_phase s); cbn [cok]; try (apply forward_ss_c; auto); auto with cm. apply accept_ss_c; auto.
Qed.

Lemma trim_c s i : NP s -> cok2 (sp_trim s i).
Proof.
  intros H. unfold sp_trim. destruct (s_role s); [apply H|]. pose proof (lv_accs _ _ _ (lv_range _ H)) as HL. unfold get_min_all_accepted_idx.
  destruct (l_accs (s_ls s)) as [|a l]; [cbn in HL; lia|]. cbn [lift bind]. set (mn := fold_left Nat.min l a).
  assert (X : forall k, cok2 ('(is, r) <- try_trim (s_is s) k ;; match r with None => Ok (push_all (set_is s is) (s_peers (set_is s is)) (MCompaction (CmpTrim k)), None) | Some e => Ok (set_is s is, Some e) end)).
  { intros k. pose proof (ci_trim (s_is s) k (il_of _ H) (cm_is _ (np_cm _ H))) as X. destruct (try_trim _ _) as [[is r]|]; [|contradiction]. cbn [bind]. destruct H as [_ _ H].
    destruct r; cbn [cok2]; [auto with cm|]. apply cm_push_all; [exact I|auto with cm]. }
  destruct i as [i|]; [destruct (i <=? mn); [apply X|apply H]|apply X].
Qed.

(** ** Calls *)
Definition coko1 (r : res omni) : Prop := match r with Ok o => NP (o_sp o) | Panic _ => False end.
Definition coko {B} (X : Prop) (r : res (omni * B)) : Prop := match r with Ok (o, _) => Calm (o_sp o) | Panic _ => X end.
Lemma handle_leader_np s n : NP s -> np (handle_leader s n).
Proof. intros H. apply np_intro; [apply handle_leader_ok, H|apply handle_leader_f, H|apply handle_leader_c; auto]. Qed.
Lemma tick_c o : NP (o_sp o) -> coko1 (tick o).
Proof.
  intros H. unfold tick. destruct (clock_tick (o_eclk o)) as [ec f1].
  match goal with |- coko1 (bind ?e _) => assert (X : coko1 e); [|destruct e as [o1|tr]; [|exact X]] end.
  { destruct f1; [|exact H]. unfold election_timeout. destruct (hb_timeout _ _ _) as [b [n|]]; [|exact H]. pose proof (handle_leader_np (o_sp o) n H) as X.
    cbn [o_sp]. destruct (handle_leader _ _); exact X. }
  cbn [bind]. cbn in X. destruct (clock_tick (o_rclk o1)) as [rc f2].
  match goal with |- coko1 (bind ?e _) => assert (X2 : coko1 e); [|destruct e as [o2|tr]; [|exact X2]] end.
  { destruct f2; [|exact X]. cbn [o_sp].
    assert (Y : np (resend_message_timeout (o_sp o1))).
    { unfold resend_message_timeout. destruct (s_role (o_sp o1)) eqn:Hr; apply np_intro.
      - apply resend_follower_ok, X. - apply resend_follower_f, X. - apply resend_follower_c, X.
      - apply resend_leader_ok, X. - apply resend_leader_f, X. - apply resend_leader_c; auto. }
    destruct (resend_message_timeout (o_sp o1)); exact Y. }
  cbn [bind]. cbn in X2. destruct (clock_tick (o_fclk o2)) as [fc f3]. destruct f3; [|exact X2]. cbn [o_sp].
  assert (Y : np (flush_batch_timeout (o_sp o2))).
  { unfold flush_batch_timeout. destruct (s_role (o_sp o2)) eqn:Hr, (s_phase (o_sp o2)); try exact X2; apply np_intro.
    - apply flush_follower_ok, X2. - apply flush_follower_f, X2. - apply flush_follower_c; auto.
    - apply flush_leader_ok, X2. - apply flush_leader_f, X2. - apply flush_leader_c; auto. }
  destruct (flush_batch_timeout (o_sp o2)); exact Y.
Qed.
(** Calls without snapshots. *)
Definition calm_call (c : call) : Prop :=
  match c with
  | CSnapshot _ _ => False
  | CHandle (MsgSP m) => 1 <= pm_from m <= M /\ pmN (pm_msg m)
  | _ => True
  end.
Definition call_behind (k : nat) (c : call) : Prop := match c with CHandle (MsgSP m) => behind k (pm_msg m) | _ => False end.
Lemma exec_call_c o c : NP (o_sp o) -> calm_call c -> coko (call_behind (i_comp (s_is (o_sp o))) c) (exec_call o c).
Proof.
  intros H Hc. destruct c as [e|cc0 meta| |i|i l|q| |q|m]; cbn [exec_call call_behind]; try contradiction.
  - pose proof (append_c _ e H) as X. destruct (sp_append _ _) as [[s r]|]; exact X.
  - unfold reconfigure. destruct (cluster_validate cc0); [|apply H]. pose proof (reconfigure_c (o_sp o) cc0 meta H) as X. destruct (sp_reconfigure _ _ _) as [[s r]|]; exact X.
  - pose proof (tick_c o H) as X. destruct (tick o); [apply X|exact X].
  - pose proof (trim_c (o_sp o) i H) as X. destruct (sp_trim _ _) as [[s r]|]; exact X.
  - cbn. apply reconnected_c, H.
  - unfold try_become_leader. pose proof (handle_leader_c (o_sp o) (set_n (e_ballot (o_ble o)) (b_n (sp_promise (o_sp o)) + 1)) H) as X. destruct (handle_leader _ _); exact X.
  - apply H.
  - unfold handle_incoming. destruct m as [m|m]; [|apply H]. cbn in Hc. pose proof (sp_handle_c (o_sp o) m H (proj1 Hc) (proj2 Hc)) as X. destruct (sp_handle _ _); exact X.
Qed.
Lemma calm_rest o : Calm (o_sp o) -> Calm (rest o).
Proof. destruct o as [s b c1 c2 c3]. intros [C0 C1 C2 C3 C4]. constructor; auto. Qed.
End Fix.

(** ** The cluster *)

Notation TT := (fun _ : T => True).
Section Cluster.
Context (cc : cluster_config).
(** A server of the cluster, between calls. *)
Record Quiet (p : nat) (o : omni) : Prop := {
  qt_loc : Loc bdef TT (s_out (o_sp o)) (rest o);
  qt_fr : exists k q, FR p (peers_of cc p) k q (rest o) /\ Forall (fun x => 1 <= x <= k) (cc_nodes cc);
  qt_cm : Calm p (rest o)
}.
(** A call that brings no snapshot and no stranger. *)
Definition quiet_call (c : call) : Prop :=
  match c with
  | CSnapshot _ _ => False
  | CHandle (MsgSP m) => In (pm_from m) (cc_nodes cc) /\ pmN (pm_msg m)
  | _ => True
  end.
Lemma quiet_exec p o c : In p (cc_nodes cc) -> Quiet p o -> quiet_call c ->
  match exec o c with Ok (o', _) => Quiet p o' | Panic _ => call_behind (get_compacted_idx o) c end /\ Forall (fun st => ms_comp st = ms_trim st) (crash_points o c).
Proof.
  intros Hp [H1 (k & q & H2 & Hk) H3] Hc. rewrite Forall_forall in Hk.
  assert (Hcall : callA TT c). { destruct c as [e| | | | | | | |[m|m]]; cbn; auto. apply FM. }
  assert (Hpe : Forall (fun x => 1 <= x <= k) (peers_of cc p)). { apply Forall_forall. intros x Hx. apply filter_In in Hx. apply Hk, Hx. }
  assert (Hck : calm_call k c). { destruct c as [e| | | | | | | |[m|m]]; cbn in *; auto. destruct Hc. split; auto. }
  pose proof (exec_ok bdef TT _ o c H1 Hcall) as X1. pose proof (crash_ok bdef TT (s_out (o_sp o)) o c) as X4. pose proof (exec_f p (peers_of cc p) k q (start_call o) c H2) as X2. change (exec (start_call o) c) with (exec o c) in X2.
  pose proof (exec_call_c p (peers_of cc p) k q (Hk p Hp) Hpe (s_out (o_sp o)) (start_call o) c (Build_NP _ _ _ _ _ _ H1 H2 H3) Hck) as X3. change (exec_call (start_call o) c) with (exec o c) in X3.
  split; [|apply Forall_forall; intros st Hst; apply (X4 st H1 Hcall Hst)].
  destruct (exec o c) as [[o' r]|tr]; [|exact X3]. cbn in X1, X2, X3. constructor.
  - apply (loc_mono bdef bdef TT TT (s_out (o_sp o))); auto using bdef_least. apply loc_rest; auto.
  - exists k, q. split; [destruct X2; constructor; auto|apply Forall_forall; auto].
  - apply calm_rest; auto.
Qed.
Lemma quiet_take p o buf o' l : Quiet p o -> take_outgoing_messages o buf = (o', l) -> Quiet p o'.
Proof.
  intros [H1 (k & q & H2 & Hk) H3] Ht. pose proof (take_ok _ _ _ _ _ _ _ H1 Ht) as X1. constructor.
  - assert (Ho : s_out (o_sp o') = []) by (unfold take_outgoing_messages, sp_take_outgoing in Ht; destruct buf; injection Ht as <- _; reflexivity). rewrite Ho. exact X1.
  - exists k, q. split; auto. eapply (take_f p (peers_of cc p) k q o buf o' l) in Ht; [|destruct H2; constructor; eauto]. destruct Ht. constructor; auto.
  - unfold take_outgoing_messages, sp_take_outgoing in Ht. destruct H3 as [C0 C1 C2 C3 C4]. destruct buf; injection Ht as <- _; (constructor; cbn; auto).
Qed.
Lemma quiet_build sc st o : In (sc_pid sc) (cc_nodes cc) -> ~ In 0 (cc_nodes cc) -> ms_comp st = ms_trim st -> build cc sc st = BOk o -> Quiet (sc_pid sc) o.
Proof.
  intros Hin H0 Hct Hb. pose proof (build_loc TT cc sc st o Hb (FA _) Hct) as H1. pose proof (build_f _ _ _ _ Hb) as (F1 & F2 & F3).
  assert (Hst : forall q, Loc bdef TT q (o_sp o) -> Loc bdef TT q (rest o)) by (intros q; apply loc_rest).
  unfold build in Hb. destruct (config_validate cc sc) eqn:Hv; [|discriminate]. unfold sp_with in Hb. destruct (peers_of cc (sc_pid sc)) as [|p0 pr] eqn:Hpe; [discriminate|].
  assert (Hx : s_pid (o_sp o) = sc_pid sc /\ s_peers (o_sp o) = peers_of cc (sc_pid sc) /\ s_cprom (o_sp o) = None /\ l_maxsync (s_ls (o_sp o)) = None /\
    CI (s_is (o_sp o)) /\ Forall (fun m => pm_from m = sc_pid sc /\ pmN (pm_msg m)) (s_out (o_sp o))).
  { assert (Hci : forall b k, CI (i_set_promise (istore_with st k) b)). { intros b k. unfold CI, i_ss, i_acc. cbn. destruct (ms_ss st); [lia|congruence]. }
    destruct (ms_prom st) as [b|]; injection Hb as <-; cbn [o_sp s_pid s_peers s_cprom s_ls s_is s_out]; rewrite Hpe; repeat (split; [reflexivity || apply Hci|]); [|constructor].
    constructor; [cbn; auto|]. apply Forall_forall. intros m Hm. apply in_map_iff in Hm. destruct Hm as (x & <- & _). cbn. auto. }
  destruct Hx as (E1 & E2 & E4 & E5 & E7 & E8). constructor.
  - apply Hst. apply loc_rest in H1. apply (loc_mono _ bdef TT TT) with (q0 := s_out (o_sp o)) in H1; auto using bdef_least. destruct H1 as [I1 I2 I3 I4 I5 I6 I7 I8]. constructor; auto.
    destruct I1 as [K1 K2 K3 K4 K5]. constructor; auto; [destruct K1; constructor; auto|].
    clear - Hb K2 Hpe. destruct (ms_prom st); injection Hb as <-; cbn in *; (constructor; [exact K2|constructor]).
  - exists (maxpid o), (l_quorum (s_ls (o_sp o))). split.
    + rewrite E1, E2 in F1. rewrite Hpe in F1. rewrite <- Hpe in F1 at 1. destruct F1. constructor; auto.
    + apply Forall_forall. intros x Hx. assert (x <> 0) by (intros ->; auto). rewrite E1 in *. destruct (Nat.eq_dec x (sc_pid sc)) as [->|Hne]; [lia|].
      rewrite E2, Forall_forall in F3. assert (In x (peers_of cc (sc_pid sc))). { apply filter_In. split; auto. apply negb_true_iff, Nat.eqb_neq. auto. }
      destruct (F3 x); auto. lia.
  - constructor; cbn; auto; [rewrite E4; exact I|rewrite E5; exact I].
Qed.

(** The state of the cluster. *)
Record QS (s : sys) : Prop := {
  qs_node : forall p o, nodes s p = Some o -> In p (cc_nodes cc) /\ Quiet p o;
  qs_net : forall p q m, In (MsgSP m) (net s p q) -> In (pm_from m) (cc_nodes cc) /\ pmN (pm_msg m)
}.
(** The calls of the application that are excluded. *)
Definition quiet_action (a : action) : Prop :=
  match action_event a with
  | Some (_, ECall (CSnapshot _ _)) => False
  | _ => True
  end.
Lemma event_quiet s p ev c : QS s -> event_call s p ev = Some c -> (forall a, action_event a = Some (p, ev) -> quiet_action a) -> quiet_call c.
Proof.
  intros H He Hq. specialize (Hq (ADo p ev) eq_refl). destruct ev as [c0|src k]; cbn in He.
  - destruct c0; try discriminate; injection He as <-; exact Hq || exact I.
  - destruct (nth_error (net s src p) k) as [m|] eqn:Hn; [|discriminate]. injection He as <-. destruct m as [m|m]; [|exact I]. apply nth_error_In in Hn. apply (qs_net _ H _ _ _ Hn).
Qed.
Lemma quiet_step s a s' : ~ In 0 (cc_nodes cc) -> QS s -> quiet_action a -> exec_action cc s a = Some s' -> QS s'.
Proof.
  intros H0 H Ha He. destruct a as [p ev|p|src dst k|p ev j sc]; cbn [exec_action] in He.
  - destruct (nodes s p) as [o|] eqn:Hn; [|discriminate]. destruct (event_call s p ev) as [c|] eqn:Hc; [|discriminate]. destruct (qs_node _ H _ _ Hn) as [Hp Ho].
    destruct (quiet_exec p o c Hp Ho) as [Hq _]; [eapply event_quiet; eauto; intros [] Hev; cbn in Hev; try discriminate; injection Hev as -> ->; exact Ha|].
    destruct (exec o c) as [[o' r]|]; [|discriminate]. injection He as <-. constructor; cbn.
    + intros q o1. unfold upd1. destruct (Nat.eqb_spec q p) as [->|]; [intros X; injection X as <-; auto|apply (qs_node _ H)].
    + intros a b m Hm. apply event_net_in in Hm. apply (qs_net _ H _ _ _ Hm).
  - destruct (nodes s p) as [o|] eqn:Hn; [|discriminate]. destruct (qs_node _ H _ _ Hn) as [Hp Ho]. destruct (take_outgoing_messages o []) as [o' l] eqn:Ht. injection He as <-. constructor; cbn.
    + intros q o1. unfold upd1. destruct (Nat.eqb_spec q p) as [->|]; [intros X; injection X as <-; split; auto; exact (quiet_take p o [] o' l Ho Ht)|apply (qs_node _ H)].
    + intros a b m Hm. apply send_all_in in Hm. destruct Hm as [Hm|Hm]; [apply (qs_net _ H _ _ _ Hm)|]. destruct (take_msgs _ _ _ _ _ Ht Hm) as [[]|Hm1].
      pose proof (cm_out _ _ (qt_cm _ _ Ho)) as Hout. rewrite Forall_forall in Hout. destruct (Hout m Hm1) as [-> X]. auto.
  - injection He as <-. constructor; cbn; [apply (qs_node _ H)|]. intros a b m Hm. apply (qs_net _ H a b). unfold upd2 in Hm. destruct ((a =? src) && (b =? dst)) eqn:Hab; auto.
    apply andb_true_iff in Hab. destruct Hab as [Hx Hy]. apply Nat.eqb_eq in Hx, Hy. subst. eapply remove_in; eauto.
  - destruct (nodes s p) as [o|] eqn:Hn; [|discriminate]. destruct (event_call s p ev) as [c|] eqn:Hc; [|discriminate]. destruct (qs_node _ H _ _ Hn) as [Hp Ho].
    destruct (quiet_exec p o c Hp Ho) as [_ Hcp]; [eapply event_quiet; eauto; intros [] Hev; cbn in Hev; try discriminate; injection Hev as -> ->; exact Ha|].
    destruct (nth_error (crash_points o c) j) as [st|] eqn:Hst; [|discriminate]. destruct (Nat.eqb_spec (sc_pid sc) p) as [Hsc|]; [|discriminate].
    destruct (build cc sc st) as [| |o'] eqn:Hb; try discriminate. injection He as <-. rewrite Forall_forall in Hcp. pose proof (Hcp st (nth_error_In _ _ Hst)) as U2.
    assert (Hq : Quiet p o') by (subst p; eapply quiet_build; eauto). constructor; cbn.
    + intros q o2. unfold upd1. destruct (Nat.eqb_spec q p) as [->|]; [intros X; injection X as <-; auto|apply (qs_node _ H)].
    + intros a b m Hm. apply event_net_in in Hm. apply (qs_net _ H _ _ _ Hm).
Qed.
Lemma quiet_init scs : good_config cc scs -> QS (init_sys cc scs).
Proof.
  intros (Hv & H0 & Hg). constructor; cbn; [|contradiction]. intros p o. destruct (existsb (Nat.eqb p) (cc_nodes cc)) eqn:Hin; cbn [andb]; [|discriminate].
  apply existsb_exists in Hin. destruct Hin as (x & Hin & Hx). apply Nat.eqb_eq in Hx. subst x. destruct (Nat.eqb_spec (sc_pid (scs p)) p) as [Hp|]; [|discriminate].
  destruct (build cc (scs p) ms_default) as [| |o1] eqn:Hb; try discriminate. intros X. injection X as <-. split; auto. assert (Hq : Quiet (sc_pid (scs p)) o1); [|rewrite Hp in Hq; exact Hq].
  eapply (quiet_build (scs p) ms_default); auto. rewrite Hp; auto.
Qed.
Lemma quiet_run l : ~ In 0 (cc_nodes cc) -> forall s s', QS s -> Forall quiet_action l -> run cc s l = Some s' -> QS s'.
Proof.
  intros H0. induction l as [|a l IH]; cbn; intros s s' H Hl Hr; [injection Hr as <-; auto|]. inversion Hl as [|x y H1 H2]; subst.
  destruct (exec_action cc s a) as [s1|] eqn:He; [|discriminate]. apply (IH s1); auto. eapply quiet_step; eauto.
Qed.
Lemma quiet_moment scs l s : good_config cc scs -> Forall quiet_action l -> moment cc scs l s -> QS s.
Proof.
  intros Hg Hl (l1 & l2 & -> & Hr). apply Forall_app in Hl. eapply quiet_run; [apply Hg|apply quiet_init; eauto|apply (proj1 Hl)|exact Hr].
Qed.
End Cluster.
End WithEntry.
