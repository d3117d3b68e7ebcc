(** * C13: a decided index was accepted by a write quorum in one ballot *)
From Coq Require Import List Arith Bool Lia.
Import ListNotations.
From Verif Require Import Types Config MemStore Internal LeaderState SeqPaxos Ble Omni System Basics PropBasic Scen Spec Refute Ghost Inv SysInv LeadRecv Agree PropAgreement Local Frame PropLocal Prims PropNoPanic PropDecided.

Section WithEntry.
Context {E : EntryT}.

Lemma nth_error_last {B} (l : list B) x : nth_error (l ++ [x]) (length l) = Some x.
Proof. rewrite nth_error_app2, Nat.sub_diag by lia. reflexivity. Qed.
Lemma same_refl a : bal_same a a.
Proof. unfold bal_same. auto. Qed.
Lemma same_sym a b : bal_same a b -> bal_same b a.
Proof. unfold bal_same. intuition congruence. Qed.
Lemma same_trans a b c : bal_same a b -> bal_same b c -> bal_same a c.
Proof. unfold bal_same. intuition congruence. Qed.

Section Acc.
Context (cc : cluster_config).
(** [HA q n k]: the server [q] has accepted the round [n] up to [k] at some moment. *)
Context (HA : node_id -> ballot -> nat -> Prop) (HA_le : forall q n k k', HA q n k -> k' <= k -> HA q n k').
(** [HD k]: [k] is 0 or accepted by a write quorum in one round. *)
Definition HD (k : nat) : Prop :=
  k = 0 \/ exists n W r, NoDup W /\ In r (cc_nodes cc) /\ is_accept_quorum (quorum_of cc r) (length W) = true /\ forall q, In q W -> HA q n k.
Lemma HD_le k k' : HD k -> k' <= k -> HD k'.
Proof.
  intros [->|(n & W & r & H1 & H2 & H3 & H4)] Hk; [left; lia|]. right. exists n, W, r. repeat (split; auto). intros q Hq. eapply HA_le; eauto.
Qed.
Lemma HD0 : HD 0.
Proof. left. reflexivity. Qed.

(** Messages: the decided indexes they carry, and the accepted index of an Accepted. *)
Definition okd (m : pmsg) : Prop :=
  match m with
  | MPromise p => HD (pr_dec p)
  | MAcceptSync _ _ d _ | MAcceptDecide _ _ d _ | MDecide _ _ d => HD d
  | _ => True
  end.
Definition oka (m : pmessage) : Prop := match pm_msg m with MAccepted n k => HA (pm_from m) n k | _ => True end.

Section One.
Context (p : node_id).
(** In the middle of a call ([b]) also the current round and accepted index count. *)
Definition HB (b : bool) (is : istore) (q : node_id) (n : ballot) (k : nat) : Prop :=
  HA q n k \/ (b = true /\ q = p /\ bal_same (i_around is) n /\ k <= i_acc is).
Definition oktr (tr : list mstore) : Prop := Forall (fun st => HD (ms_dec st)) tr.
Record IW (s : istore) : Prop := { iw_ca : HD (i_dec s); iw_st : HD (ms_dec (i_st s)); iw_tr : oktr (i_tr s) }.
Definition okp (x : prom_state) : Prop := match x with Promised m => HD (pmt_dec m) | _ => True end.
Definition om (b : bool) (is : istore) (m : pmessage) : Prop :=
  okd (pm_msg m) /\ match pm_msg m with MAccepted n k => pm_from m = p /\ HB b is p n k | _ => True end.
Record W (b : bool) (s : sp) : Prop := {
  w_pid : s_pid s = p;
  w_in : In p (cc_nodes cc);
  w_q : l_quorum (s_ls s) = quorum_of cc p;
  w_is : IW (s_is s);
  w_out : Forall (om b (s_is s)) (s_out s);
  w_accs : forall q k, vget (l_accs (s_ls s)) q = Some k -> k = 0 \/ HB b (s_is s) q (l_n (s_ls s)) k;
  w_proms : Forall okp (l_proms (s_ls s));
  w_cp : match s_cprom s with Some x => HD (pr_dec x) | None => True end;
  w_lead : s_role s = Leader -> i_prom (s_is s) = l_n (s_ls s) /\ (s_phase s = PhAccept -> i_around (s_is s) = l_n (s_ls s));
  w_foll : s_role s = Follower -> s_phase s = PhAccept -> bal_same (i_around (s_is s)) (i_prom (s_is s));
  w_lam : forall x i, s_lam s = Some (x, i) -> exists m k, nth_error (s_out s) i = Some m /\ pm_msg m = MAccepted x k
}.
Lemma hb_up b is q n k : HB b is q n k -> HB true is q n k.
Proof. intros [H|(_ & H)]; [left|right]; auto. Qed.
Lemma om_up b is m : om b is m -> om true is m.
Proof. intros [H1 H2]. split; auto. destruct (pm_msg m); auto. destruct H2 as [H2 H3]. split; auto. eapply hb_up; eauto. Qed.
Lemma w_up b s : W b s -> W true s.
Proof.
  intros []. constructor; auto.
  - eapply Forall_impl; [|eassumption]. intros m. apply om_up.
  - intros q k Hk. destruct (w_accs0 q k Hk) as [|H]; auto. right. eapply hb_up; eauto.
Qed.
Lemma om_is is is' m : om false is m -> om false is' m.
Proof. intros [H1 H2]. split; auto. destruct (pm_msg m); auto. destruct H2 as [H2 [H3|(X & _)]]; [|discriminate]. split; auto. left. exact H3. Qed.
Lemma hb_is is is' q n k : HB false is q n k -> HB false is' q n k.
Proof. intros [H|(X & _)]; [left; auto|discriminate]. Qed.

(** ** Storage *)
Definition nx (s s' : istore) : Prop := i_around s' = i_around s /\ i_prom s' = i_prom s.
Lemma iw_put s m : IW s -> HD (ms_dec m) -> IW (put_st s m).
Proof. intros [A1 A2 A3] H. constructor; cbn; auto. apply Forall_app. auto. Qed.
Lemma iw_set s c : IW s -> HD (c_dec c) -> IW (set_ca s c).
Proof. intros [A1 A2 A3] H. constructor; auto. Qed.
Lemma awb_w s es : IW s -> IW (fst (append_entries_without_batching s es)).
Proof. intros H. unfold append_entries_without_batching. cbn [fst]. apply iw_set; [apply iw_put; auto; apply H|apply H]. Qed.
Lemma awb_x s es : nx s (fst (append_entries_without_batching s es)) /\ snd (append_entries_without_batching s es) = i_acc (fst (append_entries_without_batching s es)).
Proof. split; [split|]; reflexivity. Qed.
Lemma batch_w s b : IW s -> IW (set_ca s (c_set_batch (i_ca s) b)).
Proof. intros H. apply iw_set; [auto|apply H]. Qed.
(** Effect of an append: same ballots, and a returned accepted index is the new one. *)
Definition apx {B} (f : B -> nat) (s : istore) (r : istore * option B) : Prop :=
  IW (fst r) /\ nx s (fst r) /\ match snd r with Some x => f x = i_acc (fst r) | None => True end.
Lemma tiff_w s b : IW s -> apx fst s (let '(c, r) := take_entries_if_batch_is_full (c_set_batch (i_ca s) b) in flush_if_full_batch (set_ca s c) r).
Proof.
  intros H. unfold take_entries_if_batch_is_full. destruct (_ <=? _); cbn [take_batched_entries flush_if_full_batch].
  - split; [exact (awb_w _ b (batch_w s [] H))|]. split; [split; reflexivity|reflexivity].
  - split; [exact (batch_w s b H)|]. split; [split; reflexivity|exact I].
Qed.
Lemma aegai_w s es : IW s -> apx (fun x => x) s (append_entries_and_get_accepted_idx s es).
Proof.
  intros H. unfold append_entries_and_get_accepted_idx, cache_append_entries, take_entries_if_batch_is_full. destruct (_ <=? _); cbn [take_batched_entries].
  - split; [exact (awb_w (set_ca s (c_set_batch (i_ca s) [])) (c_batch (i_ca s) ++ es) (batch_w s [] H))|]. split; [split; reflexivity|reflexivity].
  - split; [exact (batch_w s _ H)|]. split; [split; reflexivity|exact I].
Qed.
Lemma flush_w s : IW s -> IW (fst (flush_batch s)).
Proof. intros H. unfold flush_batch, take_batched_entries. apply awb_w, batch_w, H. Qed.
Lemma flush_x s : nx s (fst (flush_batch s)) /\ snd (flush_batch s) = i_acc (fst (flush_batch s)) /\ i_dec (fst (flush_batch s)) = i_dec s.
Proof. split; [split|split]; reflexivity. Qed.
Lemma fbge_w s : IW s -> apx fst s (flush_batch_and_get_entries s).
Proof.
  intros H. unfold flush_batch_and_get_entries. destruct (c_batch (i_ca s)) eqn:Hb; [split; [exact H|split; [split; reflexivity|exact I]]|].
  cbn [take_batched_entries flush_if_full_batch]. split; [exact (awb_w _ _ (batch_w s [] H))|]. split; [split; reflexivity|reflexivity].
Qed.
Lemma stop_w s ss : IW s -> IW (fst (i_append_stopsign s ss)) /\ nx s (fst (i_append_stopsign s ss)).
Proof.
  intros H. unfold i_append_stopsign, cache_append_stopsign. cbn zeta. unfold take_batched_entries. cbn [c_batch c_set_ss]. destruct (c_batch (i_ca s)) as [|e es].
  - cbn [flush_if_full_batch fst]. split; [|split; reflexivity]. apply iw_set; [apply iw_put; [apply iw_set; [auto|apply H]|apply H]|apply H].
  - cbn [flush_if_full_batch append_entries_without_batching fst]. split; [|split; reflexivity].
    destruct H as [A1 A2 A3]. constructor; [exact A1|exact A2|]. cbn [i_tr set_ca put_st]. repeat (apply Forall_app; split); auto; (constructor; [exact A2|constructor]).
Qed.
Lemma prom_w s n : IW s -> IW (i_set_promise s n).
Proof. intros H. unfold i_set_promise. apply iw_put; [apply iw_set; [auto|apply H]|apply H]. Qed.
Lemma dec_w s n : HD n -> IW s -> IW (i_set_decided s n).
Proof. intros Hn H. unfold i_set_decided. apply iw_put; [apply iw_set; auto|exact Hn]. Qed.
Lemma setss_w s ss s' a : IW s -> i_set_stopsign s (Some ss) = Ok (s', a) -> IW s' /\ nx s s' /\ a = i_acc s'.
Proof.
  intros H. unfold i_set_stopsign. destruct (c_ss (i_ca s)); cbn [bind]; intros X; injection X as <- <-;
  (split; [|split; [split|]; reflexivity]); apply iw_put; [apply iw_set; [auto|apply H]|apply H|apply iw_set; [auto|apply H]|apply H].
Qed.
Lemma sync_w s n d sy s' a : HD d -> IW s -> sync_log s n d sy = Ok (s', a) -> IW s' /\ i_around s' = n /\ i_prom s' = i_prom s /\ a = i_acc s'.
Proof.
  intros Hd H Hs. pose proof (sync_dec _ _ _ _ _ _ Hs) as (D1 & D2 & D3). split.
  - constructor; [rewrite D1; auto|rewrite D2; auto|]. rewrite D3. apply Forall_app. split; [apply H|]. constructor; [|constructor]. rewrite D2. auto.
  - clear D1 D2 D3. revert Hs. unfold sync_log, ilift, ipanic. destruct sy as [sy|].
    2: { destruct (ms_write _ _) as [m|]; cbn [bind]; [|discriminate]. intros X. injection X as <- <-. repeat split; reflexivity. }
    destruct (sy_snap sy) as [[c|dl]|]; cbn [bind].
    2: destruct (create_decided_snapshot _); [|discriminate|discriminate]; destruct (s_merge _ _); [|discriminate]; cbn [bind].
    all: unfold i_ss; cbn [i_ca set_ca c_ss c_set_acc]; destruct (sy_ss sy); [|destruct (c_ss _)]; cbn [i_st i_tr set_ca bind];
      (match goal with |- context [ms_write ?a ?b] => destruct (ms_write a b) as [m|] end; cbn [bind]; [|discriminate]; intros X; injection X as <- <-; repeat split; reflexivity).
Qed.
Lemma trim_w s i s' r : IW s -> try_trim s i = Ok (s', r) -> IW s' /\ nx s s'.
Proof.
  intros H. unfold try_trim, ilift, ipanic. destruct (dec_without_ss s) as [ld|]; [|discriminate].
  assert (N : IW s /\ nx s s) by (split; [auto|split; reflexivity]).
  destruct (Nat.compare i (i_dec s)); [| |intros X; injection X as <- _; auto]; (destruct (i_comp s <? _); [|intros X; injection X as <- _; auto]);
  (destruct (ms_write _ _) as [m|] eqn:Hw; cbn [bind]; [|discriminate]; intros X; injection X as <- _; split; [|split; reflexivity]; apply iw_set; [apply iw_put; [auto|]|apply H]; apply write_fields in Hw; destruct Hw as (_ & _ & Hw & _); rewrite Hw; apply H).
Qed.
Lemma snap_w s i s' r : IW s -> try_snapshot s i = Ok (s', r) -> IW s' /\ nx s s'.
Proof.
  intros H. unfold try_snapshot, ilift, ipanic. destruct (dec_without_ss s) as [ld|]; [|discriminate].
  assert (N : IW s /\ nx s s) by (split; [auto|split; reflexivity]).
  assert (Main : forall new, (if i_comp s <? new then
          match create_snapshot s new with
          | CPanic => Panic (i_tr s)
          | CErr e => Ok (s, Some e)
          | COk sn =>
              m <- (match ms_write (i_st s) [OpTrim new; OpSetComp new; OpSetSnapshot (Some sn)] with Some a => Ok a | None => Panic (i_tr s) end) ;;
              let s := put_st s m in Ok (set_ca s (c_set_comp (i_ca s) new), None)
          end else Ok (s, None)) = Ok (s', r) -> IW s' /\ nx s s').
  { intros new. destruct (i_comp s <? new); [|intros X; injection X as <- _; auto]. destruct (create_snapshot s new); [|intros X; injection X as <- _; auto|discriminate].
    destruct (ms_write _ _) as [m|] eqn:Hw; cbn [bind]; [|discriminate]. intros X. injection X as <- _. split; [|split; reflexivity]. apply iw_set; [apply iw_put; [auto|]|apply H].
    apply write_fields in Hw; destruct Hw as (_ & _ & Hw & _); rewrite Hw; apply H. }
  cbn zeta. destruct i as [i|]; [|apply Main]. destruct (Nat.compare i (i_dec s)); [apply Main|apply Main|intros X; injection X as <- _; auto].
Qed.

(** ** Servers *)
Definition wok (b : bool) (r : res sp) : Prop := match r with Ok s => W b s | Panic tr => oktr tr end.
Definition wok2 {B} (b : bool) (r : res (sp * B)) : Prop := match r with Ok (s, _) => W b s | Panic tr => oktr tr end.
Lemma wok_up b r : wok b r -> wok true r.
Proof. destruct r; cbn; auto. apply w_up. Qed.
Lemma w_panic b s : W b s -> oktr (i_tr (s_is s)).
Proof. intros H. apply H. Qed.
Lemma lift_w {B} b s (o : option B) (f : B -> res sp) : W b s -> (forall x, o = Some x -> wok b (f x)) -> wok b (bind (lift s o) f).
Proof. intros H Hf. destruct o; cbn; auto. eapply w_panic, H. Qed.
Lemma lift_w1 {B} b s (o : option B) (f : B -> res sp) : W b s -> (forall x, o = Some x -> wok true (f x)) -> wok true (bind (lift s o) f).
Proof. intros H Hf. destruct o; cbn; auto. eapply w_panic, H. Qed.
Lemma lift_w2 {B C} b s (o : option B) (f : B -> res (sp * C)) : W b s -> (forall x, o = Some x -> wok2 b (f x)) -> wok2 b (bind (lift s o) f).
Proof. intros H Hf. destruct o; cbn; auto. eapply w_panic, H. Qed.
Lemma bind_w b (r : res sp) f : wok b r -> (forall s, W b s -> wok b (f s)) -> wok b (bind r f).
Proof. destruct r; cbn; auto. Qed.
Lemma for_each_w b f : (forall s q, W b s -> wok b (f s q)) -> forall l s, W b s -> wok b (for_each s l f).
Proof. intros Hf. induction l as [|q l IH]; cbn; intros s H; auto. apply bind_w; auto. Qed.

Lemma ws_is s x : W false s -> IW x -> nx (s_is s) x -> W false (set_is s x).
Proof.
  intros [] H [X1 X2]. constructor; cbn [s_is set_is s_pid s_ls s_out s_cprom s_role s_phase s_lam]; auto.
  - eapply Forall_impl; [|eassumption]. intros m. apply om_is.
  - intros q k Hk. destruct (w_accs0 q k Hk) as [|Y]; auto. right. eapply hb_is; eauto.
  - rewrite X1, X2. auto.
  - rewrite X1, X2. auto.
Qed.
Lemma ws_state b s r ph : W b s -> (r = Leader -> s_role s = Leader /\ (ph = PhAccept -> s_phase s = PhAccept)) -> (r = Follower -> ph <> PhAccept) -> W b (set_state s r ph).
Proof.
  intros [] H1 H2. constructor; auto; cbn [s_is set_state s_role s_phase s_ls].
  - intros Hr. destruct (H1 Hr) as [Y1 Y2]. destruct (w_lead0 Y1). split; auto.
  - intros Hr Hp. destruct (H2 Hr Hp).
Qed.
Lemma ws_bp b s x : W b s -> W b (set_bprops s x).
Proof. intros []. constructor; auto. Qed.
Lemma ws_bss b s x : W b s -> W b (set_bss s x).
Proof. intros []. constructor; auto. Qed.
Lemma ws_cseq b s x : W b s -> W b (set_cseq s x).
Proof. intros []. constructor; auto. Qed.
Lemma ws_cprom b s : W b s -> W b (set_cprom s None).
Proof. intros []. constructor; cbn; auto. Qed.
(** Updates of the leader state that leave the relevant parts alone. *)
Definition kls (l l' : leader_state) : Prop := l_n l' = l_n l /\ l_proms l' = l_proms l /\ l_accs l' = l_accs l /\ l_quorum l' = l_quorum l.
Lemma kls_trans a b c : kls a b -> kls b c -> kls a c.
Proof. unfold kls. intuition congruence. Qed.
Lemma ws_ls b s x : W b s -> kls (s_ls s) x -> W b (set_ls s x).
Proof.
  intros [] (H1 & H2 & H3 & H4). constructor; auto; cbn [s_is set_ls s_ls s_role s_phase]; rewrite ?H1, ?H2, ?H3, ?H4; auto.
Qed.
Lemma ws_push b s to m : W b s -> okd m -> match m with MAccepted _ _ => False | _ => True end -> W b (push s to m).
Proof.
  intros [] H Ha. constructor; auto.
  - cbn [s_out push set_out s_is]. apply Forall_app. split; auto. constructor; [|constructor]. split; [exact H|]. cbn. destruct m; auto; contradiction.
  - intros x i Hx. destruct (w_lam0 x i Hx) as (m0 & k & Hm & Hk). exists m0, k. split; auto. cbn [s_out push set_out]. rewrite nth_error_app1; [exact Hm|]. apply nth_error_Some. congruence.
Qed.
Lemma ws_push_all b m : okd m -> match m with MAccepted _ _ => False | _ => True end -> forall l s, W b s -> W b (push_all s l m).
Proof. intros Hm Ha. unfold push_all. induction l as [|q l IH]; cbn; intros s H; auto. apply IH, ws_push; auto. Qed.
Lemma ws_mod b s idx f : (forall m, okd m -> okd (f m)) -> (forall m n k, f m = MAccepted n k -> m = MAccepted n k) -> (forall n k, f (MAccepted n k) = MAccepted n k) -> W b s -> W b (mod_accdec s idx f).
Proof.
  intros Hf Hg Hh H. unfold mod_accdec. destruct (nth_error (s_out s) idx) as [m|] eqn:Hn; auto. destruct H. constructor; auto.
  - cbn [s_out set_out s_is]. rewrite Forall_forall in *. intros x Hx. apply in_upd in Hx. destruct Hx as [->|Hx]; auto.
    destruct (w_out0 m (nth_error_In _ _ Hn)) as [Y1 Y2]. split; cbn [pm_msg pm_from]; auto. destruct (f (pm_msg m)) eqn:Hm; auto. apply Hg in Hm. rewrite Hm in Y2. exact Y2.
  - intros x i Hx. destruct (w_lam0 x i Hx) as (m0 & k & Hm & Hk). cbn [s_out set_out]. assert (Hl : idx < length (s_out s)) by (apply nth_error_Some; congruence).
    rewrite upd_nth by auto. destruct (Nat.eqb_spec i idx) as [->|Hi]; [|eauto]. eexists _, k. split; [reflexivity|]. cbn. rewrite Hn in Hm. injection Hm as ->. rewrite Hk. apply Hh.
Qed.
Lemma ws_extend b s idx es d : HD d -> W b s -> W b (mod_accdec s idx (extend_accdec es d)).
Proof. intros Hd. apply ws_mod; [intros []; cbn; auto|intros [] ? ?; cbn; auto; discriminate|reflexivity]. Qed.
Lemma ws_redecide b s idx d : HD d -> W b s -> W b (mod_accdec s idx (redecide_accdec d)).
Proof. intros Hd. apply ws_mod; [intros []; cbn; auto|intros [] ? ?; cbn; auto; discriminate|reflexivity]. Qed.
Ltac wpush := apply ws_push; [|exact I|exact I].
Hint Resolve ws_bp ws_bss ws_cseq ws_cprom : w.

Lemma ks_next (l l' : leader_state) q x : next_seq_num l q = Some (l', x) -> kls l l'.
Proof. unfold next_seq_num. destruct (vget _ _); [|discriminate]. destruct (vset _ _ _); [|discriminate]. intros X. injection X as <- _. repeat split. Qed.
Lemma ks_incr (l l' : leader_state) q : increment_seq_num_session l q = Some l' -> kls l l'.
Proof. unfold increment_seq_num_session. destruct (vget _ _); [|discriminate]. destruct (vset _ _ _); [|discriminate]. intros X. injection X as <-. repeat split. Qed.
Lemma ks_setmeta (l l' : leader_state) q i : set_latest_accept_meta l q i = Some l' -> kls l l'.
Proof. unfold set_latest_accept_meta. destruct (vset _ _ _); [|discriminate]. intros X. injection X as <-. repeat split. Qed.
Lemma ks_resend s (b : bool) to l q : (if b then option_map (fun q => (s_ls s, q)) (get_seq_num (s_ls s) to) else next_seq_num (s_ls s) to) = Some (l, q) -> kls (s_ls s) l.
Proof. destruct b; [|apply ks_next]. destruct (get_seq_num _ _); cbn; [|discriminate]. intros X. injection X as <- <-. repeat split. Qed.
Lemma vset_all {B} (P : B -> Prop) (l l' : list B) q x : vset l q x = Some l' -> Forall P l -> P x -> Forall P l'.
Proof.
  intros H Hl Hx. destruct (vset_inv _ _ _ _ H) as (i & -> & Hi & ->). rewrite Forall_forall in *. intros y Hy. apply in_upd in Hy. destruct Hy as [->|Hy]; auto.
Qed.
Lemma ws_prom b s q x l' : W b s -> okp x -> option_map (l_set_proms (s_ls s)) (vset (l_proms (s_ls s)) q x) = Some l' -> W b (set_ls s l').
Proof.
  intros [] Hx. destruct (vset _ _ _) as [v|] eqn:Hv; cbn; [|discriminate]. intros X. injection X as <-. constructor; auto. cbn. eapply vset_all; eauto.
Qed.
Lemma setp_n (l l' : leader_state) pr from c m : ls_set_promise l pr from c = Some (l', m) -> l_n l' = l_n l /\ l_accs l' = l_accs l /\ l_quorum l' = l_quorum l.
Proof. unfold ls_set_promise. destruct (c && _); (destruct (vset _ _ _); [|discriminate]); intros X; injection X as <- _; repeat split. Qed.
Lemma ws_setp b s pr from c l' m : W b s -> HD (pr_dec pr) -> ls_set_promise (s_ls s) pr from c = Some (l', m) -> W b (set_ls s l').
Proof.
  intros H Hd Hs. pose proof (setp_proms _ _ _ _ _ _ Hs) as Hv. pose proof (setp_n _ _ _ _ _ _ Hs) as K.
  destruct K as (K1 & K2 & K3). destruct H. constructor; auto; cbn [s_is set_ls s_ls s_role s_phase]; rewrite ?K1, ?K2, ?K3; auto. eapply vset_all; [exact Hv|auto|exact Hd].
Qed.
Lemma ws_setacc b s q k l' : W b s -> k = 0 \/ HB b (s_is s) q (l_n (s_ls s)) k -> set_accepted_idx (s_ls s) q k = Some l' -> W b (set_ls s l').
Proof.
  intros [] Hk. unfold set_accepted_idx. destruct (vset _ _ _) as [v|] eqn:Hv; cbn; [|discriminate]. intros X. injection X as <-. constructor; auto.
  cbn [s_is set_ls s_ls l_accs l_set_accs l_n]. intros q0 k0. destruct (Nat.eq_dec q q0) as [<-|Hq].
  - rewrite (vset_same q _ _ _ Hv). intros X. injection X as <-. exact Hk.
  - rewrite (vset_other q0 _ _ _ _ Hv Hq). apply w_accs0.
Qed.
Lemma send_ad_to_w b dec es s q : HD dec -> W b s -> wok b (send_acceptdecide_to dec es s q).
Proof.
  intros Hd H. unfold send_acceptdecide_to. eapply lift_w; eauto. intros [idx|] _; [cbn; apply ws_extend; auto|]. eapply lift_w; eauto. intros l1 H1. eapply lift_w; eauto. intros [l2 x] H2. cbn.
  apply ws_push; [|exact Hd|exact I]. apply ws_ls; auto. eapply kls_trans; [eapply ks_setmeta; eauto|eapply ks_next; eauto].
Qed.
Lemma send_ad_w b s es : W b s -> wok b (send_acceptdecide s es).
Proof. intros H. unfold send_acceptdecide. eapply lift_w; eauto. intros l _. apply for_each_w; auto. intros. apply send_ad_to_w; auto. apply H. Qed.
(** Sending does not touch the storage. *)
Lemma send_ad_is s es s' : send_acceptdecide s es = Ok s' -> s_is s' = s_is s /\ s_role s' = s_role s /\ s_phase s' = s_phase s /\ l_n (s_ls s') = l_n (s_ls s).
Proof.
  unfold send_acceptdecide. destruct (get_promised_followers _) as [l|]; cbn [lift bind]; [|discriminate]. generalize (i_dec (s_is s)). intros dec. revert s. induction l as [|q l IH]; cbn [for_each]; intros s.
  - intros X. injection X as <-. auto.
  - destruct (send_acceptdecide_to dec es s q) as [s1|] eqn:H1; cbn [bind]; [|discriminate]. intros H2. destruct (IH _ H2) as (A1 & A2 & A3 & A4). rewrite A1, A2, A3, A4. clear - H1. revert H1. unfold send_acceptdecide_to.
    destruct (get_latest_accdec _ _) as [[idx|]|]; cbn [lift bind]; [| |discriminate].
    + intros X. injection X as <-. unfold mod_accdec. destruct (nth_error _ _); auto.
    + destruct (set_latest_accept_meta _ _ _) as [l1|] eqn:E1; cbn [lift bind]; [|discriminate]. destruct (next_seq_num _ _) as [[l2 x]|] eqn:E2; cbn [lift bind]; [|discriminate].
      intros X. injection X as <-. cbn. apply ks_setmeta in E1. apply ks_next in E2. destruct (kls_trans _ _ _ E1 E2) as (Y & _). auto.
Qed.
Lemma lead_cur s k : W false s -> s_role s = Leader -> s_phase s = PhAccept -> k = i_acc (s_is s) -> forall s', s_is s' = s_is s -> s_ls s' = s_ls s -> HB true (s_is s') p (l_n (s_ls s')) k.
Proof.
  intros H Hr Hp -> s' E1 E2. rewrite E1, E2. right. split; auto. split; auto. split; auto. destruct (w_lead _ _ H Hr) as [_ X]. rewrite (X Hp). apply same_refl.
Qed.
Lemma meta_w s is (r : option (nat * list T)) : W false s -> s_role s = Leader -> s_phase s = PhAccept -> apx fst (s_is s) (is, r) ->
  wok true (match r with Some (acc, es) => ls <- lift (set_is s is) (set_accepted_idx (s_ls s) (s_pid s) acc) ;; send_acceptdecide (set_ls (set_is s is) ls) es
       | None => Ok (set_is s is) end).
Proof.
  intros H Hr Hp (Hi & Hx & Ha). cbn [fst snd] in *. assert (H1 : W false (set_is s is)) by (apply ws_is; auto). destruct r as [[acc es]|]; [|apply (wok_up false); exact H1].
  apply (lift_w1 false); auto. intros ls Hl. apply send_ad_w. apply (ws_setacc true (set_is s is) (s_pid s) acc); [eapply w_up; eauto| |exact Hl].
  right. rewrite (w_pid _ _ H). apply (lead_cur (set_is s is)); auto.
Qed.
Lemma accept_entry_w s e : W false s -> s_role s = Leader -> s_phase s = PhAccept -> wok true (accept_entry_leader s e).
Proof.
  intros H Hr Hp. unfold accept_entry_leader. pose proof (tiff_w (s_is s) (c_batch (i_ca (s_is s)) ++ [e]) (w_is _ _ H)) as Hq. change (apx fst (s_is s) (append_entry_with_batching (s_is s) e)) in Hq. destruct (append_entry_with_batching _ _) as [is r]. apply (meta_w s is r); auto.
Qed.
Lemma accept_entries_w s es : W false s -> s_role s = Leader -> s_phase s = PhAccept -> wok true (accept_entries_leader s es).
Proof.
  intros H Hr Hp. unfold accept_entries_leader. pose proof (tiff_w (s_is s) (c_batch (i_ca (s_is s)) ++ es) (w_is _ _ H)) as Hq. change (apx fst (s_is s) (append_entries_with_batching (s_is s) es)) in Hq. destruct (append_entries_with_batching _ _) as [is r]. apply (meta_w s is r); auto.
Qed.
Lemma flush_leader_w s : W false s -> s_role s = Leader -> s_phase s = PhAccept -> wok true (flush_batch_leader s).
Proof.
  intros H Hr Hp. unfold flush_batch_leader. pose proof (fbge_w (s_is s) (w_is _ _ H)) as Hq. destruct (flush_batch_and_get_entries _) as [is r]. apply (meta_w s is r); auto.
Qed.
Lemma send_ss_w b ss r s to : W b s -> wok b (send_accept_stopsign ss r s to).
Proof. intros H. unfold send_accept_stopsign. eapply lift_w; eauto. intros [l q] Hl. apply ks_resend in Hl. cbn. wpush. apply ws_ls; auto. Qed.
Lemma send_decide_w b d r s to : HD d -> W b s -> wok b (send_decide d r s to).
Proof. intros Hd H. unfold send_decide. eapply lift_w; eauto. intros [l q] Hl. apply ks_resend in Hl. cbn. apply ws_push; [|exact Hd|exact I]. apply ws_ls; auto. Qed.
Lemma accept_ss_w s ss : W false s -> s_role s = Leader -> s_phase s = PhAccept -> wok true (accept_stopsign_leader s ss).
Proof.
  intros H Hr Hp. unfold accept_stopsign_leader. pose proof (stop_w (s_is s) ss (w_is _ _ H)) as [Hi Hx]. destruct (i_append_stopsign _ _) as [is r]. cbn [fst] in *.
  assert (H1 : W false (set_is s is)) by (apply ws_is; auto).
  assert (Y : wok false (match r with Some (_, es) => send_acceptdecide (set_is s is) es | None => Ok (set_is s is) end) /\
              forall s1, (match r with Some (_, es) => send_acceptdecide (set_is s is) es | None => Ok (set_is s is) end) = Ok s1 ->
                s_is s1 = is /\ s_role s1 = Leader /\ s_phase s1 = PhAccept).
  { destruct r as [[acc es]|].
    - split; [apply send_ad_w; auto|]. intros s1 Hs1. apply send_ad_is in Hs1. destruct Hs1 as (A & B & C & _). cbn in *. rewrite A, B, C. auto.
    - split; [exact H1|]. intros s1 X. injection X as <-. cbn. auto. }
  destruct Y as [Y1 Y2]. destruct (match r with Some _ => _ | None => _ end) as [s1|tr]; [|exact Y1]. cbn [bind]. destruct (Y2 s1 eq_refl) as (A & B & C). cbn [wok] in Y1.
  apply (lift_w1 false); auto. intros ls Hl.
  assert (H3 : W true (set_ls s1 ls)). { apply (ws_setacc true s1 (s_pid s1) (i_acc (s_is s1))); [eapply w_up; eauto| |exact Hl]. right. rewrite (w_pid _ _ Y1). apply (lead_cur s1); auto. }
  apply lift_w; auto. intros l _. apply for_each_w; auto. intros. apply send_ss_w; auto.
Qed.
Lemma forward_props_w b s es : W b s -> W b (forward_proposals s es).
Proof. intros H. unfold forward_proposals. destruct (_ && _); [wpush|]; auto with w. Qed.
Lemma forward_ss_w b s ss : W b s -> W b (forward_stopsign s ss).
Proof. intros H. unfold forward_stopsign. destruct (_ && _); [wpush; auto|]. destruct (s_bss s); auto with w. Qed.
Lemma handle_leader_w s n : W false s -> wok false (handle_leader s n).
Proof.
  intros H. unfold handle_leader. destruct (ble n (l_n (s_ls s)) || ble n (i_prom (s_is s))); [exact H|]. destruct (s_pid s =? b_pid n).
  2: { cbn. destruct H. constructor; auto; cbn [s_is set_state s_role s_phase s_ls]; [discriminate|]. intros _ Hp. destruct (s_role s); auto.
       destruct (w_lead0 eq_refl) as [Y1 Y2]. rewrite Y1, (Y2 Hp). apply same_refl. }
  cbn zeta. set (s1 := set_is (set_ls s _) _). set (s2 := set_is s1 _).
  assert (H2 : W false (set_state s2 Follower PhNone) /\ i_prom (s_is s2) = n /\ l_n (s_ls s2) = n /\ HD (i_dec (s_is s2))).
  { split; [|split; [reflexivity|split; [reflexivity|apply H]]]. destruct H. constructor; auto; cbn [s_is set_state s_role s_phase s_ls s_out s_cprom s_lam s2 s1 set_is set_ls s_pid].
    - apply prom_w, flush_w; auto.
    - eapply Forall_impl; [|exact w_out0]. intros m. apply om_is.
    - intros q k. cbn [ls_with l_accs]. unfold vget. destruct (pid_to_idx q); [|discriminate]. intros X. apply nth_error_In, repeat_spec in X. auto.
    - cbn [ls_with l_proms]. apply Forall_forall. intros x Hx. apply repeat_spec in Hx. subst x. exact I.
    - discriminate.
    - discriminate. }
  destruct H2 as (H2 & P1 & P2 & P3). unfold lift, spanic, ipanic. match goal with |- context [ls_set_promise ?a ?b ?c ?d] => destruct (ls_set_promise a b c d) as [[ls m]|] eqn:Hl end; cbn [bind]; [|apply (w_panic _ _ H2)].
  apply ws_push_all; [exact I|exact I|].
  assert (H3 : W false (set_ls (set_state s2 Follower PhNone) ls)) by (eapply ws_setp; [exact H2| |exact Hl]; exact P3).
  assert (K : l_n ls = n) by (apply setp_n in Hl; destruct Hl as [Hl _]; rewrite Hl; exact P2).
  destruct H3. constructor; auto; cbn [s_is set_state s_role s_phase s_ls set_ls]; [|discriminate]. intros _. split; [congruence|discriminate].
Qed.
Lemma handle_preparereq_w s n from : W false s -> wok false (handle_preparereq s n from).
Proof.
  intros H. unfold handle_preparereq. destruct (_ && _); [|exact H]. apply lift_w; auto. intros l1 H1. pose proof (ws_prom _ s from NotPromised l1 H I H1) as W1. apply lift_w; auto. intros l2 H2. cbn. wpush.
  apply ks_setmeta in H2. exact (ws_ls _ (set_ls s l1) l2 W1 H2).
Qed.
Lemma fwd_prop_w s es : W false s -> wok true (handle_forwarded_proposal s es).
Proof.
  intros H. unfold handle_forwarded_proposal. destruct (accepted_reconfiguration s); [apply (w_up false), H|].
  destruct (s_role s) eqn:Hr, (s_phase s) eqn:Hp; cbn [wok]; try (apply (w_up false), forward_props_w; auto); try (apply (w_up false); auto with w). apply accept_entries_w; auto.
Qed.
Lemma fwd_ss_w s ss : W false s -> wok true (handle_forwarded_stopsign s ss).
Proof.
  intros H. unfold handle_forwarded_stopsign. destruct (accepted_reconfiguration s); [apply (w_up false), H|].
  destruct (s_role s) eqn:Hr, (s_phase s) eqn:Hp; cbn [wok]; try (apply (w_up false), forward_ss_w; auto); try (apply (w_up false); auto with w). apply accept_ss_w; auto.
Qed.
Lemma send_accsync_w b s to : W b s -> wok b (send_accsync s to).
Proof.
  intros H. unfold send_accsync. eapply lift_w; eauto. intros m _. eapply lift_w; eauto. intros fd _. eapply lift_w; eauto. intros sy Hsy.
  eapply lift_w; eauto. intros l1 H1. eapply lift_w; eauto. intros [l2 sq] H2. apply ks_incr in H1. apply ks_next in H2.
  cbn. apply ws_push; [apply ws_ls; auto; eapply kls_trans; eauto| |exact I]. cbn. apply H.
Qed.
Lemma max_dec_HD l : Forall okp l -> forall a, HD a -> HD (fold_left (fun a p => match p with Promised m => Nat.max a (pmt_dec m) | _ => a end) l a).
Proof.
  induction 1 as [|x l Hx Hl IH]; cbn; intros a Ha; auto. apply IH. destruct x as [|m|]; auto. cbn in Hx. destruct (Nat.max_spec a (pmt_dec m)) as [[_ ->]|[_ ->]]; auto.
Qed.
Lemma majority_w s : W false s -> s_role s = Leader -> wok true (handle_majority_promises s).
Proof.
  intros H Hr. unfold handle_majority_promises, take_max_promise_sync. cbn zeta.
  set (s1 := set_ls s (l_set_max (s_ls s) (l_maxmeta (s_ls s)) None)). assert (H1 : W false s1) by (apply ws_ls; [auto|repeat split]).
  assert (Hd : HD (get_max_decided_idx (s_ls s1))) by (apply max_dec_HD; [apply H|apply HD0]).
  destruct (sync_log _ _ _ _) as [[is acc]|tr] eqn:Hsy.
  2: { cbn [bind wok]. apply sync_panic in Hsy. subst tr. apply (w_panic _ _ H1). }
  cbn [bind]. destruct (sync_w _ _ _ _ _ _ Hd (w_is _ _ H1) Hsy) as (S1 & S2 & S3 & S4).
  (* seen as a leader before the accept phase, which does not constrain the accepted round *)
  set (K := fun (s3 : sp) => W false (set_state s3 Leader PhPrepare) /\ i_around (s_is s3) = l_n (s_ls s3)).
  assert (KF : forall s3 is3, K s3 -> IW is3 -> nx (s_is s3) is3 -> K (set_is s3 is3)).
  { intros s3 is3 [Y1 Y2] Hi [X1 X2]. split; [|cbn; congruence]. exact (ws_is (set_state s3 Leader PhPrepare) is3 Y1 Hi (conj X1 X2)). }
  assert (H2 : K (set_is s1 is)).
  { split; [|exact S2]. destruct H1. destruct (w_lead0 Hr) as [L1 L2]. constructor; auto; cbn [s_is set_state s_role s_phase s_ls s_out set_is].
    - eapply Forall_impl; [|exact w_out0]. intros m. apply om_is.
    - intros q k Hk. destruct (w_accs0 q k Hk) as [|Y]; auto. right. eapply hb_is; eauto.
    - intros _. split; [rewrite S3; exact L1|discriminate].
    - discriminate. }
  match goal with |- wok true (let '(_, _) := ?e in _) => assert (Hx : K (fst e) /\ snd e = i_acc (s_is (fst e))); [|destruct e as [s3 acc3]; cbn [fst snd] in Hx] end.
  { destruct (accepted_reconfiguration (set_is s1 is)); [split; [exact H2|exact S4]|].
    match goal with |- _ (fst (let '(_, _) := ?e in _)) /\ _ => assert (Hx : K (fst e) /\ snd e = i_acc (s_is (fst e))); [|destruct e as [s3 acc3]; cbn [fst snd] in Hx] end.
    { destruct (s_bprops _) as [|e es]; [split; [exact H2|exact S4]|].
      assert (H2' : K (set_bprops (set_is s1 is) [])). { destruct H2 as [Y1 Y2]. split; [exact (ws_bp _ _ [] Y1)|exact Y2]. }
      pose proof (awb_w (s_is (set_bprops (set_is s1 is) [])) (e :: es) (w_is _ _ (proj1 H2'))) as Ha. pose proof (awb_x (s_is (set_bprops (set_is s1 is) [])) (e :: es)) as [Hb Hc].
      destruct (append_entries_without_batching _ _) as [is2 acc2]. cbn [fst snd] in *. split; [apply KF; auto|exact Hc]. }
    destruct Hx as [Hx Hx2]. destruct (s_bss s3) as [ss|] eqn:Hb; [|split; [exact Hx|exact Hx2]]. cbn [fst snd]. split; [|reflexivity].
    destruct (stop_w (s_is (set_bss s3 None)) ss (w_is _ _ (proj1 Hx))) as [Z1 Z2]. apply KF; auto. destruct Hx as [Y1 Y2]. split; [exact (ws_bss _ _ None Y1)|exact Y2]. }
  destruct Hx as [[Hx Hy] Hx2].
  assert (H4 : W false (set_state s3 Leader PhAccept)).
  { destruct Hx. constructor; auto; cbn [s_is set_state s_role s_phase s_ls] in *; [|discriminate]. intros _. destruct (w_lead0 eq_refl). auto. }
  apply (lift_w1 false); auto. intros ls Hls.
  assert (H5 : W true (set_ls (set_state s3 Leader PhAccept) ls)).
  { apply (ws_setacc true (set_state s3 Leader PhAccept) (s_pid s3) acc3); [eapply w_up; eauto| |exact Hls]. right. change (s_pid s3) with (s_pid (set_state s3 Leader PhAccept)). rewrite (w_pid _ _ H4). apply (lead_cur (set_state s3 Leader PhAccept)); auto. }
  apply lift_w; auto. intros l _. apply for_each_w; auto. intros. apply send_accsync_w; auto.
Qed.
Lemma promise_prepare_w s x from : HD (pr_dec x) -> W false s -> s_role s = Leader -> wok true (handle_promise_prepare s x from).
Proof.
  intros Hm H Hr. unfold handle_promise_prepare. destruct (beq _ _); [|apply (w_up false), H]. apply (lift_w1 false); auto. intros [ls m] Hls.
  assert (H1 : W false (set_ls s ls)) by (eapply ws_setp; eauto). destruct m; [apply majority_w; auto|apply (w_up false), H1].
Qed.
Lemma promise_accept_w s x from : HD (pr_dec x) -> W false s -> wok false (handle_promise_accept s x from).
Proof.
  intros Hx H. unfold handle_promise_accept. destruct (beq _ _); [|exact H]. apply lift_w; auto. intros [ls m] Hl. apply send_accsync_w. eapply ws_setp; eauto.
Qed.
(** The only place where an index becomes decided. *)
Lemma chosen_HD s k : W false s -> 0 < k -> is_chosen (s_ls s) k = true -> HD k.
Proof.
  intros H Hk Hc. unfold is_chosen in Hc. destruct (filter_vget (fun a => k <=? a) (l_accs (s_ls s))) as (X & X1 & X2 & X3).
  right. exists (l_n (s_ls s)), X, p. split; auto. split; [apply H|]. split; [rewrite X2, <- (w_q _ _ H); exact Hc|].
  intros q Hq. destruct (X3 q Hq) as (k0 & Hk0 & Hle). apply Nat.leb_le in Hle. destruct (w_accs _ _ H q k0 Hk0) as [|[Y|(Y & _)]]; [lia| |discriminate]. eapply HA_le; eauto.
Qed.
Lemma handle_accepted_w s n a from : HA from n a -> W false s -> wok false (handle_accepted s n a from).
Proof.
  intros Ha H. unfold handle_accepted. destruct (beq n (l_n (s_ls s))) eqn:Hb; [|exact H]. apply beq_spec in Hb. destruct (_ && _); [|exact H]. apply lift_w; auto. intros ls Hl.
  assert (H1 : W false (set_ls s ls)). { apply (ws_setacc false s from a); [exact H| |exact Hl]. right. left. rewrite <- Hb. exact Ha. }
  destruct (_ <? a) eqn:Hlt; [|exact H1]. apply Nat.ltb_lt in Hlt. destruct (is_chosen _ _) eqn:Hc; cbn [andb]; [|exact H1].
  pose proof (chosen_HD (set_ls s ls) a H1 (Nat.lt_lt_0 _ _ Hlt) Hc) as Hd.
  assert (H2 : W false (set_is (set_ls s ls) (i_set_decided (s_is (set_ls s ls)) a))).
  { apply ws_is; auto; [|split; reflexivity]. apply dec_w; auto. apply (w_is _ _ H1). }
  apply lift_w; auto. intros l _. apply for_each_w; auto. intros s1 q H3. unfold handle_accepted_to. apply lift_w; auto. intros [idx|] _; [cbn; apply ws_redecide; auto|apply send_decide_w; auto].
Qed.
Lemma notaccepted_w s n from : W false s -> wok false (handle_notaccepted s n from).
Proof.
  intros H. unfold handle_notaccepted. destruct (_ && _); [|exact H]. apply lift_w; auto. intros ls Hl. eapply (ws_prom false s from PromisedHigher); eauto. exact I.
Qed.
Lemma prepare_all_w b l : forall s, W b s -> W b (fold_left send_prepare l s).
Proof. induction l as [|q l IH]; cbn; intros s H; auto. apply IH; wpush; auto. Qed.
Lemma resend_leader_w b s : W b s -> wok b (resend_messages_leader s).
Proof.
  intros H. unfold resend_messages_leader. destruct (s_phase s); [| |exact H|exact H].
  - eapply lift_w; eauto. intros l _. apply prepare_all_w; auto.
  - apply bind_w.
    + destruct (i_ss (s_is s)) as [ss|]; [|exact H]. eapply lift_w; eauto. intros l _. apply for_each_w; auto. intros s1 q H1. unfold resend_ss_to.
      destruct (stopsign_is_decided _); [apply send_decide_w; auto; apply H|]. eapply lift_w; eauto. intros a _. destruct (a =? _); [exact H1|apply send_ss_w; auto].
    + intros s1 H1. eapply lift_w; eauto. intros l _. apply prepare_all_w; auto.
Qed.
Lemma ws_recover b s : W b s -> W b (set_state s Follower PhRecover).
Proof. intros H. apply ws_state; auto; discriminate. Qed.
Lemma reconnected_w b s q : W b s -> W b (reconnected s q).
Proof. intros H. unfold reconnected. destruct (q =? s_pid s); auto. wpush. destruct (q =? sp_leader s); auto. apply ws_recover; auto. Qed.
Lemma handle_prepare_w s n d na a from : W false s -> wok false (handle_prepare s n d na a from).
Proof.
  intros H. unfold handle_prepare. destruct (blt (i_prom (s_is s)) n || _); [|exact H]. cbn zeta.
  match goal with |- wok _ (bind ?e ?f) => set (s1 := set_cseq _ _) in * end.
  assert (H1 : W false s1).
  { unfold s1. apply ws_cseq. destruct H. constructor; auto; cbn [s_is set_state s_role s_phase s_ls s_out set_is].
    - apply prom_w, flush_w; auto.
    - eapply Forall_impl; [|exact w_out0]. intros m. apply om_is.
    - intros q k Hk. destruct (w_accs0 q k Hk) as [|Y]; auto. right. eapply hb_is; eauto.
    - discriminate.
    - discriminate. }
  match goal with |- wok _ (bind ?e ?f) => destruct e as [sy|tr] eqn:He end.
  - cbn [bind wok]. apply ws_push; [|cbn; apply H1|exact I]. pose proof (iw_ca _ (w_is _ _ H1)) as Y. destruct H1. constructor; auto.
  - cbn [bind wok]. assert (tr = i_tr (s_is s1)). { clear - He. destruct (bgt _ _); [|destruct (_ && _)]; [| |discriminate]; (destruct (create_log_sync _ _ _); cbn in He; [discriminate|]); injection He as <-; reflexivity. }
    subst tr. apply (w_panic _ _ H1).
Qed.
Lemma check_valid_w b s n : W b s -> W b (fst (check_valid_ballot s n)) /\
  (snd (check_valid_ballot s n) = true -> fst (check_valid_ballot s n) = s /\ bal_same (i_prom (s_is s)) n).
Proof.
  intros H. unfold check_valid_ballot. pose proof (bcmp_spec (i_prom (s_is s)) n) as Hb. destruct (bcmp _ _); cbn [fst snd]; (split; [|intros X; try discriminate X]); auto; [apply reconnected_w; auto|wpush; auto].
Qed.
Lemma seqnum_w b s q from : W b s -> W b (fst (handle_sequence_num s q from)) /\
  (snd (handle_sequence_num s q from) = Expected -> s_is (fst (handle_sequence_num s q from)) = s_is s /\ s_role (fst (handle_sequence_num s q from)) = s_role s /\ s_phase (fst (handle_sequence_num s q from)) = s_phase s).
Proof. intros H. unfold handle_sequence_num. destruct (check_msg_status _ _); cbn [fst snd]; (split; [|intros X; try discriminate X]); auto with w. apply reconnected_w; auto. Qed.
Lemma reply_w s n a : W false s -> bal_same (i_around (s_is s)) n -> a <= i_acc (s_is s) -> wok true (reply_accepted s n a).
Proof.
  intros H Hn Ha. unfold reply_accepted. apply (lift_w1 false); auto. intros [idx|] Hg; cbn [wok].
  - unfold get_latest_accepted in Hg. destruct (s_lam s) as [[b0 i0]|] eqn:Hl; [|discriminate]. destruct (beq b0 n) eqn:Hb; [|discriminate]. apply beq_spec in Hb. subst b0.
    destruct (w_lam _ _ H n i0 Hl) as (m & k & Hm & Hk). rewrite Hm, Hk in Hg. injection Hg as <-. unfold mod_accdec. rewrite Hm. pose proof (w_up _ _ H) as H'. destruct H'. constructor; auto.
    + cbn [s_out set_out s_is]. rewrite Forall_forall in *. intros x Hx. apply in_upd in Hx. destruct Hx as [->|Hx]; auto.
      destruct (w_out0 m (nth_error_In _ _ Hm)) as [Y1 Y2]. rewrite Hk in *. split; cbn [pm_msg pm_from reaccept]; auto. split; [apply Y2|]. right. auto.
    + intros x i Hx. destruct (w_lam0 x i Hx) as (m0 & k0 & Hm0 & Hk0). cbn [s_out set_out]. assert (Hll : i0 < length (s_out s)) by (apply nth_error_Some; congruence).
      rewrite upd_nth by auto. destruct (Nat.eqb_spec i i0) as [->|Hi]; [|eauto]. eexists _, a. split; [reflexivity|]. cbn. rewrite Hk. cbn. congruence.
  - pose proof (w_up _ _ H) as H'. destruct H'. constructor; auto.
    + cbn [s_out push set_out s_is set_lam]. apply Forall_app. split; auto. constructor; [|constructor]. split; [exact I|]. split; [exact w_pid0|]. right. auto.
    + cbn [s_out push set_out s_lam set_lam]. intros x i X. injection X as <- <-. eexists _, _. split; [apply nth_error_last|reflexivity].
Qed.
Lemma fwd_buffered_w b s : W b s -> W b (forward_buffered_proposals s).
Proof. intros H. unfold forward_buffered_proposals. destruct (s_bprops s); [|apply forward_props_w]; auto with w. Qed.
Lemma fwd_buffered_is s : s_is (forward_buffered_proposals s) = s_is s /\ s_role (forward_buffered_proposals s) = s_role s.
Proof. unfold forward_buffered_proposals, forward_proposals. destruct (s_bprops s); auto. destruct (_ && _); auto. Qed.
Lemma acceptsync_w s n q d sy from : HD d -> W false s -> wok true (handle_acceptsync s n q d sy from).
Proof.
  intros Ha H. unfold handle_acceptsync. pose proof (check_valid_w false s n H) as [H1 Hv]. destruct (check_valid_ballot s n) as [s1 v]. cbn [fst snd] in *.
  destruct v; [|apply (w_up false), H1]. destruct (Hv eq_refl) as [-> Hn]. cbn [andb]. destruct (role_eqb (s_role s) Follower && _) eqn:Hrp; [|apply (w_up false), H1].
  destruct (sync_log _ _ _ _) as [[is acc]|tr] eqn:Hs.
  2: { cbn [bind wok]. apply sync_panic in Hs. subst tr. apply (w_panic _ _ H1). }
  destruct (sync_w _ _ _ _ _ _ Ha (w_is _ _ H1) Hs) as (S1 & S2 & S3 & S4). cbn [s_is set_cprom] in S3. cbn [bind wok].
  set (s2 := match i_ss _ with None => _ | Some _ => _ end). cbn zeta.
  assert (H2 : W false (set_state (set_is (set_cprom s None) is) Follower PhAccept)).
  { destruct H. constructor; auto; cbn [s_is set_state s_role s_phase s_ls s_out set_is set_cprom s_cprom].
    - eapply Forall_impl; [|exact w_out0]. intros m. apply om_is.
    - intros q0 k Hk. destruct (w_accs0 q0 k Hk) as [|Y]; auto. right. eapply hb_is; eauto.
    - exact I.
    - discriminate.
    - intros _ _. rewrite S2, S3. apply same_sym. exact Hn. }
  assert (H3 : W false (set_state s2 Follower PhAccept) /\ s_is s2 = is).
  { unfold s2. destruct (i_ss _); [split; [exact H2|reflexivity]|]. split; [|apply fwd_buffered_is].
    assert (Y : forall t, set_state (forward_buffered_proposals t) Follower PhAccept = forward_buffered_proposals (set_state t Follower PhAccept)).
    { intros t. unfold forward_buffered_proposals, forward_proposals. cbn [s_bprops set_state]. destruct (s_bprops t); [reflexivity|]. unfold sp_leader, sp_promise. match goal with |- set_state (if ?c then _ else _) _ _ = (if ?d then _ else _) => change d with c; destruct c end; reflexivity. }
    rewrite Y. apply fwd_buffered_w. exact H2. }
  destruct H3 as [H3 Hi]. pose proof (w_up _ _ (ws_cseq _ _ q H3)) as H4. destruct H4. constructor; auto.
  - cbn [s_out push set_out s_is set_lam set_cseq set_state s_pid] in *. apply Forall_app. split; auto. constructor; [|constructor]. split; [exact I|]. split; [exact w_pid0|]. right. rewrite Hi, S2, S4. repeat split; auto.
  - cbn [s_out push set_out s_lam set_lam]. intros x i X. injection X as <- <-. eexists _, _. split; [apply nth_error_last|reflexivity].
Qed.
Lemma update_decided_w s d : HD d -> W false s -> W false (fst (update_decided s d)) /\ nx (s_is s) (s_is (fst (update_decided s d))) /\
  i_acc (s_is s) <= i_acc (s_is (fst (update_decided s d))) /\ match snd (update_decided s d) with Some a => a = i_acc (s_is (fst (update_decided s d))) | None => True end.
Proof.
  intros Hd H. unfold update_decided. destruct (d <=? i_dec (s_is s)); [split; [exact H|split; [split; reflexivity|split; [apply le_n|exact I]]]|]. destruct (i_acc (s_is s) <? d).
  2: { cbn [fst snd]. split; [|split; [split; reflexivity|split; [apply le_n|exact I]]]. apply ws_is; auto; [|split; reflexivity]. apply dec_w; [exact Hd|apply (w_is _ _ H)]. }
  pose proof (flush_w (s_is s) (w_is _ _ H)) as Hf. pose proof (flush_x (s_is s)) as (F1 & F2 & F3).
  assert (F4 : i_acc (s_is s) <= i_acc (fst (flush_batch (s_is s)))) by (unfold flush_batch, take_batched_entries, append_entries_without_batching, i_acc; cbn; lia).
  destruct (flush_batch _) as [is a]. cbn [fst snd] in *. split; [|split; [exact F1|split; [exact F4|exact F2]]].
  apply ws_is; auto. apply dec_w; auto. eapply HD_le; [exact Hd|lia].
Qed.
Lemma acc_same s n : W false s -> bal_same (i_prom (s_is s)) n -> s_phase s = PhAccept -> bal_same (i_around (s_is s)) n.
Proof.
  intros H Hn Hp. destruct (s_role s) eqn:Hr.
  - eapply same_trans; [apply (w_foll _ _ H Hr Hp)|exact Hn].
  - destruct (w_lead _ _ H Hr) as [Y1 Y2]. rewrite (Y2 Hp), <- Y1. exact Hn.
Qed.
Lemma phase_acc x : phase_eqb x PhAccept = true -> x = PhAccept.
Proof. destruct x; auto; discriminate. Qed.
Lemma acceptdecide_w s n q d es : HD d -> W false s -> wok true (handle_acceptdecide s n q d es).
Proof.
  intros Hd H. unfold handle_acceptdecide. pose proof (check_valid_w false s n H) as [H1 Hv]. destruct (check_valid_ballot s n) as [s1 v]. cbn [fst snd] in *.
  destruct v; [|apply (w_up false), H1]. destruct (Hv eq_refl) as [-> Hn]. cbn [andb]. destruct (role_eqb (s_role s) Follower && _) eqn:Hrp; [|apply (w_up false), H1].
  apply andb_true_iff in Hrp. destruct Hrp as [_ Hp]. apply phase_acc in Hp. pose proof (acc_same s n H Hn Hp) as Hs.
  pose proof (seqnum_w false s q (b_pid n) H) as [H2 Hq]. destruct (handle_sequence_num s q (b_pid n)) as [s2 st]. cbn [fst snd] in *. destruct st; [|apply (w_up false), H2|apply (w_up false), H2].
  destruct (Hq eq_refl) as (Q1 & _). pose proof (aegai_w (s_is s2) es (w_is _ _ H2)) as (A1 & A2 & A3). destruct (append_entries_and_get_accepted_idx _ _) as [is r1]. cbn [fst snd] in *.
  destruct (update_decided_w _ d Hd (ws_is s2 is H2 A1 A2)) as (H4 & U1 & U2 & U3). cbn [s_is set_is] in *. destruct (update_decided _ _) as [s4 r2]. cbn [fst snd] in *.
  assert (Hs4 : bal_same (i_around (s_is s4)) n). { destruct U1 as [U1 _], A2 as [A2 _]. rewrite U1, A2, Q1. exact Hs. }
  destruct r2 as [a2|]; [apply reply_w; auto; lia|]. destruct r1 as [a1|]; [apply reply_w; auto; lia|apply (w_up false), H4].
Qed.
Lemma accept_ss_f_w s n q ss : W false s -> wok true (handle_accept_stopsign s n q ss).
Proof.
  intros H. unfold handle_accept_stopsign. pose proof (check_valid_w false s n H) as [H1 Hv]. destruct (check_valid_ballot s n) as [s1 v]. cbn [fst snd] in *.
  destruct v; [|apply (w_up false), H1]. destruct (Hv eq_refl) as [-> Hn]. cbn [andb]. destruct (role_eqb (s_role s) Follower && _) eqn:Hrp; [|apply (w_up false), H1].
  apply andb_true_iff in Hrp. destruct Hrp as [_ Hp]. apply phase_acc in Hp. pose proof (acc_same s n H Hn Hp) as Hs.
  pose proof (seqnum_w false s q (b_pid n) H) as [H2 Hq]. destruct (handle_sequence_num s q (b_pid n)) as [s2 st]. cbn [fst snd] in *. destruct st; [|apply (w_up false), H2|apply (w_up false), H2].
  destruct (Hq eq_refl) as (Q1 & _). cbn zeta. pose proof (flush_x (s_is s2)) as (F1 & _). assert (H3 : W false (set_is s2 (fst (flush_batch (s_is s2))))) by (apply ws_is; auto; apply flush_w, (w_is _ _ H2)).
  destruct (i_set_stopsign _ _) as [[is acc]|tr] eqn:Hss; [|exfalso; eapply setss_panic; eauto]. cbn [bind]. destruct (setss_w _ _ _ _ (w_is _ _ H3) Hss) as (Z1 & Z2 & Z3).
  apply reply_w.
  - exact (ws_is (set_is s2 (fst (flush_batch (s_is s2)))) is H3 Z1 Z2).
  - cbn [s_is set_is] in *. destruct Z2 as [Z2 _], F1 as [F1 _]. rewrite Z2, F1, Q1. exact Hs.
  - cbn [s_is set_is]. lia.
Qed.
Lemma decide_w s n q d : HD d -> W false s -> wok true (handle_decide s n q d).
Proof.
  intros Hd H. unfold handle_decide. pose proof (check_valid_w false s n H) as [H1 Hv]. destruct (check_valid_ballot s n) as [s1 v]. cbn [fst snd] in *.
  destruct v; [|apply (w_up false), H1]. destruct (Hv eq_refl) as [-> Hn]. cbn [andb]. destruct (phase_eqb (s_phase s) PhAccept) eqn:Hp; [|apply (w_up false), H1].
  apply phase_acc in Hp. pose proof (acc_same s n H Hn Hp) as Hs.
  pose proof (seqnum_w false s q (b_pid n) H) as [H2 Hq]. destruct (handle_sequence_num s q (b_pid n)) as [s2 st]. cbn [fst snd] in *. destruct st; [|apply (w_up false), H2|apply (w_up false), H2].
  destruct (Hq eq_refl) as (Q1 & _). destruct (update_decided_w _ d Hd H2) as (H4 & U1 & U2 & U3). destruct (update_decided _ _) as [s4 r2]. cbn [fst snd] in *.
  assert (Hs4 : bal_same (i_around (s_is s4)) n). { destruct U1 as [U1 _]. rewrite U1, Q1. exact Hs. }
  destruct r2 as [a2|]; [apply reply_w; auto; lia|apply (w_up false), H4].
Qed.
Lemma resend_follower_w b s : W b s -> W b (resend_messages_follower s).
Proof.
  intros H. unfold resend_messages_follower, send_preparereq_to_all_peers. destruct (s_phase s); auto.
  - destruct (s_cprom s) as [x|] eqn:Hc; [|apply ws_push_all; [exact I|exact I|apply ws_recover; auto]]. pose proof (w_cp _ _ H) as Y. rewrite Hc in Y. apply ws_push; [auto|exact Y|exact I].
  - apply ws_push_all; [exact I|exact I|auto].
Qed.
Lemma flush_follower_w s : W false s -> s_role s = Follower -> s_phase s = PhAccept -> wok true (flush_batch_follower s).
Proof.
  intros H Hr Hp. unfold flush_batch_follower. pose proof (flush_w (s_is s) (w_is _ _ H)) as Hq. pose proof (flush_x (s_is s)) as (F1 & F2 & _). destruct (flush_batch _) as [is a]. cbn [fst snd] in *.
  assert (H1 : W false (set_is s is)) by (apply ws_is; auto).
  destruct (_ <? a); [|apply (w_up false), H1]. apply reply_w; [exact H1| |cbn; lia]. unfold sp_promise. apply (w_foll _ _ H1 Hr Hp).
Qed.
Lemma wtrim s i : W false s -> wok2 false (sp_trim s i).
Proof.
  intros H. unfold sp_trim. destruct (s_role s); [exact H|]. apply lift_w2; auto. intros mn _.
  assert (Main : forall k, wok2 false ('(is, r) <- try_trim (s_is s) k ;;
        let s := set_is s is in
        match r with
        | None => Ok (push_all s (s_peers s) (MCompaction (CmpTrim k)), None)
        | Some e => Ok (s, Some e)
        end)).
  { intros k. destruct (try_trim _ _) as [[is r]|tr] eqn:Hk; [|cbn; apply trim_panic in Hk; subst tr; apply (w_panic _ _ H)]. cbn [bind].
    assert (H1 : W false (set_is s is)). { destruct (trim_w _ _ _ _ (w_is _ _ H) Hk). apply ws_is; auto. } destruct r; cbn [wok2]; auto. apply ws_push_all; [exact I|exact I|auto]. }
  cbn zeta. destruct i as [i|]; [|apply Main]. destruct (i <=? mn); [apply Main|exact H].
Qed.
Lemma wsnap s i l : W false s -> wok2 false (sp_snapshot s i l).
Proof.
  intros H. unfold sp_snapshot. destruct (try_snapshot _ _) as [[is r]|tr] eqn:Hk; [|cbn; apply snap_panic in Hk; subst tr; apply (w_panic _ _ H)]. cbn [bind].
  assert (H1 : W false (set_is s is)). { destruct (snap_w _ _ _ _ (w_is _ _ H) Hk). apply ws_is; auto. }
  destruct r; cbn [wok2]; auto. destruct l; auto. apply ws_push_all; [exact I|exact I|auto].
Qed.
Lemma wcompact s c : W false s -> wok false (handle_compaction s c).
Proof.
  intros H. unfold handle_compaction. destruct c as [i|i].
  - destruct (try_trim _ _) as [[is r]|tr] eqn:Hk; [|cbn; apply trim_panic in Hk; subst tr; apply (w_panic _ _ H)]. cbn. destruct (trim_w _ _ _ _ (w_is _ _ H) Hk). apply ws_is; auto.
  - pose proof (wsnap s i true H) as X. destruct (sp_snapshot s i true) as [[s1 r]|tr]; exact X.
Qed.

Lemma sp_handle_w s m : okd (pm_msg m) -> oka m -> W false s -> wok true (sp_handle s m).
Proof.
  intros Hm Ha H. unfold sp_handle, oka in *. destruct (pm_msg m) as [n|n d na a|x|n q d sy|n q d es|n a|n|n q d|es|c|n q ss|ss]; cbn in Hm.
  - apply (wok_up false), handle_preparereq_w; auto.
  - apply (wok_up false), handle_prepare_w; auto.
  - destruct (s_role s) eqn:Hr, (s_phase s) eqn:Hp; try (apply (w_up false), H); [apply promise_prepare_w; auto|apply (wok_up false), promise_accept_w; auto].
  - apply acceptsync_w; auto.
  - apply acceptdecide_w; auto.
  - apply (wok_up false), handle_accepted_w; auto.
  - apply (wok_up false), notaccepted_w; auto.
  - apply decide_w; auto.
  - apply fwd_prop_w; auto.
  - apply (wok_up false), wcompact; auto.
  - apply accept_ss_f_w; auto.
  - apply fwd_ss_w; auto.
Qed.
Lemma propose_w s e : W false s -> wok true (propose_entry s e).
Proof. intros H. unfold propose_entry. destruct (s_role s) eqn:Hr, (s_phase s) eqn:Hp; cbn [wok]; try (apply (w_up false), forward_props_w; auto); try (apply (w_up false); auto with w). apply accept_entry_w; auto. Qed.
Lemma append_w s e : W false s -> wok2 true (sp_append s e).
Proof.
  intros H. unfold sp_append. destruct (accepted_reconfiguration s); [apply (w_up false), H|]. pose proof (propose_w s e H) as X. destruct (propose_entry s e); exact X.
Qed.
Lemma reconfigure_w s c m : W false s -> wok2 true (sp_reconfigure s c m).
Proof.
  intros H. unfold sp_reconfigure. destruct (accepted_reconfiguration s) eqn:Hr; [apply (w_up false), H|]. cbn zeta.
  match goal with |- wok2 _ (bind ?e _) => assert (X : wok true e); [|destruct e; exact X] end.
  destruct (s_role s) eqn:Hro, (s_phase s) eqn:Hp; cbn [wok]; try (apply (w_up false), forward_ss_w; auto); try (apply (w_up false); auto with w). apply accept_ss_w; auto.
Qed.

Definition woko {B} (b : bool) (r : res (omni * B)) : Prop := match r with Ok (o, _) => W b (o_sp o) | Panic tr => oktr tr end.
Definition woko1 (b : bool) (r : res omni) : Prop := match r with Ok o => W b (o_sp o) | Panic tr => oktr tr end.
Lemma resend_timeout_w b s : W b s -> wok b (resend_message_timeout s).
Proof. intros H. unfold resend_message_timeout. destruct (s_role s); [apply resend_follower_w; auto|apply resend_leader_w; auto]. Qed.
Lemma flush_timeout_w s : W false s -> wok true (flush_batch_timeout s).
Proof. intros H. unfold flush_batch_timeout. destruct (s_role s) eqn:Hr, (s_phase s) eqn:Hp; try (apply (w_up false), H); [apply flush_follower_w|apply flush_leader_w]; auto. Qed.
Lemma tick_w o : W false (o_sp o) -> woko1 true (tick o).
Proof.
  intros H. unfold tick. destruct (clock_tick (o_eclk o)) as [ec f1].
  match goal with |- woko1 _ (bind ?e _) => assert (X : woko1 false e); [|destruct e as [o1|tr]; [|exact X]] end.
  { destruct f1; [|exact H]. unfold election_timeout. destruct (hb_timeout _ _ _) as [b [n|]]; [|exact H]. pose proof (handle_leader_w (o_sp o) n H) as X.
    cbn [o_sp]. destruct (handle_leader _ _); exact X. }
  cbn [bind]. cbn in X. destruct (clock_tick (o_rclk o1)) as [rc f2].
  match goal with |- woko1 _ (bind ?e _) => assert (X2 : woko1 false e); [|destruct e as [o2|tr]; [|exact X2]] end.
  { destruct f2; [|exact X]. cbn [o_sp]. pose proof (resend_timeout_w _ _ X) as Y. destruct (resend_message_timeout (o_sp o1)); exact Y. }
  cbn [bind]. cbn in X2. destruct (clock_tick (o_fclk o2)) as [fc f3]. destruct f3; [|apply (w_up false); exact X2]. cbn [o_sp].
  pose proof (flush_timeout_w _ X2) as Y. destruct (flush_batch_timeout (o_sp o2)); exact Y.
Qed.
Definition okcall (c : call) : Prop := match c with CHandle (MsgSP m) => okd (pm_msg m) /\ oka m | _ => True end.
Lemma exec_call_w o1 c : okcall c -> W false (o_sp o1) -> woko true (exec_call o1 c).
Proof.
  intros Hc H. destruct c as [e|cc0 meta| |i|i l|q| |q|m]; cbn [exec_call okcall] in *.
  - pose proof (append_w _ e H) as X. destruct (sp_append _ _) as [[s r]|]; exact X.
  - unfold reconfigure. destruct (cluster_validate cc0); [|apply (w_up false), H]. pose proof (reconfigure_w (o_sp o1) cc0 meta H) as X. destruct (sp_reconfigure _ _ _) as [[s r]|]; exact X.
  - pose proof (tick_w o1 H) as X. destruct (tick o1); exact X.
  - pose proof (wtrim (o_sp o1) i H) as X. destruct (sp_trim _ _) as [[s r]|]; [apply (w_up false)|]; exact X.
  - pose proof (wsnap (o_sp o1) i l H) as X. destruct (sp_snapshot _ _ _) as [[s r]|]; [apply (w_up false)|]; exact X.
  - cbn. apply (w_up false), reconnected_w; auto.
  - unfold try_become_leader. pose proof (handle_leader_w (o_sp o1) (set_n (e_ballot (o_ble o1)) (b_n (sp_promise (o_sp o1)) + 1)) H) as X. destruct (handle_leader _ _); [apply (w_up false)|]; exact X.
  - apply (w_up false), H.
  - unfold handle_incoming. destruct m as [m|m]; [|apply (w_up false), H]. pose proof (sp_handle_w (o_sp o1) m (proj1 Hc) (proj2 Hc) H) as X. destruct (sp_handle _ _); exact X.
Qed.
Lemma w_start o : W false (o_sp o) -> W false (o_sp (start_call o)).
Proof.
  intros H. change (o_sp (start_call o)) with (set_is (o_sp o) (s_is (o_sp (start_call o)))). apply ws_is; auto; [|split; reflexivity].
  destruct (w_is _ _ H) as [A1 A2 A3]. constructor; auto. constructor.
Qed.
Lemma exec_w o c o' r : okcall c -> W false (o_sp o) -> exec o c = Ok (o', r) -> W true (o_sp o').
Proof. intros Hc H He. pose proof (exec_call_w (start_call o) c Hc (w_start _ H)) as X. unfold exec in He. rewrite He in X. exact X. Qed.
Lemma crash_w o c st : okcall c -> W false (o_sp o) -> In st (crash_points o c) -> HD (ms_dec st).
Proof.
  intros Hc H [<-|Hin]; [apply H|]. pose proof (exec_call_w (start_call o) c Hc (w_start _ H)) as X. unfold exec in Hin.
  assert (Y : oktr (match exec_call (start_call o) c with Ok (o', _) => i_tr (s_is (o_sp o')) | Panic tr => tr end)).
  { destruct (exec_call _ _) as [[o' r]|tr]; [apply X|exact X]. }
  unfold oktr in Y. rewrite Forall_forall in Y. auto.
Qed.
Lemma build_w sc st o : In p (cc_nodes cc) -> sc_pid sc = p -> HD (ms_dec st) -> build cc sc st = BOk o -> W false (o_sp o).
Proof.
  intros Hin Hp H. unfold build. destruct (config_validate cc sc); [|discriminate]. destruct (sp_with _ _ _ _ _) as [x|] eqn:Hw; [|discriminate]. intros X. injection X as <-. cbn [o_sp].
  unfold sp_with in Hw. rewrite Hp in Hw. destruct (peers_of cc p) as [|q l] eqn:Hpe; [discriminate|]. cbn zeta in Hw.
  assert (Hi : forall b n, IW (i_set_promise (istore_with st n) b)). { intros b n. apply prom_w. constructor; auto. constructor. }
  assert (Hq : quorum_with (cc_flex cc) (length (q :: l) + 1) = quorum_of cc p) by (unfold quorum_of; rewrite Hpe; reflexivity).
  assert (Ha : forall b n qq q0 k, vget (l_accs (ls_with b n qq)) q0 = Some k -> k = 0).
  { intros b n qq q0 k. cbn. unfold vget. destruct (pid_to_idx q0); [|discriminate]. intros X. apply nth_error_In, repeat_spec in X. auto. }
  assert (Hr : forall b n qq, Forall okp (l_proms (ls_with b n qq))).
  { intros b n qq. cbn. apply Forall_forall. intros y Hy. apply repeat_spec in Hy. subst y. exact I. }
  destruct (ms_prom st) as [b|]; injection Hw as <-; (constructor; cbn [s_pid s_ls s_is s_out s_cprom s_role s_phase s_lam]; auto; try discriminate).
  - rewrite Forall_forall. intros m Hm. destruct Hm as [<-|Hm]; [split; exact I|]. apply in_map_iff in Hm. destruct Hm as (y & <- & _). split; exact I.
  - intros q0 k Hk. left. eapply Ha; eauto.
  - intros q0 k Hk. left. eapply Ha; eauto.
Qed.
Lemma take_w b o buf o' l : W b (o_sp o) -> take_outgoing_messages o buf = (o', l) -> W b (o_sp o').
Proof.
  intros []. unfold take_outgoing_messages, sp_take_outgoing. destruct buf; intros X; injection X as <- <-; (constructor; cbn [o_sp s_pid s_ls s_is s_out s_cprom s_role s_phase s_lam set_lam set_ls set_out]; auto; first [exact (Forall_nil _)|intros; discriminate]).
Qed.
(** At the end of a call what counted as current becomes history. *)
Lemma w_settle s : W true s -> (forall n k, bal_same (i_around (s_is s)) n -> k <= i_acc (s_is s) -> HA p n k) -> W false s.
Proof.
  intros [] Hc.
  assert (Y : forall q n k, HB true (s_is s) q n k -> HB false (s_is s) q n k). { intros q n k [H|(_ & -> & H1 & H2)]; left; auto. }
  constructor; auto.
  - eapply Forall_impl; [|exact w_out0]. intros m [H1 H2]. split; auto. destruct (pm_msg m); auto. destruct H2. auto.
  - intros q k Hk. destruct (w_accs0 q k Hk); auto.
Qed.
End One.

(** ** Clusters *)
Definition netW (m : message) : Prop := match m with MsgSP x => okd (pm_msg x) /\ oka x | MsgBLE _ => True end.
Definition AllW (s : sys) : Prop :=
  (forall p o, nodes s p = Some o -> W p false (o_sp o)) /\ (forall p q m, In m (net s p q) -> netW m).
Lemma event_netW s p ev : AllW s -> forall a b m, In m (event_net s p ev a b) -> netW m.
Proof.
  intros [_ Hn] a b m. destruct ev as [c|src k]; cbn; [apply Hn|]. unfold upd2. destruct (_ && _); [|apply Hn]. intros Hin. apply remove_nth_in in Hin. eauto.
Qed.
Lemma event_callW s p ev c : AllW s -> event_call s p ev = Some c -> okcall c.
Proof.
  intros [_ Hn]. destruct ev as [c0|src k]; cbn.
  - destruct c0; intros X; try discriminate; injection X as <-; cbn; auto.
  - destruct (nth_error _ _) as [m|] eqn:Hk; cbn; [|discriminate]. intros X. injection X as <-. apply nth_error_In in Hk. apply Hn in Hk. destruct m; auto.
Qed.
Lemma send_allW p l : Forall netW l -> forall n, (forall a b m, In m (n a b) -> netW m) -> forall a b m, In m (send_all n p l a b) -> netW m.
Proof.
  induction 1 as [|x l Hx Hl IH]; cbn; auto. intros n Hn. apply IH. intros a b m. unfold send_one, upd2. destruct (_ && _); [|apply Hn].
  rewrite in_app_iff. intros [H|[<-|[]]]; eauto.
Qed.
Lemma allw_step s a s' : AllW s -> exec_action cc s a = Some s' ->
  (forall p o n k, nodes s' p = Some o -> bal_same (i_around (s_is (o_sp o))) n -> k <= i_acc (s_is (o_sp o)) -> HA p n k) -> AllW s'.
Proof.
  intros H He Hset. pose proof H as [Hs Hn]. revert He Hset. destruct a as [p ev|p|src dst k|p ev j sc]; cbn [exec_action].
  - destruct (nodes s p) as [o|] eqn:Ho; [|discriminate]. destruct (event_call s p ev) as [c|] eqn:Hc; [|discriminate].
    destruct (exec o c) as [[o' r]|] eqn:He; [|discriminate]. intros X. injection X as <-. intros Hset.
    pose proof (event_callW s p ev c H Hc) as Hca. pose proof (exec_w p _ _ _ _ Hca (Hs _ _ Ho) He) as X1. split; cbn.
    + intros q x. unfold upd1. destruct (Nat.eqb_spec q p) as [->|_]; [|apply Hs]. intros X. injection X as <-. apply w_settle; auto. intros n k. apply Hset. cbn. unfold upd1. rewrite Nat.eqb_refl. reflexivity.
    + apply event_netW; auto.
  - destruct (nodes s p) as [o|] eqn:Ho; [|discriminate]. destruct (take_outgoing_messages o []) as [o' l] eqn:Ht. intros X. injection X as <-. intros _.
    pose proof (Hs _ _ Ho) as Hoo. pose proof (take_w p _ _ _ _ _ Hoo Ht) as X1. split; cbn.
    + intros q x. unfold upd1. destruct (Nat.eqb_spec q p) as [->|_]; [intros X; injection X as <-; auto|apply Hs].
    + apply send_allW; auto. apply C33_take_outgoing_messages in Ht. destruct Ht as [-> _]. cbn. rewrite Forall_app. split; apply Forall_map; [|rewrite Forall_forall; cbn; auto].
      eapply Forall_impl; [|exact (w_out _ _ _ Hoo)]. intros m [M1 M2]. split; auto. unfold oka. destruct (pm_msg m); auto. destruct M2 as [M2 [M3|(X & _)]]; [|discriminate]. rewrite M2. exact M3.
  - intros X. injection X as <-. intros _. split; cbn; auto. intros a b m. unfold upd2. destruct (_ && _); [|apply Hn]. intros Hin. apply remove_nth_in in Hin. eauto.
  - destruct (nodes s p) as [o|] eqn:Ho; [|discriminate]. destruct (event_call s p ev) as [c|] eqn:Hc; [|discriminate].
    destruct (nth_error (crash_points o c) j) as [st|] eqn:Hj; [|discriminate]. destruct (Nat.eqb_spec (sc_pid sc) p) as [Hp|]; [|discriminate].
    destruct (build cc sc st) as [| |o'] eqn:Hb; try discriminate. intros X. injection X as <-. intros _.
    pose proof (event_callW s p ev c H Hc) as Hca. apply nth_error_In in Hj. pose proof (crash_w p _ _ _ Hca (Hs _ _ Ho) Hj) as X1. split; cbn.
    + intros q x. unfold upd1. destruct (Nat.eqb_spec q p) as [->|_]; [intros X; injection X as <-; eapply build_w; eauto; apply (w_in _ _ _ (Hs _ _ Ho))|apply Hs].
    + apply event_netW; auto.
Qed.
Lemma allw_init scs : good_config cc scs -> AllW (init_sys cc scs).
Proof.
  intros (Hv & _ & Hsc). split; cbn; [|tauto]. intros p o. destruct (existsb (Nat.eqb p) (cc_nodes cc)) eqn:Hin; cbn [andb]; [|discriminate].
  destruct (sc_pid (scs p) =? p); [|discriminate]. destruct (build cc (scs p) ms_default) eqn:Hb; try discriminate. intros X. injection X as <-.
  apply existsb_exists in Hin. destruct Hin as (y & Hy & Hyp). apply Nat.eqb_eq in Hyp. subst y. eapply build_w; eauto; [apply Hsc; auto|apply HD0].
Qed.
End Acc.

Section Runs.
Context (cc : cluster_config) (scs : node_id -> server_config).
(** [q] had accepted the round [n] up to [k] at a moment of the run [l]. *)
Definition accepted_in (l : list action) (q : node_id) (n : ballot) (k : nat) : Prop :=
  exists s0 o0, moment cc scs l s0 /\ nodes s0 q = Some o0 /\ bal_same (accepted_round (i_st (s_is (o_sp o0)))) n /\ covers (i_st (s_is (o_sp o0))) k.
Lemma accepted_in_le l q n k k' : accepted_in l q n k -> k' <= k -> accepted_in l q n k'.
Proof. intros (s0 & o0 & H1 & H2 & H3 & H4) Hk. exists s0, o0. repeat (split; auto). intros i Hi. apply H4. lia. Qed.
Lemma cnt_covers st k : k <= ms_trim st + length (ms_log st) -> covers st k.
Proof.
  intros Hk i Hi. destruct (Nat.lt_ge_cases i (ms_trim st)) as [|Hge]; auto. right. left.
  destruct (nth_error (ms_log st) (i - ms_trim st)) as [e|] eqn:He; [exists e; split; auto|]. apply nth_error_None in He. lia.
Qed.
Lemma ss_covers st k : ms_ss st <> None -> covers st k.
Proof.
  intros Hs i Hi. destruct (Nat.lt_ge_cases i (ms_trim st + length (ms_log st))) as [Hl|Hge]; [|right; right; auto].
  eapply (cnt_covers st (ms_trim st + length (ms_log st))); auto.
Qed.
Lemma accepted_now l s q o n k : good_config cc scs -> all_steps h1h2 cc (init_sys cc scs) l -> moment cc scs l s -> nodes s q = Some o ->
  bal_same (i_around (s_is (o_sp o))) n -> k <= i_acc (s_is (o_sp o)) -> accepted_in l q n k.
Proof.
  intros (Hv & H0 & _) Hh M N Hn Hk. exists s, o. split; auto. split; auto. destruct M as (l1 & l2 & -> & R). destruct (all_steps_app cc h1h2 l1 l2 _ _ Hh R) as [A _].
  destruct (one_moment cc Hv H0 scs l1 s A R) as [G S]. pose proof (n_coh _ _ _ _ (node_inv _ _ _ _ _ S N)) as HC. split.
  - unfold i_around in Hn. rewrite (co_around _ _ HC) in Hn. exact Hn.
  - destruct (ms_ss (i_st (s_is (o_sp o)))) eqn:Hs; [apply ss_covers; congruence|]. apply cnt_covers. pose proof (co_acc _ _ HC) as Ha. rewrite Hs in Ha. unfold cnt in Ha. unfold i_acc in Hk. lia.
Qed.
Lemma allw_run l : good_config cc scs -> all_steps h1h2 cc (init_sys cc scs) l -> forall s, moment cc scs l s -> AllW cc (accepted_in l) s.
Proof.
  intros Hg Hh s (l1 & l2 & Hl & R). revert l2 Hl s R. induction l1 as [|a l1 IH] using rev_ind; intros l2 Hl s R.
  - cbn in R. injection R as <-. apply allw_init; auto.
  - rewrite <- app_assoc in Hl. destruct (run_app cc l1 [a] _ _ R) as (s1 & R1 & R2).
    cbn in R2. destruct (exec_action cc s1 a) as [s2|] eqn:Ha; [|discriminate]. injection R2 as <-.
    apply (allw_step cc (accepted_in l) (accepted_in_le l) s1 a s2); auto; [eapply IH; eauto|]. intros p o n k N. apply (accepted_now l s2); auto.
    exists (l1 ++ [a]), l2. split; [rewrite <- app_assoc; exact Hl|]. exact R.
Qed.
End Runs.

Lemma covers_acov cc G p st k : StInv cc G p st -> covers st k -> acov G p (accepted_round st) k.
Proof.
  intros HS Hc. destruct (st_arnd _ _ _ _ HS) as (c & Ha & Hcc). unfold acov. change (accepted_round st) with (arnd st). rewrite Ha.
  destruct (ms_ss st) as [ss|] eqn:Hs; cbn; auto. left. rewrite (Hcc eq_refl). unfold cnt. destruct k as [|k]; [lia|].
  destruct (Hc k (Nat.lt_succ_diag_r k)) as [H|[(e & H1 & H2)|(H & _)]]; [lia| |congruence]. assert (k - ms_trim st < length (ms_log st)) by (apply nth_error_Some; congruence). lia.
Qed.

Lemma exists_last_or_nil {B} (l : list B) : l = [] \/ exists l' x, l = l' ++ [x].
Proof. destruct l as [|y l] using rev_ind; eauto. Qed.
(** One ghost history for all moments of a run. *)
Lemma chain cc scs l : good_config cc scs -> all_steps h1h2 cc (init_sys cc scs) l -> forall s, reaches cc scs l s ->
  exists G, SysInv cc G s /\ forall s0, moment cc scs l s0 -> exists G0, gle G0 G /\ SysInv cc G0 s0.
Proof.
  intros (Hv & H0 & _). induction l as [|a l IH] using rev_ind; intros Hh s R.
  - cbn in R. injection R as <-. exists G00. split; [apply init_inv|]. intros s0 (l1 & l2 & Hl & R0). symmetry in Hl. apply app_eq_nil in Hl. destruct Hl as [-> ->].
    cbn in R0. injection R0 as <-. exists G00. split; [apply gle_refl|apply init_inv].
  - destruct (run_app cc l [a] _ _ R) as (s1 & R1 & R2). destruct (all_steps_app cc h1h2 l [a] _ _ Hh R1) as [A1 A2]. cbn in A2. destruct A2 as [Ha _].
    cbn in R2. destruct (exec_action cc s1 a) as [s2|] eqn:He; [|discriminate]. injection R2 as <-.
    destruct (IH A1 s1 R1) as (G & SG & HG). destruct (step_inv cc Hv H0 G s1 a s2 SG Ha He) as (G' & L & S'). exists G'. split; auto.
    intros s0 (l1 & l2 & Hl & R0). destruct (exists_last_or_nil l2) as [->|(l3 & x & ->)].
    + rewrite app_nil_r in Hl. subst l1. unfold reaches in R, R0. assert (s0 = s2) by congruence. subst s0. exists G'. split; [apply gle_refl|auto].
    + rewrite app_assoc in Hl. apply app_inj_tail in Hl. destruct Hl as [-> ->]. destruct (HG s0) as (G0 & L0 & S0); [exists l1, l3; auto|]. exists G0. split; auto. eapply gle_trans; eauto.
Qed.

(** C13.  H1 and H2; any loss, any crashes.  When a server has the decided index
    [d > 0] there are one ballot [b] and one write quorum, such that every member of the quorum had
    accepted exactly the round [b] up to [d] at that moment or before; the entries it held then, and
    those that it holds at any later moment or storage write, are the decided ones. *)
Theorem C13_decided_accepted_by_write_quorum :
  forall cc scs, good_config cc scs ->
  forall l1 l2, all_steps h1h2 cc (init_sys cc scs) (l1 ++ l2) ->
  forall s1 s2, reaches cc scs l1 s1 -> reaches cc scs (l1 ++ l2) s2 ->
  forall p o, nodes s1 p = Some o -> 0 < get_decided_idx o ->
  exists b Q r, NoDup Q /\ incl Q (cc_nodes cc) /\ In r (cc_nodes cc) /\
    is_accept_quorum (quorum_with (cc_flex cc) (length (peers_of cc r) + 1)) (length Q) = true /\
    forall q, In q Q ->
      (exists s0 o0, moment cc scs l1 s0 /\ nodes s0 q = Some o0 /\
         accepted_round (i_st (s_is (o_sp o0))) = b /\ covers (i_st (s_is (o_sp o0))) (get_decided_idx o) /\
         (forall i e e', reports o i (LDecided e) -> stored (i_st (s_is (o_sp o0))) i e' -> e' = e)) /\
      (forall st, storage_at s2 q st ->
         ble b (accepted_round st) = true /\ covers st (get_decided_idx o) /\
         (forall i e e', reports o i (LDecided e) -> stored st i e' -> e' = e)).
Proof.
  intros cc scs Hg l1 l2 Hh s1 s2 R1 R2 p o N Hd. pose proof Hg as (Hv & H0 & _).
  destruct (chain cc scs _ Hg Hh s2 R2) as (G2 & S2 & Hch). pose proof (y_G _ _ _ S2) as HG2.
  destruct (all_steps_app cc h1h2 l1 l2 _ _ Hh R1) as [A1 _].
  assert (M1 : moment cc scs l1 s1) by (exists l1, []; split; [rewrite app_nil_r; reflexivity|exact R1]).
  assert (MM : forall s0, moment cc scs l1 s0 -> moment cc scs (l1 ++ l2) s0).
  { intros s0 (la & lb & -> & R0). exists la, (lb ++ l2). split; [rewrite app_assoc; reflexivity|exact R0]. }
  pose proof (allw_run cc scs l1 Hg A1 s1 M1) as [HW _]. pose proof (iw_ca _ _ _ (w_is _ _ _ _ _ (HW _ _ N))) as HD1.
  change (i_dec (s_is (o_sp o))) with (get_decided_idx o) in HD1.
  destruct HD1 as [Hz|(n & Q & r & Q1 & Q2 & Q3 & Q4)]; [lia|].
  (* every member, with the exact round *)
  assert (Hm : forall q, In q Q -> exists s0 o0 G0, moment cc scs l1 s0 /\ nodes s0 q = Some o0 /\ bal_same (accepted_round (i_st (s_is (o_sp o0)))) n /\
            covers (i_st (s_is (o_sp o0))) (get_decided_idx o) /\ gle G0 G2 /\ SysInv cc G0 s0 /\ NodeInv cc G0 q (o_sp o0)).
  { intros q Hq. destruct (Q4 q Hq) as (s0 & o0 & B1 & B2 & B3 & B4). destruct (Hch s0 (MM s0 B1)) as (G0 & L0 & S0). exists s0, o0, G0. split; [exact B1|]. split; [exact B2|]. split; [exact B3|]. split; [exact B4|]. split; [exact L0|]. split; [exact S0|]. exact (node_inv cc G0 s0 q o0 S0 B2). }
  assert (Hb : exists b, forall q, In q Q -> exists s0 o0 G0, moment cc scs l1 s0 /\ nodes s0 q = Some o0 /\ accepted_round (i_st (s_is (o_sp o0))) = b /\
            covers (i_st (s_is (o_sp o0))) (get_decided_idx o) /\ gle G0 G2 /\ SysInv cc G0 s0 /\ NodeInv cc G0 q (o_sp o0)).
  { assert (Hw : forall q s0 o0 G0, gle G0 G2 -> SysInv cc G0 s0 -> NodeInv cc G0 q (o_sp o0) -> wfb cc (accepted_round (i_st (s_is (o_sp o0))))).
    { intros q s0 o0 G0 _ S0 N0. destruct (st_arnd _ _ _ _ (n_st _ _ _ _ N0)) as (c & Hc & _). destruct (g_acc _ _ (y_G _ _ _ S0) _ _ _ _ Hc) as (_ & lm & Hlm & _). apply (g_wM _ _ (y_G _ _ _ S0)). change (accepted_round (i_st (s_is (o_sp o0)))) with (arnd (i_st (s_is (o_sp o0)))). rewrite Hlm. discriminate. }
    destruct Q as [|q0 Q']; [exists n; intros q []|]. destruct (Hm q0 (or_introl eq_refl)) as (sa & oa & Ga & B1 & B2 & B3 & B4 & B5 & B6 & B7).
    exists (accepted_round (i_st (s_is (o_sp oa)))). intros q Hq. destruct (Hm q Hq) as (s0 & o0 & G0 & C1 & C2 & C3 & C4 & C5 & C6 & C7). exists s0, o0, G0. split; [exact C1|]. split; [exact C2|]. split; [|auto].
    apply (wfb_eq cc); [exact H0|exact (Hw q s0 o0 G0 C5 C6 C7)|exact (Hw q0 sa oa Ga B5 B6 B7)|]. eapply same_trans; [exact C3|apply same_sym; exact B3]. }
  destruct Hb as (b & Hb). clear Hm Q4.
  assert (Ha : forall q, In q Q -> acov G2 q b (get_decided_idx o)).
  { intros q Hq. destruct (Hb q Hq) as (s0 & o0 & G0 & C1 & C2 & C3 & C4 & C5 & C6 & C7). eapply gle_acov; [exact C5|]. rewrite <- C3. eapply covers_acov; [apply (n_st _ _ _ _ C7)|exact C4]. }
  assert (HI : incl Q (cc_nodes cc)).
  { intros q Hq. destruct (Hb q Hq) as (s0 & o0 & G0 & C1 & C2 & C3 & C4 & C5 & C6 & C7). apply (n_in _ _ _ _ C7). }
  assert (Hc : chosen cc G2 b (get_decided_idx o)) by (exists Q, r; auto).
  destruct (Hch s1 (MM s1 M1)) as (G1 & L1 & S1). pose proof (node_inv _ _ _ _ _ S1 N) as I1.
  assert (Hrep : forall i e, reports o i (LDecided e) -> i < get_decided_idx o /\ fixed cc G2 i (Ent e)).
  { intros i e Hr. destruct (reports_decided cc Hv H0 G1 p o i e (y_G _ _ _ S1) I1 Hr) as (_ & Hi & F). split; [|eapply fixed_gle; eauto].
    unfold get_decided_idx, i_dec. rewrite (co_dec _ _ (n_coh _ _ _ _ I1)). exact Hi. }
  exists b, Q, r. split; [exact Q1|]. split; [exact HI|]. split; [exact Q2|]. split; [exact Q3|]. intros q Hq. split.
  - destruct (Hb q Hq) as (s0 & o0 & G0 & C1 & C2 & C3 & C4 & C5 & C6 & C7). exists s0, o0. split; [exact C1|]. split; [exact C2|]. split; [exact C3|]. split; [exact C4|].
    intros i e e' Hr Hs'. destruct (Hrep i e Hr) as [Hi F]. destruct (stored_at cc G0 q _ i e' (y_G _ _ _ C6) (n_st _ _ _ _ C7) Hs') as (m & Hm & Hx).
    change (arnd (i_st (s_is (o_sp o0)))) with (accepted_round (i_st (s_is (o_sp o0)))) in Hm. rewrite C3 in Hm. destruct (le_M _ _ C5 _ _ Hm) as (m2 & Hm2 & Lm).
    assert (F' : fixed cc G2 i (Ent e')). { exists b, m2. split; [eapply chosen_le; [|exact Hc]; lia|]. split; auto. eapply lle_at; eauto. }
    pose proof (fixed_agree cc Hv H0 G2 i _ _ HG2 F F'). congruence.
  - intros st Hst. destruct (storage_inv cc G2 s2 q st Hv H0 S2 Hst) as (G3 & L3 & HG3 & HS3).
    pose proof (gle_acov _ _ _ _ _ L3 (Ha q Hq)) as Ha3.
    assert (Hb3 : ble_ b (arnd st)). { apply (st_max _ _ _ _ HS3). unfold acov in Ha3. destruct (gA G3 q b); [discriminate|destruct Ha3]. }
    assert (Hc3 : chosen cc G3 b (get_decided_idx o)) by (eapply chosen_gle; eauto).
    split; [apply ble_ble; auto|]. split.
    + eapply acov_covers; eauto. change (accepted_round st) with (arnd st). eapply (acov_later cc Hv H0 G3 q b (arnd st)); eauto.
      * right. reflexivity.
      * destruct (st_arnd _ _ _ _ HS3) as (c & -> & _). discriminate.
    + intros i e e' Hr Hs'. destruct (Hrep i e Hr) as [Hi F]. apply (fixed_gle cc _ _ _ _ L3) in F. destruct (stored_at cc G3 q st i e' HG3 HS3 Hs') as (m & Hm & Hx).
      assert (Hd' : decok cc G3 (arnd st) (get_decided_idx o)) by (right; exists b; auto).
      destruct (dec_fixed cc Hv H0 G3 (arnd st) (get_decided_idx o) i m (Ent e') HG3 Hd' Hi Hm Hx) as (b' & _ & _ & F').
      pose proof (fixed_agree cc Hv H0 G3 i _ _ HG3 F F'). congruence.
Qed.
End WithEntry.
Print Assumptions C13_decided_accepted_by_write_quorum.

(** The run of PropAgreement.v: server 1 has decided two entries; servers 1 and 3 had accepted both in
    the round of the same leader. *)
Section Case.
Local Existing Instance plain.
Example C13_exact_case :
  good_config cc3 scs /\ all_steps h1h2 cc3 ini (acts_case1 ++ acts_case2 ++ acts_case3) /\
  reaches cc3 scs acts_case1 sys_case1 /\ reaches cc3 scs ((acts_case1 ++ acts_case2) ++ acts_case3) sys_case3 /\
  obs sys_case1 1 get_decided_idx = Some 2 /\
  obs sys_case1 1 (fun o => accepted_round (i_st (s_is (o_sp o)))) = Some (mkB 1 1 0 1) /\
  obs sys_case1 3 (fun o => (accepted_round (i_st (s_is (o_sp o))), ms_log (i_st (s_is (o_sp o))))) = Some (mkB 1 1 0 1, [11; 12]).
Proof. split; [exact good3|]. split; [exact case_steps|]. split; [exact case_reach1|]. split; [exact case_reach3|]. split; [|split]; vm_compute; reflexivity. Qed.
End Case.
