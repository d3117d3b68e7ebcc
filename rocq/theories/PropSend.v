(** * C67: what a leader adds to its log goes to every follower that promised *)
From Coq Require Import List Arith Bool Lia.
Import ListNotations.
From Verif Require Import Types Config MemStore Internal LeaderState SeqPaxos Ble Omni System Basics Scen Spec Refute PropElect.
From Verif Require PropLocal Local LeadLinks Takeover PropAnswer PropAccepted PropAgreement PropBasic Inv SysInv Agree PropChosen.

Section WithEntry.
Context {E : EntryT}.

(** ** Specification *)

(** The entries in the AcceptDecide messages of ballot [n] to [q] in a queue, in order. *)
Definition entries_to (n : ballot) (q : node_id) (l : list pmessage) : list T :=
  flat_map (fun m => match pm_msg m with MAcceptDecide b _ _ es => if (pm_to m =? q) && beq b n then es else [] | _ => [] end) l.
(** The leader [o] has a promise of [q] for its ballot. *)
Definition has_promised (o : omni) (q : node_id) : Prop := q <> b_pid (leader_ballot o) /\ exists m, PropAnswer.recorded_promise o q (Promised m).
Definition leading (o : omni) : Prop := role_of o = (Leader, PhAccept).
(** The tick that follows is a flush timeout. *)
Definition flush_due (o : omni) : Prop := lc_time (o_fclk o) + 1 = lc_timeout (o_fclk o).
Definition compacts (c : call) : Prop :=
  match c with CTrim _ | CSnapshot _ _ => True | CHandle (MsgSP m) => match pm_msg m with MCompaction _ => True | _ => False end | _ => False end.

(** A Decide of the ballot that the server itself promised.  At a leader this is the leader's own ballot, and
    nobody else sends Decide messages of that ballot; [handle_decide] does not check the role. *)
Definition echoes (o : omni) (c : call) : Prop :=
  match c with CHandle (MsgSP m) => match pm_msg m with MDecide n _ _ => PropAnswer.same_round n (get_promise o) | _ => False end | _ => False end.

(** ** The cached messages *)
Definition is_ad (m : pmsg) : bool := match m with MAcceptDecide _ _ _ _ => true | _ => false end.
Definition AL (s : sp) : Prop :=
  forall q b k, vget (l_accmeta (s_ls s)) q = Some (Some (b, k)) ->
  (exists from sq d es, nth_error (s_out s) k = Some (mkPM from q (MAcceptDecide b sq d es))) /\
  forall j m, k < j -> nth_error (s_out s) j = Some m -> pm_to m = q -> is_ad (pm_msg m) = false.
Definition fine (f : pmsg -> pmsg) : Prop :=
  (forall n sq d es, exists d' es', f (MAcceptDecide n sq d es) = MAcceptDecide n sq d' es') /\ (forall m, is_ad m = false -> is_ad (f m) = false) /\ (forall n sq ss, f (MAcceptStopSign n sq ss) = MAcceptStopSign n sq ss).
Definition keeping (f : pmsg -> pmsg) : Prop := forall n sq d es, exists d', f (MAcceptDecide n sq d es) = MAcceptDecide n sq d' es.
Lemma fine_extend es d : fine (extend_accdec es d).
Proof. split; [cbn; eauto|]. split; [|reflexivity]. intros []; auto. Qed.
Lemma fine_redecide d : fine (redecide_accdec d).
Proof. split; [cbn; eauto|]. split; [|reflexivity]. intros []; auto. Qed.
Lemma fine_reaccept a : fine (reaccept a).
Proof. split; [cbn; eauto|]. split; [|reflexivity]. intros []; auto. Qed.
Lemma keeping_redecide d : keeping (redecide_accdec d).
Proof. cbn. intros n sq d0 es. cbn. eauto. Qed.
Lemma keeping_reaccept a : keeping (reaccept a).
Proof. intros n sq d0 es. cbn. eauto. Qed.

Lemma et_app n q a b : entries_to n q (a ++ b) = entries_to n q a ++ entries_to n q b.
Proof. apply flat_map_app. Qed.
Lemma et_push n q from to m l : entries_to n q (l ++ [mkPM from to m]) = entries_to n q l ++ match m with MAcceptDecide b _ _ es => if (to =? q) && beq b n then es else [] | _ => [] end.
Proof. rewrite et_app. f_equal. cbn. rewrite app_nil_r. destruct m; reflexivity. Qed.
Lemma upd_mid {B} (a : list B) x y b : upd (a ++ x :: b) (length a) y = a ++ y :: b.
Proof. induction a; cbn; congruence. Qed.
Lemma et_keep n q l k m f : keeping f -> (forall m, is_ad m = false -> is_ad (f m) = false) -> nth_error l k = Some m -> entries_to n q (upd l k (mkPM (pm_from m) (pm_to m) (f (pm_msg m)))) = entries_to n q l.
Proof.
  intros Hk Hf Hn. apply nth_error_split in Hn. destruct Hn as (a & b & -> & <-). rewrite upd_mid, !et_app. f_equal. unfold entries_to. cbn [flat_map pm_msg pm_to]. f_equal.
  destruct (pm_msg m) eqn:Em; try (match goal with |- context [f ?x] => specialize (Hf x eq_refl); destruct (f x); try discriminate Hf; reflexivity end).
  destruct (Hk n0 sq dec es) as (d' & ->). reflexivity.
Qed.
Lemma et_last n q l : (forall j m, nth_error l j = Some m -> pm_to m = q -> is_ad (pm_msg m) = false) -> entries_to n q l = [].
Proof.
  intros H. unfold entries_to. induction l as [|m l IH]; [reflexivity|]. cbn [flat_map]. rewrite IH; [|intros j x Hx; apply (H (S j) x Hx)]. rewrite app_nil_r. specialize (H 0 m eq_refl).
  destruct (pm_msg m); auto. destruct (Nat.eqb_spec (pm_to m) q) as [X|X]; [|reflexivity]. specialize (H X). discriminate.
Qed.
Lemma et_extend n q q' l k from b sq d es0 es d' : nth_error l k = Some (mkPM from q' (MAcceptDecide b sq d es0)) ->
  (forall j m, k < j -> nth_error l j = Some m -> pm_to m = q' -> is_ad (pm_msg m) = false) ->
  entries_to n q (upd l k (mkPM from q' (MAcceptDecide b sq d' (es0 ++ es)))) = entries_to n q l ++ (if (q' =? q) && beq b n then es else []).
Proof.
  intros Hn Hl. apply nth_error_split in Hn. destruct Hn as (a & c & -> & <-). rewrite upd_mid, !et_app. rewrite <- app_assoc. f_equal. unfold entries_to at 1 2. cbn [flat_map pm_msg pm_to].
  fold (entries_to n q c). destruct (Nat.eqb_spec q' q) as [->|Hq]; cbn [andb]; [|rewrite app_nil_r; reflexivity]. destruct (beq b n); [|rewrite app_nil_r; reflexivity].
  rewrite (et_last n q c); [rewrite !app_nil_r; reflexivity|]. intros j m Hj Ht. apply (Hl (S (length a + j)) m); [lia| |exact Ht]. rewrite nth_error_app2 by lia. replace (S (length a + j) - length a) with (S j) by lia. exact Hj.
Qed.

Lemma al_same s s' : l_accmeta (s_ls s') = l_accmeta (s_ls s) -> s_out s' = s_out s -> AL s -> AL s'.
Proof. unfold AL. intros -> ->. auto. Qed.
Lemma al_push s to m : is_ad m = false -> AL s -> AL (push s to m).
Proof.
  intros Hm H q b k Hk. destruct (H q b k Hk) as ((from & sq & d & es & H1) & H2). cbn [push s_out set_out]. split.
  - exists from, sq, d, es. rewrite nth_error_app1; [exact H1|]. apply nth_error_Some. congruence.
  - intros j x Hj Hx. destruct (Nat.lt_ge_cases j (length (s_out s))) as [L|L]; [rewrite nth_error_app1 in Hx by exact L; eauto|].
    rewrite nth_error_app2 in Hx by exact L. destruct (j - length (s_out s)) as [|i]; cbn in Hx; [injection Hx as <-; auto|destruct i; discriminate].
Qed.
Lemma al_mod s k f : fine f -> AL s -> AL (mod_accdec s k f).
Proof.
  intros (F1 & F2 & _) H. unfold mod_accdec. destruct (nth_error (s_out s) k) as [m0|] eqn:Hn; [|exact H]. intros q b i Hi. cbn [s_ls set_out s_out] in *. destruct (H q b i Hi) as ((from & sq & d & es & H1) & H2).
  assert (L : k < length (s_out s)) by (apply nth_error_Some; congruence). split.
  - rewrite Local.upd_nth by exact L. destruct (Nat.eqb_spec i k) as [->|]; [|eauto]. rewrite Hn in H1. injection H1 as ->. cbn. destruct (F1 b sq d es) as (d' & es' & ->). eauto.
  - intros j x Hj. rewrite Local.upd_nth by exact L. destruct (Nat.eqb_spec j k) as [->|]; [|eauto]. intros X Ht. injection X as <-. cbn in *. apply F2. eauto.
Qed.

(** ** One step *)
Section Fix.
Context (s0 : sp).
Definition la (s : sp) : Prop := s_role s = Leader /\ s_phase s = PhAccept.
Definition prm (s : sp) (q : node_id) : Prop := q <> b_pid (l_n (s_ls s)) /\ exists m, vget (l_proms (s_ls s)) q = Some (Promised m).
(** Since [s0] the leader has added [es], and the stop sign [st] if there is one. *)
Record frame (es : list T) (st : option stopsign) (s : sp) : Prop := {
  f_n : l_n (s_ls s) = l_n (s_ls s0);
  f_pid : s_pid s = s_pid s0;
  f_log : ms_log (i_st (s_is s)) = ms_log (i_st (s_is s0)) ++ es;
  f_ss : ms_ss (i_st (s_is s)) = match st with Some ss => Some ss | None => ms_ss (i_st (s_is s0)) end;
  f_to : forall q, es = [] \/ prm s q -> entries_to (l_n (s_ls s0)) q (s_out s) = entries_to (l_n (s_ls s0)) q (s_out s0) ++ es
}.
Definition Q (es : list T) (st : option stopsign) (s : sp) : Prop := AL s /\ (~ la s0 \/ ~ la s \/ frame es st s).
Definition qr es st (r : res sp) : Prop := match r with Ok s => Q es st s | Panic _ => True end.
Lemma q_out es st s : AL s -> ~ la s -> Q es st s.
Proof. intros H N. split; auto. Qed.
Lemma q_fol es st s : AL s -> s_role s = Follower -> Q es st s.
Proof. intros H N. apply q_out; auto. intros [X _]. congruence. Qed.
Lemma q_lift {B} es st s (o : option B) (f : B -> res sp) : (forall x, o = Some x -> qr es st (f x)) -> qr es st (bind (lift s o) f).
Proof. intros H. destruct o; cbn; auto. Qed.
Lemma q_bind es st (r : res sp) f : qr es st r -> (forall s, Q es st s -> qr es st (f s)) -> qr es st (bind r f).
Proof. destruct r; cbn; auto. Qed.
Lemma q_each es st f l : (forall s p, Q es st s -> qr es st (f s p)) -> forall s, Q es st s -> qr es st (for_each s l f).
Proof. intros H. induction l as [|p l IH]; cbn; intros s K; auto. pose proof (H s p K) as X. destruct (f s p); cbn in *; auto. Qed.

Lemma q_push es st s to m : is_ad m = false -> Q es st s -> Q es st (push s to m).
Proof.
  intros Hm [HA H]. split; [apply al_push; auto|]. destruct H as [H|[H|[F1 F2 F3 F4 F5]]]; [auto|right; left; exact H|]. right. right. constructor; auto.
  intros q Hq. cbn [push s_out set_out]. rewrite et_push, F5 by exact Hq. destruct m; try discriminate; apply app_nil_r.
Qed.
Lemma al_push_all m l : is_ad m = false -> forall s, AL s -> AL (push_all s l m).
Proof. intros Hm. unfold push_all. induction l as [|p l IH]; cbn; intros s H; auto. apply IH, al_push; auto. Qed.
Lemma q_push_all es st m l : is_ad m = false -> forall s, Q es st s -> Q es st (push_all s l m).
Proof. intros Hm. unfold push_all. induction l as [|p l IH]; cbn; intros s H; auto. apply IH, q_push; auto. Qed.
Lemma q_mod es st s k f : fine f -> keeping f -> Q es st s -> Q es st (mod_accdec s k f).
Proof.
  intros Hf Hk [HA H]. split; [apply al_mod; auto|]. unfold mod_accdec. destruct (nth_error (s_out s) k) as [m|] eqn:Hn; [|exact H]. destruct H as [H|[H|[F1 F2 F3 F4 F5]]]; [auto|right; left; exact H|]. right. right. constructor; auto.
  intros q Hq. cbn [s_out set_out]. rewrite et_keep; auto. apply Hf.
Qed.
(** The leader's vectors: the promises may change only before something was added. *)
Definition metas_from (l l' : leader_state) : Prop := forall q b k, vget (l_accmeta l') q = Some (Some (b, k)) -> vget (l_accmeta l) q = Some (Some (b, k)).
Lemma al_ls s l : metas_from (s_ls s) l -> AL s -> AL (set_ls s l).
Proof. intros Hm H q b k Hk. apply (H q b k). apply Hm. exact Hk. Qed.
Lemma q_ls es st s l : l_n l = l_n (s_ls s) -> l_proms l = l_proms (s_ls s) -> metas_from (s_ls s) l -> Q es st s -> Q es st (set_ls s l).
Proof.
  intros Hn Hp Hm [HA H]. split; [apply al_ls; auto|]. destruct H as [H|[H|[F1 F2 F3 F4 F5]]]; [auto|right; left; exact H|]. right. right.
  assert (P : forall q, prm (set_ls s l) q -> prm s q) by (intros q; unfold prm; cbn [s_ls set_ls]; rewrite Hn, Hp; auto).
  constructor; auto; [cbn; congruence|intros q [Hq|Hq]; apply F5; auto].
Qed.
Lemma q_ls0 s l : l_n l = l_n (s_ls s) -> metas_from (s_ls s) l -> Q [] None s -> Q [] None (set_ls s l).
Proof.
  intros Hn Hm [HA H]. split; [apply al_ls; auto|]. destruct H as [H|[H|[F1 F2 F3 F4 F5]]]; [auto|right; left; exact H|]. right. right.
  constructor; [cbn; congruence|exact F2|exact F3|exact F4|]. intros q _. apply F5. auto.
Qed.
Lemma q_is es st s i : ms_log (i_st i) = ms_log (i_st (s_is s)) -> ms_ss (i_st i) = ms_ss (i_st (s_is s)) -> Q es st s -> Q es st (set_is s i).
Proof.
  intros H1 H2 [HA H]. split; [exact HA|]. destruct H as [H|[H|[F1 F2 F3 F4 F5]]]; [auto|right; left; exact H|]. right. right. constructor; auto; cbn; congruence.
Qed.
Lemma q_refl : AL s0 -> Q [] None s0.
Proof. intros H. split; [exact H|]. right. right. constructor; auto; [rewrite app_nil_r; reflexivity|intros q _; rewrite app_nil_r; reflexivity]. Qed.

(** The vectors. *)
Lemma ls_refl l : metas_from l l.
Proof. intros q b k H. exact H. Qed.
Lemma v_next l p l' q : next_seq_num l p = Some (l', q) -> l_n l' = l_n l /\ l_proms l' = l_proms l /\ l_accmeta l' = l_accmeta l.
Proof. unfold next_seq_num. destruct (vget _ _); [|discriminate]. destruct (vset _ _ _); [|discriminate]. intros X. injection X as <- _. auto. Qed.
Lemma v_incr l p l' : increment_seq_num_session l p = Some l' -> l_n l' = l_n l /\ l_proms l' = l_proms l /\ l_accmeta l' = l_accmeta l.
Proof. unfold increment_seq_num_session. destruct (vget _ _); [|discriminate]. destruct (vset _ _ _); [|discriminate]. intros X. injection X as <-. auto. Qed.
Lemma v_seq l (b : bool) p l' q : (if b then option_map (fun q => (l, q)) (get_seq_num l p) else next_seq_num l p) = Some (l', q) -> l_n l' = l_n l /\ l_proms l' = l_proms l /\ l_accmeta l' = l_accmeta l.
Proof. destruct b; [|apply v_next]. destruct (get_seq_num l p); [|discriminate]. intros X. injection X as <- _. auto. Qed.
Lemma v_acc l p a l' : set_accepted_idx l p a = Some l' -> l_n l' = l_n l /\ l_proms l' = l_proms l /\ l_accmeta l' = l_accmeta l.
Proof. unfold set_accepted_idx. destruct (vset _ _ _); [|discriminate]. intros X. injection X as <-. auto. Qed.
Lemma v_prom l p x l' : option_map (l_set_proms l) (vset (l_proms l) p x) = Some l' -> l_n l' = l_n l /\ l_accmeta l' = l_accmeta l.
Proof. destruct (vset _ _ _); [|discriminate]. intros X. injection X as <-. auto. Qed.
Lemma v_setp l p f c l' m : ls_set_promise l p f c = Some (l', m) -> l_n l' = l_n l /\ l_accmeta l' = l_accmeta l.
Proof.
  unfold ls_set_promise. set (l1 := if c && _ then _ else _). assert (H1 : l_n l1 = l_n l /\ l_accmeta l1 = l_accmeta l) by (unfold l1; destruct (c && _); auto).
  destruct (vset _ _ _); [|discriminate]. intros X. injection X as <- _. exact H1.
Qed.
Lemma mf_eq l l' : l_accmeta l' = l_accmeta l -> metas_from l l'.
Proof. intros H q b k. rewrite H. auto. Qed.
Lemma q_ls3 es st s l : l_n l = l_n (s_ls s) /\ l_proms l = l_proms (s_ls s) /\ l_accmeta l = l_accmeta (s_ls s) -> Q es st s -> Q es st (set_ls s l).
Proof. intros (A & B & C). apply q_ls; auto. apply mf_eq, C. Qed.

(** ** Sending *)
Lemma accdec_at s q i : get_latest_accdec s q = Some (Some i) -> exists b, vget (l_accmeta (s_ls s)) q = Some (Some (b, i)) /\ b = l_n (s_ls s).
Proof.
  unfold get_latest_accdec, get_latest_accept_meta. destruct (vget _ q) as [[[b k]|]|]; [|discriminate|discriminate]. destruct (beq b _) eqn:Hb; [|discriminate]. apply beq_spec in Hb. destruct (nth_error _ k) as [m|]; [|discriminate].
  destruct (pm_msg m); try discriminate. intros X. injection X as <-. exists b. auto.
Qed.
(** After a message to [p] the entries to [p] end with [es], the others are the same. *)
Lemma ad_to dec es s p s' : AL s -> send_acceptdecide_to dec es s p = Ok s' ->
  AL s' /\ s_is s' = s_is s /\ s_pid s' = s_pid s /\ s_role s' = s_role s /\ s_phase s' = s_phase s /\ l_n (s_ls s') = l_n (s_ls s) /\ l_proms (s_ls s') = l_proms (s_ls s) /\
  (forall q, entries_to (l_n (s_ls s)) q (s_out s') = entries_to (l_n (s_ls s)) q (s_out s) ++ (if p =? q then es else [])) /\
  forall from q n sq ss, In (mkPM from q (MAcceptStopSign n sq ss)) (s_out s) -> In (mkPM from q (MAcceptStopSign n sq ss)) (s_out s').
Proof.
  intros HA H. unfold send_acceptdecide_to in H. apply Takeover.lift_bind in H. destruct H as ([i|] & Hr & H).
  - injection H as <-. split; [apply al_mod; [apply fine_extend|exact HA]|]. destruct (accdec_at _ _ _ Hr) as (b & Hb & ->). destruct (HA _ _ _ Hb) as ((from & sq & d & es0 & Hn) & Hl).
    unfold mod_accdec. rewrite Hn. cbn [pm_from pm_to pm_msg extend_accdec s_is s_pid s_role s_phase s_ls set_out s_out]. do 6 (split; [reflexivity|]). split.
    + intros q. rewrite (et_extend _ _ _ _ _ _ _ _ _ _ es dec Hn Hl). assert (B : beq (l_n (s_ls s)) (l_n (s_ls s)) = true) by (apply beq_spec; reflexivity). rewrite B, andb_true_r. reflexivity.
    + intros f q n sq' ss X. apply In_nth_error in X. destruct X as (j & X). apply (nth_error_In _ j). rewrite Local.upd_nth by (apply nth_error_Some; congruence). destruct (Nat.eqb_spec j i) as [->|]; [congruence|exact X].
  - apply Takeover.lift_bind in H. destruct H as (l1 & H1 & H). apply Takeover.lift_bind in H. destruct H as ([l2 sq] & H2 & H). injection H as <-.
    unfold set_latest_accept_meta in H1. destruct (vset _ _ _) as [v|] eqn:Hv; [|discriminate]. cbn in H1. injection H1 as <-. destruct (v_next _ _ _ _ H2) as (N1 & N2 & N3). cbn in N1, N2, N3, Hv.
    assert (L2 : l_n (s_ls (push (set_ls s l2) p (MAcceptDecide (l_n l2) sq dec es))) = l_n (s_ls s)) by (cbn; exact N1).
    split; [|do 4 (split; [reflexivity|]); split; [exact L2|]; split; [exact N2|]; split].
    + intros q b k. cbn [push s_ls set_out set_ls s_out]. rewrite N3, (LeadLinks.vget_vset _ _ _ _ q Hv). destruct (Nat.eqb_spec q p) as [->|Hq].
      * intros X. injection X as <- <-. split; [exists (s_pid s), sq, dec, es; rewrite nth_error_app2, Nat.sub_diag by lia; cbn; rewrite N1; reflexivity|]. intros j m Hj X. exfalso. assert (j < length (s_out s ++ [mkPM (s_pid s) p (MAcceptDecide (l_n l2) sq dec es)])) by (apply nth_error_Some; cbn in *; congruence).
        rewrite app_length in H. cbn in H. lia.
      * intros X. destruct (HA _ _ _ X) as ((from & sq' & d & es0 & Hn) & Hl). assert (L : k < length (s_out s)) by (apply nth_error_Some; congruence). split; [exists from, sq', d, es0; rewrite nth_error_app1 by exact L; exact Hn|].
        intros j m Hj Hm Ht. destruct (Nat.lt_ge_cases j (length (s_out s))) as [Lj|Lj]; [rewrite nth_error_app1 in Hm by exact Lj; eauto|].
        rewrite nth_error_app2 in Hm by exact Lj. destruct (j - length (s_out s)) as [|i]; cbn in Hm; [injection Hm as <-; cbn in Ht; congruence|destruct i; discriminate].
    + intros q. cbn [push s_out set_out set_ls s_pid]. rewrite et_push, N1. assert (B : beq (l_n (s_ls s)) (l_n (s_ls s)) = true) by (apply beq_spec; reflexivity). rewrite B, andb_true_r. reflexivity.
    + intros f q n sq' ss X. cbn. apply in_or_app. auto.
Qed.
Lemma ad_each dec es ps : NoDup ps -> forall s s', AL s -> for_each s ps (send_acceptdecide_to dec es) = Ok s' ->
  AL s' /\ s_is s' = s_is s /\ s_pid s' = s_pid s /\ s_role s' = s_role s /\ s_phase s' = s_phase s /\ l_n (s_ls s') = l_n (s_ls s) /\ l_proms (s_ls s') = l_proms (s_ls s) /\
  (forall q, entries_to (l_n (s_ls s)) q (s_out s') = entries_to (l_n (s_ls s)) q (s_out s) ++ (if existsb (Nat.eqb q) ps then es else [])) /\
  forall from q n sq ss, In (mkPM from q (MAcceptStopSign n sq ss)) (s_out s) -> In (mkPM from q (MAcceptStopSign n sq ss)) (s_out s').
Proof.
  induction ps as [|p ps IH]; intros ND s s' HA H; cbn [for_each] in H.
  - injection H as <-. split; [exact HA|]. do 6 (split; [reflexivity|]). split; [intros q; cbn; rewrite app_nil_r; reflexivity|auto].
  - apply Takeover.bind_inv in H. destruct H as (s1 & H1 & H). inversion ND as [|? ? N1 N2]; subst. destruct (ad_to _ _ _ _ _ HA H1) as (A1 & A2 & A3 & A4 & A5 & A6 & A7 & A8 & A9).
    destruct (IH N2 _ _ A1 H) as (B1 & B2 & B3 & B4 & B5 & B6 & B7 & B8 & B9). split; [exact B1|]. do 6 (split; [congruence|]). split.
    + intros q. rewrite A6 in B8. rewrite B8, A8, <- app_assoc. f_equal. cbn [existsb]. rewrite (Nat.eqb_sym q p). destruct (Nat.eqb_spec p q) as [->|]; [|reflexivity]. cbn [orb].
      destruct (existsb (Nat.eqb q) ps) eqn:X; [|apply app_nil_r]. apply existsb_exists in X. destruct X as (y & Y1 & Y2). apply Nat.eqb_eq in Y2. subst y. contradiction.
    + intros. auto.
Qed.
(** The block "add to the log, note it, send it". *)
Lemma send_q es st s : AL s -> (la s0 -> la s -> l_n (s_ls s) = l_n (s_ls s0) /\ s_pid s = s_pid s0 /\ ms_log (i_st (s_is s)) = ms_log (i_st (s_is s0)) ++ es /\
    ms_ss (i_st (s_is s)) = match st with Some ss => Some ss | None => ms_ss (i_st (s_is s0)) end /\ forall q, entries_to (l_n (s_ls s0)) q (s_out s) = entries_to (l_n (s_ls s0)) q (s_out s0)) ->
  qr es st (send_acceptdecide s es).
Proof.
  intros HA Hf. destruct (send_acceptdecide s es) as [s'|] eqn:H; [|exact I]. unfold send_acceptdecide in H. apply Takeover.lift_bind in H. destruct H as (ps & Hp & H).
  destruct (LeadLinks.gpf_spec _ _ Hp) as [ND Hi]. destruct (ad_each _ _ _ ND _ _ HA H) as (B1 & B2 & B3 & B4 & B5 & B6 & B7 & B8 & _). split; [exact B1|].
  destruct (s_role s0) eqn:R0; [left; intros [X _]; congruence|]. destruct (s_phase s0) eqn:P0; try (left; intros [_ X]; congruence).
  destruct (s_role s) eqn:R1; [right; left; intros [X _]; congruence|]. destruct (s_phase s) eqn:P1; try (right; left; intros [_ X]; congruence). right. right.
  destruct (Hf (conj R0 P0) (conj R1 P1)) as (F1 & F2 & F3 & F4 & F5). rewrite F1 in B8. constructor; [congruence|congruence|rewrite B2; exact F3|rewrite B2; exact F4|].
  intros q Hq. rewrite B8, F5. f_equal. destruct Hq as [->|[Hq1 Hq2]]; [destruct (existsb _ _); reflexivity|].
  assert (X : existsb (Nat.eqb q) ps = true); [|rewrite X; reflexivity]. apply existsb_exists. exists q. split; [|apply Nat.eqb_refl]. apply Hi. rewrite B6, B7 in *. auto.
Qed.
Definition Qe (s : sp) : Prop := exists es, Q es None s.
Definition qe (r : res sp) : Prop := match r with Ok s => Qe s | Panic _ => True end.
Lemma qr_qe es r : qr es None r -> qe r.
Proof. destruct r; cbn; [|auto]. intros H. exists es. exact H. Qed.
Lemma flushed i r : ms_log (i_st (fst (flush_if_full_batch i r))) = ms_log (i_st i) ++ match r with Some es => es | None => [] end /\
  ms_ss (i_st (fst (flush_if_full_batch i r))) = ms_ss (i_st i) /\ option_map snd (snd (flush_if_full_batch i r)) = r.
Proof. destruct r as [es|]; cbn; [auto|]. rewrite app_nil_r. auto. Qed.
Lemma meta_q s i i0 r : i_st i0 = i_st (s_is s) -> flush_if_full_batch i0 r = i -> Q [] None s ->
  qe (let '(is, r) := i in let s := set_is s is in match r with Some (acc, es) => ls <- lift s (set_accepted_idx (s_ls s) (s_pid s) acc) ;; send_acceptdecide (set_ls s ls) es | None => Ok s end).
Proof.
  intros Hi Hf [HA H]. destruct (flushed i0 r) as (F1 & F2 & F3). rewrite Hf in *. destruct i as [is rr]. cbn [fst snd] in *. rewrite Hi in F1, F2. cbn zeta. destruct rr as [[acc es]|]; cbn in F3.
  - subst r. cbn in F1. apply (qr_qe es). apply q_lift. intros l Hl. cbn [s_ls s_pid set_is] in Hl. destruct (v_acc _ _ _ _ Hl) as (V1 & V2 & V3). apply send_q.
    + apply al_ls; [apply mf_eq; exact V3|]. exact HA.
    + intros L0 L1. destruct H as [H|[H|[G1 G2 G3 G4 G5]]]; [contradiction|contradiction|]. cbn [s_ls set_ls s_pid set_is s_is s_out]. rewrite app_nil_r in G3. split; [congruence|]. split; [exact G2|]. split; [congruence|]. split; [congruence|]. intros q. rewrite G5 by auto. apply app_nil_r.
  - subst r. rewrite app_nil_r in F1. exists []. apply q_is; auto. split; auto.
Qed.
Lemma accept_entry_q s e : Q [] None s -> qe (accept_entry_leader s e).
Proof.
  intros H. unfold accept_entry_leader, append_entry_with_batching. destruct (cache_append_entry (i_ca (s_is s)) e) as [c r] eqn:Hc. eapply meta_q; [|reflexivity|exact H]. reflexivity.
Qed.
Lemma accept_entries_q s es : Q [] None s -> qe (accept_entries_leader s es).
Proof.
  intros H. unfold accept_entries_leader, append_entries_with_batching. destruct (cache_append_entries (i_ca (s_is s)) es) as [c r] eqn:Hc. eapply meta_q; [|reflexivity|exact H]. reflexivity.
Qed.
Lemma flush_leader_q s : Q [] None s -> qe (flush_batch_leader s).
Proof.
  intros H. unfold flush_batch_leader, flush_batch_and_get_entries. destruct (c_batch (i_ca (s_is s))) as [|b l] eqn:Hb; [|unfold take_batched_entries]; (eapply meta_q; [|reflexivity|exact H]; reflexivity).
Qed.
Lemma send_ss_q es st ss b s p : Q es st s -> qr es st (send_accept_stopsign ss b s p).
Proof. intros H. unfold send_accept_stopsign. apply q_lift. intros [l q] Hl. apply v_seq in Hl. apply q_push; [reflexivity|]. apply q_ls3; auto. Qed.
Lemma send_dec_q es st d b s p : Q es st s -> qr es st (send_decide d b s p).
Proof. intros H. unfold send_decide. apply q_lift. intros [l q] Hl. apply v_seq in Hl. apply q_push; [reflexivity|]. apply q_ls3; auto. Qed.
Lemma ss_each ss ps : forall s s', for_each s ps (send_accept_stopsign ss false) = Ok s' ->
  s_pid s' = s_pid s /\ l_n (s_ls s') = l_n (s_ls s) /\ l_proms (s_ls s') = l_proms (s_ls s) /\ (forall m, In m (s_out s) -> In m (s_out s')) /\ forall q, In q ps -> exists sq, In (mkPM (s_pid s) q (MAcceptStopSign (l_n (s_ls s)) sq ss)) (s_out s').
Proof.
  induction ps as [|p ps IH]; intros s s' H; cbn [for_each] in H; [injection H as <-; do 4 (split; auto); intros q []|]. apply Takeover.bind_inv in H. destruct H as (s1 & H1 & H).
  unfold send_accept_stopsign in H1. apply Takeover.lift_bind in H1. destruct H1 as ([l sq] & Hl & H1). injection H1 as <-. apply v_next in Hl. destruct Hl as (V1 & V2 & V3). destruct (IH _ _ H) as (A1 & A2 & A3 & A4 & A5). cbn [push s_pid set_out set_ls s_ls s_out] in *.
  split; [exact A1|]. split; [congruence|]. split; [congruence|]. split; [intros m Hm; apply A4, in_or_app; auto|]. intros q [<-|Hq]; [|rewrite V1 in A5; auto]. exists sq. rewrite <- V1. apply A4, in_or_app. right. left. reflexivity.
Qed.
(** A stop sign was added and sent. *)
Definition stops (ss : stopsign) (s : sp) : Prop := la s0 -> la s -> forall q, prm s q -> exists sq, In (mkPM (s_pid s) q (MAcceptStopSign (l_n (s_ls s)) sq ss)) (s_out s).
Lemma accept_ss_q s ss : Q [] None s -> match accept_stopsign_leader s ss with Ok s' => exists es, Q es (Some ss) s' /\ stops ss s' | Panic _ => True end.
Proof.
  intros [HA H]. destruct (accept_stopsign_leader s ss) as [s'|] eqn:He; [|exact I]. unfold accept_stopsign_leader in He.
  assert (X : exists es, ms_log (i_st (fst (i_append_stopsign (s_is s) ss))) = ms_log (i_st (s_is s)) ++ es /\ ms_ss (i_st (fst (i_append_stopsign (s_is s) ss))) = Some ss /\ match snd (i_append_stopsign (s_is s) ss) with Some (_, l) => l = es | None => es = [] end).
  { unfold i_append_stopsign. destruct (cache_append_stopsign (i_ca (s_is s)) ss) as [c r]. destruct (flushed (set_ca (s_is s) c) r) as (F1 & F2 & F3). destruct (flush_if_full_batch _ r) as [i m]. cbn [fst snd] in *. exists (match r with Some l => l | None => [] end).
    split; [exact F1|]. split; [reflexivity|]. destruct m as [[a l]|]; cbn in F3; subst r; reflexivity. }
  destruct X as (es & X1 & X2 & X3). destruct (i_append_stopsign (s_is s) ss) as [is r]. cbn [fst snd] in *. cbn zeta in He. apply Takeover.bind_inv in He. destruct He as (s1 & H1 & He).
  assert (Q1 : Q es (Some ss) s1).
  { destruct r as [[a l]|].
    - subst l. assert (Y : qr es (Some ss) (send_acceptdecide (set_is s is) es)); [|rewrite H1 in Y; exact Y]. apply send_q; [exact HA|]. intros L0 L1. destruct H as [H|[H|[G1 G2 G3 G4 G5]]]; [contradiction|contradiction|]. cbn [s_ls s_pid set_is s_is s_out]. rewrite app_nil_r in G3.
      split; [exact G1|]. split; [exact G2|]. split; [congruence|]. split; [exact X2|]. intros q. rewrite G5 by auto. apply app_nil_r.
    - subst es. injection H1 as <-. split; [exact HA|]. destruct H as [H|[H|[G1 G2 G3 G4 G5]]]; [auto|right; left; exact H|]. right. right. rewrite app_nil_r in *. constructor; auto. cbn. rewrite X1, app_nil_r. exact G3. }
  apply Takeover.lift_bind in He. destruct He as (l & Hl & He). apply v_acc in Hl. apply Takeover.lift_bind in He. destruct He as (ps & Hp & He). assert (Q2 : Q es (Some ss) (set_ls s1 l)) by (apply q_ls3; auto).
  exists es. split.
  - pose proof (q_each es (Some ss) (send_accept_stopsign ss false) ps (fun s p => send_ss_q es (Some ss) ss false s p) _ Q2) as Y. rewrite He in Y. exact Y.
  - intros _ _ q [P1 P2]. destruct (ss_each _ _ _ _ He) as (A1 & A2 & A3 & A4 & A5). destruct (LeadLinks.gpf_spec _ _ Hp) as [_ Hi]. rewrite A2, A3 in *. rewrite A1. apply A5. apply Hi. auto.
Qed.
Lemma accsync_q es st s p : Q es st s -> qr es st (send_accsync s p).
Proof.
  intros H. unfold send_accsync. cbn zeta. do 3 (apply q_lift; intros ? _). apply q_lift; intros l1 E1. apply v_incr in E1. apply q_lift. intros [l q] E2. apply v_next in E2. apply q_push; [reflexivity|]. apply q_ls3; auto.
  destruct E1 as (A & B & C), E2 as (A' & B' & C'). split; [congruence|]. split; congruence.
Qed.
Lemma prepares_q es st l : forall s, Q es st s -> Q es st (fold_left send_prepare l s).
Proof. induction l as [|p l IH]; cbn; intros s H; auto. apply IH, q_push; auto. Qed.
Lemma majority_q s : ~ la s0 -> AL s -> qr [] None (handle_majority_promises s).
Proof.
  intros N H. unfold handle_majority_promises, take_max_promise_sync. destruct (sync_log _ _ _ _) as [[is acc]|]; [|exact I]. cbn [bind].
  match goal with |- qr _ _ (let '(_, _) := ?e in _) => assert (X : AL (fst e)); [|destruct e as [s1 acc1]; cbn [fst] in X] end.
  { set (s2 := set_is _ is). assert (H2 : AL s2) by exact H. destruct (accepted_reconfiguration s2); [exact H2|].
    match goal with |- AL (fst (let '(_, _) := ?e in _)) => assert (X : AL (fst e)); [|destruct e as [s3 acc3]; cbn [fst] in X] end.
    { destruct (s_bprops s2); [exact H2|]. cbn. exact H2. }
    destruct (s_bss s3); exact X. }
  apply q_lift. intros l El. apply v_acc in El. apply q_lift. intros ps _. apply q_each; [intros; apply accsync_q; auto|]. apply q_ls3; [exact El|]. split; [exact X|]. auto.
Qed.
Lemma accepted_q s n a from : Q [] None s -> qr [] None (handle_accepted s n a from).
Proof.
  intros H. unfold handle_accepted. destruct (_ && _); [|exact H]. apply q_lift. intros l El. apply v_acc in El. cbn zeta. assert (H1 : Q [] None (set_ls s l)) by (apply q_ls3; auto). destruct (_ && _); [|exact H1].
  apply q_lift. intros ps _. apply q_each; [|apply q_is; auto]. intros s1 p K. unfold handle_accepted_to. apply q_lift. intros [k|] _; [apply q_mod; [apply fine_redecide|apply keeping_redecide|exact K]|apply send_dec_q, K].
Qed.
Lemma resend_leader_q s : Q [] None s -> qr [] None (resend_messages_leader s).
Proof.
  intros H. unfold resend_messages_leader. destruct (s_phase s); try exact H; [apply q_lift; intros ps _; apply prepares_q, H|].
  apply q_bind; [|intros s1 H1; apply q_lift; intros ps _; apply prepares_q; exact H1]. destruct (i_ss _); [|exact H]. apply q_lift. intros ps _. apply q_each; [|exact H].
  intros s2 p H1. unfold resend_ss_to. destruct (stopsign_is_decided _); [apply send_dec_q, H1|]. apply q_lift. intros a _. destruct (_ =? _); [exact H1|apply send_ss_q, H1].
Qed.
End Fix.
Lemma leader_q s n : AL s -> match handle_leader s n with Ok s' => s' = s \/ (AL s' /\ ~ la s') | Panic _ => True end.
Proof.
  intros H. unfold handle_leader. destruct (_ || _); [left; reflexivity|]. destruct (_ =? _); [|right; split; [exact H|intros [X _]; discriminate]]. cbn zeta. destruct (ls_set_promise _ _ _ _) as [[l m]|] eqn:El; [|exact I]. cbn [lift bind].
  right. rewrite Takeover.push_all_f. split; [|intros [_ X]; discriminate]. apply v_setp in El. destruct El as [_ El]. intros q b k. cbn [s_ls set_out set_state set_ls]. rewrite El. cbn [l_accmeta ls_with]. unfold vget. destruct (pid_to_idx q); [|discriminate].
  intros X. apply nth_error_In, repeat_spec in X. discriminate.
Qed.

(** ** Followers *)
Lemma al_reconnected s p : AL s -> AL (reconnected s p).
Proof. intros H. unfold reconnected. destruct (_ =? s_pid s); [exact H|]. apply al_push; [reflexivity|]. destruct (_ =? _); exact H. Qed.
Lemma recon_q s p : AL s -> Q s [] None (reconnected s p).
Proof.
  intros H. unfold reconnected. destruct (_ =? s_pid s); [apply q_refl; exact H|]. apply q_push; [reflexivity|]. destruct (_ =? _); [|apply q_refl; exact H]. apply q_fol; [exact H|reflexivity].
Qed.
Lemma valid_q s n : AL s -> Q s [] None (fst (check_valid_ballot s n)).
Proof. intros H. unfold check_valid_ballot. destruct (bcmp _ _); [apply q_refl; exact H|apply recon_q, H|apply q_push; [reflexivity|apply q_refl, H]]. Qed.
Lemma al_seq s q from : AL s -> AL (fst (handle_sequence_num s q from)).
Proof. intros H. unfold handle_sequence_num. destruct (check_msg_status _ _); [exact H|apply al_reconnected, H|exact H]. Qed.
Lemma fol_seq s q from : s_role s = Follower -> s_role (fst (handle_sequence_num s q from)) = Follower.
Proof. intros H. unfold handle_sequence_num, reconnected. destruct (check_msg_status _ _); [exact H| |exact H]. cbn. destruct (_ =? s_pid s); [exact H|]. destruct (_ =? _); [reflexivity|exact H]. Qed.
Definition alf (s : sp) : Prop := AL s /\ s_role s = Follower.
Definition alfr (r : res sp) : Prop := match r with Ok s => alf s | Panic _ => True end.
Lemma alf_q s0 r : alfr r -> qr s0 [] None r.
Proof. destruct r; cbn; [|auto]. intros [A B]. apply q_fol; auto. Qed.
Lemma reply_f s n a : alf s -> alfr (reply_accepted s n a).
Proof.
  intros [A B]. unfold reply_accepted. destruct (get_latest_accepted s n) as [[k|]|]; cbn [lift bind]; [|split; [|exact B]|exact I].
  - split; [apply al_mod; [apply fine_reaccept|exact A]|]. unfold mod_accdec. destruct (nth_error _ _); exact B.
  - apply (al_push (set_lam s _)); [reflexivity|exact A].
Qed.
Lemma reply_al s n a : AL s -> match reply_accepted s n a with Ok s' => AL s' | Panic _ => True end.
Proof.
  intros A. unfold reply_accepted. destruct (get_latest_accepted s n) as [[k|]|]; cbn [lift bind]; [|apply (al_push (set_lam s _)); [reflexivity|exact A]|exact I].
  apply al_mod; [apply fine_reaccept|exact A].
Qed.
Lemma upd_dec_al s d : AL s -> AL (fst (update_decided s d)).
Proof. intros H. unfold update_decided. destruct (_ <=? _); [exact H|]. destruct (_ <? _); [|exact H]. destruct (flush_batch _); exact H. Qed.
Lemma upd_dec_f s d : alf s -> alf (fst (update_decided s d)).
Proof. intros H. unfold update_decided. destruct (_ <=? _); [exact H|]. destruct (_ <? _); [|exact H]. destruct (flush_batch _); exact H. Qed.
Lemma forward_al s es : AL s -> AL (forward_proposals s es).
Proof. intros H. unfold forward_proposals. destruct (_ && _); [apply al_push; [reflexivity|exact H]|exact H]. Qed.
Lemma q_same s0 es st s s' : s_is s' = s_is s -> s_ls s' = s_ls s -> s_out s' = s_out s -> s_pid s' = s_pid s -> s_role s' = s_role s -> s_phase s' = s_phase s -> Q s0 es st s -> Q s0 es st s'.
Proof.
  intros E1 E2 E3 E4 E5 E6 [A B]. split; [unfold AL in *; rewrite E2, E3; exact A|]. destruct B as [B|[B|[F1 F2 F3 F4 F5]]]; [auto|right; left; unfold la; rewrite E5, E6; exact B|].
  right. right. constructor; try congruence. intros q Hq. rewrite E3. apply F5. unfold prm in *. rewrite E2 in Hq. exact Hq.
Qed.
Lemma forward_q s0 s es : Q s0 [] None s -> Q s0 [] None (forward_proposals s es).
Proof. intros H. unfold forward_proposals. destruct (_ && _); [apply q_push; [reflexivity|exact H]|revert H; apply q_same; reflexivity]. Qed.
Lemma forward_ss_q s0 s ss : Q s0 [] None s -> Q s0 [] None (forward_stopsign s ss).
Proof. intros H. unfold forward_stopsign. destruct (_ && _); [apply q_push; [reflexivity|exact H]|]. destruct (s_bss s); [exact H|revert H; apply q_same; reflexivity]. Qed.
Lemma guard_fol v s r (p : bool) : (v && (role_eqb (s_role s) Follower && p)) = true -> r = s_role s -> r = Follower.
Proof. intros H ->. apply andb_true_iff in H. destruct H as [_ H]. apply andb_true_iff in H. destruct H as [H _]. destruct (s_role s); [reflexivity|discriminate]. Qed.

(** Where a step without compaction leads. *)
Definition Step (s0 : sp) (s : sp) : Prop := exists es st, Q s0 es st s /\ forall ss, st = Some ss -> stops s0 ss s.
Definition stepr (s0 : sp) (r : res sp) : Prop := match r with Ok s => Step s0 s | Panic _ => True end.
Lemma q_step s0 r : qr s0 [] None r -> stepr s0 r.
Proof. destruct r; cbn; [|auto]. intros H. exists [], None. split; [exact H|discriminate]. Qed.
Lemma qe_step s0 r : qe s0 r -> stepr s0 r.
Proof. destruct r; cbn; [|auto]. intros [es H]. exists es, None. split; [exact H|discriminate]. Qed.
Lemma q1 s0 s : Q s0 [] None s -> Step s0 s.
Proof. intros H. exists [], None. split; [exact H|discriminate]. Qed.

Lemma handle_q s m : AL s -> (forall c, pm_msg m <> MCompaction c) -> (forall n q d, pm_msg m = MDecide n q d -> s_role s = Leader -> bcmp (i_prom (s_is s)) n = Eq -> False) -> stepr s (sp_handle s m).
Proof.
  intros H Hc Hd. pose proof (q_refl s H) as R. unfold sp_handle. destruct (pm_msg m) as [n|n d na ac|pr|n q d sy|n q d es|n a|n|n q d|es|cp|n q ss|ss] eqn:Hm.
  - apply q_step. unfold handle_preparereq. destruct (_ && _); [|exact R]. apply q_lift. intros l El. apply q_lift. intros l2 E2. apply q_push; [reflexivity|]. apply v_prom in El. destruct El as [E3 E4].
    unfold set_latest_accept_meta in E2. destruct (vset _ _ _) as [v|] eqn:Hv; [|discriminate]. injection E2 as <-. cbn in Hv. apply q_ls0; [exact E3| |exact R]. intros q b k. cbn. rewrite (LeadLinks.vget_vset _ _ _ _ q Hv). destruct (_ =? _); [discriminate|]. rewrite E4. auto.
  - apply q_step. unfold handle_prepare. cbn zeta. destruct (_ || _); [|exact R]. match goal with |- qr _ _ _ (bind ?e _) => destruct e; [|exact I] end. cbn [bind]. apply q_push; [reflexivity|]. apply q_fol; [exact H|reflexivity].
  - apply q_step. destruct (s_role s) eqn:Hr; [exact R|]. destruct (s_phase s) eqn:Hp; try exact R.
    + unfold handle_promise_prepare. destruct (beq _ _); [|exact R]. apply q_lift. intros [ls mj] El. apply v_setp in El. destruct El as [E1 E2].
      destruct mj; [|apply q_ls0; [exact E1|apply mf_eq, E2|exact R]]. apply majority_q; [intros [_ X]; congruence|]. apply al_ls; [apply mf_eq, E2|exact H].
    + unfold handle_promise_accept. destruct (beq _ _); [|exact R]. apply q_lift. intros [ls mj] El. apply v_setp in El. destruct El as [E1 E2]. apply accsync_q. apply q_ls0; [exact E1|apply mf_eq, E2|exact R].
  - apply q_step. unfold handle_acceptsync. pose proof (valid_q s n H) as X. destruct (check_valid_ballot s n) as [s1 v]. cbn [fst] in X. destruct (_ && _); [|exact X]. destruct (sync_log _ _ _ _) as [[is acc]|]; [|exact I]. cbn [bind].
    apply q_push; [reflexivity|]. apply q_fol; [|reflexivity]. match goal with |- AL (set_lam (set_cseq (set_state ?a _ _) _) _) => assert (Y : AL a); [|exact Y] end.
    destruct (i_ss _); [exact (proj1 X)|]. unfold forward_buffered_proposals. destruct (s_bprops _); [exact (proj1 X)|]. apply forward_al; exact (proj1 X).
  - apply q_step. unfold handle_acceptdecide. pose proof (valid_q s n H) as X. destruct (check_valid_ballot s n) as [s1 v]. cbn [fst] in X. destruct (_ && _) eqn:Hg; [|exact X]. pose proof (guard_fol _ _ _ _ Hg eq_refl) as F1.
    pose proof (al_seq s1 q (b_pid n) (proj1 X)) as Y. pose proof (fol_seq s1 q (b_pid n) F1) as F2. destruct (handle_sequence_num _ _ _) as [s2 st]. cbn [fst] in Y, F2. destruct st; try (apply q_fol; [exact Y|exact F2]). destruct (append_entries_and_get_accepted_idx _ _) as [is r1].
    pose proof (upd_dec_f (set_is s2 is) d (conj Y F2)) as Z. destruct (update_decided _ _) as [s3 r2]. cbn [fst] in Z. apply alf_q. destruct (match r2 with Some _ => r2 | None => r1 end); [apply reply_f|]; exact Z.
  - apply q_step. apply accepted_q; exact R.
  - apply q_step. unfold handle_notaccepted. destruct (_ && _); [|exact R]. apply q_lift. intros l El. apply v_prom in El. destruct El as [E1 E2]. apply q_ls0; [exact E1|apply mf_eq, E2|exact R].
  - apply q_step. unfold handle_decide. pose proof (valid_q s n H) as X. assert (F0 : snd (check_valid_ballot s n) = true -> s_role (fst (check_valid_ballot s n)) = Follower).
    { unfold check_valid_ballot. destruct (bcmp _ n) eqn:B; try discriminate. intros _. cbn. destruct (s_role s) eqn:Hr; [reflexivity|]. destruct (Hd n q d eq_refl eq_refl B). }
    destruct (check_valid_ballot s n) as [s1 v]. cbn [fst snd] in X, F0. destruct (_ && _) eqn:Hg; [|exact X]. apply andb_true_iff in Hg. pose proof (F0 (proj1 Hg)) as F1.
    pose proof (al_seq s1 q (b_pid n) (proj1 X)) as Y. pose proof (fol_seq s1 q (b_pid n) F1) as F2. destruct (handle_sequence_num _ _ _) as [s2 st]. cbn [fst] in Y, F2. destruct st; try (apply q_fol; [exact Y|exact F2]).
    pose proof (upd_dec_f s2 d (conj Y F2)) as Z. destruct (update_decided _ _) as [s3 r2]. cbn [fst] in Z. apply alf_q. destruct r2; [apply reply_f|]; exact Z.
  - unfold handle_forwarded_proposal. destruct (accepted_reconfiguration s); [apply q1, R|]. destruct (s_role s) eqn:Hr, (s_phase s) eqn:Hp; try (apply q1, forward_q; exact R); [apply q1; revert R; apply q_same; reflexivity|apply qe_step, accept_entries_q; exact R].
  - destruct (Hc cp eq_refl).
  - apply q_step. unfold handle_accept_stopsign. pose proof (valid_q s n H) as X. destruct (check_valid_ballot s n) as [s1 v]. cbn [fst] in X. destruct (_ && _) eqn:Hg; [|exact X]. pose proof (guard_fol _ _ _ _ Hg eq_refl) as F1.
    pose proof (al_seq s1 q (b_pid n) (proj1 X)) as Y. pose proof (fol_seq s1 q (b_pid n) F1) as F2. destruct (handle_sequence_num _ _ _) as [s2 st]. cbn [fst] in Y, F2. destruct st; try (apply q_fol; [exact Y|exact F2]).
    destruct (i_set_stopsign _ _) as [[is acc]|]; [|exact I]. cbn [bind]. apply alf_q, reply_f. split; [exact Y|exact F2].
  - unfold handle_forwarded_stopsign. destruct (accepted_reconfiguration s); [apply q1, R|]. destruct (s_role s) eqn:Hr, (s_phase s) eqn:Hp; try (apply q1, forward_ss_q; exact R); [apply q1; revert R; apply q_same; reflexivity|].
    pose proof (accept_ss_q s s ss R) as X. destruct (accept_stopsign_leader s ss) as [s'|]; [|exact I]. destruct X as (es & X1 & X2). exists es, (Some ss). split; [exact X1|]. intros x Hx. injection Hx as <-. exact X2.
Qed.
Lemma handle_al s m : AL s -> match sp_handle s m with Ok s' => AL s' | Panic _ => True end.
Proof.
  intros H. destruct (pm_msg m) as [n|n d na ac|pr|n q d sy|n q d es|n a|n|n q d|es|cp|n q ss|ss] eqn:Hm;
    try (assert (X : stepr s (sp_handle s m)) by (apply handle_q; [exact H|rewrite Hm; discriminate|rewrite Hm; discriminate]); destruct (sp_handle s m); [destruct X as (es0 & st0 & X & _); exact (proj1 X)|exact I]).
  { unfold sp_handle. rewrite Hm. unfold handle_decide. pose proof (proj1 (valid_q s n H)) as X. destruct (check_valid_ballot s n) as [s1 v]. cbn [fst] in X. destruct (_ && _); [|exact X].
    pose proof (al_seq s1 q (b_pid n) X) as Y. destruct (handle_sequence_num _ _ _) as [s2 st]. cbn [fst] in Y. destruct st; try exact Y.
    pose proof (upd_dec_al s2 d Y) as Z. destruct (update_decided _ _) as [s3 r2]. cbn [fst] in Z. destruct r2; [apply reply_al|]; exact Z. }
  unfold sp_handle. rewrite Hm. unfold handle_compaction, sp_snapshot. destruct cp as [i|i].
  - destruct (try_trim _ _) as [[is r]|]; [exact H|exact I].
  - destruct (try_snapshot _ _) as [[is r]|]; [|exact I]. destruct r; exact H.
Qed.
Lemma resend_q s0 s : Q s0 [] None s -> qr s0 [] None (resend_message_timeout s).
Proof.
  intros H. unfold resend_message_timeout. destruct (s_role s) eqn:Hr; [|apply resend_leader_q; exact H].
  unfold resend_messages_follower, send_preparereq_to_all_peers. destruct (s_phase s); try exact H; [|apply q_push_all; [reflexivity|exact H]]. destruct (s_cprom s); [apply q_push; [reflexivity|exact H]|]. apply q_push_all; [reflexivity|]. apply q_fol; [exact (proj1 H)|reflexivity].
Qed.
Lemma flush_q s0 s : Q s0 [] None s -> qe s0 (flush_batch_timeout s).
Proof.
  intros H. unfold flush_batch_timeout. destruct (s_role s) eqn:Hr, (s_phase s) eqn:Hp; try (exists []; exact H); [|apply flush_leader_q; exact H].
  unfold flush_batch_follower. destruct (flush_batch _) as [is a]. apply (qr_qe _ []). apply alf_q. destruct (_ <? _); [apply reply_f|]; (split; [exact (proj1 H)|exact Hr]).
Qed.
Lemma tick_q0 o o' : AL (o_sp o) -> tick o = Ok o' -> exists s2, Q (o_sp o) [] None s2 /\ if due (o_fclk o) then flush_batch_timeout s2 = Ok (o_sp o') else o_sp o' = s2.
Proof.
  intros H Ht. apply PropAnswer.tick3 in Ht. destruct Ht as (s1 & s2 & H1 & H2 & H3).
  assert (Q1 : Q (o_sp o) [] None s1).
  { assert (X : s1 = o_sp o \/ exists n, handle_leader (o_sp o) n = Ok s1).
    { destruct (due (o_eclk o)); [|left; apply H1]. destruct (hb_timeout _ _ _) as [b [n|]]; destruct H1 as [_ H1]; eauto. }
    destruct X as [->|(n & X)]; [apply q_refl; exact H|]. pose proof (leader_q (o_sp o) n H) as Y. rewrite X in Y. destruct Y as [->|[Y1 Y2]]; [apply q_refl; exact H|apply q_out; auto]. }
  assert (Q2 : Q (o_sp o) [] None s2). { destruct (due (o_rclk o)); [|subst s2; exact Q1]. pose proof (resend_q _ _ Q1) as Y. rewrite H2 in Y. exact Y. }
  exists s2. split; [exact Q2|exact H3].
Qed.
Lemma tick_q o o' : AL (o_sp o) -> tick o = Ok o' -> Step (o_sp o) (o_sp o').
Proof.
  intros H Ht. destruct (tick_q0 _ _ H Ht) as (s2 & Q2 & H3). destruct (due (o_fclk o)); [|rewrite H3; apply q1; exact Q2]. pose proof (flush_q _ _ Q2) as Y. rewrite H3 in Y. destruct Y as (es & Y). exists es, None. split; [exact Y|discriminate].
Qed.
Lemma exec_q o c o' r : AL (o_sp o) -> ~ compacts c -> ~ echoes o c -> exec o c = Ok (o', r) -> Step (o_sp (start_call o)) (o_sp o').
Proof.
  intros H0 Hc Hd He. assert (H : AL (o_sp (start_call o))) by exact H0. pose proof (q_refl _ H) as R. unfold exec in He. destruct c as [e|cc0 meta| |i|i l|q| |q|m]; cbn [exec_call] in He.
  - assert (X : match sp_append (o_sp (start_call o)) e with Ok (s, _) => Step (o_sp (start_call o)) s | Panic _ => True end); [|destruct (sp_append _ _) as [[s x]|]; [|discriminate]; injection He as <- _; exact X].
    unfold sp_append. destruct (accepted_reconfiguration _); [apply q1, R|]. assert (X : stepr (o_sp (start_call o)) (propose_entry (o_sp (start_call o)) e)); [|destruct (propose_entry _ _); exact X].
    unfold propose_entry. destruct (s_role (o_sp (start_call o))) eqn:Hr, (s_phase (o_sp (start_call o))); try (apply q1, forward_q; exact R); [apply q1; revert R; apply q_same; reflexivity|apply qe_step, accept_entry_q; exact R].
  - unfold reconfigure in He. destruct (cluster_validate cc0); [|injection He as <- _; apply q1, R].
    assert (X : match sp_reconfigure (o_sp (start_call o)) cc0 meta with Ok (s, _) => Step (o_sp (start_call o)) s | Panic _ => True end); [|destruct (sp_reconfigure _ _ _) as [[s x]|]; [|discriminate]; injection He as <- _; exact X].
    unfold sp_reconfigure. destruct (accepted_reconfiguration _); [apply q1, R|]. cbn zeta.
    match goal with |- context [bind (A := sp) ?e _] => assert (X : stepr (o_sp (start_call o)) e); [|destruct e; exact X] end.
    destruct (s_role (o_sp (start_call o))) eqn:Hr, (s_phase (o_sp (start_call o))); try (apply q1, forward_ss_q; exact R); [apply q1; revert R; apply q_same; reflexivity|].
    match goal with |- context [accept_stopsign_leader ?a ?b] => pose proof (accept_ss_q _ a b R) as X; destruct (accept_stopsign_leader a b) as [s'|]; [|exact I]; destruct X as (es & X1 & X2); exists es, (Some b) end.
    split; [exact X1|]. intros x Hx. injection Hx as <-. exact X2.
  - destruct (tick _) as [o1|] eqn:Ht; [|discriminate]. injection He as <- _. apply tick_q; auto.
  - destruct (Hc I).
  - destruct (Hc I).
  - injection He as <- _. apply q1, recon_q, H.
  - unfold try_become_leader in He. cbn zeta in He. match type of He with context [handle_leader ?a ?b] => pose proof (leader_q a b H) as X; destruct (handle_leader a b) as [s1|]; [|discriminate] end. injection He as <- _. cbn [o_sp set_sp].
    destruct X as [->|[X1 X2]]; [apply q1; revert R; apply q_same; reflexivity|apply q1, q_out; auto].
  - injection He as <- _. apply q1, R.
  - unfold handle_incoming in He. destruct m as [m|b]; [|injection He as <- _; apply q1, R]. assert (X : stepr (o_sp (start_call o)) (sp_handle (o_sp (start_call o)) m)) by (apply handle_q; [exact H|intros c E0; apply Hc; cbn; rewrite E0; exact I|intros n q d E0 _ B; apply Hd; cbn; rewrite E0; apply PropAnswer.cmp_round; exact B]).
    destruct (sp_handle _ m) as [s1|]; [|discriminate]. injection He as <- _. exact X.
Qed.
Lemma exec_al o c o' r : AL (o_sp o) -> exec o c = Ok (o', r) -> AL (o_sp o').
Proof.
  intros H He. assert (H1 : AL (o_sp (start_call o))) by exact H. assert (X : ~ compacts c -> ~ echoes o c -> AL (o_sp o')) by (intros N N2; destruct (exec_q _ _ _ _ H N N2 He) as (es & st & Y & _); exact (proj1 Y)).
  destruct c as [e|cc0 meta| |i|i l|q| |q|[m|m]]; try (apply X; intros Y; exact Y); try (apply X; intros Y; exact Y); clear X; unfold exec in He; cbn [exec_call] in He.
  - assert (X : match sp_trim (o_sp (start_call o)) i with Ok (s, _) => AL s | Panic _ => True end); [|destruct (sp_trim _ _) as [[s x]|]; [|discriminate]; injection He as <- _; exact X].
    unfold sp_trim. destruct (s_role (o_sp (start_call o))); [exact H1|]. destruct (get_min_all_accepted_idx _) as [mn|]; [|exact I]. cbn [lift bind].
    destruct i as [i|]; [destruct (i <=? mn); [|exact H1]|]; (destruct (try_trim _ _) as [[is x]|]; [|exact I]; cbn [bind]; destruct x; [exact H1|]; apply al_push_all; [reflexivity|exact H1]).
  - unfold sp_snapshot in He. destruct (try_snapshot _ _) as [[is x]|]; [|discriminate]. cbn [bind] in He. destruct x; [injection He as <- _; exact H1|]. destruct l; injection He as <- _; [exact H1|]. apply al_push_all; [reflexivity|exact H1].
  - unfold handle_incoming in He. pose proof (handle_al (o_sp (start_call o)) m H1) as X. destruct (sp_handle _ m) as [s1|]; [|discriminate]. injection He as <- _. exact X.
Qed.
Lemma state_al o : server_state o -> AL (o_sp o).
Proof.
  intros (cc & sc & o0 & Hb & Hl).
  assert (B : forall cc sc st o, build cc sc st = BOk o -> AL (o_sp o)).
  { clear. intros cc sc st o Hx. unfold build in Hx. destruct (config_validate cc sc); [|discriminate]. unfold sp_with in Hx. destruct (peers_of cc (sc_pid sc)); [discriminate|].
    destruct (ms_prom st); injection Hx as <-; intros q x k; cbn; unfold vget; (destruct (pid_to_idx q); [|discriminate]); intros X; apply nth_error_In, repeat_spec in X; discriminate. }
  assert (H0 := B _ _ _ _ Hb). clear Hb. induction Hl as [|o o1 o2 Hl IH Hs]; [auto|]. specialize (IH H0). destruct Hs as [o1 c o' r He|o1 buf o' l Ht|o1 c st cc1 sc1 o' Hin Hb].
  - eapply exec_al; eauto.
  - unfold take_outgoing_messages, sp_take_outgoing in Ht. destruct buf; injection Ht as <- _; intros q b k; cbn; unfold vget; (destruct (pid_to_idx q); [|discriminate]); intros X; apply nth_error_In, repeat_spec in X; discriminate.
  - eapply B; eauto.
Qed.

(** C67.  What a leader in the accept phase adds to its log in a call or with a message is in its queue for every
    follower that has promised: the entries queued for the follower grow by exactly these entries, in order.
    A stop sign is queued too. *)
Theorem C67_log_is_sent :
  forall o c o' r, server_state o -> exec o c = Ok (o', r) -> ~ compacts c -> ~ echoes o c -> leading o -> leading o' ->
  leader_ballot o' = leader_ballot o /\
  exists es, ms_log (storage o') = ms_log (storage o) ++ es /\
    (forall q, has_promised o' q -> entries_to (leader_ballot o) q (outgoing o') = entries_to (leader_ballot o) q (outgoing o) ++ es) /\
    (ms_ss (storage o') = ms_ss (storage o) \/ exists ss, ms_ss (storage o') = Some ss /\
       forall q, has_promised o' q -> exists sq, In (mkPM (own_pid o) q (MAcceptStopSign (leader_ballot o) sq ss)) (outgoing o')).
Proof.
  intros o c o' r Hs He Hc Hd L0 L1. destruct (exec_q o c o' r (state_al o Hs) Hc Hd He) as (es & st & (_ & HQ) & Hst).
  assert (A0 : la (o_sp (start_call o))) by (unfold leading, role_of in L0; injection L0 as X Y; split; [exact X|exact Y]). assert (A1 : la (o_sp o')) by (unfold leading, role_of in L1; injection L1 as X Y; split; [exact X|exact Y]).
  destruct HQ as [X|[X|[F1 F2 F3 F4 F5]]]; [contradiction|contradiction|]. split; [exact F1|]. exists es. split; [exact F3|].
  assert (P : forall q, has_promised o' q -> prm (o_sp o') q). { intros q (P1 & m & P2 & P3). split; [exact P1|]. exists m. unfold vget, pid_to_idx, sub_chk. destruct (Nat.leb_spec 1 q); [exact P3|lia]. }
  split; [intros q Hq; apply F5; auto|]. destruct st as [ss|]; [|left; exact F4]. right. exists ss. split; [exact F4|]. intros q Hq. destruct (Hst ss eq_refl A0 A1 q (P q Hq)) as (sq & X). exists sq. rewrite F1, F2 in X. exact X.
Qed.

(** In a cluster (under H1 and H2) the echo does not occur. *)
Theorem C67_log_is_sent_in_clusters :
  forall cc scs l s p o ev c o' r, good_config cc scs -> all_steps h1h2 cc (init_sys cc scs) l -> reaches cc scs l s ->
  nodes s p = Some o -> event_call s p ev = Some c -> exec o c = Ok (o', r) -> ~ compacts c -> leading o -> leading o' ->
  leader_ballot o' = leader_ballot o /\
  exists es, ms_log (storage o') = ms_log (storage o) ++ es /\
    (forall q, has_promised o' q -> entries_to (leader_ballot o) q (outgoing o') = entries_to (leader_ballot o) q (outgoing o) ++ es) /\
    (ms_ss (storage o') = ms_ss (storage o) \/ exists ss, ms_ss (storage o') = Some ss /\
       forall q, has_promised o' q -> exists sq, In (mkPM (own_pid o) q (MAcceptStopSign (leader_ballot o) sq ss)) (outgoing o')).
Proof.
  intros cc scs l s p o ev c o' r (Hv & H0 & _) A R N Hc He Hn L0 L1. apply (C67_log_is_sent o c o' r); auto; [eapply PropLocal.cluster_server_state; eauto|].
  destruct (Agree.one_moment cc Hv H0 scs l s A R) as (G & S). pose proof (PropChosen.event_apt cc G s p o ev c S N Hc) as X. intros Y. unfold leading, role_of in L0. injection L0 as L0 _.
  unfold echoes in Y. destruct c as [| | | | | | | |[m|m]]; try contradiction. cbn in X. destruct (pm_msg m) as [| | | | | | |n q d| | | |]; try contradiction. apply X; [exact L0|].
  apply PropBasic.C15_ballot_order_lexicographic. destruct Y as (Y1 & Y2 & Y3). change (i_prom (s_is (o_sp o))) with (get_promise o). auto.
Qed.

(** A flush timeout in the accept phase leaves nothing in the batch, at leaders and followers. *)
Theorem C67_flush_timeout :
  forall o o' r, server_state o -> exec o CTick = Ok (o', r) -> flush_due o -> snd (role_of o') = PhAccept -> held o' = ms_log (storage o').
Proof.
  intros o o' r Hs He Hd Hp. assert (X : c_batch (i_ca (s_is (o_sp o'))) = []); [|unfold held; rewrite X; apply app_nil_r].
  unfold exec in He. cbn [exec_call] in He. destruct (tick _) as [o1|] eqn:Ht; [|discriminate]. injection He as <- _. destruct (tick_q0 _ _ (state_al o Hs : AL (o_sp (start_call o))) Ht) as (s2 & [HA _] & H3).
  replace (due (o_fclk (start_call o))) with true in H3 by (symmetry; apply Nat.eqb_eq; exact Hd). unfold role_of in Hp. cbn in Hp. unfold flush_batch_timeout in H3.
  destruct (s_role s2), (s_phase s2) eqn:P2; try (injection H3 as H3; rewrite <- H3 in Hp; congruence).
  - unfold flush_batch_follower, flush_batch in H3. destruct (take_batched_entries (i_ca (s_is s2))) as [c es] eqn:Hc. injection Hc as <- <-.
    destruct (append_entries_without_batching _ _) as [is a] eqn:Ha. assert (Y : c_batch (i_ca is) = []) by (injection Ha as <- _; reflexivity). destruct (_ <? _); [|injection H3 as <-; exact Y].
    unfold reply_accepted in H3. destruct (get_latest_accepted _ _) as [[k|]|]; cbn [lift bind] in H3; try discriminate; injection H3 as <-; [|exact Y]. unfold mod_accdec. destruct (nth_error _ _); exact Y.
  - unfold flush_batch_leader in H3. destruct (flush_batch_and_get_entries (s_is s2)) as [is m] eqn:Hf. assert (Y : c_batch (i_ca is) = []).
    { unfold flush_batch_and_get_entries in Hf. destruct (c_batch _) eqn:Hb; [injection Hf as <- _; exact Hb|]. injection Hf as <- _. reflexivity. }
    cbn zeta in H3. destruct m as [[a es]|]; [|injection H3 as <-; exact Y]. apply Takeover.lift_bind in H3. destruct H3 as (l & Hl & H3). unfold send_acceptdecide in H3. apply Takeover.lift_bind in H3. destruct H3 as (ps & Hps & H3).
    destruct (LeadLinks.gpf_spec _ _ Hps) as [ND _]. apply v_acc in Hl. destruct Hl as (_ & _ & V3). assert (A1 : AL (set_ls (set_is s2 is) l)) by (apply al_ls; [apply mf_eq; exact V3|exact HA]). destruct (ad_each _ _ _ ND _ _ A1 H3) as (_ & B2 & _). rewrite B2. exact Y.
Qed.
End WithEntry.

Print Assumptions C67_log_is_sent.
Print Assumptions C67_log_is_sent_in_clusters.
Print Assumptions C67_flush_timeout.

(** ** Concrete cases *)
Section Case.
Local Existing Instance plain.
(** Batch size 3, a flush timeout every 5 ticks.  Server 1 leads, 2 and 3 have promised.  Of the entries 11 to 15
    the first three are in the log and queued, 14 and 15 wait in the batch. *)
Definition scs_b (p : nat) := mkSC p 50 50 10 3 5 0.
Definition ini_b := init_sys cc3 scs_b.
Definition sch_b : list cmd := [ Settle [1;2;3] 2; Call 1 CTryLeader; Settle [1;2;3] 3; append 1 11; append 1 12; append 1 13; append 1 14; append 1 15 ].
Definition acts_b := Eval vm_compute in acts_of cc3 ini_b sch_b.
Definition sys_b := match run cc3 ini_b acts_b with Some s => s | None => ini_b end.
Lemma b_reach : reaches cc3 scs_b acts_b sys_b.
Proof. apply PropAgreement.is_some_eta. vm_compute. reflexivity. Qed.
Definition nb := mkB 1 1 0 1.
Definition then_b {A} (o : omni) (c : call) (f : omni -> A) : option A := match exec o c with Ok (o', _) => Some (f o') | Panic _ => None end.
Definition sent_b (o : omni) := (role_of o, ms_log (storage o), map (fun q => entries_to nb q (outgoing o)) [2; 3]).
Definition ticks_b := match run cc3 sys_b (acts_of cc3 sys_b [Call 1 CTick; Call 1 CTick; Call 1 CTick; Call 1 CTick]) with Some s => s | None => sys_b end.
Definition stops_b (o : omni) := map (fun m => (pm_to m, pm_msg m)) (filter (fun m => match pm_msg m with MAcceptStopSign _ _ _ => true | _ => false end) (outgoing o)).
Definition promised_b (o : omni) := map (fun x => match x with Promised _ => true | _ => false end) (l_proms (s_ls (o_sp o))).
Definition ss_b := mkSS (mkCC 2 [1; 2; 4] None) None.
Example C67_case :
  obs sys_b 1 (fun o => (leader_ballot o, held o, promised_b o, sent_b o)) =
    Some (nb, [11; 12; 13; 14; 15], [true; true; true], ((Leader, PhAccept), [11; 12; 13], [[11; 12; 13]; [11; 12; 13]])) /\
  obs sys_b 1 (fun o => then_b o (CAppend (16 : @T plain)) sent_b) = Some (Some ((Leader, PhAccept), [11; 12; 13; 14; 15; 16], [[11; 12; 13; 14; 15; 16]; [11; 12; 13; 14; 15; 16]])) /\
  obs sys_b 1 (fun o => then_b o (CHandle (MsgSP (mkPM 2 1 (MProposalForward [(21 : @T plain); 22])))) sent_b) =
    Some (Some ((Leader, PhAccept), [11; 12; 13; 14; 15; 21; 22], [[11; 12; 13; 14; 15; 21; 22]; [11; 12; 13; 14; 15; 21; 22]])) /\
  obs sys_b 1 (fun o => then_b o (CReconfigure (mkCC 2 [1;2;4] None) None) (fun o => (sent_b o, ms_ss (storage o), stops_b o))) =
    Some (Some ((Leader, PhAccept), [11; 12; 13; 14; 15], [[11; 12; 13; 14; 15]; [11; 12; 13; 14; 15]], Some ss_b,
                [(2, MAcceptStopSign nb (mkSeq 1 3) ss_b); (3, MAcceptStopSign nb (mkSeq 1 3) ss_b)])).
Proof. vm_compute. auto. Qed.
(** Four ticks later the batch still waits; the fifth tick is the flush timeout. *)
Example C67_flush_case :
  obs ticks_b 1 (fun o => (lc_time (o_fclk o) + 1, lc_timeout (o_fclk o), ms_log (storage o), held o)) = Some (5, 5, [11; 12; 13], [11; 12; 13; 14; 15]) /\
  obs ticks_b 1 (fun o => then_b o CTick (fun o => (sent_b o, held o))) =
    Some (Some ((Leader, PhAccept), [11; 12; 13; 14; 15], [[11; 12; 13; 14; 15]; [11; 12; 13; 14; 15]], [11; 12; 13; 14; 15])).
Proof. vm_compute. auto. Qed.
End Case.
