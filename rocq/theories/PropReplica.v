(** * C56: replicated state machines on top of the log *)
From Coq Require Import List Arith Bool Lia.
Import ListNotations.
From Verif Require Import Types Config MemStore Internal LeaderState SeqPaxos Ble Omni System Basics Scen Spec Refute Local Frame PropLocal Ghost GhostOps Inv SysInv Agree PropRefuted PropAgreement PropRead PropSnap.

Section WithEntry.
Context {E : EntryT}.

(** ** Specification *)

(** A deterministic application: a state, how an entry changes it, and how a snapshot is loaded
    ([None]: the application does not load snapshots).  examples/kv_store/src/main.rs 112-128,
    153-166 with [HashMap] as the state and [insert] as [a_apply]. *)
Record application := mkApp { a_state : Type; a_init : a_state; a_apply : a_state -> T -> a_state; a_load : Snap -> option a_state }.
(** The state after the entries [es], and what loading a snapshot has to do. *)
Definition state_after (A : application) (es : list T) : a_state A := fold_left (a_apply A) es (a_init A).
Definition load_law (A : application) : Prop := forall es sn, s_create es = Some sn -> a_load A sn = Some (state_after A es).
Definition no_load (A : application) : Prop := forall sn, a_load A sn = None.

(** The application, at index [k] in state [st], takes in what a read returned: it applies decided
    entries and loads snapshots, and stops at anything else. *)
Fixpoint absorb (A : application) (k : nat) (st : a_state A) (l : list log_entry) : nat * a_state A :=
  match l with
  | LDecided e :: r => absorb A (k + 1) (a_apply A st e) r
  | LSnapshotted i sn :: r => match a_load A sn with Some st' => absorb A i st' r | None => (k, st) end
  | _ => (k, st)
  end.
(** An application that has read the decided log from its index on, any number of times, each time
    at any server and at any moment of the run, is at index [k] in state [st]. *)
Inductive app_at (A : application) (cc : cluster_config) (scs : node_id -> server_config) (l : list action) : nat -> a_state A -> Prop :=
| app_start : app_at A cc scs l 0 (a_init A)
| app_read k st s p o r : app_at A cc scs l k st -> moment cc scs l s -> nodes s p = Some o -> read_decided_suffix o k = RSome r ->
    app_at A cc scs l (fst (absorb A k st r)) (snd (absorb A k st r)).
(** The servers report nothing else than [es] as decided in its range. *)
Definition decided_as (cc : cluster_config) (scs : node_id -> server_config) (l : list action) (es : list T) : Prop :=
  forall s q i e, moment cc scs l s -> server_reports s q i (LDecided e) -> i < length es -> nth_error es i = Some e.

(** ** The shape of a read *)

Definition no_comp (x : log_entry) : Prop := match x with LSnapshotted _ _ | LTrimmed _ => False | _ => True end.
Lemma mark_shape d es : forall i, Forall no_comp (mark_entries d i es).
Proof. induction es as [|e es IH]; intros i; cbn [mark_entries]; constructor; auto. destruct (i <? d); exact I. Qed.
Lemma type_comp s k t : get_entry_type s k (i_comp s) (i_acc s) = Some t -> match t with IxCompacted => k < i_comp s | _ => i_comp s <= k end.
Proof.
  unfold get_entry_type. destruct (Nat.ltb_spec k (i_comp s)); [intros H0; injection H0 as <-; auto|]. destruct (_ <? _); [intros H0; injection H0 as <-; auto|]. destruct (_ =? _); [|discriminate]. destruct (i_ss s); intros H0; injection H0 as <-; auto.
Qed.
Lemma suffix_shape s k l : i_read_decided_suffix s k = Some (Some l) ->
  (k < i_comp s /\ exists r, l = create_compacted_entry s (i_comp s) :: r /\ Forall no_comp r) \/ (i_comp s <= k /\ Forall no_comp l).
Proof.
  assert (Hm : forall a b es, create_read_log_entries s a b = Some es -> Forall no_comp es).
  { intros a b es. unfold create_read_log_entries. destruct (ms_get_entries _ _ _); [|discriminate]. intros H. injection H as <-. apply mark_shape. }
  assert (Hs : forall ss d, Forall no_comp [LStopSign ss d]) by (intros; repeat constructor).
  unfold i_read_decided_suffix. destruct (Nat.ltb_spec k (i_dec s)) as [Hk|]; [|discriminate]. unfold i_read. cbn zeta. destruct (_ =? 0); [discriminate|].
  destruct (get_entry_type s (i_dec s - 1) (i_comp s) (i_acc s)) as [[| |ss]|] eqn:Ht; try discriminate.
  2: { intros H. injection H as <-. left. unfold get_entry_type in Ht. destruct (Nat.ltb_spec (i_dec s - 1) (i_comp s)); [|destruct (_ <? _); [discriminate|destruct (_ =? _); [destruct (i_ss s); discriminate|discriminate]]]. split; [lia|]. exists []. auto. }
  - destruct (get_entry_type s k (i_comp s) (i_acc s)) as [[| |ss']|] eqn:Hf; try discriminate; (destruct (create_read_log_entries _ _ _) as [es|] eqn:He; [|discriminate]); intros H; injection H as <-; apply Hm in He; apply type_comp in Hf; [right|left]; (split; [exact Hf|]); eauto.
  - destruct (get_entry_type s k (i_comp s) (i_acc s)) as [[| |ss']|] eqn:Hf; try discriminate; apply type_comp in Hf.
    + destruct (create_read_log_entries _ _ _) as [es|] eqn:He; [|discriminate]. intros H. injection H as <-. apply Hm in He. right. split; [exact Hf|]. apply Forall_app. auto.
    + destruct (create_read_log_entries _ _ _) as [es|] eqn:He; [|discriminate]. intros H. injection H as <-. apply Hm in He. left. split; [exact Hf|]. eexists. split; [reflexivity|]. apply Forall_app. auto.
    + intros H. injection H as <-. right. split; [exact Hf|]. auto.
Qed.

Definition fixes (F : nat -> T -> Prop) (es : list T) : Prop := forall i e, nth_error es i = Some e -> F i e.
Lemma absorb_plain A (F : nat -> T -> Prop) r : Forall no_comp r -> forall k es, length es = k -> fixes F es -> (forall j e, nth_error r j = Some (LDecided e) -> F (k + j) e) ->
  exists es', fst (absorb A k (state_after A es) r) = length es' /\ snd (absorb A k (state_after A es) r) = state_after A es' /\ fixes F es'.
Proof.
  induction r as [|x r IH]; intros Hr k es Hk Hf Hx; [exists es; cbn; auto|]. inversion Hr as [|? ? Hx1 Hr1]. subst. destruct x as [e|e|k1|k1 sn|ss d]; cbn [absorb]; try (exists es; auto; fail); try contradiction.
  replace (a_apply A (state_after A es) e) with (state_after A (es ++ [e])) by (unfold state_after; rewrite fold_left_app; reflexivity).
  apply IH; auto; [rewrite app_length; reflexivity| |].
  - intros i y Hi. destruct (Nat.lt_ge_cases i (length es)); [rewrite nth_error_app1 in Hi by auto; apply Hf; auto|]. rewrite nth_error_app2 in Hi by auto. destruct (i - length es) as [|m] eqn:Hm; [|destruct m; discriminate]. injection Hi as <-.
    replace i with (length es + 0) by lia. apply Hx. reflexivity.
  - intros j y Hj. replace (length es + 1 + j) with (length es + S j) by lia. apply Hx. exact Hj.
Qed.
(** Reading at one server: [Q] says that a stored snapshot is that of agreed entries. *)
Lemma absorb_read A (F : nat -> T -> Prop) o k es r : read_decided_suffix o k = RSome r -> length es = k -> fixes F es ->
  (forall i e, reports o i (LDecided e) -> F i e) ->
  (forall sn st, k < get_compacted_idx o -> ms_snap (storage o) = Some sn -> a_load A sn = Some st -> exists full, length full = get_compacted_idx o /\ fixes F full /\ st = state_after A full) ->
  exists es', fst (absorb A k (state_after A es) r) = length es' /\ snd (absorb A k (state_after A es) r) = state_after A es' /\ fixes F es'.
Proof.
  intros Hr Hk Hf Hrep Hsn. pose proof Hr as Hr0. unfold read_decided_suffix, to_rr in Hr. destruct (i_read_decided_suffix _ _) as [[l|]|] eqn:Hi; try discriminate. injection Hr as <-.
  apply suffix_shape in Hi. destruct Hi as [(Hc & r & -> & Hn)|(Hc & Hn)].
  - unfold create_compacted_entry in *. destruct (ms_snap (i_st (s_is (o_sp o)))) as [sn|] eqn:Hs; cbn [absorb]; [|exists es; auto].
    destruct (a_load A sn) as [st|] eqn:Hl; [|exists es; auto]. destruct (Hsn sn st Hc Hs Hl) as (full & Hlen & Hff & ->). apply absorb_plain; auto.
    intros j e Hj. apply Hrep. eapply rep_suffix; [exact Hr0|]. unfold at_index. rewrite (proj2 (Nat.ltb_lt k (get_compacted_idx o)) Hc). exists j. auto.
  - apply absorb_plain; auto. intros j e Hj. apply Hrep. eapply rep_suffix; [exact Hr0|]. unfold at_index. rewrite (proj2 (Nat.ltb_ge k (get_compacted_idx o)) Hc). exists j. auto.
Qed.
Lemma firstn_nth {B} (l : list B) : forall n i, i < n -> nth_error (firstn n l) i = nth_error l i.
Proof. induction l as [|x l IH]; intros [|n] [|i] H; cbn; auto; try lia. apply IH. lia. Qed.
Lemma fixes_agree (F : nat -> T -> Prop) : (forall i a b, F i a -> F i b -> a = b) -> forall es es', fixes F es -> fixes F es' -> length es <= length es' -> es = firstn (length es) es'.
Proof.
  intros HF es es' H1 H2 Hl. apply nth_ext_opt. intros i. destruct (Nat.lt_ge_cases i (length es)) as [Hi|Hi].
  - rewrite firstn_nth by auto. destruct (nth_error es i) as [x|] eqn:Hx; [|apply nth_error_None in Hx; lia]. destruct (nth_error es' i) as [y|] eqn:Hy; [|apply nth_error_None in Hy; lia]. f_equal. eapply HF; eauto.
  - rewrite (proj2 (nth_error_None es i)) by lia. symmetry. apply nth_error_None. rewrite firstn_length. lia.
Qed.

(** C56.  Whatever servers two copies of an application read from, and whenever they read, they
    go through the same states: the one that has read less was in the state of a prefix of what
    the other one has applied.  What they applied was appended by somebody, and it is what the
    servers report as decided. *)
Theorem C56_replicas_apply_the_same :
  forall cc scs, good_config cc scs ->
  forall l, all_steps h1h2 cc (init_sys cc scs) l ->
  forall A k1 st1 k2 st2, no_load A -> app_at A cc scs l k1 st1 -> app_at A cc scs l k2 st2 -> k1 <= k2 ->
  exists es, length es = k2 /\ st2 = state_after A es /\ st1 = state_after A (firstn k1 es) /\ Forall (appended l) es /\ decided_as cc scs l es.
Proof.
  intros cc scs Hg l Hh A k1 st1 k2 st2 HA H1 H2 Hk. set (F := fun i e => exists s q, moment cc scs l s /\ server_reports s q i (LDecided e)).
  assert (HF : forall i a b, F i a -> F i b -> a = b) by (intros i a b (s & q & Ms & Rs) (s' & q' & Ms' & Rs'); exact (C01_agreement cc scs Hg l Hh s s' Ms Ms' q q' i a b Rs Rs')).
  assert (Main : forall k st, app_at A cc scs l k st -> exists es, length es = k /\ st = state_after A es /\ fixes F es).
  { intros k st H. induction H as [|k st s p o r H (es & Hl & -> & Hf) Hm Hn Hr]; [exists []; split; [reflexivity|]; split; [reflexivity|]; intros [|] e He; discriminate|].
    destruct (absorb_read A F o k es r Hr Hl Hf) as (es' & A1 & A2 & A3); [| |exists es'; auto].
    - intros i e Hrep. exists s, p. split; [exact Hm|]. exists o. auto.
    - intros sn st _ _ X. rewrite HA in X. discriminate. }
  destruct (Main _ _ H1) as (e1 & L1 & -> & F1). destruct (Main _ _ H2) as (e2 & L2 & -> & F2). exists e2. split; [exact L2|]. split; [reflexivity|]. split; [f_equal; rewrite <- L1; apply (fixes_agree F HF); auto; lia|]. split.
  - apply Forall_forall. intros e He. apply In_nth_error in He. destruct He as (i & Hi). destruct (F2 i e Hi) as (s & q & (a & b & -> & R) & Hr). destruct (C04_validity cc scs a s q i _ e R Hr (or_introl eq_refl)) as (x & p & Hx & Hx'). exists x, p. split; [apply in_or_app; auto|exact Hx'].
  - intros s q i e Ms Hr Hi. destruct (nth_error e2 i) as [x|] eqn:Hx; [|apply nth_error_None in Hx; lia]. f_equal. eapply HF; [exact (F2 i x Hx)|]. exists s, q. auto.
Qed.

(** The same for applications that load snapshots, in the runs of C27 (no trims, stop-signs and
    delta snapshots). *)
Theorem C56_replicas_with_snapshots_apply_the_same :
  forall cc scs, good_config cc scs -> snapshot_law ->
  forall l, snap_run cc scs l ->
  forall A k1 st1 k2 st2, load_law A -> app_at A cc scs l k1 st1 -> app_at A cc scs l k2 st2 -> k1 <= k2 ->
  exists es, length es = k2 /\ st2 = state_after A es /\ st1 = state_after A (firstn k1 es) /\ decided_as cc scs l es.
Proof.
  intros cc scs Hg HL l Hrun A k1 st1 k2 st2 HA H1 H2 Hk. destruct (snap_moments cc scs l HL Hg Hrun) as (G & HG & HM). pose proof Hg as (Hv & H0 & _). set (F := fun i e => fixed cc G i (Ent e)).
  assert (HF : forall i a b, F i a -> F i b -> a = b) by (intros i a b Ha Hb; pose proof (fixed_agree cc Hv H0 G i _ _ HG Ha Hb); congruence).
  assert (HR : forall s q i e, moment cc scs l s -> server_reports s q i (LDecided e) -> F i e).
  { intros s q i e Ms (o & Ho & Hrep). destruct (HM s Ms) as (Gs & L & HS & _). destruct (reports_decided cc Hv H0 Gs q o i e (y_G _ _ _ HS) (node_inv _ _ _ _ _ HS Ho) Hrep) as (_ & _ & X). exact (fixed_gle cc _ _ _ _ L X). }
  assert (Main : forall k st, app_at A cc scs l k st -> exists es, length es = k /\ st = state_after A es /\ fixes F es).
  { intros k st H. induction H as [|k st s p o r H (es & Hl & -> & Hf) Hm Hn Hr]; [exists []; split; [reflexivity|]; split; [reflexivity|]; intros [|] e He; discriminate|].
    destruct (absorb_read A F o k es r Hr Hl Hf) as (es' & A1 & A2 & A3); [| |exists es'; auto].
    - intros i e Hrep. eapply HR; [exact Hm|]. exists o. eauto.
    - intros sn st Hc Hs Hl'. destruct (HM s Hm) as (Gs & L & _ & HI). destruct (rep_is cc G Gs s p o HI L Hn) as (full & (R1 & _ & R3) & R4). rewrite Hs in R3.
      assert (Ho : server_state o) by (destruct Hm as (a & b & _ & R); eapply cluster_server_state; eauto). pose proof (comp_is o Ho) as Hcm. exists (firstn (ms_comp (storage o)) full).
      split; [rewrite firstn_length; lia|]. split; [|rewrite (HA _ _ R3) in Hl'; congruence]. intros i e Hi. destruct (Nat.lt_ge_cases i (ms_comp (storage o))) as [Hlt|Hge].
      + rewrite firstn_nth in Hi by auto. apply R4; auto.
      + assert (X : i < length (firstn (ms_comp (storage o)) full)) by (apply nth_error_Some; congruence). rewrite firstn_length in X. lia. }
  destruct (Main _ _ H1) as (e1 & L1 & -> & F1). destruct (Main _ _ H2) as (e2 & L2 & -> & F2). exists e2. split; [exact L2|]. split; [reflexivity|]. split; [f_equal; rewrite <- L1; apply (fixes_agree F HF); auto; lia|].
  intros s q i e Ms Hr Hi. destruct (nth_error e2 i) as [x|] eqn:Hx; [|apply nth_error_None in Hx; lia]. f_equal. eapply HF; [exact (F2 i x Hx)|]. eapply HR; eauto.
Qed.

(** A read takes the application to the decided index of the server. *)
Lemma absorb_all A : forall m k st r, Forall2 (fun (i : nat) x => exists e, x = LDecided e) (seq m (length r)) r -> fst (absorb A k st r) = k + length r.
Proof.
  intros m k st r. revert m k st. induction r as [|x r IH]; intros m k st H; cbn; [lia|]. cbn in H. inversion H as [|? ? ? ? Hx Hr]. subst. destruct Hx as (e & ->). rewrite (IH (S m)); [lia|exact Hr].
Qed.
Lemma shown_decided st a n r : ms_ss st = None -> n = 0 \/ a + n <= ms_dec st -> Forall2 (shown st) (seq a n) r -> Forall2 (fun (i : nat) x => exists e, x = LDecided e) (seq a (length r)) r /\ length r = n.
Proof.
  intros Hs Hd H. assert (L : length r = n) by (clear - H; remember (seq a n) as q eqn:Hq; assert (X : length q = n) by (subst q; apply seq_length); clear Hq; rewrite <- X; clear X; induction H; cbn; auto). split; [|exact L]. rewrite L. clear L. revert a n Hd H. induction r as [|x r IH]; intros a [|n] Hd H; cbn in *; inversion H as [|? ? ? ? Hx Hr]; subst; constructor.
  - destruct Hx as [(e & _ & [(_ & ->)|(Hge & _)])|(ss & d & X & _)]; [eauto|lia|congruence].
  - apply IH; [lia|exact Hr].
Qed.
Theorem C56_reads_catch_up :
  forall cc scs, good_config cc scs -> snapshot_law ->
  forall l, snap_run cc scs l ->
  forall A k st s p o, load_law A -> app_at A cc scs l k st -> moment cc scs l s -> nodes s p = Some o -> k < get_decided_idx o ->
  exists r st', read_decided_suffix o k = RSome r /\ absorb A k st r = (Nat.max (get_decided_idx o) (get_compacted_idx o), st').
Proof.
  intros cc scs Hg HL l Hrun A k st s p o HA H1 Hm Hn Hk. destruct Hrun as (Hh & Hso & Hns). pose proof Hm as (a & b & Hab & R). assert (Ho : server_state o) by (eapply cluster_server_state; eauto).
  assert (Hss : ms_ss (storage o) = None) by (eapply (Hns s); eauto). subst l. destruct (all_steps_app cc h1h2 a b _ _ Hh R) as [Hha _]. destruct (C21_matched_in_clusters cc scs Hg a Hha s R p o Hn Hss) as [Hma Hd].
  destruct (C21_read_decided_suffix o Ho Hma Hd k) as [_ X]. pose proof (dec_is o Ho) as Hdi. pose proof (comp_is o Ho) as Hci. rewrite <- Hdi in X. destruct (X Hk) as (r & Hr & c & r' & -> & Hc & Hf). exists (c ++ r'). exists (snd (absorb A k st (c ++ r'))). split; [exact Hr|].
  rewrite (surjective_pairing (absorb A k st (c ++ r'))) at 1. f_equal. apply shown_decided in Hf; [|exact Hss|lia]. destruct Hf as [Hf Hl]. destruct (Nat.ltb_spec k (ms_comp (storage o))) as [Hlt|Hge].
  - destruct Hc as (x & -> & Hx). assert (Hrun : snap_run cc scs (a ++ b)) by (split; [exact Hh|]; split; [exact Hso|exact Hns]).
    destruct (C27_snapshot_contents_partial cc scs Hg HL _ Hrun s Hm p o Hn) as (full & (R1 & _ & R3) & _). unfold shown_compacted in Hx. destruct (ms_snap (storage o)) as [sn|]; [|lia]. subst x. cbn [app absorb]. rewrite (HA _ _ R3). rewrite (absorb_all A _ _ _ _ Hf). lia.
  - subst c. cbn [app]. rewrite (absorb_all A _ _ _ _ Hf). lia.
Qed.
Lemma app_step (A : application) cc scs l k st s p r k' st' : app_at A cc scs l k st -> moment cc scs l s -> obs s p (fun o => read_decided_suffix o k) = Some (RSome r) -> absorb A k st r = (k', st') -> app_at A cc scs l k' st'.
Proof.
  intros H M Ho Ha. unfold obs in Ho. destruct (nodes s p) as [o|] eqn:Hn; [|discriminate]. injection Ho as Ho. pose proof (app_read A cc scs l k st s p o r H M Hn Ho) as X. rewrite Ha in X. exact X.
Qed.
End WithEntry.
Print Assumptions C56_replicas_apply_the_same.
Print Assumptions C56_replicas_with_snapshots_apply_the_same.
Print Assumptions C56_reads_catch_up.

(** ** Cases.  The state is the list of applied entries.  One copy reads at server 1 before, and
    at server 3 after the failover and reconfiguration; another one reads everything late. *)
Section Case.
Local Existing Instance plain.
Definition list_app : application := @mkApp plain (list nat) [] (fun s e => s ++ [e]) (fun _ => None).
Definition acts_cases := (acts_case1 ++ acts_case2) ++ acts_case3.
Lemma moment_case2 : moment cc3 scs acts_cases sys_case2.
Proof. exists (acts_case1 ++ acts_case2), acts_case3. split; [reflexivity|exact case_reach2]. Qed.
Example C56_case :
  good_config cc3 scs /\ all_steps h1h2 cc3 (init_sys cc3 scs) acts_cases /\ no_load list_app /\
  app_at list_app cc3 scs acts_cases 2 [11; 12] /\ app_at list_app cc3 scs acts_cases 4 [11; 12; 13; 14].
Proof.
  assert (A : app_at list_app cc3 scs acts_cases 2 [11; 12]) by (eapply app_step with (p := 1); [apply app_start|exact moment_case1|vm_compute; reflexivity|vm_compute; reflexivity]).
  split; [apply good3|]. split; [unfold acts_cases; rewrite <- app_assoc; exact case_steps|]. split; [intros []; reflexivity|]. split; [exact A|].
  eapply app_step with (p := 3); [exact A|exact moment_case3|vm_compute; reflexivity|vm_compute; reflexivity].
Qed.
End Case.

(** With snapshots: one copy reads the entries at one server, and then at another server, the
    other one starts from a snapshot. *)
Section CaseSnap.
Local Existing Instance lsnap.
Definition list_app' : application := @mkApp lsnap (list nat) [] (fun s e => s ++ [e]) (fun sn => Some sn).
Example C56_case_snapshots :
  good_config cc3 scs /\ @snapshot_law lsnap /\ snap_run cc3 scs acts_snap /\ load_law list_app' /\
  app_at list_app' cc3 scs acts_snap 5 [11; 12; 13; 14; 15].
Proof.
  split; [apply good3|]. split; [apply list_entry_law|]. split; [exact snap_case_run|]. split.
  - intros es sn H. cbn in H. injection H as <-. cbn. f_equal. unfold state_after. cbn. assert (X : forall a, fold_left (fun (s : list nat) e => s ++ [e]) es a = a ++ es) by (induction es as [|x es IH]; intros a; cbn; [rewrite app_nil_r; reflexivity|rewrite IH, <- app_assoc; reflexivity]). rewrite X. reflexivity.
  - eapply app_step with (p := 2); [apply app_start|exists acts_snap, []; rewrite app_nil_r; split; [reflexivity|exact snap_reach]|vm_compute; reflexivity|vm_compute; reflexivity].
Qed.
End CaseSnap.
