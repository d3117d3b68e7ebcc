(** * What the read functions show *)
From Coq Require Import List Arith Bool Lia.
Import ListNotations.
From Verif Require Import Types Config MemStore Internal LeaderState SeqPaxos Ble Omni System Spec.

Section WithEntry.
Context {E : EntryT}.

Lemma slice_nth l a b es j e : slice_get l a b = Some es -> nth_error es j = Some e ->
  nth_error l (a + j) = Some e /\ a + j < b.
Proof.
  unfold slice_get. destruct ((a <=? b) && (b <=? length l)) eqn:H; [|discriminate]. intros He. injection He as <-.
  apply andb_true_iff in H. destruct H as [H1 H2]. apply Nat.leb_le in H1, H2. intros Hj.
  assert (Hlt : j < length (firstn (b - a) (skipn a l))) by (apply nth_error_Some; congruence).
  rewrite firstn_length, skipn_length in Hlt.
  assert (Hn : nth_error (firstn (b - a) (skipn a l)) j = nth_error (skipn a l) j).
  { clear - Hlt. revert j Hlt. generalize (skipn a l). intros l0. generalize (b - a). intros n. revert l0.
    induction n as [|n IH]; intros l0 j Hj; [lia|]. destruct l0 as [|x l0]; cbn; [destruct j; reflexivity|]. destruct j; cbn; auto. apply IH. lia. }
  rewrite Hn in Hj. split; [|lia]. clear Hn Hlt H1 H2. revert l Hj. induction a as [|a IH]; intros l Hj; cbn in *; auto.
  destruct l as [|x l]; [destruct j; discriminate|]. apply IH. auto.
Qed.

Lemma mark_nth dec es : forall idx j x, nth_error (mark_entries dec idx es) j = Some x ->
  exists e, nth_error es j = Some e /\ x = if idx + j <? dec then LDecided e else LUndecided e.
Proof.
  induction es as [|e es IH]; intros idx j x H; [destruct j; discriminate|]. destruct j as [|j]; cbn in *.
  - injection H as <-. exists e. rewrite Nat.add_0_r. auto.
  - destruct (IH _ _ _ H) as (e' & H1 & H2). exists e'. split; auto. replace (idx + S j) with (S idx + j) by lia. auto.
Qed.
Lemma mark_length dec es : forall idx, length (mark_entries dec idx es) = length es.
Proof. induction es; intros; cbn; auto. Qed.

Lemma crle_nth s from to l j x : create_read_log_entries s from to = Some l -> nth_error l j = Some x ->
  exists e, stored (i_st s) (from + j) e /\ from + j < to /\ x = if from + j <? i_dec s then LDecided e else LUndecided e.
Proof.
  unfold create_read_log_entries, ms_get_entries, sub_chk. destruct (Nat.leb_spec (ms_trim (i_st s)) from); [|discriminate].
  destruct (Nat.leb_spec (ms_trim (i_st s)) to); [|discriminate]. intros Hl. injection Hl as <-. intros Hj.
  apply mark_nth in Hj. destruct Hj as (e & He & ->). exists e.
  destruct (slice_get _ _ _) as [es|] eqn:Hs; [|destruct j; discriminate].
  destruct (slice_nth _ _ _ _ _ _ Hs He) as [H1 H2]. split; [|split; [lia|reflexivity]]. split; [lia|].
  replace (from + j - ms_trim (i_st s)) with (from - ms_trim (i_st s) + j) by lia. exact H1.
Qed.

(** The kind of a shown element. *)
Definition normal (x : log_entry) (e : T) : Prop := x = LDecided e \/ x = LUndecided e.

Definition tocheck (s : istore) (i : nat) (x : log_entry) : Prop :=
  forall e, normal x e -> stored (i_st s) i e /\ (x = LDecided e -> i < i_dec s) /\ (x = LUndecided e -> i_dec s <= i).

Lemma tocheck_crle s from to l j x : create_read_log_entries s from to = Some l -> nth_error l j = Some x -> tocheck s (from + j) x.
Proof.
  intros Hl Hj. destruct (crle_nth _ _ _ _ _ _ Hl Hj) as (e & Hs & _ & ->). intros e' [He|He];
    destruct (Nat.ltb_spec (from + j) (i_dec s)); try discriminate; injection He as <-; split; auto; split; intros; auto; discriminate.
Qed.
Lemma tocheck_other s i x : (forall e, ~ normal x e) -> tocheck s i x.
Proof. intros H e He. exfalso. eapply H; eauto. Qed.
Lemma compacted_other s c e : ~ normal (create_compacted_entry s c) e.
Proof. unfold create_compacted_entry. destruct (ms_snap _); intros [H|H]; discriminate. Qed.
Lemma stop_other ss d e : ~ normal (LStopSign ss d) e.
Proof. intros [H|H]; discriminate. Qed.

Lemma get_type_comp s i c a : get_entry_type s i c a = Some IxCompacted -> i < c.
Proof.
  unfold get_entry_type. destruct (Nat.ltb_spec i c); auto. destruct (i + 1 <? a); [discriminate|]. destruct (i + 1 =? a); [|discriminate].
  destruct (i_ss s); discriminate.
Qed.
Lemma get_type_ncomp s i c a t : get_entry_type s i c a = Some t -> t <> IxCompacted -> c <= i.
Proof.
  unfold get_entry_type. destruct (Nat.ltb_spec i c); [|auto]. congruence.
Qed.

(** Elements of a list read. *)
Lemma i_read_at s lo hi l : i_read s lo hi = Some (Some l) ->
  let from := start_of lo in
  (from < i_comp s -> forall j x, nth_error l (S j) = Some x -> tocheck s (i_comp s + j) x) /\
  (i_comp s <= from -> forall j x, nth_error l j = Some x -> tocheck s (from + j) x) /\
  (forall x, l = [x] -> from < i_comp s -> forall i, tocheck s i x).
Proof.
  unfold i_read. fold (start_of lo). set (from := start_of lo).
  set (to := match hi with Included i => i + 1 | Excluded e => e | Unbounded => i_acc s end).
  destruct (to =? 0); [discriminate|].
  destruct (get_entry_type s (to - 1) (i_comp s) (i_acc s)) as [tt|] eqn:Hto; [|discriminate].
  assert (Hone : forall c i, forall x, [create_compacted_entry s c] = [x] -> tocheck s i x).
  { intros c i x Hx. injection Hx as <-. apply tocheck_other, compacted_other. }
  destruct tt as [| |ss].
  - destruct (get_entry_type s from (i_comp s) (i_acc s)) as [ft|] eqn:Hfr; [|discriminate]. destruct ft as [| |ss]; [| |discriminate].
    + destruct (create_read_log_entries s from to) as [es|] eqn:Hc; [|discriminate]. intros Hl. injection Hl as <-.
      apply get_type_ncomp in Hfr; [|discriminate]. cbn zeta. split; [lia|]. split; [|intros; lia]. intros _ j x Hj. eapply tocheck_crle; eauto.
    + destruct (create_read_log_entries s (i_comp s) to) as [es|] eqn:Hc; [|discriminate]. intros Hl. injection Hl as <-.
      apply get_type_comp in Hfr. cbn zeta. split; [|split; [lia|]].
      * intros _ j x Hj. cbn in Hj. eapply tocheck_crle; eauto.
      * intros x Hx _ i. injection Hx as <- _. apply tocheck_other, compacted_other.
  - intros Hl. injection Hl as <-. apply get_type_comp in Hto. cbn zeta. split; [|split].
    + intros _ j x Hj. destruct j; discriminate.
    + intros H [|j] x Hj; [|destruct j; discriminate]. injection Hj as <-. apply tocheck_other, compacted_other.
    + intros x Hx _ i. eapply Hone; eauto.
  - destruct (get_entry_type s from (i_comp s) (i_acc s)) as [ft|] eqn:Hfr; [|discriminate]. destruct ft as [| |ss'].
    + destruct (create_read_log_entries s from (to - 1)) as [es|] eqn:Hc; [|discriminate]. intros Hl. injection Hl as <-.
      apply get_type_ncomp in Hfr; [|discriminate]. cbn zeta. split; [lia|]. split; [|intros; lia]. intros _ j x Hj.
      destruct (le_lt_dec (length es) j).
      * rewrite nth_error_app2 in Hj by auto. destruct (j - length es) as [|k]; [|destruct k; discriminate]. injection Hj as <-. apply tocheck_other, stop_other.
      * rewrite nth_error_app1 in Hj by auto. eapply tocheck_crle; eauto.
    + destruct (create_read_log_entries s (i_comp s) (to - 1)) as [es|] eqn:Hc; [|discriminate]. intros Hl. injection Hl as <-.
      apply get_type_comp in Hfr. cbn zeta. split; [|split; [lia|]].
      * intros _ j x Hj. cbn in Hj. destruct (le_lt_dec (length es) j).
        -- rewrite nth_error_app2 in Hj by auto. destruct (j - length es) as [|k]; [|destruct k; discriminate]. injection Hj as <-. apply tocheck_other, stop_other.
        -- rewrite nth_error_app1 in Hj by auto. eapply tocheck_crle; eauto.
      * intros x Hx _ i. destruct es; discriminate.
    + intros Hl. injection Hl as <-. apply get_type_ncomp in Hfr; [|discriminate]. cbn zeta. split; [lia|]. split; [|intros; lia].
      intros _ [|j] x Hj; [|destruct j; discriminate]. injection Hj as <-. apply tocheck_other, stop_other.
Qed.

Lemma reports_stored o i x : reports o i x -> tocheck (s_is (o_sp o)) i x.
Proof.
  intros [H|lo hi l H Ha|from l H Ha].
  - unfold read in H. destruct (i_read (s_is (o_sp o)) (Included i) (Excluded (i + 1))) as [[v|]|] eqn:Hr; try discriminate.
    destruct (rev v) as [|y r] eqn:Hv; [discriminate|]. injection H as ->.
    destruct (i_read_at _ _ _ _ Hr) as (A & B & C). cbn [start_of] in *.
    assert (Hlen : v = [x]).
    { assert (Hl : length v <= 1).
      { clear - Hr. unfold i_read in Hr. replace (i + 1 =? 0) with false in Hr by (symmetry; apply Nat.eqb_neq; lia).
        replace (i + 1 - 1) with i in Hr by lia.
        destruct (get_entry_type _ i _ _) as [t|] eqn:Ht; [|discriminate]. destruct t as [| |ss].
        - destruct (create_read_log_entries _ i (i + 1)) as [es|] eqn:Hc; [|discriminate]. injection Hr as <-.
          destruct es as [|a [|b es]]; cbn; try lia. exfalso.
          destruct (crle_nth _ _ _ _ 1 b Hc eq_refl) as (e & _ & Hlt & _). lia.
        - injection Hr as <-. cbn. lia.
        - injection Hr as <-. cbn. lia. }
      destruct v as [|a [|b v]]; cbn in *; try discriminate; [congruence|lia]. }
    subst v. destruct (le_lt_dec (i_comp (s_is (o_sp o))) i) as [Hi|Hi].
    + replace i with (i + 0) by lia. apply B; auto.
    + apply C; auto.
  - unfold read_entries, to_rr in H. destruct (i_read _ lo hi) as [[v|]|] eqn:Hr; try discriminate. injection H as ->.
    destruct (i_read_at _ _ _ _ Hr) as (A & B & _). unfold at_index, get_compacted_idx in Ha.
    destruct (Nat.ltb_spec (start_of lo) (i_comp (s_is (o_sp o)))); destruct Ha as (j & Hj & ->); [apply A|apply B]; auto.
  - unfold read_decided_suffix, to_rr, i_read_decided_suffix in H. destruct (from <? i_dec _); [|discriminate].
    destruct (i_read _ _ _) as [[v|]|] eqn:Hr; try discriminate. injection H as ->.
    destruct (i_read_at _ _ _ _ Hr) as (A & B & _). unfold at_index, get_compacted_idx in Ha. cbn [start_of] in *.
    destruct (Nat.ltb_spec from (i_comp (s_is (o_sp o)))); destruct Ha as (j & Hj & ->); [apply A|apply B]; auto.
Qed.

End WithEntry.
