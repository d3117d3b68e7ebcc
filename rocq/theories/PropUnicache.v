(** * C34, C35, C36: what a UniCache decodes

    The specification: [enc_all] encodes the fields of a sequence one after the other and gives the
    messages, [dec_all] decodes messages one after the other and gives the fields.  [None] is a
    panic in either. *)
From Coq Require Import List Arith Bool Lia.
From Verif Require Import Unicache.
Import ListNotations.

Section Runs.
Context {A U : Type}.
Context (enc : U -> A -> option (U * maybe_encoded A)) (dec : U -> maybe_encoded A -> option (U * A)).
Fixpoint enc_all (u : U) (fs : list A) : option (U * list (maybe_encoded A)) :=
  match fs with
  | [] => Some (u, [])
  | f :: r =>
      match enc u f with
      | Some (u, m) => match enc_all u r with Some (u, ms) => Some (u, m :: ms) | None => None end
      | None => None
      end
  end.
Fixpoint dec_all (u : U) (ms : list (maybe_encoded A)) : option (U * list A) :=
  match ms with
  | [] => Some (u, [])
  | m :: r =>
      match dec u m with
      | Some (u, f) => match dec_all u r with Some (u, fs) => Some (u, f :: fs) | None => None end
      | None => None
      end
  end.
(** A history of a cache: fields it encoded, messages it decoded. *)
Inductive cache_op := DoEncode (f : A) | DoDecode (m : maybe_encoded A).
Definition cache_step (u : U) (o : cache_op) : option U :=
  match o with
  | DoEncode f => option_map fst (enc u f)
  | DoDecode m => option_map fst (dec u m)
  end.
Fixpoint cache_run (u : U) (os : list cache_op) : option U :=
  match os with [] => Some u | o :: r => match cache_step u o with Some u => cache_run u r | None => None end end.

(** Lockstep from a relation between the encoding and the decoding cache. *)
Lemma lockstep (R : U -> U -> Prop) :
  (forall u w f u' m, R u w -> enc u f = Some (u', m) -> exists w', dec w m = Some (w', f) /\ R u' w') ->
  forall fs u w u' ms, R u w -> enc_all u fs = Some (u', ms) -> exists w', dec_all w ms = Some (w', fs) /\ R u' w'.
Proof.
  intros Hs fs. induction fs as [|f r IH]; intros u w u' ms HR He; simpl in He.
  - injection He as <- <-. exists w. split; [reflexivity|exact HR].
  - destruct (enc u f) as [[u1 m]|] eqn:E; [|discriminate].
    destruct (enc_all u1 r) as [[u2 ms']|] eqn:E2; [|discriminate]. injection He as <- <-.
    destruct (Hs u w f u1 m HR E) as (w1 & Hd & HR1).
    destruct (IH u1 w1 u2 ms' HR1 E2) as (w2 & Hd2 & HR2).
    exists w2. split; [|exact HR2]. simpl. rewrite Hd, Hd2. reflexivity.
Qed.
(** No panic from a property of the encoding cache. *)
Lemma enc_total (P : U -> Prop) :
  (forall u f, P u -> exists u' m, enc u f = Some (u', m) /\ P u') ->
  forall fs u, P u -> exists u' ms, enc_all u fs = Some (u', ms) /\ P u'.
Proof.
  intros Hs fs. induction fs as [|f r IH]; intros u HP; simpl.
  - exists u, []. auto.
  - destruct (Hs u f HP) as (u1 & m & He & HP1). rewrite He.
    destruct (IH u1 HP1) as (u2 & ms & He2 & HP2). rewrite He2. eauto.
Qed.
Lemma run_kept (P : U -> Prop) :
  (forall u f u' m, P u -> enc u f = Some (u', m) -> P u') ->
  (forall u m u' f, P u -> dec u m = Some (u', f) -> P u') ->
  forall os u u', P u -> cache_run u os = Some u' -> P u'.
Proof.
  intros He Hd os. induction os as [|o r IH]; intros u u' HP Hr; simpl in Hr.
  - injection Hr as <-. exact HP.
  - destruct (cache_step u o) as [u1|] eqn:E; [|discriminate].
    apply (IH u1 u'); [|exact Hr].
    destruct o as [f|m]; simpl in E.
    + destruct (enc u f) as [[u2 m]|] eqn:E2; [|discriminate]. injection E as <-. eapply He; eauto.
    + destruct (dec u m) as [[u2 f]|] eqn:E2; [|discriminate]. injection E as <-. eapply Hd; eauto.
Qed.
End Runs.
Arguments cache_op : clear implicits.

(** ** Association lists *)
Section Assoc.
Context {K V : Type} (keq : K -> K -> bool) (Hk : forall x y, keq x y = true <-> x = y).

Lemma keq_refl k : keq k k = true.
Proof. apply Hk. reflexivity. Qed.
Lemma keq_neq x y : x <> y -> keq x y = false.
Proof. intros H. destruct (keq x y) eqn:E; [|reflexivity]. apply Hk in E. contradiction. Qed.
Lemma assoc_in (l : list (K * V)) k v : assoc keq l k = Some v -> In (k, v) l.
Proof.
  unfold assoc. destruct (find _ l) as [[k' v']|] eqn:E; simpl; [|discriminate].
  intros H. injection H as <-. apply find_some in E. destruct E as [E1 E2]. simpl in E2. apply Hk in E2. subst. exact E1.
Qed.
Lemma assoc_none (l : list (K * V)) k : assoc keq l k = None <-> ~ In k (map fst l).
Proof.
  unfold assoc. split.
  - intros H Hin. apply in_map_iff in Hin. destruct Hin as ([k' v] & <- & Hin). cbn [fst] in H.
    destruct (find _ l) eqn:E; [discriminate|]. apply (find_none _ _ E) in Hin. simpl in Hin. rewrite keq_refl in Hin. discriminate.
  - intros H. destruct (find _ l) as [[k' v]|] eqn:E; [|reflexivity]. apply find_some in E. destruct E as [E1 E2].
    simpl in E2. apply Hk in E2. subst. destruct H. apply in_map_iff. exists (k, v). auto.
Qed.
Lemma assoc_nodup (l : list (K * V)) k v : NoDup (map fst l) -> In (k, v) l -> assoc keq l k = Some v.
Proof.
  induction l as [|[k' v'] r IH]; intros Hn Hin; [destruct Hin|]. simpl in Hn. inversion Hn as [|? ? Hnot Hn']; subst.
  unfold assoc. simpl. destruct (keq k' k) eqn:E.
  - apply Hk in E. subst. destruct Hin as [H|H]; [injection H as <-; reflexivity|].
    destruct Hnot. apply in_map_iff. exists (k, v). auto.
  - destruct Hin as [H|H]; [injection H as -> ->; rewrite keq_refl in E; discriminate|]. apply IH; auto.
Qed.
Lemma without_in (l : list (K * V)) k p : In p (without keq l k) <-> In p l /\ fst p <> k.
Proof.
  unfold without. rewrite filter_In. split; intros [H1 H2]; split; auto.
  - intros E. rewrite E, keq_refl in H2. discriminate.
  - rewrite keq_neq by auto. reflexivity.
Qed.
Lemma without_absent (l : list (K * V)) k : ~ In k (map fst l) -> without keq l k = l.
Proof.
  induction l as [|[k' v] r IH]; intros H; [reflexivity|]. simpl in *. rewrite keq_neq by tauto. simpl. rewrite IH; tauto.
Qed.
Lemma without_length (l : list (K * V)) k : NoDup (map fst l) -> In k (map fst l) -> S (length (without keq l k)) = length l.
Proof.
  induction l as [|[k' v] r IH]; intros Hn Hin; [destruct Hin|]. simpl in Hn. inversion Hn as [|? ? Hnot Hn']; subst.
  simpl. destruct (keq k' k) eqn:E; simpl.
  - apply Hk in E. subst. change (filter _ r) with (without keq r k). rewrite (without_absent r k Hnot). reflexivity.
  - destruct Hin as [H|H]; [simpl in H; subst; rewrite keq_refl in E; discriminate|]. f_equal. apply IH; auto.
Qed.
End Assoc.

Lemma nodup_filter {X Y} (g : X -> Y) (f : X -> bool) l : NoDup (map g l) -> NoDup (map g (filter f l)).
Proof.
  induction l as [|x r IH]; intros H; simpl in *; [constructor|]. inversion H as [|? ? Hn Hr]; subst.
  destruct (f x); simpl; auto. constructor; auto. intros Hin. apply Hn. apply in_map_iff in Hin.
  destruct Hin as (y & Hy & Hin). apply filter_In in Hin. apply in_map_iff. exists y. tauto.
Qed.
Lemma eqb_eq n m : Nat.eqb n m = true <-> n = m.
Proof. apply Nat.eqb_eq. Qed.

(** ** C34: the LRU cache *)
Section Lru34.
Context {A : Type} (aeq : A -> A -> bool) (Ha : forall x y, aeq x y = true <-> x = y) (lim : nat).

(** What holds of the encoder of a cache that is not a clone. *)
Definition enc_fine (u : lruc A) : Prop :=
  let l := l_items (u_enc u) in
  NoDup (map fst l) /\ NoDup (map snd l) /\ (forall x, In x (map snd l) -> x <= u_encoding u) /\
  length l <= u_size u /\ l_cap (u_enc u) = u_size u /\ 1 <= u_size u.
(** The decoder of [w] mirrors the encoder of [u]. *)
Definition mirror (u w : lruc A) : Prop :=
  l_items (u_dec w) = map swap (l_items (u_enc u)) /\ u_encoding w = u_encoding u /\ u_size w = u_size u /\ u_size w <= l_cap (u_dec w).

Lemma map_fst_swap {X Y} (l : list (X * Y)) : map fst (map swap l) = map snd l.
Proof. rewrite map_map. reflexivity. Qed.
Lemma map_snd_swap {X Y} (l : list (X * Y)) : map snd (map swap l) = map fst l.
Proof. rewrite map_map. reflexivity. Qed.

Lemma pair_by_snd {X Y} (l : list (X * Y)) a b y : NoDup (map snd l) -> In (a, y) l -> In (b, y) l -> a = b.
Proof.
  induction l as [|[a' y'] r IH]; intros Hn H1 H2; [destruct H1|]. simpl in Hn. inversion Hn as [|? ? Hnot Hn']; subst.
  destruct H1 as [H1|H1], H2 as [H2|H2].
  - congruence.
  - injection H1 as -> ->. destruct Hnot. apply in_map_iff. exists (b, y). auto.
  - injection H2 as -> ->. destruct Hnot. apply in_map_iff. exists (a, y). auto.
  - eauto.
Qed.
Lemma pair_by_fst {X Y} (l : list (X * Y)) a x y : NoDup (map fst l) -> In (a, x) l -> In (a, y) l -> x = y.
Proof.
  induction l as [|[a' y'] r IH]; intros Hn H1 H2; [destruct H1|]. simpl in Hn. inversion Hn as [|? ? Hnot Hn']; subst.
  destruct H1 as [H1|H1], H2 as [H2|H2].
  - congruence.
  - injection H1 as -> ->. destruct Hnot. apply in_map_iff. exists (a, y). auto.
  - injection H2 as -> ->. destruct Hnot. apply in_map_iff. exists (a, x). auto.
  - eauto.
Qed.

Lemma without_swap (l : list (A * nat)) f x : NoDup (map fst l) -> NoDup (map snd l) -> In (f, x) l ->
  without Nat.eqb (map swap l) x = map swap (without aeq l f).
Proof.
  intros H1 H2 Hin.
  assert (forall l', incl l' l -> without Nat.eqb (map swap l') x = map swap (without aeq l' f)) as H; [|apply H, incl_refl].
  induction l' as [|[b y] r IH]; intros Hi; [reflexivity|].
  assert (Hb : In (b, y) l) by (apply Hi; left; reflexivity).
  simpl. rewrite IH by (intros p Hp; apply Hi; right; exact Hp).
  destruct (aeq b f) eqn:E.
  - apply Ha in E. subst b. rewrite (pair_by_fst l f y x H1 Hb Hin), Nat.eqb_refl. reflexivity.
  - destruct (y =? x) eqn:E2; [|reflexivity]. apply Nat.eqb_eq in E2. subst y.
    rewrite (pair_by_snd l b f x H2 Hb Hin), (keq_refl aeq Ha) in E. discriminate.
Qed.

Lemma without_subset {X Y} keq (l : list (X * Y)) k p : In p (without keq l k) -> In p l.
Proof. unfold without. rewrite filter_In. tauto. Qed.

(** The encoder moves a known field to the front. *)
Lemma fine_front (l : list (A * nat)) f x : NoDup (map fst l) -> NoDup (map snd l) -> In (f, x) l ->
  NoDup (map fst ((f, x) :: without aeq l f)) /\ NoDup (map snd ((f, x) :: without aeq l f)) /\
  length ((f, x) :: without aeq l f) = length l /\ incl (map snd ((f, x) :: without aeq l f)) (map snd l).
Proof.
  intros H1 H2 Hin. simpl. repeat apply conj.
  - constructor; [|apply nodup_filter; exact H1]. intros Hc. apply in_map_iff in Hc. destruct Hc as (p & Hp & Hc).
    apply (without_in aeq Ha) in Hc. tauto.
  - constructor; [|apply nodup_filter; exact H2]. intros Hc. apply in_map_iff in Hc. destruct Hc as ([b y] & Hp & Hc). simpl in Hp. subst y.
    apply (without_in aeq Ha) in Hc. destruct Hc as [Hc Hne]. apply Hne. simpl. eapply pair_by_snd; eauto.
  - apply without_length; auto. apply in_map_iff. exists (f, x). auto.
  - intros y [<-|Hy]; [apply in_map_iff; exists (f, x); auto|]. apply in_map_iff in Hy. destruct Hy as (p & <- & Hp).
    apply in_map. eapply without_subset; eauto.
Qed.

Lemma rev_cases {X} (l : list X) : l = [] \/ exists r x, l = r ++ [x].
Proof. destruct l as [|a l] using rev_ind; [left; reflexivity|right; eauto]. Qed.

Lemma nodup_app_one {X} (l : list X) x : NoDup (l ++ [x]) -> NoDup l /\ ~ In x l.
Proof.
  intros H. split.
  - apply NoDup_remove_1 in H. rewrite app_nil_r in H. exact H.
  - apply NoDup_remove_2 in H. rewrite app_nil_r in H. exact H.
Qed.

(** One encoded field. *)
Lemma lru_encode_step u f u' m :
  enc_fine u -> lruc_encode aeq lim u f = Some (u', m) ->
  enc_fine u' /\ forall w, mirror u w -> exists w', lruc_decode lim w m = Some (w', f) /\ mirror u' w'.
Proof.
  intros (H1 & H2 & H3 & H4 & H5 & H6) He.
  unfold lruc_encode, lru_get in He.
  destruct (assoc aeq (l_items (u_enc u)) f) as [x|] eqn:E.
  - injection He as <- <-. pose proof (assoc_in aeq Ha _ _ _ E) as Hin.
    destruct (fine_front _ _ _ H1 H2 Hin) as (F1 & F2 & F3 & F4).
    split.
    + unfold enc_fine. cbn [u_enc l_items l_cap u_encoding u_size].
      repeat apply conj; auto; lia.
    + intros w (M1 & M2 & M3 & M4). unfold lruc_decode, lru_get. rewrite M1.
      assert (assoc Nat.eqb (map swap (l_items (u_enc u))) x = Some f) as ->.
      { apply (assoc_nodup _ eqb_eq); [rewrite map_fst_swap; exact H2|]. apply in_map_iff. exists (f, x). auto. }
      eexists. split; [reflexivity|]. unfold mirror. cbn [u_enc u_dec l_items l_cap u_encoding u_size map swap].
      repeat apply conj; auto. rewrite (without_swap _ f x H1 H2 Hin). reflexivity.
  - apply (assoc_none aeq Ha) in E. unfold lru_len in He.
    destruct (length (l_items (u_enc u)) =? u_size u) eqn:El.
    + apply Nat.eqb_eq in El. unfold lru_pop in He.
      destruct (rev_cases (l_items (u_enc u))) as [Hnil|(r & [g x] & Hr)]; [rewrite Hnil in El; simpl in El; lia|].
      rewrite Hr, rev_unit, rev_involutive in He. injection He as <- <-.
      assert (Hnf : ~ In f (map fst r)) by (intros Hc; apply E; rewrite Hr, map_app; apply in_or_app; auto).
      rewrite Hr, map_app in H1. destruct (nodup_app_one _ _ H1) as [H1a H1b]. cbn [fst] in H1b.
      rewrite Hr, map_app in H2. destruct (nodup_app_one _ _ H2) as [H2a H2b]. cbn [snd] in H2b.
      assert (Hlr : S (length r) = u_size u) by (rewrite <- El, Hr, app_length; simpl; lia).
      unfold lru_push. cbn [l_items l_cap]. rewrite (proj2 (assoc_none aeq Ha r f) Hnf).
      rewrite H5. replace (length r =? u_size u) with false by (symmetry; apply Nat.eqb_neq; lia).
      split.
      * unfold enc_fine. cbn [u_enc l_items l_cap u_encoding u_size map fst snd length].
        repeat apply conj; auto; try (constructor; assumption); try lia.
        intros y Hy. apply H3. rewrite Hr, map_app. apply in_or_app. destruct Hy as [<-|Hy]; [right; left; reflexivity|left; exact Hy].
      * intros w (M1 & M2 & M3 & M4). unfold lruc_decode, lru_len. rewrite M1, map_length, M3, El, Nat.eqb_refl.
        unfold lru_pop. rewrite M1, Hr, map_app. cbn [map]. rewrite rev_unit, rev_involutive. cbn [swap fst snd].
        eexists. split; [reflexivity|]. unfold mirror, lru_push. cbn [u_enc u_dec l_items l_cap u_encoding u_size map swap].
        assert (assoc Nat.eqb (map swap r) x = None) as -> by (apply (assoc_none _ eqb_eq); rewrite map_fst_swap; exact H2b).
        rewrite map_length. replace (length r =? l_cap (u_dec w)) with false by (symmetry; apply Nat.eqb_neq; lia).
        cbn [l_items l_cap swap fst snd]. repeat apply conj; auto; lia.
    + apply Nat.eqb_neq in El. unfold add_one in He.
      destruct (u_encoding u <? lim) eqn:Ef; [|discriminate]. injection He as <- <-.
      assert (Hnx : ~ In (S (u_encoding u)) (map snd (l_items (u_enc u)))) by (intros Hc; apply H3 in Hc; lia).
      unfold lru_push. rewrite (proj2 (assoc_none aeq Ha _ f) E), H5.
      replace (length (l_items (u_enc u)) =? u_size u) with false by (symmetry; apply Nat.eqb_neq; lia).
      split.
      * unfold enc_fine. cbn [u_enc l_items l_cap u_encoding u_size map fst snd length].
        repeat apply conj; auto; try (constructor; assumption); try lia.
        intros y [<-|Hy]; [lia|]. apply H3 in Hy. lia.
      * intros w (M1 & M2 & M3 & M4). unfold lruc_decode, lru_len. rewrite M1, map_length, M3.
        replace (length (l_items (u_enc u)) =? u_size u) with false by (symmetry; apply Nat.eqb_neq; lia).
        unfold add_one. rewrite M2, Ef.
        eexists. split; [reflexivity|]. unfold mirror, lru_push. cbn [u_enc u_dec l_items l_cap u_encoding u_size].
        rewrite M1. assert (assoc Nat.eqb (map swap (l_items (u_enc u))) (S (u_encoding u)) = None) as -> by (apply (assoc_none _ eqb_eq); rewrite map_fst_swap; exact Hnx).
        rewrite map_length. replace (length (l_items (u_enc u)) =? l_cap (u_dec w)) with false by (symmetry; apply Nat.eqb_neq; lia).
        cbn [l_items l_cap map swap fst snd]. repeat apply conj; auto; lia.
Qed.

Definition lockR (u w : lruc A) : Prop := enc_fine u /\ mirror u w.
Lemma lockR_step u w f u' m : lockR u w -> lruc_encode aeq lim u f = Some (u', m) ->
  exists w', lruc_decode lim w m = Some (w', f) /\ lockR u' w'.
Proof.
  intros [Hf Hm] He. destruct (lru_encode_step u f u' m Hf He) as [Hf' Hs].
  destruct (Hs w Hm) as (w' & Hd & Hm'). exists w'. repeat split; auto; apply Hm' || apply Hf'.
Qed.

Lemma fresh_lock size u : lruc_new size = Some u -> lockR u u.
Proof.
  unfold lruc_new, lru_new. destruct size; [discriminate|]. intros H. injection H as <-.
  split; [|repeat split; simpl; lia].
  unfold enc_fine. cbn [u_enc l_items l_cap u_encoding u_size map length]. repeat apply conj; try apply NoDup_nil; try lia. intros x [].
Qed.

(** C34.  Two equal fresh caches of any size: every sequence of fields that the first encodes is
    what the second decodes. *)
Theorem C34_lockstep size u0 fs u ms :
  lruc_new size = Some u0 ->
  enc_all (lruc_encode aeq lim) u0 fs = Some (u, ms) ->
  exists w, dec_all (lruc_decode lim) u0 ms = Some (w, fs).
Proof.
  intros Hn He. destruct (lockstep _ _ lockR lockR_step fs u0 u0 u ms (fresh_lock _ _ Hn) He) as (w & Hd & _). eauto.
Qed.

(** C34, the encoder: it never panics when the encoded type has a value for every slot. *)
Definition counted (u : lruc A) : Prop := enc_fine u /\ u_encoding u = length (l_items (u_enc u)) /\ u_size u <= lim.
Lemma counted_step u f : counted u -> exists u' m, lruc_encode aeq lim u f = Some (u', m) /\ counted u'.
Proof.
  intros (Hf & Hc & Hl).
  assert (exists u' m, lruc_encode aeq lim u f = Some (u', m) /\ u_encoding u' = length (l_items (u_enc u')) /\ u_size u' = u_size u) as (u' & m & He & Hc' & Hs).
  { destruct Hf as (H1 & H2 & H3 & H4 & H5 & H6). unfold lruc_encode, lru_get.
    destruct (assoc aeq (l_items (u_enc u)) f) as [x|] eqn:E.
    - do 2 eexists. split; [reflexivity|]. cbn [u_encoding u_enc u_size l_items]. split; [|reflexivity].
      apply (assoc_in aeq Ha) in E. destruct (fine_front _ _ _ H1 H2 E) as (_ & _ & F3 & _). rewrite F3. exact Hc.
    - unfold lru_len. destruct (length (l_items (u_enc u)) =? u_size u) eqn:El.
      + apply Nat.eqb_eq in El. unfold lru_pop.
        destruct (rev_cases (l_items (u_enc u))) as [Hnil|(r & [g x] & Hr)]; [rewrite Hnil in El; simpl in El; lia|].
        rewrite Hr, rev_unit, rev_involutive. do 2 eexists. split; [reflexivity|]. split; [|reflexivity].
        unfold lru_push. cbn [l_items l_cap u_encoding u_enc].
        apply (assoc_none aeq Ha) in E.
        assert (Hnf : ~ In f (map fst r)) by (intros Hi; apply E; rewrite Hr, map_app; apply in_or_app; auto).
        rewrite (proj2 (assoc_none aeq Ha r f) Hnf). rewrite Hr, app_length in El, Hc. simpl in El, Hc.
        replace (length r =? l_cap (u_enc u)) with false by (symmetry; apply Nat.eqb_neq; lia). simpl. lia.
      + apply Nat.eqb_neq in El. unfold add_one. replace (u_encoding u <? lim) with true by (symmetry; apply Nat.ltb_lt; lia).
        do 2 eexists. split; [reflexivity|]. split; [|reflexivity]. unfold lru_push. rewrite E.
        replace (length (l_items (u_enc u)) =? l_cap (u_enc u)) with false by (symmetry; apply Nat.eqb_neq; lia). simpl. lia. }
  exists u', m. split; [exact He|]. split; [apply (lru_encode_step u f u' m Hf He)|]. split; [exact Hc'|lia].
Qed.
Theorem C34_encodes size u0 fs :
  size <= lim -> lruc_new size = Some u0 ->
  exists u ms, enc_all (lruc_encode aeq lim) u0 fs = Some (u, ms).
Proof.
  intros Hs Hn.
  assert (counted u0) as Hc.
  { destruct (fresh_lock _ _ Hn) as [Hf _]. split; [exact Hf|]. unfold lruc_new, lru_new in Hn.
    destruct size; [discriminate|]. injection Hn as <-. split; [reflexivity|exact Hs]. }
  destruct (enc_total _ counted counted_step fs u0 Hc) as (u & ms & He & _). eauto.
Qed.

(** ** C36: the clone of an LRU cache *)
Lemma decode_keeps_fine u m u' f : enc_fine u -> lruc_decode lim u m = Some (u', f) -> enc_fine u'.
Proof.
  intros (H1 & H2 & H3 & H4 & H5 & H6) Hd.
  assert (u_enc u' = u_enc u /\ u_size u' = u_size u /\ u_encoding u <= u_encoding u') as (E1 & E2 & E3).
  { unfold lruc_decode in Hd. destruct m as [x|a].
    - destruct (lru_get Nat.eqb (u_dec u) x) as [d [a|]]; [|discriminate]. injection Hd as <- <-. cbn. auto.
    - destruct (lru_len (u_dec u) =? u_size u).
      + destruct (lru_pop (u_dec u)) as [[d [x b]]|]; [|discriminate]. injection Hd as <- <-. cbn. auto.
      + unfold add_one in Hd. destruct (u_encoding u <? lim); [|discriminate]. injection Hd as <- <-. cbn. auto. }
  unfold enc_fine. rewrite E1, E2. repeat apply conj; auto. intros x Hx. apply H3 in Hx. lia.
Qed.

Lemma push_all_fresh (c : lru nat A) l :
  NoDup (map fst l) -> (forall x, In x (map fst l) -> ~ In x (map fst (l_items c))) -> length l + length (l_items c) <= l_cap c ->
  lru_push_all Nat.eqb c l = mkLru (l_cap c) (rev l ++ l_items c).
Proof.
  revert c. induction l as [|[x a] r IH]; intros c Hn Hd Hl.
  - destruct c. reflexivity.
  - simpl in Hn. inversion Hn as [|? ? Hnot Hn']; subst. simpl in Hl.
    change (lru_push_all Nat.eqb c ((x, a) :: r)) with (lru_push_all Nat.eqb (lru_push Nat.eqb c x a) r).
    assert (lru_push Nat.eqb c x a = mkLru (l_cap c) ((x, a) :: l_items c)) as ->.
    { unfold lru_push. rewrite (proj2 (assoc_none Nat.eqb eqb_eq (l_items c) x)) by (apply Hd; left; reflexivity).
      replace (length (l_items c) =? l_cap c) with false by (symmetry; apply Nat.eqb_neq; lia). reflexivity. }
    rewrite IH; cbn [l_items l_cap].
    + f_equal. simpl. rewrite <- app_assoc. reflexivity.
    + exact Hn'.
    + intros y Hy [Hc|Hc]; [simpl in Hc; subst; contradiction|]. apply (Hd y); [right; exact Hy|exact Hc].
    + simpl. lia.
Qed.

Lemma clone_mirror u : enc_fine u -> exists w, lruc_clone u = Some w /\ mirror u w.
Proof.
  intros (H1 & H2 & H3 & H4 & H5 & H6). unfold lruc_clone, lru_new.
  destruct (u_size u) as [|s] eqn:Es; [lia|]. eexists. split; [reflexivity|].
  rewrite push_all_fresh; cbn [l_items l_cap].
  - unfold mirror. cbn [u_dec u_encoding u_size l_items l_cap]. rewrite app_nil_r, map_rev, rev_involutive. auto.
  - rewrite map_fst_swap, map_rev. apply NoDup_rev. exact H2.
  - intros x _ [].
  - rewrite map_length, rev_length. simpl. lia.
Qed.

(** C36 for LRU.  [u] is any cache that started fresh and has encoded and decoded anything since (it
    is no clone itself); what it encodes after being cloned is what the clone decodes. *)
Theorem C36_lru_clone size u0 os u :
  lruc_new size = Some u0 -> cache_run (lruc_encode aeq lim) (lruc_decode lim) u0 os = Some u ->
  exists w, lruc_clone u = Some w /\
    forall fs u' ms, enc_all (lruc_encode aeq lim) u fs = Some (u', ms) ->
      exists w', dec_all (lruc_decode lim) w ms = Some (w', fs).
Proof.
  intros Hn Hr.
  assert (Hf : enc_fine u).
  { eapply (run_kept _ _ enc_fine); [| |apply (fresh_lock _ _ Hn)|exact Hr].
    - intros v f v' m Hv He. apply (lru_encode_step v f v' m Hv He).
    - intros v m v' f Hv Hd. eapply decode_keeps_fine; eauto. }
  destruct (clone_mirror u Hf) as (w & Hw & Hm). exists w. split; [exact Hw|].
  intros fs u' ms He. destruct (lockstep _ _ lockR lockR_step fs u w u' ms (conj Hf Hm) He) as (w' & Hd & _). eauto.
Qed.
(** C36, the way over the wire: with a format that does not announce the length of a sequence the
    clone arrives as good as it was sent (for sizes up to the 255 that lru_cache.rs 206 assumes). *)
Theorem C36_lru_clone_sent size u0 os u :
  size <= 255 -> lruc_new size = Some u0 -> cache_run (lruc_encode aeq lim) (lruc_decode lim) u0 os = Some u ->
  exists c w, lruc_clone u = Some c /\ lruc_serde aeq (fun _ => None) c = Some w /\
    forall fs u' ms, enc_all (lruc_encode aeq lim) u fs = Some (u', ms) ->
      exists w', dec_all (lruc_decode lim) w ms = Some (w', fs).
Proof.
  intros Hs Hn Hr.
  assert (Hf : enc_fine u /\ u_size u <= 255).
  { assert (Hf0 : enc_fine u0 /\ u_size u0 <= 255).
    { split; [apply (fresh_lock _ _ Hn)|]. unfold lruc_new, lru_new in Hn. destruct size; [discriminate|]. injection Hn as <-. exact Hs. }
    eapply (run_kept _ _ (fun v => enc_fine v /\ u_size v <= 255)); [| |exact Hf0|exact Hr].
    - intros v f v' m [Hv Hvs] He. split; [apply (lru_encode_step v f v' m Hv He)|].
      unfold lruc_encode in He. destruct (lru_get aeq (u_enc v) f) as [e [x|]]; [injection He as <- _; exact Hvs|].
      destruct (lru_len e =? u_size v); [destruct (lru_pop e) as [[e' [g x]]|]|destruct (add_one lim (u_encoding v))]; try discriminate; injection He as <- _; exact Hvs.
    - intros v m v' f [Hv Hvs] Hd. split; [eapply decode_keeps_fine; eauto|].
      unfold lruc_decode in Hd. destruct m as [x|a].
      + destruct (lru_get Nat.eqb (u_dec v) x) as [d [a|]]; [|discriminate]. injection Hd as <- _. exact Hvs.
      + destruct (lru_len (u_dec v) =? u_size v); [destruct (lru_pop (u_dec v)) as [[d [x b]]|]|destruct (add_one lim (u_encoding v))]; try discriminate; injection Hd as <- _; exact Hvs. }
  destruct Hf as [Hf Hfs]. destruct (clone_mirror u Hf) as (c & Hc & Hm). exists c.
  assert (exists w, lruc_serde aeq (fun _ => None) c = Some w /\ mirror u w) as (w & Hw & Hmw).
  { destruct Hm as (M1 & M2 & M3 & M4). destruct Hf as (H1 & H2 & H3 & H4 & H5 & H6).
    unfold lruc_serde, lru_serde, lru_new. eexists. split; [reflexivity|].
    rewrite push_all_fresh; cbn [l_items l_cap].
    - unfold mirror. cbn [u_dec u_encoding u_size l_items l_cap]. rewrite app_nil_r, rev_involutive. repeat apply conj; auto. lia.
    - rewrite map_rev, M1, map_fst_swap. apply NoDup_rev. exact H2.
    - intros x _ [].
    - rewrite rev_length, M1, map_length. cbn [length]. lia. }
  exists w. split; [exact Hc|]. split; [exact Hw|].
  intros fs u' ms He. destruct (lockstep _ _ lockR lockR_step fs u w u' ms (conj Hf Hmw) He) as (w' & Hd & _). eauto.
Qed.
End Lru34.
