(** * C71: entries with the macro [UniCacheEntry]

    The specification: what the documentation of the macro (omnipaxos_macros/src/lib.rs 41-44) says
    about the attributes, and [send_all]/[receive_all], which encode and decode a sequence of
    entries. *)
From Coq Require Import List Arith Bool Lia.
From Verif Require Import Unicache PropUnicache PropUnicacheLfu Derive.
Import ListNotations.

(** ** The specification *)
(** What the items name, in their order. *)
Definition sizes (its : list item) : list nat := flat_map (fun i => match i with ISize n => [n] | _ => [] end) its.
Definition encodings (its : list item) : list nat := flat_map (fun i => match i with IEncoding n => [n] | _ => [] end) its.
Definition policies (its : list item) : list policy := flat_map (fun i => match i with ICache (Some p) => [p] | _ => [] end) its.
(** The items that count for a field: those of its first attribute. *)
Definition items (f : field) : list item := hd [] (f_attrs f).
Definition annotated (f : field) : Prop := f_attrs f <> [].
(** "The default is u8", "Default is u8::MAX", "The default is lru": every field by its own
    attribute. *)
Definition documented (f : field) : spec := mkSpec (last (policies (items f)) Lru) (last (sizes (items f)) 255) (last (encodings (items f)) 255).
(** "Should not be larger than the max size of the encoding type"; and the size 0 is refused. *)
Definition sized (f : field) : Prop := annotated f -> 1 <= sp_size (documented f) <= sp_lim (documented f).
Definition decidable_field (f : field) : Prop := forall x y, f_eqb f x y = true <-> x = y.

Fixpoint send_all (sl : list slot) (c : cache sl) (es : list (entry sl)) : option (cache sl * list (encoded sl)) :=
  match es with
  | [] => Some (c, [])
  | e :: r => match c_encode sl c e with
              | Some (c, w) => match send_all sl c r with Some (c, ws) => Some (c, w :: ws) | None => None end
              | None => None
              end
  end.
Fixpoint receive_all (sl : list slot) (c : cache sl) (ws : list (encoded sl)) : option (cache sl * list (entry sl)) :=
  match ws with
  | [] => Some (c, [])
  | w :: r => match c_decode sl c w with
              | Some (c, e) => match receive_all sl c r with Some (c, es) => Some (c, e :: es) | None => None end
              | None => None
              end
  end.

(** ** What the macro decides *)
Lemma last_cons {X} (l : list X) x d : last (x :: l) d = last l x.
Proof. revert x d. induction l as [|y l IH]; intros x d; [reflexivity|]. change (last (y :: l) d = last (y :: l) x). rewrite (IH y d), (IH y x). reflexivity. Qed.
Lemma last_app {X} (l1 l2 : list X) d : last (l1 ++ l2) d = last l2 (last l1 d).
Proof. revert d. induction l1 as [|x l1 IH]; intros d; [reflexivity|]. change ((x :: l1) ++ l2) with (x :: (l1 ++ l2)). rewrite !last_cons. apply IH. Qed.
Lemma parse_reads its : forall ct sz lm ct' sz' lm', parse its ct sz lm = Some (ct', sz', lm') ->
  or_else ct' Lru = last (policies its) (or_else ct Lru) /\ or_else sz' 255 = last (sizes its) (or_else sz 255) /\ or_else lm' 255 = last (encodings its) (or_else lm 255).
Proof.
  induction its as [|i r IH]; intros ct sz lm ct' sz' lm' H; [injection H as <- <- <-; auto|].
  destruct i as [n|[p|]|n|]; cbn [parse] in H; try discriminate; apply IH in H; cbn [policies sizes encodings flat_map app] in *; rewrite ?last_cons; exact H.
Qed.
Lemma policies_app a b : policies (a ++ b) = policies a ++ policies b.
Proof. apply flat_map_app. Qed.
Lemma derive_reads fs : forall ct sl, derive ct fs = Some sl ->
  forall pre f post, fs = pre ++ f :: post -> exists s, nth_error sl (length pre) = Some s /\
    sl = firstn (length pre) sl ++ s :: skipn (S (length pre)) sl /\
    (f_attrs f = [] -> s = mkSlot (f_type f) (f_eqb f) None) /\
    (annotated f -> s = mkSlot (f_type f) (f_eqb f)
       (Some (mkSpec (last (policies (items f)) (last (policies (flat_map items pre)) (or_else ct Lru))) (last (sizes (items f)) 255) (last (encodings (items f)) 255)))).
Proof.
  induction fs as [|g fs IH]; intros ct sl H pre f post E; [destruct pre; discriminate|].
  cbn [derive] in H. destruct pre as [|g' pre]; cbn in E; injection E as <- E.
  - cbn [length nth_error firstn skipn app]. destruct (f_attrs g) as [|its al] eqn:Ea.
    + destruct (derive ct fs) as [sl'|]; [|discriminate]. injection H as <-. eexists. split; [reflexivity|]. split; [reflexivity|]. split; [auto|]. intros A. destruct (A Ea).
    + destruct (parse its ct None None) as [[[ct' sz] lm]|] eqn:Ep; [|discriminate]. destruct (derive _ fs) as [sl'|]; [|discriminate]. injection H as <-.
      destruct (parse_reads _ _ _ _ _ _ _ Ep) as (A1 & A2 & A3). eexists. split; [reflexivity|]. split; [reflexivity|]. split; [discriminate|]. intros _.
      unfold items. rewrite Ea. cbn [hd flat_map policies last]. rewrite A1, A2, A3. reflexivity.
  - assert (exists ct' s1 sl', sl = s1 :: sl' /\ derive ct' fs = Some sl' /\ or_else ct' Lru = last (policies (items g)) (or_else ct Lru)) as (ct' & s1 & sl' & -> & Hd & Hc).
    { unfold items. destruct (f_attrs g) as [|its al] eqn:Ea.
      - destruct (derive ct fs) as [sl'|] eqn:Hd; [|discriminate]. injection H as <-. do 3 eexists. split; [reflexivity|]. split; [exact Hd|]. reflexivity.
      - destruct (parse its ct None None) as [[[ct' sz] lm]|] eqn:Ep; [|discriminate]. destruct (derive _ fs) as [sl'|] eqn:Hd; [|discriminate]. injection H as <-.
        do 3 eexists. split; [reflexivity|]. split; [exact Hd|]. cbn [or_else hd]. apply (parse_reads _ _ _ _ _ _ _ Ep). }
    destruct (IH ct' sl' Hd pre f post E) as (s & S1 & S2 & S3 & S4). exists s. cbn [length nth_error firstn skipn app].
    split; [exact S1|]. split; [f_equal; exact S2|]. split; [exact S3|]. intros A. rewrite (S4 A), Hc. cbn [flat_map].
    rewrite policies_app, last_app. reflexivity.
Qed.

(** C71, what is cached.  Exactly the annotated fields are; the size and the encoded type of a field
    are those that its attribute documents.  The policy is the last one named by this field or by an
    annotated field before it, and lru when none is named.

    Partial: the documented policy is that of the field alone (see the refutation below); the two
    are the same when the field names its policy, or when no field before it names lfu. *)
Theorem C71_attributes_partial fs sl : unicache_entry fs = Some sl ->
  forall pre f post, fs = pre ++ f :: post -> exists s, nth_error sl (length pre) = Some s /\
    (sl_spec s <> None <-> annotated f) /\
    (forall sp, sl_spec s = Some sp -> sp_size sp = sp_size (documented f) /\ sp_lim sp = sp_lim (documented f) /\
       sp_policy sp = last (policies (flat_map items (pre ++ [f]))) Lru /\
       (policies (items f) <> [] \/ ~ In Lfu (policies (flat_map items pre)) -> sp = documented f)).
Proof.
  intros H pre f post E. destruct (derive_reads fs None sl H pre f post E) as (s & S1 & _ & S3 & S4). exists s. split; [exact S1|].
  destruct (f_attrs f) as [|a al] eqn:Ea.
  - rewrite (S3 eq_refl). cbn [sl_spec]. split; [|discriminate]. split; [intros A; destruct (A eq_refl)|]. intros A. destruct (A Ea).
  - assert (A : annotated f) by (unfold annotated; rewrite Ea; discriminate). rewrite (S4 A). cbn [sl_spec or_else]. split; [split; [auto|discriminate]|].
    intros sp X. injection X as <-. cbn [sp_size sp_lim sp_policy documented]. split; [reflexivity|]. split; [reflexivity|]. split.
    + rewrite flat_map_app. cbn [flat_map]. rewrite app_nil_r. rewrite policies_app, last_app. reflexivity.
    + intros B. unfold documented. f_equal. destruct B as [B|B].
      * destruct (policies (items f)) as [|p l]; [destruct (B eq_refl)|]. rewrite !last_cons. reflexivity.
      * f_equal. clear - B. induction (policies (flat_map items pre)) as [|p l IH]; [reflexivity|]. rewrite last_cons. destruct p; [|destruct B; left; reflexivity]. apply IH. intros C. apply B. right. exact C.
Qed.

(** ** One cached field *)
Section Field.
Context {A : Type} (aeq : A -> A -> bool) (Ha : forall x y, aeq x y = true <-> x = y).
Definition flock (o : option spec) : @fcache A o -> @fcache A o -> Prop :=
  match o return @fcache A o -> @fcache A o -> Prop with
  | None => fun _ _ => True
  | Some sp =>
      match sp_policy sp as p return (match p with Lru => lruc A | Lfu => lfuc A end) -> (match p with Lru => lruc A | Lfu => lfuc A end) -> Prop with
      | Lru => fun u w => lockR u w
      | Lfu => fun u w => lockF u w
      end
  end.
Definition ffine (o : option spec) : @fcache A o -> Prop :=
  match o return @fcache A o -> Prop with
  | None => fun _ => True
  | Some sp =>
      match sp_policy sp as p return (match p with Lru => lruc A | Lfu => lfuc A end) -> Prop with
      | Lru => fun u => counted (sp_lim sp) u
      | Lfu => fun u => countedF (sp_lim sp) u
      end
  end.
Lemma f_step o u w a u' x : flock o u w -> fc_encode aeq o u a = Some (u', x) -> exists w', fc_decode o w x = Some (w', a) /\ flock o u' w'.
Proof.
  destruct o as [[[|] size lim]|]; cbn in *.
  - apply lockR_step. exact Ha.
  - apply lockF_step. exact Ha.
  - intros _ H. injection H as <- <-. eauto.
Qed.
Lemma f_fresh o u : fc_new o = Some u -> flock o u u.
Proof. destruct o as [[[|] size lim]|]; cbn in *; [apply fresh_lock|apply fresh_lockF|auto]. Qed.
Lemma f_total o u a : ffine o u -> exists u' x, fc_encode aeq o u a = Some (u', x) /\ ffine o u'.
Proof.
  destruct o as [[[|] size lim]|]; cbn in *.
  - apply counted_step. exact Ha.
  - apply countedF_step. exact Ha.
  - intros _. eauto.
Qed.
Lemma f_init o : (forall sp, o = Some sp -> 1 <= sp_size sp <= sp_lim sp) -> exists u, @fc_new A o = Some u /\ ffine o u.
Proof.
  destruct o as [[[|] size lim]|]; intros H.
  - specialize (H _ eq_refl). cbn in *. assert (exists u, @lruc_new A size = Some u) as [u Hu] by (destruct size; [lia|]; eexists; reflexivity). exists u. split; [exact Hu|].
    destruct (fresh_lock _ _ Hu) as [Hf _]. split; [exact Hf|]. unfold lruc_new, lru_new in Hu. destruct size; [discriminate|]. injection Hu as <-. cbn. split; [reflexivity|lia].
  - specialize (H _ eq_refl). cbn in *. assert (exists u, @lfuc_new A size = Some u) as [u Hu] by (destruct size; [lia|]; eexists; reflexivity). exists u. split; [exact Hu|].
    destruct (fresh_lockF _ _ Hu) as (j & E1 & _ & _ & _ & Hj). exists j. split; [exact E1|].
    unfold lfuc_new, lfu_new in Hu. destruct size; [discriminate|]. injection Hu as <-. cbn [v_encoding v_size v_enc] in *. split; [exact Hj|]. split; [|lia].
    rewrite <- encside_len, <- E1. reflexivity.
  - exists tt. cbn. auto.
Qed.
Lemma f_clone order o u : (forall sp, o = Some sp -> sp_policy sp = Lru) -> ffine o u -> exists w, fc_clone order aeq o u = Some w /\ flock o u w.
Proof.
  destruct o as [[p size lim]|]; intros Hl; [specialize (Hl _ eq_refl); cbn in Hl; subst p|]; cbn.
  - intros [Hf _]. destruct (clone_mirror u Hf) as (w & Hw & Hm). exists w. split; [exact Hw|]. split; assumption.
  - intros _. exists u. auto.
Qed.
(** The second of two equal values is encoded. *)
Lemma f_again sp u a u1 x1 u2 x2 : fc_encode aeq (Some sp) u a = Some (u1, x1) -> fc_encode aeq (Some sp) u1 a = Some (u2, x2) -> exists n, x2 = Encoded n.
Proof.
  assert (Hr : aeq a a = true) by (apply Ha; reflexivity).
  destruct sp as [[|] size lim]; cbn in *.
  - intros H1 H2. assert (exists y r, l_items (u_enc u1) = (a, y) :: r) as (y & r & Ey).
    { unfold lruc_encode, lru_get in H1. destruct (assoc aeq (l_items (u_enc u)) a) as [y|] eqn:E; [injection H1 as <- _; cbn; eauto|].
      unfold lru_len in H1. destruct (length _ =? u_size u).
      - destruct (lru_pop (u_enc u)) as [[e [g y]]|]; [|discriminate]. injection H1 as <- _. cbn [u_enc]. unfold lru_push. destruct (assoc aeq (l_items e) a); [cbn; eauto|]. destruct (_ =? _); cbn; eauto.
      - destruct (add_one lim (u_encoding u)) as [y|]; [|discriminate]. injection H1 as <- _. cbn [u_enc]. unfold lru_push. rewrite E. destruct (_ =? _); cbn; eauto. }
    unfold lruc_encode, lru_get, assoc in H2. rewrite Ey in H2. cbn [find fst] in H2. rewrite Hr in H2. cbn in H2. injection H2 as _ <-. eauto.
  - intros H1 H2.
    assert (S1 : forall (c c' : lfu A nat) v, lfu_set aeq c a v = Some c' -> exists y, assoc aeq (f_values c') a = Some y).
    { intros c c' v H. unfold lfu_set in H. destruct (assoc aeq (f_values c) a) as [y|] eqn:E.
      - unfold lfu_update in H. cbn [f_values f_bins f_cap f_min] in H.
        set (vs := map (fun kv => if aeq (fst kv) a then (fst kv, (v, snd (snd kv))) else kv) (f_values c)) in *.
        assert (B : exists z, assoc aeq vs a = Some z).
        { unfold vs, assoc in *. clear H. induction (f_values c) as [|[k z] l IH]; [discriminate|]. cbn in *. destruct (aeq k a) eqn:Ek; cbn; rewrite Ek; [eexists; reflexivity|auto]. }
        destruct B as [z B]. rewrite B in H. destruct z as [z n]. destruct (bin _ _); [|discriminate]. injection H as <-. cbn [f_values].
        clear - B. unfold assoc in *. induction vs as [|[k z'] l IH]; [discriminate|]. cbn in *. destruct (aeq k a) eqn:Ek; cbn; rewrite Ek; [eexists; reflexivity|auto].
      - destruct (if f_cap c <=? lfu_len c then _ else _) as [c1|] eqn:Ec; [|discriminate]. injection H as <-. cbn [f_values]. unfold assoc. clear - Hr.
        induction (f_values c1) as [|[k z] l IH]; cbn; [rewrite Hr; eexists; reflexivity|]. destruct (aeq k a); [eexists; reflexivity|exact IH]. }
    assert (S2 : forall (c c' : lfu A nat) y, assoc aeq (f_values c) a = Some y -> lfu_update aeq c a = Some c' -> exists z, assoc aeq (f_values c') a = Some z).
    { intros c c' y E H. unfold lfu_update in H. rewrite E in H. destruct y as [y n]. destruct (bin _ _); [|discriminate]. injection H as <-. cbn [f_values]. clear - E. unfold assoc in *.
      induction (f_values c) as [|[k z] l IH]; [discriminate|]. cbn in *. destruct (aeq k a) eqn:Ek; cbn; rewrite Ek; [eexists; reflexivity|auto]. }
    assert (exists y, assoc aeq (f_values (v_enc u1)) a = Some y) as [y Ey].
    { unfold lfuc_encode, lfu_get in H1. destruct (lfu_update aeq (v_enc u) a) as [e|] eqn:Eu; [|discriminate].
      destruct (assoc aeq (f_values e) a) as [z|] eqn:Ez; cbn in H1; [injection H1 as <- _; cbn; eauto|].
      destruct (lfu_len e =? v_size u).
      - destruct (lfu_pop aeq e) as [[[[e' g] [y|]]|]|]; try discriminate. destruct (lfu_set aeq e' a y) as [e2|] eqn:Es; [|discriminate]. injection H1 as <- _. cbn [v_enc]. eauto.
      - destruct (add_one lim (v_encoding u)) as [y|]; [|discriminate]. destruct (lfu_set aeq e a y) as [e2|] eqn:Es; [|discriminate]. injection H1 as <- _. cbn [v_enc]. eauto. }
    unfold lfuc_encode, lfu_get in H2. destruct (lfu_update aeq (v_enc u1) a) as [e|] eqn:Eu; [|discriminate].
    destruct (S2 _ _ _ Ey Eu) as [z Ez]. rewrite Ez in H2. cbn in H2. injection H2 as _ <-. eauto.
Qed.
End Field.

(** ** All fields *)
Definition deciding (sl : list slot) : Prop := Forall (fun s => forall x y, sl_eqb s x y = true <-> x = y) sl.
Fixpoint clock (sl : list slot) : cache sl -> cache sl -> Prop :=
  match sl return cache sl -> cache sl -> Prop with
  | [] => fun _ _ => True
  | s :: r => fun c w => flock (sl_spec s) (fst c) (fst w) /\ clock r (snd c) (snd w)
  end.
Fixpoint cfine (sl : list slot) : cache sl -> Prop :=
  match sl return cache sl -> Prop with
  | [] => fun _ => True
  | s :: r => fun c => ffine (sl_spec s) (fst c) /\ cfine r (snd c)
  end.
Lemma c_step sl : deciding sl -> forall c w e c' x, clock sl c w -> c_encode sl c e = Some (c', x) -> exists w', c_decode sl w x = Some (w', e) /\ clock sl c' w'.
Proof.
  induction 1 as [|s r Hs Hr IH]; intros c w e c' x HL H; cbn in *.
  - injection H as <- <-. destruct e. exists w. auto.
  - destruct HL as [L1 L2]. destruct (fc_encode _ _ _ _) as [[c1 w1]|] eqn:E1; [|discriminate]. destruct (c_encode r _ _) as [[cs ws]|] eqn:E2; [|discriminate].
    injection H as <- <-. destruct (f_step _ Hs _ _ _ _ _ _ L1 E1) as (v1 & D1 & K1). destruct (IH _ _ _ _ _ L2 E2) as (vs & D2 & K2).
    cbn [fst snd]. rewrite D1, D2. destruct e as [e0 e1]. exists (v1, vs). cbn. auto.
Qed.
Lemma c_fresh sl c : c_new sl = Some c -> clock sl c c.
Proof.
  induction sl as [|s r IH]; cbn; intros H; [auto|]. destruct (fc_new (sl_spec s)) as [c1|] eqn:E1; [|discriminate]. destruct (c_new r) as [cs|] eqn:E2; [|discriminate].
  injection H as <-. cbn. split; [apply f_fresh; exact E1|apply IH; reflexivity].
Qed.
Lemma c_total sl : deciding sl -> forall c e, cfine sl c -> exists c' x, c_encode sl c e = Some (c', x) /\ cfine sl c'.
Proof.
  induction 1 as [|s r Hs Hr IH]; intros c e HF; [cbn; eauto|]. destruct c as [c0 cr], e as [e0 er], HF as [F1 F2]. cbn in *.
  destruct (f_total _ Hs _ _ e0 F1) as (c1 & w1 & E1 & G1). destruct (IH _ er F2) as (cs & ws & E2 & G2). rewrite E1, E2. do 2 eexists. split; [reflexivity|]. cbn. auto.
Qed.
Definition within (sl : list slot) : Prop := Forall (fun s => forall sp, sl_spec s = Some sp -> 1 <= sp_size sp <= sp_lim sp) sl.
Lemma c_init sl : within sl -> exists c, c_new sl = Some c /\ cfine sl c.
Proof.
  induction 1 as [|s r Hs Hr IH]; cbn; [eauto|]. destruct (f_init (A := sl_type s) _ Hs) as (c1 & E1 & F1). destruct IH as (cs & E2 & F2). rewrite E1, E2. eexists. split; [reflexivity|]. cbn. auto.
Qed.
Definition only_lru (sl : list slot) : Prop := Forall (fun s => forall sp, sl_spec s = Some sp -> sp_policy sp = Lru) sl.
Lemma c_cloned order sl : only_lru sl -> forall c, cfine sl c -> exists w, c_clone order sl c = Some w /\ clock sl c w.
Proof.
  induction 1 as [|s r Hs Hr IH]; intros c HF; [cbn; eauto|]. destruct c as [c0 cr], HF as [F1 F2]. cbn in *.
  destruct (f_clone (sl_eqb s) order _ _ Hs F1) as (w1 & E1 & L1). destruct (IH _ F2) as (ws & E2 & L2). rewrite E1, E2. eexists. split; [reflexivity|]. cbn. auto.
Qed.
Lemma all_received sl : deciding sl -> forall es c w c' ws, clock sl c w -> send_all sl c es = Some (c', ws) -> exists w', receive_all sl w ws = Some (w', es) /\ clock sl c' w'.
Proof.
  intros Hd. induction es as [|e es IH]; intros c w c' ws HL H; cbn in H; [injection H as <- <-; exists w; auto|].
  destruct (c_encode sl c e) as [[c1 x]|] eqn:E1; [|discriminate]. destruct (send_all sl c1 es) as [[c2 xs]|] eqn:E2; [|discriminate]. injection H as <- <-.
  destruct (c_step sl Hd _ _ _ _ _ HL E1) as (w1 & D1 & L1). destruct (IH _ _ _ _ L1 E2) as (w2 & D2 & L2). cbn. rewrite D1, D2. eauto.
Qed.
Lemma all_sent sl : deciding sl -> forall es c, cfine sl c -> exists c' ws, send_all sl c es = Some (c', ws) /\ cfine sl c'.
Proof.
  intros Hd. induction es as [|e es IH]; intros c HF; cbn; [eauto|].
  destruct (c_total sl Hd c e HF) as (c1 & x & E1 & F1). destruct (IH _ F1) as (c2 & xs & E2 & F2). rewrite E1, E2. eauto.
Qed.

(** From the fields to the slots. *)
Lemma derive_all (P : field -> Prop) (Q : slot -> Prop) : (forall f sp, P f -> Q (mkSlot (f_type f) (f_eqb f) sp)) ->
  forall fs ct sl, Forall P fs -> derive ct fs = Some sl -> Forall Q sl.
Proof.
  intros H. induction fs as [|f fs IH]; intros ct sl HF Hd; cbn in Hd; [injection Hd as <-; constructor|].
  inversion_clear HF as [|? ? F1 F2]. destruct (f_attrs f) as [|its al].
  - destruct (derive ct fs) as [s|] eqn:E; [|discriminate]. injection Hd as <-. constructor; eauto.
  - destruct (parse its ct None None) as [[[ct' sz] lm]|]; [|discriminate]. destruct (derive _ fs) as [s|] eqn:E; [|discriminate]. injection Hd as <-. constructor; eauto.
Qed.
Lemma fields_decide fs ct sl : Forall decidable_field fs -> derive ct fs = Some sl -> deciding sl.
Proof. apply derive_all. intros f sp H. exact H. Qed.
Lemma fields_sized fs : forall ct sl, Forall sized fs -> derive ct fs = Some sl -> within sl.
Proof.
  induction fs as [|f fs IH]; intros ct sl HF Hd; cbn in Hd; [injection Hd as <-; constructor|].
  inversion_clear HF as [|? ? F1 F2]. unfold sized, documented, annotated, items in F1. destruct (f_attrs f) as [|its al].
  - destruct (derive ct fs) as [s|] eqn:E; [|discriminate]. injection Hd as <-. constructor; [discriminate|eapply IH; eauto].
  - destruct (parse its ct None None) as [[[ct' sz] lm]|] eqn:Ep; [|discriminate]. destruct (derive _ fs) as [s|] eqn:E; [|discriminate]. injection Hd as <-.
    constructor; [|eapply IH; eauto]. cbn [sl_spec]. intros sp X. injection X as <-. destruct (parse_reads _ _ _ _ _ _ _ Ep) as (_ & A2 & A3).
    cbn [sp_size sp_lim hd] in *. rewrite A2, A3. apply F1. discriminate.
Qed.
(** No field names lfu. *)
Definition no_lfu (fs : list field) : Prop := ~ In Lfu (policies (flat_map items fs)).
Lemma fields_lru fs : forall ct sl, no_lfu fs -> or_else ct Lru = Lru -> derive ct fs = Some sl -> only_lru sl.
Proof.
  unfold no_lfu. induction fs as [|f fs IH]; intros ct sl HF Hc Hd; cbn in Hd; [injection Hd as <-; constructor|].
  unfold policies in HF. cbn [flat_map] in HF. rewrite flat_map_app in HF. unfold items at 1 in HF. destruct (f_attrs f) as [|its al].
  - destruct (derive ct fs) as [s|] eqn:E; [|discriminate]. injection Hd as <-. constructor; [discriminate|eapply IH; eauto].
  - destruct (parse its ct None None) as [[[ct' sz] lm]|] eqn:Ep; [|discriminate]. destruct (derive _ fs) as [s|] eqn:E; [|discriminate]. injection Hd as <-.
    assert (Hl : or_else ct' Lru = Lru).
    { destruct (parse_reads _ _ _ _ _ _ _ Ep) as (A1 & _ & _). rewrite A1, Hc. cbn [hd] in HF.
      assert (B : ~ In Lfu (policies its)) by (intros C; apply HF; apply in_or_app; left; exact C). clear - B. induction (policies its) as [|p l IH]; [reflexivity|].
      rewrite last_cons. destruct p; [apply IH; intros C; apply B; right; exact C|destruct B; left; reflexivity]. }
    constructor; [|eapply IH; [|exact (Hl : or_else (Some (or_else ct' Lru)) Lru = Lru)|exact E]; intros C; apply HF; apply in_or_app; right; exact C].
    cbn [sl_spec]. intros sp X. injection X as <-. exact Hl.
Qed.

(** C71, lockstep.  Any struct with any attributes that the macro accepts: the entries that one
    fresh cache encodes are the entries that another one decodes, in all fields. *)
Theorem C71_decodes_what_was_encoded fs sl c0 es c ws : Forall decidable_field fs -> unicache_entry fs = Some sl ->
  c_new sl = Some c0 -> send_all sl c0 es = Some (c, ws) -> exists w, receive_all sl c0 ws = Some (w, es).
Proof.
  intros Hd Hu Hn Hs. destruct (all_received sl (fields_decide _ _ _ Hd Hu) es c0 c0 c ws (c_fresh _ _ Hn) Hs) as (w & Hw & _). eauto.
Qed.
(** C71, no panic: if the sizes are as the documentation asks, the cache is made and encodes any
    sequence of entries. *)
Theorem C71_encodes fs sl : Forall decidable_field fs -> Forall sized fs -> unicache_entry fs = Some sl ->
  exists c0, c_new sl = Some c0 /\ forall es, exists c ws, send_all sl c0 es = Some (c, ws).
Proof.
  intros Hd Hz Hu. destruct (c_init sl (fields_sized _ _ _ Hz Hu)) as (c0 & Hn & Hf). exists c0. split; [exact Hn|]. intros es.
  destruct (all_sent sl (fields_decide _ _ _ Hd Hu) es c0 Hf) as (c & ws & Hs & _). eauto.
Qed.
(** C71, the saving: a field that is cached travels encoded when the entry before had the same value
    in it, whatever the cache did before. *)
Fixpoint all_hit (sl : list slot) : encoded sl -> Prop :=
  match sl return encoded sl -> Prop with
  | [] => fun _ => True
  | s :: r => fun w =>
      (match sl_spec s as o return @wire (sl_type s) o -> Prop with None => fun _ => True | Some _ => fun m => exists n, m = Encoded n end) (fst w) /\ all_hit r (snd w)
  end.
Theorem C71_repeated_entry_is_encoded fs sl c e c1 w1 c2 w2 : Forall decidable_field fs -> unicache_entry fs = Some sl ->
  c_encode sl c e = Some (c1, w1) -> c_encode sl c1 e = Some (c2, w2) -> all_hit sl w2.
Proof.
  intros Hd Hu. pose proof (fields_decide _ _ _ Hd Hu) as HD. clear Hu Hd. revert c e c1 w1 c2 w2.
  induction HD as [|s r Hs Hr IH]; intros c e c1 w1 c2 w2 H1 H2; [exact I|]. destruct c as [c0 cr], e as [e0 er]. cbn in *.
  destruct (fc_encode (sl_eqb s) (sl_spec s) c0 e0) as [[a1 x1]|] eqn:E1; [|discriminate]. destruct (c_encode r cr er) as [[b1 y1]|] eqn:E2; [|discriminate].
  injection H1 as <- <-. cbn [fst snd] in H2.
  destruct (fc_encode (sl_eqb s) (sl_spec s) a1 e0) as [[a2 x2]|] eqn:E3; [|discriminate]. destruct (c_encode r b1 er) as [[b2 y2]|] eqn:E4; [|discriminate].
  injection H2 as <- <-. cbn [fst snd]. split; [|exact (IH _ _ _ _ _ _ E2 E4)].
  clear - Hs E1 E3. destruct (sl_spec s) as [sp|]; [|exact I]. exact (f_again _ Hs _ _ _ _ _ _ _ E1 E3).
Qed.
(** C71, the clone in an AcceptSync: when no field names lfu, what a cache encodes after any history
    of entries is what its clone decodes. *)
Theorem C71_clone_partial order fs sl c0 hist c ws0 : Forall decidable_field fs -> Forall sized fs -> no_lfu fs -> unicache_entry fs = Some sl ->
  c_new sl = Some c0 -> send_all sl c0 hist = Some (c, ws0) ->
  exists w, c_clone order sl c = Some w /\ forall es c' ws, send_all sl c es = Some (c', ws) -> exists w', receive_all sl w ws = Some (w', es).
Proof.
  intros Hd Hz Hl Hu Hn Hs. pose proof (fields_decide _ _ _ Hd Hu) as HD. destruct (c_init sl (fields_sized _ _ _ Hz Hu)) as (c0' & Hn' & Hf). assert (c0' = c0) by congruence. subst c0'.
  destruct (all_sent sl HD hist c0 Hf) as (c' & ws' & Hs' & Hf'). assert (c' = c) by congruence. subst c'.
  destruct (c_cloned order sl (fields_lru fs None sl Hl eq_refl Hu) c Hf') as (w & Hw & HL). exists w. split; [exact Hw|]. intros es c2 ws H2.
  destruct (all_received sl HD es c w c2 ws HL H2) as (w' & Hw' & _). eauto.
Qed.

(** ** The documented default is not the default *)
(** A struct with a field [#[unicache(cache(lfu))]] and, after it, a field [#[unicache(size(2))]]
    that names no policy and should get lru.  It gets lfu: and so a follower that takes the cache of
    its leader decodes another value of this field, although the field did not ask for a cache
    whose clone forgets its counters (C36). *)
Definition bad_struct : list field := [mkField bool Bool.eqb [[ICache (Some Lfu)]]; mkField nat Nat.eqb [[ISize 2]]].
Definition good_struct : list field := [mkField bool Bool.eqb [[ICache (Some Lru)]]; mkField nat Nat.eqb [[ISize 2]]].
Definition slots (fs : list field) : list slot := match unicache_entry fs with Some sl => sl | None => [] end.
Definition same_order : forall X, list X -> list X := fun X l => l.
Theorem C71_default_policy_refuted : exists fs sl s, unicache_entry fs = Some sl /\ nth_error sl 1 = Some s /\
  (exists f, nth_error fs 1 = Some f /\ sp_policy (documented f) = Lru) /\ (exists sp, sl_spec s = Some sp /\ sp_policy sp = Lfu) /\
  exists (val : bool * (nat * unit) -> entry sl) c0 c ws0 w c' ws w' es',
    c_new sl = Some c0 /\ send_all sl c0 (map val [(true, (0, tt)); (true, (1, tt)); (true, (0, tt))]) = Some (c, ws0) /\
    c_clone same_order sl c = Some w /\ send_all sl c (map val [(true, (2, tt)); (true, (0, tt))]) = Some (c', ws) /\
    receive_all sl w ws = Some (w', es') /\ es' <> map val [(true, (2, tt)); (true, (0, tt))].
Proof.
  exists bad_struct, (slots bad_struct). eexists. split; [reflexivity|]. split; [reflexivity|]. split; [eexists; split; reflexivity|]. split; [eexists; split; reflexivity|].
  exists (fun x => x). do 8 eexists. split; [reflexivity|]. split; [vm_compute; reflexivity|]. split; [vm_compute; reflexivity|]. split; [vm_compute; reflexivity|]. split; [vm_compute; reflexivity|].
  vm_compute. intros X. discriminate.
Qed.

(** ** Cases *)
(** The struct of the documentation (lib.rs 51-59): an id that is not cached, a first name encoded
    as u8, a last name encoded as u64 (here: at most 1000) of size 100, a job of size 20 in an lru
    cache.  Strings are numbers here. *)
Definition person : list field :=
  [mkField nat Nat.eqb []; mkField nat Nat.eqb [[IEncoding 255]]; mkField nat Nat.eqb [[IEncoding 1000; ISize 100]]; mkField nat Nat.eqb [[IEncoding 1000; ISize 20; ICache (Some Lru)]]].
Lemma nat_decides : forall x y, Nat.eqb x y = true <-> x = y. Proof. intros. apply Nat.eqb_eq. Qed.
Example ex71_person : Forall decidable_field person /\ Forall sized person /\ no_lfu person /\
  exists sl, unicache_entry person = Some sl /\
    map sl_spec sl = [None; Some (mkSpec Lru 255 255); Some (mkSpec Lru 100 1000); Some (mkSpec Lru 20 1000)].
Proof.
  split; [repeat constructor; cbn; apply nat_decides|]. split.
  { repeat constructor; cbn; lia. }
  split; [intros C; cbn in C; destruct C as [C|[]]; discriminate|]. eexists. split; reflexivity.
Qed.
(** Three entries of it and their encodings. *)
Example ex71_encodings : exists sl (val : nat * (nat * (nat * (nat * unit))) -> entry sl) (out : encoded sl -> nat * (maybe_encoded nat * (maybe_encoded nat * (maybe_encoded nat * unit)))) c0 c ws w,
  unicache_entry person = Some sl /\ c_new sl = Some c0 /\
  send_all sl c0 (map val [(1, (7, (8, (9, tt)))); (2, (7, (5, (9, tt)))); (3, (7, (8, (9, tt))))]) = Some (c, ws) /\
  map out ws = [(1, (NotEncoded 7, (NotEncoded 8, (NotEncoded 9, tt)))); (2, (Encoded 1, (NotEncoded 5, (Encoded 1, tt)))); (3, (Encoded 1, (Encoded 1, (Encoded 1, tt))))] /\
  receive_all sl c0 ws = Some (w, map val [(1, (7, (8, (9, tt)))); (2, (7, (5, (9, tt)))); (3, (7, (8, (9, tt))))]).
Proof.
  exists (slots person), (fun x => x), (fun x => x). do 4 eexists. split; [reflexivity|]. split; [reflexivity|]. split; [vm_compute; reflexivity|]. split; [reflexivity|]. vm_compute. reflexivity.
Qed.
(** With the documented policy the clone is right. *)
Example ex71_good_struct : exists (sl : list slot) (val : bool * (nat * unit) -> entry sl) c0 c ws0 w c' ws w',
    unicache_entry good_struct = Some sl /\
    c_new sl = Some c0 /\ send_all sl c0 (map val [(true, (0, tt)); (true, (1, tt)); (true, (0, tt))]) = Some (c, ws0) /\
    c_clone same_order sl c = Some w /\ send_all sl c (map val [(true, (2, tt)); (true, (0, tt))]) = Some (c', ws) /\
    receive_all sl w ws = Some (w', map val [(true, (2, tt)); (true, (0, tt))]).
Proof.
  exists (slots good_struct), (fun x => x). do 7 eexists. split; [reflexivity|]. split; [reflexivity|]. split; [vm_compute; reflexivity|]. split; [vm_compute; reflexivity|]. split; [vm_compute; reflexivity|]. vm_compute. reflexivity.
Qed.
Print Assumptions C71_attributes_partial.
Print Assumptions C71_decodes_what_was_encoded.
Print Assumptions C71_encodes.
Print Assumptions C71_repeated_entry_is_encoded.
Print Assumptions C71_clone_partial.
Print Assumptions C71_default_policy_refuted.
