(** * C35: the LFU UniCache decodes what it encodes

    The proof follows one joint cache whose keys are pairs of a field and its code; the encoder is its
    projection to (field, code), the decoder its projection to (code, field). *)
From Coq Require Import List Arith Bool Lia Permutation.
From Verif Require Import Unicache PropUnicache.
Import ListNotations.

(** ** Bins *)
Section Bins.
Context {K : Type}.
Lemma bin_set_same (b : list (nat * list K)) n l : bin (set_bin b n l) n = Some l.
Proof.
  induction b as [|[m l'] r IH]; simpl; [rewrite Nat.eqb_refl; reflexivity|].
  destruct (m =? n) eqn:E; simpl; rewrite E; auto.
Qed.
Lemma bin_set_other (b : list (nat * list K)) n m l : m <> n -> bin (set_bin b n l) m = bin b m.
Proof.
  intros H. induction b as [|[m' l'] r IH]; simpl.
  - destruct (n =? m) eqn:E; [apply Nat.eqb_eq in E; lia|reflexivity].
  - destruct (m' =? n) eqn:E; simpl; destruct (m' =? m) eqn:E2; auto.
    apply Nat.eqb_eq in E, E2. lia.
Qed.
Lemma bin_map {K'} (g : K -> K') (b : list (nat * list K)) n :
  bin (map (fun p => (fst p, map g (snd p))) b) n = option_map (map g) (bin b n).
Proof. induction b as [|[m l] r IH]; simpl; [reflexivity|]. destruct (m =? n); auto. Qed.
Lemma set_bin_map {K'} (g : K -> K') (b : list (nat * list K)) n l :
  set_bin (map (fun p => (fst p, map g (snd p))) b) n (map g l) = map (fun p => (fst p, map g (snd p))) (set_bin b n l).
Proof. induction b as [|[m l'] r IH]; simpl; [reflexivity|]. destruct (m =? n); simpl; [reflexivity|]. f_equal. exact IH. Qed.
Lemma bin_in (b : list (nat * list K)) n l : bin b n = Some l -> In (n, l) b.
Proof.
  induction b as [|[m l'] r IH]; simpl; [discriminate|]. destruct (m =? n) eqn:E.
  - intros H. injection H as <-. apply Nat.eqb_eq in E. subst. auto.
  - auto.
Qed.
End Bins.

(** ** A well-formed cache *)
Section Wf.
Context {K V : Type} (keq : K -> K -> bool) (Hk : forall x y, keq x y = true <-> x = y).

Definition keys (c : lfu K V) : list K := map fst (f_values c).
(** Every bin holds exactly the keys with its counter. *)
Definition wf_bins (c : lfu K V) : Prop :=
  (forall n l, bin (f_bins c) n = Some l -> NoDup l /\ forall k, In k l -> exists v, In (k, (v, n)) (f_values c)) /\
  (forall k v n, In (k, (v, n)) (f_values c) -> exists l, bin (f_bins c) n = Some l /\ In k l).
Definition wf (c : lfu K V) : Prop :=
  NoDup (keys c) /\ wf_bins c /\ (keys c <> [] -> exists k l, bin (f_bins c) (f_min c) = Some (k :: l)).

Lemma rm_in k l x : In x (rm keq k l) <-> In x l /\ x <> k.
Proof.
  unfold rm. rewrite filter_In. split; intros [H1 H2]; split; auto.
  - intros ->. rewrite (keq_refl keq Hk) in H2. discriminate.
  - rewrite (keq_neq keq Hk) by auto. reflexivity.
Qed.
Lemma nodup_rm k l : NoDup l -> NoDup (rm keq k l).
Proof. intros H. apply NoDup_filter. exact H. Qed.

(** The counters after [update_frequency_bin]. *)
Definition bump (k : K) (vals : list (K * (V * nat))) : list (K * (V * nat)) :=
  map (fun kv => if keq (fst kv) k then (fst kv, (fst (snd kv), S (snd (snd kv)))) else kv) vals.
Lemma bump_keys k vals : map fst (bump k vals) = map fst vals.
Proof. unfold bump. rewrite map_map. apply map_ext. intros [k' p]. cbn. destruct (keq k' k); reflexivity. Qed.
Lemma bump_same k vals v n : In (k, (v, n)) vals -> In (k, (v, S n)) (bump k vals).
Proof. intros H. unfold bump. apply in_map_iff. exists (k, (v, n)). cbn. rewrite (keq_refl keq Hk). auto. Qed.
Lemma bump_other k vals k' p : k' <> k -> In (k', p) (bump k vals) <-> In (k', p) vals.
Proof.
  intros Hne. unfold bump. rewrite in_map_iff. split.
  - intros ([k2 [v n]] & E & Hin). cbn in E. destruct (keq k2 k) eqn:Ek.
    + apply Hk in Ek. injection E as <- <-. contradiction.
    + injection E as <- <-. exact Hin.
  - intros Hin. exists (k', p). cbn. rewrite (keq_neq keq Hk) by exact Hne. auto.
Qed.
Lemma bump_inv k vals v n : In (k, (v, n)) (bump k vals) -> exists n', n = S n' /\ In (k, (v, n')) vals.
Proof.
  unfold bump. rewrite in_map_iff. intros ([k2 [v2 n2]] & E & Hin). cbn in E. destruct (keq k2 k) eqn:Ek.
  - apply Hk in Ek. subst k2. injection E as <- <-. eauto.
  - injection E as -> <- <-. rewrite (keq_refl keq Hk) in Ek. discriminate.
Qed.
Lemma by_key (vals : list (K * (V * nat))) k p q : NoDup (map fst vals) -> In (k, p) vals -> In (k, q) vals -> p = q.
Proof. apply pair_by_fst. Qed.

Lemma in_key (c : lfu K V) k p : In (k, p) (f_values c) -> In k (keys c).
Proof. intros H. apply in_map_iff. exists (k, p). auto. Qed.

Lemma update_ok c k : wf c -> In k (keys c) ->
  exists c', lfu_update keq c k = Some c' /\ wf c' /\ keys c' = keys c /\ f_cap c' = f_cap c /\
    (forall v, (exists n, In (k, (v, n)) (f_values c)) -> exists n, In (k, (v, n)) (f_values c')).
Proof.
  intros (Hn & (Hb1 & Hb2) & Hm) Hin. unfold lfu_update.
  apply in_map_iff in Hin. destruct Hin as ([k' [v n]] & E & Hin). cbn in E. subst k'.
  rewrite (assoc_nodup keq Hk _ _ _ Hn Hin).
  destruct (Hb2 _ _ _ Hin) as (l & Hl & Hkl). rewrite Hl. fold (bump k (f_values c)).
  assert (Hne : n <> S n) by lia.
  set (b := set_bin (f_bins c) n (rm keq k l)).
  assert (Hbn : bin b n = Some (rm keq k l)) by apply bin_set_same.
  assert (HbS : bin b (S n) = bin (f_bins c) (S n)) by (apply bin_set_other; lia).
  set (b' := set_bin b (S n) (bin_or_empty b (S n) ++ [k])).
  assert (Hb'S : bin b' (S n) = Some (bin_or_empty b (S n) ++ [k])) by apply bin_set_same.
  assert (Hb'n : bin b' n = Some (rm keq k l)) by (unfold b'; rewrite bin_set_other by lia; exact Hbn).
  assert (Hb'o : forall m, m <> n -> m <> S n -> bin b' m = bin (f_bins c) m)
    by (intros m H1 H2; unfold b', b; rewrite !bin_set_other by lia; reflexivity).
  assert (Hold : NoDup (bin_or_empty b (S n)) /\ forall x, In x (bin_or_empty b (S n)) -> exists w, In (x, (w, S n)) (f_values c)).
  { unfold bin_or_empty. rewrite HbS. destruct (bin (f_bins c) (S n)) as [l'|] eqn:E; [apply (Hb1 _ _ E)|].
    split; [constructor|intros x []]. }
  destruct Hold as [Ho1 Ho2].
  eexists. split; [reflexivity|].
  assert (Hkeys : forall cc mm, keys (mkLfu (bump k (f_values c)) b' cc mm) = keys c) by (intros; apply bump_keys).
  repeat apply conj.
  - rewrite Hkeys. exact Hn.
  - cbn [f_bins f_values]. intros m lm Hlm. destruct (Nat.eq_dec m n) as [->|Hmn]; [|destruct (Nat.eq_dec m (S n)) as [->|HmS]].
    + rewrite Hb'n in Hlm. injection Hlm as <-. destruct (Hb1 _ _ Hl) as [Hd Hv]. split; [apply nodup_rm; exact Hd|].
      intros x Hx. apply rm_in in Hx. destruct Hx as [Hx Hxk]. destruct (Hv x Hx) as (w & Hw). exists w. apply bump_other; auto.
    + rewrite Hb'S in Hlm. injection Hlm as <-. split.
      * apply (Permutation_NoDup (Permutation_cons_append _ _)). constructor; [|exact Ho1].
        intros Hc. destruct (Ho2 k Hc) as (w & Hw). pose proof (by_key _ _ _ _ Hn Hin Hw) as E. injection E as _ E. lia.
      * intros x Hx. apply in_app_or in Hx. destruct Hx as [Hx|[<-|[]]].
        -- destruct (Ho2 x Hx) as (w & Hw). exists w. apply bump_other; [|exact Hw].
           intros ->. pose proof (by_key _ _ _ _ Hn Hin Hw) as E. injection E as _ E. lia.
        -- exists v. apply bump_same. exact Hin.
    + rewrite Hb'o in Hlm by auto. destruct (Hb1 _ _ Hlm) as [Hd Hv]. split; [exact Hd|].
      intros x Hx. destruct (Hv x Hx) as (w & Hw). exists w. apply bump_other; [|exact Hw].
      intros ->. pose proof (by_key _ _ _ _ Hn Hin Hw) as E. injection E as _ E. lia.
  - cbn [f_bins f_values]. intros x w m Hx. destruct (keq x k) eqn:Ex.
    + apply Hk in Ex. subst x. apply bump_inv in Hx. destruct Hx as (m' & -> & Hx).
      pose proof (by_key _ _ _ _ Hn Hin Hx) as E. injection E as <- <-.
      exists (bin_or_empty b (S n) ++ [k]). split; [exact Hb'S|]. apply in_or_app. right. left. reflexivity.
    + assert (Hxk : x <> k) by (intros ->; rewrite (keq_refl keq Hk) in Ex; discriminate).
      apply bump_other in Hx; [|exact Hxk]. destruct (Hb2 _ _ _ Hx) as (lm & Hlm & Hxl).
      destruct (Nat.eq_dec m n) as [->|Hmn]; [|destruct (Nat.eq_dec m (S n)) as [->|HmS]].
      * rewrite Hl in Hlm. injection Hlm as <-. exists (rm keq k l). split; [exact Hb'n|]. apply rm_in. auto.
      * eexists. split; [exact Hb'S|]. apply in_or_app. left. unfold bin_or_empty. rewrite HbS, Hlm. exact Hxl.
      * exists lm. rewrite Hb'o by auto. auto.
  - cbn [f_bins f_min]. intros _.
    assert (Hkne : keys c <> []) by (intros E; apply in_key in Hin; rewrite E in Hin; destruct Hin).
    destruct (Hm Hkne) as (k0 & l0 & Hmin).
    destruct (n =? f_min c) eqn:En; cbn [andb].
    + apply Nat.eqb_eq in En. subst n. destruct (rm keq k l) as [|y r] eqn:Er.
      * rewrite Hb'S. destruct (bin_or_empty b (S (f_min c))) as [|y r]; cbn; eauto.
      * rewrite Hb'n. eauto.
    + apply Nat.eqb_neq in En. destruct (Nat.eq_dec (f_min c) (S n)) as [Em|Em].
      * rewrite Em, Hb'S. destruct (bin_or_empty b (S n)) as [|y r]; cbn; eauto.
      * rewrite Hb'o by auto. eauto.
  - apply Hkeys.
  - reflexivity.
  - intros w (m & Hw). exists (S m). cbn [f_values]. apply bump_same. exact Hw.
Qed.

Lemma pop_ok c : wf c -> keys c <> [] ->
  exists c' k v, lfu_pop keq c = Some (Some (c', k, Some v)) /\ NoDup (keys c') /\ wf_bins c' /\ f_cap c' = f_cap c /\
    In k (keys c) /\ keys c' = rm keq k (keys c).
Proof.
  intros (Hn & (Hb1 & Hb2) & Hm) Hne. destruct (Hm Hne) as (k & l & Hmin). unfold lfu_pop. rewrite Hmin.
  destruct (Hb1 _ _ Hmin) as [Hd Hv]. inversion Hd as [|? ? Hkl Hd']; subst.
  destruct (Hv k (or_introl eq_refl)) as (v & Hin). rewrite (assoc_nodup keq Hk _ _ _ Hn Hin). cbn [option_map fst].
  do 3 eexists. split; [reflexivity|]. unfold keys. cbn [f_values f_bins f_cap f_min].
  assert (Hkeys : map fst (without keq (f_values c) k) = rm keq k (map fst (f_values c))).
  { unfold without, rm. clear. induction (f_values c) as [|[k' p] r IH]; [reflexivity|]. simpl. destruct (keq k' k); simpl; rewrite IH; reflexivity. }
  repeat apply conj.
  - rewrite Hkeys. apply nodup_rm. exact Hn.
  - cbn [f_bins f_values]. intros m lm Hlm. destruct (Nat.eq_dec m (f_min c)) as [->|Hmn].
    + rewrite bin_set_same in Hlm. injection Hlm as <-. split; [exact Hd'|]. intros x Hx.
      destruct (Hv x (or_intror Hx)) as (w & Hw). exists w. apply (without_in keq Hk). split; [exact Hw|].
      cbn. intros ->. contradiction.
    + rewrite bin_set_other in Hlm by auto. destruct (Hb1 _ _ Hlm) as [Hd2 Hv2]. split; [exact Hd2|]. intros x Hx.
      destruct (Hv2 x Hx) as (w & Hw). exists w. apply (without_in keq Hk). split; [exact Hw|].
      cbn. intros ->. pose proof (by_key _ _ _ _ Hn Hin Hw) as E. injection E as _ E. lia.
  - cbn [f_bins f_values]. intros x w m Hx. apply (without_in keq Hk) in Hx. cbn in Hx. destruct Hx as [Hx Hxk].
    destruct (Hb2 _ _ _ Hx) as (lm & Hlm & Hxl). destruct (Nat.eq_dec m (f_min c)) as [->|Hmn].
    + rewrite Hmin in Hlm. injection Hlm as <-. exists l. rewrite bin_set_same. split; [reflexivity|].
      destruct Hxl as [<-|Hxl]; [contradiction|exact Hxl].
    + exists lm. rewrite bin_set_other by auto. auto.
  - reflexivity.
  - apply in_map_iff. exists (k, (v, f_min c)). auto.
  - exact Hkeys.
Qed.

Lemma set_ok c k v : NoDup (keys c) -> wf_bins c -> ~ In k (keys c) -> length (keys c) < f_cap c ->
  exists c', lfu_set keq c k v = Some c' /\ wf c' /\ f_cap c' = f_cap c /\ keys c' = keys c ++ [k].
Proof.
  intros Hn (Hb1 & Hb2) Hnot Hlen. unfold lfu_set. rewrite (proj2 (assoc_none keq Hk _ k) Hnot).
  unfold lfu_len. unfold keys in Hlen. rewrite map_length in Hlen.
  replace (f_cap c <=? length (f_values c)) with false by (symmetry; apply Nat.leb_gt; lia).
  eexists. split; [reflexivity|].
  assert (Hold : NoDup (bin_or_empty (f_bins c) 1) /\ forall x, In x (bin_or_empty (f_bins c) 1) -> exists w, In (x, (w, 1)) (f_values c)).
  { unfold bin_or_empty. destruct (bin (f_bins c) 1) as [l'|] eqn:E; [apply (Hb1 _ _ E)|]. split; [constructor|intros x []]. }
  destruct Hold as [Ho1 Ho2].
  unfold wf, wf_bins, keys. cbn [f_values f_bins f_cap f_min]. rewrite map_app. cbn [map fst].
  repeat apply conj; auto.
  - apply (Permutation_NoDup (Permutation_cons_append _ _)). constructor; auto.
  - intros m lm Hlm. destruct (Nat.eq_dec m 1) as [->|Hm].
    + rewrite bin_set_same in Hlm. injection Hlm as <-. split.
      * apply (Permutation_NoDup (Permutation_cons_append _ _)). constructor; [|exact Ho1].
        intros Hc. destruct (Ho2 k Hc) as (w & Hw). apply Hnot. eapply in_key; eauto.
      * intros x Hx. apply in_app_or in Hx. destruct Hx as [Hx|[<-|[]]].
        -- destruct (Ho2 x Hx) as (w & Hw). exists w. apply in_or_app. auto.
        -- exists v. apply in_or_app. right. left. reflexivity.
    + rewrite bin_set_other in Hlm by auto. destruct (Hb1 _ _ Hlm) as [Hd Hv]. split; [exact Hd|].
      intros x Hx. destruct (Hv x Hx) as (w & Hw). exists w. apply in_or_app. auto.
  - intros x w m Hx. apply in_app_or in Hx. destruct Hx as [Hx|[E|[]]].
    + destruct (Hb2 _ _ _ Hx) as (lm & Hlm & Hxl). destruct (Nat.eq_dec m 1) as [->|Hm].
      * eexists. rewrite bin_set_same. split; [reflexivity|]. apply in_or_app. left. unfold bin_or_empty. rewrite Hlm. exact Hxl.
      * exists lm. rewrite bin_set_other by auto. auto.
    + injection E as <- <- <-. eexists. rewrite bin_set_same. split; [reflexivity|]. apply in_or_app. right. left. reflexivity.
  - intros _. rewrite bin_set_same. destruct (bin_or_empty (f_bins c) 1) as [|y r]; cbn; eauto.
Qed.
End Wf.

(** ** Projections of a joint cache *)
Section Proj.
Context {K K' V' : Type} (keq : K -> K -> bool) (Hk : forall x y, keq x y = true <-> x = y).
Context (keq' : K' -> K' -> bool) (Hk' : forall x y, keq' x y = true <-> x = y).
Context (key : K -> K') (val : K -> V').

Definition proj (c : lfu K unit) : lfu K' V' :=
  mkLfu (map (fun kv => (key (fst kv), (val (fst kv), snd (snd kv)))) (f_values c))
        (map (fun p => (fst p, map key (snd p))) (f_bins c)) (f_cap c) (f_min c).
(** [key] tells [k] from the keys of the cache. *)
Definition tells (l : list K) (k : K) : Prop := forall x, In x l -> key x = key k -> x = k.

Lemma keq_key k x : key x = key k -> x = k -> keq' (key x) (key k) = keq x k.
Proof. intros _ ->. rewrite (keq_refl keq' Hk'), (keq_refl keq Hk). reflexivity. Qed.
Lemma tells_keq l k x : tells l k -> In x l -> keq' (key x) (key k) = keq x k.
Proof.
  intros Ht Hin. destruct (keq x k) eqn:E.
  - apply Hk in E. subst. apply (keq_refl keq' Hk').
  - apply (keq_neq keq' Hk'). intros Hc. apply (Ht x Hin) in Hc. subst. rewrite (keq_refl keq Hk) in E. discriminate.
Qed.
Lemma proj_keys c : keys (proj c) = map key (keys c).
Proof. unfold keys, proj. cbn [f_values]. rewrite !map_map. reflexivity. Qed.

Lemma assoc_proj (vals : list (K * (unit * nat))) k : tells (map fst vals) k ->
  assoc keq' (map (fun kv => (key (fst kv), (val (fst kv), snd (snd kv)))) vals) (key k) = option_map (fun p => (val k, snd p)) (assoc keq vals k).
Proof.
  induction vals as [|[x [[] n]] r IH]; intros Ht; [reflexivity|].
  unfold assoc. cbn [map find fst snd]. rewrite (tells_keq (map fst ((x, (tt, n)) :: r)) k x Ht) by (left; reflexivity).
  destruct (keq x k) eqn:E.
  - apply Hk in E. subst. reflexivity.
  - apply IH. intros y Hy. apply Ht. right. exact Hy.
Qed.
Lemma bump_proj (vals : list (K * (unit * nat))) k : tells (map fst vals) k ->
  bump keq' (key k) (map (fun kv => (key (fst kv), (val (fst kv), snd (snd kv)))) vals) =
  map (fun kv => (key (fst kv), (val (fst kv), snd (snd kv)))) (bump keq k vals).
Proof.
  induction vals as [|[x [[] n]] r IH]; intros Ht; [reflexivity|].
  unfold bump in *. cbn [map fst snd]. rewrite IH by (intros y Hy; apply Ht; right; exact Hy).
  rewrite (tells_keq (map fst ((x, (tt, n)) :: r)) k x Ht) by (left; reflexivity).
  destruct (keq x k); reflexivity.
Qed.
Lemma without_proj (vals : list (K * (unit * nat))) k : tells (map fst vals) k ->
  without keq' (map (fun kv => (key (fst kv), (val (fst kv), snd (snd kv)))) vals) (key k) =
  map (fun kv => (key (fst kv), (val (fst kv), snd (snd kv)))) (without keq vals k).
Proof.
  induction vals as [|[x [[] n]] r IH]; intros Ht; [reflexivity|].
  unfold without in *. cbn [map filter fst snd]. rewrite IH by (intros y Hy; apply Ht; right; exact Hy).
  rewrite (tells_keq (map fst ((x, (tt, n)) :: r)) k x Ht) by (left; reflexivity).
  destruct (keq x k); reflexivity.
Qed.
Lemma rm_proj l k : tells l k -> rm keq' (key k) (map key l) = map key (rm keq k l).
Proof.
  induction l as [|x r IH]; intros Ht; [reflexivity|].
  unfold rm in *. cbn [map filter]. rewrite IH by (intros y Hy; apply Ht; right; exact Hy).
  rewrite (tells_keq (x :: r) k x Ht) by (left; reflexivity).
  destruct (keq x k); reflexivity.
Qed.
Lemma empty_proj (b : list (nat * list K)) n : bin_or_empty (map (fun p => (fst p, map key (snd p))) b) n = map key (bin_or_empty b n).
Proof. unfold bin_or_empty. rewrite bin_map. destruct (bin b n); reflexivity. Qed.
Lemma bin_keys c n l : wf_bins c -> bin (f_bins c) n = Some l -> incl l (@keys K unit c).
Proof. intros (H1 & _) H x Hx. destruct (proj2 (H1 _ _ H) x Hx) as (w & Hw). eapply in_key; eauto. Qed.

Lemma update_proj c k : wf_bins c -> tells (keys c) k ->
  lfu_update keq' (proj c) (key k) = option_map proj (lfu_update keq c k).
Proof.
  intros Hb Ht. unfold lfu_update, proj at 1. cbn [f_values]. rewrite (assoc_proj _ _ Ht).
  destruct (assoc keq (f_values c) k) as [[[] n]|] eqn:E; [|reflexivity]. cbn [option_map snd].
  unfold proj. cbn [f_bins]. rewrite bin_map. destruct (bin (f_bins c) n) as [l|] eqn:El; [|reflexivity]. cbn [option_map].
  assert (Htl : tells l k) by (intros x Hx; apply Ht; eapply bin_keys; eauto).
  rewrite (rm_proj _ _ Htl). unfold proj. cbn [f_bins f_values f_cap f_min].
  rewrite set_bin_map, empty_proj. change [key k] with (map key [k]). rewrite <- map_app, set_bin_map.
  pose proof (bump_proj _ _ Ht) as Hbp. unfold bump in Hbp. rewrite Hbp.
  unfold proj. cbn [f_bins f_values f_cap f_min]. destruct (rm keq k l); reflexivity.
Qed.
Lemma pop_proj c c' k v : wf_bins c -> (forall x, In x (keys c) -> tells (keys c) x) ->
  lfu_pop keq c = Some (Some (c', k, Some v)) -> lfu_pop keq' (proj c) = Some (Some (proj c', key k, Some (val k))).
Proof.
  intros Hb Ht H. unfold lfu_pop in *. unfold proj. cbn [f_bins f_min]. rewrite bin_map.
  destruct (bin (f_bins c) (f_min c)) as [[|y l]|] eqn:El; [discriminate| |discriminate]. cbn [option_map map].
  assert (In y (keys c)) as Hy by (eapply bin_keys; eauto; left; reflexivity).
  injection H as <- -> Hv. unfold proj. cbn [f_bins f_values f_cap f_min].
  rewrite (without_proj _ _ (Ht k Hy)), set_bin_map, (assoc_proj _ _ (Ht k Hy)).
  destruct (assoc keq (f_values c) k) as [[[] n]|]; [|discriminate]. reflexivity.
Qed.
Lemma set_proj c c' k : tells (keys c) k -> ~ In k (keys c) -> length (keys c) < f_cap c ->
  lfu_set keq c k tt = Some c' -> lfu_set keq' (proj c) (key k) (val k) = Some (proj c').
Proof.
  intros Ht Hnot Hlen H. unfold lfu_set in *.
  unfold proj. cbn [f_values]. rewrite (assoc_proj _ _ Ht).
  rewrite (proj2 (assoc_none keq Hk _ k) Hnot) in H |- *. cbn [option_map].
  unfold keys in Hlen. rewrite map_length in Hlen. unfold lfu_len in *.
  unfold proj. cbn [f_values f_cap]. rewrite map_length.
  replace (f_cap c <=? length (f_values c)) with false in H |- * by (symmetry; apply Nat.leb_gt; lia).
  injection H as <-. unfold proj. cbn [f_bins f_values f_cap f_min].
  rewrite empty_proj. change [key k] with (map key [k]). rewrite <- map_app, set_bin_map.
  unfold proj. cbn [f_bins f_values f_cap f_min]. rewrite map_app. reflexivity.
Qed.
End Proj.

(** ** The two caches in lockstep *)
Section Lfu35.
Context {A : Type} (aeq : A -> A -> bool) (Ha : forall x y, aeq x y = true <-> x = y) (lim : nat).
Definition peq (p q : A * nat) : bool := aeq (fst p) (fst q) && (snd p =? snd q).
Lemma peq_eq p q : peq p q = true <-> p = q.
Proof.
  destruct p as [a x], q as [b y]. unfold peq. cbn. rewrite andb_true_iff, Ha, Nat.eqb_eq. split.
  - intros [-> ->]. reflexivity.
  - intros H. injection H. auto.
Qed.
Definition joint := lfu (A * nat) unit.
Definition encside (j : joint) : lfu A nat := proj fst snd j.
Definition decside (j : joint) : lfu nat A := proj snd fst j.

Definition jfine (j : joint) (n size : nat) : Prop :=
  wf j /\ NoDup (map fst (keys j)) /\ NoDup (map snd (keys j)) /\ (forall x, In x (map snd (keys j)) -> x <= n) /\
  length (keys j) <= size /\ f_cap j = size /\ 1 <= size.
Definition lockF (u w : lfuc A) : Prop :=
  exists j, v_enc u = encside j /\ v_dec w = decside j /\ v_encoding w = v_encoding u /\ v_size w = v_size u /\ jfine j (v_encoding u) (v_size u).

Lemma tells_fst (l : list (A * nat)) k : NoDup (map fst l) -> In k l -> tells fst l k.
Proof. intros Hn Hk [a x] Hx E. destruct k as [b y]. cbn in E. subst. f_equal. eapply pair_by_fst; eauto. Qed.
Lemma tells_snd (l : list (A * nat)) k : NoDup (map snd l) -> In k l -> tells snd l k.
Proof. intros Hn Hk [a x] Hx E. destruct k as [b y]. cbn in E. subst. f_equal. eapply pair_by_snd; eauto. Qed.
Lemma tells_fst_new (l : list (A * nat)) k : ~ In (fst k) (map fst l) -> tells fst l k.
Proof. intros Hn x Hx E. destruct Hn. rewrite <- E. apply in_map. exact Hx. Qed.
Lemma tells_snd_new (l : list (A * nat)) k : ~ In (snd k) (map snd l) -> tells snd l k.
Proof. intros Hn x Hx E. destruct Hn. rewrite <- E. apply in_map. exact Hx. Qed.

Lemma values_length {K V} (c : lfu K V) : length (f_values c) = length (keys c).
Proof. unfold keys. rewrite map_length. reflexivity. Qed.
Lemma rm_length (k : A * nat) l : NoDup l -> In k l -> S (length (rm peq k l)) = length l.
Proof.
  induction l as [|x r IH]; intros Hn Hin; [destruct Hin|]. inversion Hn as [|? ? Hx Hr]; subst. unfold rm in *. cbn [filter].
  destruct (peq x k) eqn:E; cbn [negb length].
  - apply peq_eq in E. subst. f_equal. clear IH Hin Hn.
    induction r as [|y r IH]; [reflexivity|]. cbn [filter]. rewrite (keq_neq peq peq_eq y k) by (intros ->; apply Hx; left; reflexivity).
    cbn [negb length]. f_equal. inversion Hr; subst. apply IH; auto. intros Hc. apply Hx. right. exact Hc.
  - f_equal. apply IH; auto. destruct Hin as [->|Hin]; [|exact Hin]. rewrite (keq_refl peq peq_eq) in E. discriminate.
Qed.
Lemma decside_len j : lfu_len (decside j) = length (keys j).
Proof. unfold lfu_len. rewrite values_length. unfold decside. rewrite proj_keys, map_length. reflexivity. Qed.
Lemma encside_len j : lfu_len (encside j) = length (keys j).
Proof. unfold lfu_len. rewrite values_length. unfold encside. rewrite proj_keys, map_length. reflexivity. Qed.

Lemma map_rm_incl {B} (g : A * nat -> B) k l y : In y (map g (rm peq k l)) -> In y (map g l).
Proof. intros H. apply in_map_iff in H. destruct H as (x & <- & H). apply (rm_in peq peq_eq) in H. apply in_map. tauto. Qed.
Lemma nodup_map_rm {B} (g : A * nat -> B) k l : NoDup (map g l) -> NoDup (map g (rm peq k l)).
Proof. apply nodup_filter. Qed.

(** One field, from the point of view of the joint cache: a hit, an eviction, or a free slot. *)
Lemma jfine_hit j n size f : jfine j n size -> In f (map fst (keys j)) ->
  exists x j', lfu_get aeq (encside j) f = Some (encside j', Some x) /\
    lfu_get Nat.eqb (decside j) x = Some (decside j', Some f) /\ jfine j' n size /\ keys j' = keys j.
Proof.
  intros (Hw & H1 & H2 & H3 & H4 & H5 & H6) Hin. apply in_map_iff in Hin. destruct Hin as ([a x] & E & Hin). cbn in E. subst a.
  exists x. destruct (update_ok peq peq_eq j (f, x) Hw Hin) as (j' & Hu & Hw' & Hk & Hc & Hv). exists j'.
  assert (Hin' : In (f, x) (keys j')) by (rewrite Hk; exact Hin).
  assert (Hf' : exists n', assoc peq (f_values j') (f, x) = Some (tt, n')).
  { apply in_map_iff in Hin'. destruct Hin' as ([p [[] n']] & E & Hin'). cbn in E. subst p. exists n'. apply (assoc_nodup peq peq_eq); [apply Hw'|exact Hin']. }
  destruct Hf' as (n' & Hf').
  repeat apply conj; try apply Hw'; try (rewrite Hk; assumption); auto.
  - unfold lfu_get. unfold encside at 1. change f with (fst (f, x)) at 1.
    rewrite (update_proj peq peq_eq aeq Ha fst snd j (f, x)) by (try apply Hw; apply tells_fst; auto). rewrite Hu. cbn [option_map].
    do 2 f_equal. unfold proj. cbn [f_values]. change f with (fst (f, x)) at 1.
    rewrite (assoc_proj peq peq_eq aeq Ha fst snd) by (apply tells_fst; [rewrite bump_keys + idtac; fold (keys j'); rewrite Hk; exact H1|exact Hin']).
    rewrite Hf'. reflexivity.
  - unfold lfu_get. unfold decside at 1. change x with (snd (f, x)) at 1.
    rewrite (update_proj peq peq_eq Nat.eqb eqb_eq snd fst j (f, x)) by (try apply Hw; apply tells_snd; auto). rewrite Hu. cbn [option_map].
    do 2 f_equal. unfold proj. cbn [f_values]. change x with (snd (f, x)) at 1.
    rewrite (assoc_proj peq peq_eq Nat.eqb eqb_eq snd fst) by (apply tells_snd; [fold (keys j'); rewrite Hk; exact H2|exact Hin']).
    rewrite Hf'. reflexivity.
  - lia.
Qed.
Lemma get_miss j f : ~ In f (map fst (keys j)) -> lfu_get aeq (encside j) f = Some (encside j, None).
Proof.
  intros Hn. assert (assoc aeq (f_values (encside j)) f = None) as E.
  { apply (assoc_none aeq Ha). fold (keys (encside j)). unfold encside. rewrite proj_keys. exact Hn. }
  unfold lfu_get, lfu_update. rewrite E, E. reflexivity.
Qed.
Lemma jfine_evict j n size f : jfine j n size -> ~ In f (map fst (keys j)) -> length (keys j) = size ->
  exists x g j1 j2, lfu_pop aeq (encside j) = Some (Some (encside j1, g, Some x)) /\ lfu_set aeq (encside j1) f x = Some (encside j2) /\
    lfu_pop Nat.eqb (decside j) = Some (Some (decside j1, x, Some g)) /\ lfu_set Nat.eqb (decside j1) x f = Some (decside j2) /\ jfine j2 n size /\ length (keys j2) = size.
Proof.
  intros (Hw & H1 & H2 & H3 & H4 & H5 & H6) Hf Hl.
  assert (Hne : keys j <> []) by (intros E; rewrite E in Hl; simpl in Hl; lia).
  destruct (pop_ok peq peq_eq j Hw Hne) as (j1 & [g x] & [] & Hp & Hn1 & Hb1 & Hc1 & Hin & Hk1).
  assert (Hl1 : S (length (keys j1)) = size) by (rewrite Hk1, rm_length; auto; apply Hw).
  assert (Hx1 : ~ In x (map snd (keys j1))).
  { rewrite Hk1. intros Hc. apply in_map_iff in Hc. destruct Hc as ([b y] & E & Hc). cbn in E. subst y. apply (rm_in peq peq_eq) in Hc.
    destruct Hc as [Hc Hd]. apply Hd. f_equal. eapply pair_by_snd; eauto. }
  assert (Hf1 : ~ In f (map fst (keys j1))) by (rewrite Hk1; intros Hc; apply map_rm_incl in Hc; contradiction).
  assert (Hfx : ~ In (f, x) (keys j1)) by (intros Hc; apply Hf1; apply in_map_iff; exists (f, x); auto).
  destruct (set_ok peq peq_eq j1 (f, x) tt Hn1 Hb1 Hfx) as (j2 & Hs & Hw2 & Hc2 & Hk2); [lia|].
  exists x, g, j1, j2. repeat apply conj; try (apply Hw2); auto.
  - apply (pop_proj peq peq_eq aeq Ha fst snd j j1 (g, x) tt); auto; [apply Hw|]. intros y Hy. apply tells_fst; auto.
  - apply (set_proj peq peq_eq aeq Ha fst snd j1 j2 (f, x)); auto; [apply tells_fst_new; exact Hf1|lia].
  - apply (pop_proj peq peq_eq Nat.eqb eqb_eq snd fst j j1 (g, x) tt); auto; [apply Hw|]. intros y Hy. apply tells_snd; auto.
  - apply (set_proj peq peq_eq Nat.eqb eqb_eq snd fst j1 j2 (f, x)); auto; [apply tells_snd_new; exact Hx1|lia].
  - rewrite Hk2, map_app. apply (Permutation_NoDup (Permutation_cons_append _ _)). constructor; [exact Hf1|].
    rewrite Hk1. apply nodup_map_rm. exact H1.
  - rewrite Hk2, map_app. apply (Permutation_NoDup (Permutation_cons_append _ _)). constructor; [exact Hx1|].
    rewrite Hk1. apply nodup_map_rm. exact H2.
  - intros y Hy. rewrite Hk2, map_app in Hy. apply in_app_or in Hy. destruct Hy as [Hy|[<-|[]]].
    + apply H3. rewrite Hk1 in Hy. eapply map_rm_incl; eauto.
    + apply H3. apply in_map_iff. exists (g, x). auto.
  - rewrite Hk2, app_length. simpl. lia.
  - lia.
  - rewrite Hk2, app_length. simpl. lia.
Qed.
Lemma jfine_add j n size f : jfine j n size -> ~ In f (map fst (keys j)) -> length (keys j) <> size ->
  exists j2, lfu_set aeq (encside j) f (S n) = Some (encside j2) /\ lfu_set Nat.eqb (decside j) (S n) f = Some (decside j2) /\
    jfine j2 (S n) size /\ length (keys j2) = S (length (keys j)) /\ keys j2 = keys j ++ [(f, S n)].
Proof.
  intros (Hw & H1 & H2 & H3 & H4 & H5 & H6) Hf Hl.
  assert (Hx : ~ In (S n) (map snd (keys j))) by (intros Hc; apply H3 in Hc; lia).
  assert (Hfx : ~ In (f, S n) (keys j)) by (intros Hc; apply Hf; apply in_map_iff; exists (f, S n); auto).
  destruct (set_ok peq peq_eq j (f, S n) tt (proj1 Hw) (proj1 (proj2 Hw)) Hfx) as (j2 & Hs & Hw2 & Hc2 & Hk2); [lia|].
  exists j2. repeat apply conj; try (apply Hw2); auto.
  - apply (set_proj peq peq_eq aeq Ha fst snd j j2 (f, S n)); auto; [apply tells_fst_new; exact Hf|lia].
  - apply (set_proj peq peq_eq Nat.eqb eqb_eq snd fst j j2 (f, S n)); auto; [apply tells_snd_new; exact Hx|lia].
  - rewrite Hk2, map_app. apply (Permutation_NoDup (Permutation_cons_append _ _)). constructor; [exact Hf|exact H1].
  - rewrite Hk2, map_app. apply (Permutation_NoDup (Permutation_cons_append _ _)). constructor; [exact Hx|exact H2].
  - intros y Hy. rewrite Hk2, map_app in Hy. apply in_app_or in Hy. destruct Hy as [Hy|[<-|[]]]; [|auto]. apply H3 in Hy. lia.
  - rewrite Hk2, app_length. simpl. lia.
  - lia.
  - rewrite Hk2, app_length. simpl. lia.
Qed.

Lemma aeq_dec (x y : A) : {x = y} + {x <> y}.
Proof. destruct (aeq x y) eqn:E; [left; apply Ha; exact E|right; intros ->; rewrite (keq_refl aeq Ha) in E; discriminate]. Qed.

Lemma lockF_step u w f u' m : lockF u w -> lfuc_encode aeq lim u f = Some (u', m) ->
  exists w', lfuc_decode lim w m = Some (w', f) /\ lockF u' w'.
Proof.
  intros (j & E1 & E2 & E3 & E4 & Hj) He. unfold lfuc_encode in He. rewrite E1 in He.
  destruct (in_dec aeq_dec f (map fst (keys j))) as [Hin|Hin].
  - destruct (jfine_hit _ _ _ _ Hj Hin) as (x & j' & Hg & Hg' & Hj' & _). rewrite Hg in He. injection He as <- <-.
    unfold lfuc_decode. rewrite E2, Hg'. eexists. split; [reflexivity|]. exists j'. cbn. repeat (split; [reflexivity || assumption|]). exact Hj'.
  - rewrite (get_miss _ _ Hin) in He. rewrite encside_len in He.
    destruct (length (keys j) =? v_size u) eqn:El.
    + apply Nat.eqb_eq in El. destruct (jfine_evict _ _ _ _ Hj Hin El) as (x & g & j1 & j2 & P1 & S1 & P2 & S2 & Hj2 & _).
      rewrite P1, S1 in He. injection He as <- <-. unfold lfuc_decode. rewrite E2, decside_len, E4, El, Nat.eqb_refl, P2, S2.
      eexists. split; [reflexivity|]. exists j2. cbn. repeat (split; [reflexivity || assumption|]). exact Hj2.
    + apply Nat.eqb_neq in El. unfold add_one in He. destruct (v_encoding u <? lim) eqn:Ef; [|discriminate].
      destruct (jfine_add _ _ _ _ Hj Hin El) as (j2 & S1 & S2 & Hj2 & _ & _). rewrite S1 in He. injection He as <- <-.
      unfold lfuc_decode. rewrite E2, decside_len, E4. replace (length (keys j) =? v_size u) with false by (symmetry; apply Nat.eqb_neq; exact El).
      unfold add_one. rewrite E3, Ef, S2. eexists. split; [reflexivity|]. exists j2. cbn. repeat (split; [reflexivity || assumption|]). exact Hj2.
Qed.
Lemma fresh_lockF size u : lfuc_new size = Some u -> lockF u u.
Proof.
  unfold lfuc_new, lfu_new. destruct size as [|s]; [discriminate|]. intros H. injection H as <-.
  exists (mkLfu [] [] (S s) 0). cbn [v_enc v_dec v_encoding v_size]. repeat (split; [reflexivity|]).
  unfold jfine, wf, wf_bins, keys. cbn [f_values f_bins f_cap f_min map length bin]. repeat apply conj; try apply NoDup_nil; try lia.
  - discriminate.
  - intros k v n [].
  - intros H. destruct H. reflexivity.
  - intros x [].
Qed.

(** C35.  Two equal fresh caches of any size: every sequence of fields that the first encodes is what
    the second decodes. *)
Theorem C35_lockstep size u0 fs u ms :
  lfuc_new size = Some u0 ->
  enc_all (lfuc_encode aeq lim) u0 fs = Some (u, ms) ->
  exists w, dec_all (lfuc_decode lim) u0 ms = Some (w, fs).
Proof.
  intros Hn He. destruct (lockstep _ _ lockF lockF_step fs u0 u0 u ms (fresh_lockF _ _ Hn) He) as (w & Hd & _). eauto.
Qed.

(** C35, the encoder: it never panics when the encoded type has a value for every slot. *)
Definition countedF (u : lfuc A) : Prop :=
  exists j, v_enc u = encside j /\ jfine j (v_encoding u) (v_size u) /\ v_encoding u = length (keys j) /\ v_size u <= lim.
Lemma countedF_step u f : countedF u -> exists u' m, lfuc_encode aeq lim u f = Some (u', m) /\ countedF u'.
Proof.
  intros (j & E1 & Hj & Hc & Hl). unfold lfuc_encode. rewrite E1.
  destruct (in_dec aeq_dec f (map fst (keys j))) as [Hin|Hin].
  - destruct (jfine_hit _ _ _ _ Hj Hin) as (x & j' & Hg & _ & Hj' & Hk). rewrite Hg. do 2 eexists. split; [reflexivity|].
    exists j'. cbn [v_enc v_encoding v_size]. repeat (split; [reflexivity || assumption|]). rewrite Hk. auto.
  - rewrite (get_miss _ _ Hin). rewrite encside_len. destruct (length (keys j) =? v_size u) eqn:El.
    + apply Nat.eqb_eq in El. destruct (jfine_evict _ _ _ _ Hj Hin El) as (x & g & j1 & j2 & P1 & S1 & _ & _ & Hj2 & Hl2).
      rewrite P1, S1. do 2 eexists. split; [reflexivity|]. exists j2. cbn. repeat (split; [reflexivity || assumption|]). lia.
    + apply Nat.eqb_neq in El. unfold add_one. assert (length (keys j) <= v_size u) by apply Hj.
      replace (v_encoding u <? lim) with true by (symmetry; apply Nat.ltb_lt; lia).
      destruct (jfine_add _ _ _ _ Hj Hin El) as (j2 & S1 & _ & Hj2 & Hl2 & _). rewrite S1. do 2 eexists. split; [reflexivity|].
      exists j2. cbn [v_enc v_encoding v_size]. repeat (split; [reflexivity || assumption|]). lia.
Qed.
Theorem C35_encodes size u0 fs :
  size <= lim -> lfuc_new size = Some u0 ->
  exists u ms, enc_all (lfuc_encode aeq lim) u0 fs = Some (u, ms).
Proof.
  intros Hs Hn.
  assert (countedF u0) as Hc.
  { destruct (fresh_lockF _ _ Hn) as (j & E1 & _ & _ & _ & Hj). exists j. split; [exact E1|]. split; [exact Hj|].
    unfold lfuc_new, lfu_new in Hn. destruct size; [discriminate|]. injection Hn as <-. cbn [v_encoding v_size v_enc] in *. split; [|exact Hs].
    rewrite <- encside_len, <- E1. reflexivity. }
  destruct (enc_total _ countedF countedF_step fs u0 Hc) as (u & ms & He & _). eauto.
Qed.
End Lfu35.

(** ** C36 for LFU: the clone is right while no field has to be evicted *)
Section Lfu36.
Context {A : Type} (aeq : A -> A -> bool) (Ha : forall x y, aeq x y = true <-> x = y) (lim : nat).
Notation jfine := (@jfine A).
Notation joint := (@joint A).

(** Both caches know the same fields by the same codes; the counters may differ. *)
Definition lockW (fs : list A) (u w : lfuc A) : Prop :=
  exists j k, v_enc u = encside j /\ v_dec w = decside k /\ v_encoding w = v_encoding u /\ v_size w = v_size u /\
    jfine j (v_encoding u) (v_size u) /\ jfine k (v_encoding u) (v_size u) /\ Permutation (keys j) (keys k) /\
    incl (map fst (keys j)) fs.

Lemma pair_code (l : list (A * nat)) f x : In (f, x) l -> In f (map fst l).
Proof. intros H. apply in_map_iff. exists (f, x). auto. Qed.

Lemma lockW_step (all : list A) u w f u' m : length all <= v_size u -> NoDup all -> In f all ->
  lockW all u w -> lfuc_encode aeq lim u f = Some (u', m) ->
  exists w', lfuc_decode lim w m = Some (w', f) /\ lockW all u' w' /\ v_size u' = v_size u.
Proof.
  intros Hall Hnd Hfa (j & k & E1 & E2 & E3 & E4 & Hj & Hk & Hp & Hi) He. unfold lfuc_encode in He. rewrite E1 in He.
  destruct (in_dec (aeq_dec aeq Ha) f (map fst (keys j))) as [Hin|Hin].
  - destruct (jfine_hit aeq Ha _ _ _ _ Hj Hin) as (x & j' & Hg & Hg' & Hj' & Hkj). rewrite Hg in He. injection He as <- <-.
    assert (Hfx : In (f, x) (keys j)).
    { unfold lfu_get in Hg'. destruct (lfu_update Nat.eqb (decside j) x) as [d|] eqn:Eu; [|discriminate]. injection Hg' as -> Hx.
      destruct (assoc Nat.eqb (f_values (decside j')) x) as [[a c]|] eqn:Ex; [|discriminate]. injection Hx as ->.
      apply (assoc_in Nat.eqb eqb_eq) in Ex. unfold decside, proj in Ex. cbn [f_values] in Ex. apply in_map_iff in Ex.
      destruct Ex as ([[b y] [[] c']] & Ex & Hin'). cbn in Ex. injection Ex as <- <- <-. rewrite <- Hkj. eapply in_key; eauto. }
    assert (Hfk : In (f, x) (keys k)) by (eapply Permutation_in; eauto).
    destruct (jfine_hit aeq Ha _ _ _ _ Hk (pair_code _ _ _ Hfk)) as (x' & k' & Gk & Gk' & Hk' & Hkk).
    assert (x' = x) as ->.
    { assert (In (f, x') (keys k)) as H2.
      { unfold lfu_get in Gk'. destruct (lfu_update Nat.eqb (decside k) x') as [d|] eqn:Eu; [|discriminate]. injection Gk' as -> Hx.
        destruct (assoc Nat.eqb (f_values (decside k')) x') as [[a c]|] eqn:Ex; [|discriminate]. injection Hx as ->.
        apply (assoc_in Nat.eqb eqb_eq) in Ex. unfold decside, proj in Ex. cbn [f_values] in Ex. apply in_map_iff in Ex.
        destruct Ex as ([[b y] [[] c']] & Ex & Hin'). cbn in Ex. injection Ex as <- <- <-. rewrite <- Hkk. eapply in_key; eauto. }
      eapply pair_by_fst; [apply Hk|exact H2|exact Hfk]. }
    unfold lfuc_decode. rewrite E2, Gk'. eexists. split; [reflexivity|]. split; [|reflexivity].
    exists j', k'. cbn [v_enc v_dec v_encoding v_size]. repeat (split; [reflexivity || assumption|]).
    rewrite Hkj, Hkk. auto.
  - rewrite (get_miss aeq Ha _ _ Hin) in He. rewrite encside_len in He.
    assert (Hlk : length (keys k) = length (keys j)) by (symmetry; apply Permutation_length; exact Hp).
    destruct (length (keys j) =? v_size u) eqn:El.
    + exfalso. apply Nat.eqb_eq in El.
      assert (NoDup (f :: map fst (keys j))) as Hnf by (constructor; [exact Hin|apply Hj]).
      assert (length (f :: map fst (keys j)) <= length all) as Hle.
      { apply NoDup_incl_length; [exact Hnf|]. intros a [<-|Ha']; [exact Hfa|apply Hi; exact Ha']. }
      simpl in Hle. rewrite map_length in Hle. lia.
    + apply Nat.eqb_neq in El. unfold add_one in He. destruct (v_encoding u <? lim) eqn:Ef; [|discriminate].
      destruct (jfine_add aeq Ha _ _ _ _ Hj Hin El) as (j2 & S1 & S2 & Hj2 & _ & Hkj2). rewrite S1 in He. injection He as <- <-.
      assert (Hink : ~ In f (map fst (keys k))).
      { intros Hc. apply Hin. eapply Permutation_in; [|exact Hc]. apply Permutation_map, Permutation_sym. exact Hp. }
      destruct (jfine_add aeq Ha _ _ _ _ Hk Hink) as (k2 & T1 & T2 & Hk2 & _ & Hkk2); [lia|].
      unfold lfuc_decode. rewrite E2, decside_len, E4, Hlk. replace (length (keys j) =? v_size u) with false by (symmetry; apply Nat.eqb_neq; exact El).
      unfold add_one. rewrite E3, Ef, T2. eexists. split; [reflexivity|]. split; [|reflexivity].
      exists j2, k2. cbn [v_enc v_dec v_encoding v_size]. repeat (split; [reflexivity || assumption|]).
      rewrite Hkj2, Hkk2. split; [apply Permutation_app_tail; exact Hp|].
      rewrite map_app. intros a Ha'. apply in_app_or in Ha'. destruct Ha' as [Ha'|[<-|[]]]; auto.
Qed.

Lemma lockW_all (all : list A) : NoDup all -> forall fs u w u' ms, length all <= v_size u -> incl fs all -> lockW all u w ->
  enc_all (lfuc_encode aeq lim) u fs = Some (u', ms) -> exists w', dec_all (lfuc_decode lim) w ms = Some (w', fs).
Proof.
  intros Hnd fs. induction fs as [|f r IH]; intros u w u' ms Hall Hfs Hl He; simpl in He.
  - injection He as <- <-. exists w. reflexivity.
  - destruct (lfuc_encode aeq lim u f) as [[u1 m]|] eqn:E; [|discriminate].
    destruct (enc_all (lfuc_encode aeq lim) u1 r) as [[u2 ms']|] eqn:E2; [|discriminate]. injection He as <- <-.
    destruct (lockW_step all u w f u1 m) as (w1 & Hd & Hl1 & Hs1); auto; [apply Hfs; left; reflexivity|].
    destruct (IH u1 w1 u2 ms') as (w2 & Hd2); auto; [lia|intros a Ha'; apply Hfs; right; exact Ha'|].
    exists w2. simpl. rewrite Hd, Hd2. reflexivity.
Qed.

(** The encoder alone. *)
Definition encF (all : list A) (size : nat) (u : lfuc A) : Prop :=
  v_size u = size /\ exists j, v_enc u = encside j /\ jfine j (v_encoding u) (v_size u) /\ incl (map fst (keys j)) all.
Lemma full_absurd (all : list A) (j : joint) n size f : length all <= size -> In f all -> jfine j n size -> incl (map fst (keys j)) all ->
  ~ In f (map fst (keys j)) -> length (keys j) <> size.
Proof.
  intros Hall Hfa Hj Hi Hin El.
  assert (NoDup (f :: map fst (keys j))) as Hnf by (constructor; [exact Hin|apply Hj]).
  assert (length (f :: map fst (keys j)) <= length all) as Hle.
  { apply NoDup_incl_length; [exact Hnf|]. intros a [<-|Ha']; [exact Hfa|apply Hi; exact Ha']. }
  simpl in Hle. rewrite map_length in Hle. lia.
Qed.
Lemma encF_encode all size u f u' m : length all <= size -> In f all -> encF all size u -> lfuc_encode aeq lim u f = Some (u', m) -> encF all size u'.
Proof.
  intros Hall Hfa (Hsz & j & E1 & Hj & Hi) He. unfold lfuc_encode in He. rewrite E1 in He.
  destruct (in_dec (aeq_dec aeq Ha) f (map fst (keys j))) as [Hin|Hin].
  - destruct (jfine_hit aeq Ha _ _ _ _ Hj Hin) as (x & j' & Hg & Hg' & Hj' & Hkj). rewrite Hg in He. injection He as <- <-.
    split; [exact Hsz|]. exists j'. cbn [v_enc v_encoding v_size]. rewrite Hkj. auto.
  - rewrite (get_miss aeq Ha _ _ Hin) in He. rewrite encside_len in He.
    assert (El : length (keys j) <> v_size u) by (eapply full_absurd; eauto; lia).
    replace (length (keys j) =? v_size u) with false in He by (symmetry; apply Nat.eqb_neq; exact El).
    unfold add_one in He. destruct (v_encoding u <? lim) eqn:Ef; [|discriminate].
    destruct (jfine_add aeq Ha _ _ _ _ Hj Hin El) as (j2 & S1 & S2 & Hj2 & _ & Hkj2). rewrite S1 in He. injection He as <- <-.
    split; [exact Hsz|]. exists j2. cbn [v_enc v_encoding v_size]. repeat (split; [reflexivity || assumption|]).
    rewrite Hkj2, map_app. intros a Ha'. apply in_app_or in Ha'. destruct Ha' as [Ha'|[<-|[]]]; auto.
Qed.
Lemma encF_decode all size u m u' f : encF all size u -> lfuc_decode lim u m = Some (u', f) -> encF all size u'.
Proof.
  intros (Hsz & j & E1 & Hj & Hi) Hd.
  assert (v_enc u' = v_enc u /\ v_size u' = v_size u /\ v_encoding u <= v_encoding u') as (D1 & D2 & D3).
  { unfold lfuc_decode in Hd. destruct m as [x|a].
    - destruct (lfu_get Nat.eqb (v_dec u) x) as [[d [a|]]|]; try discriminate. injection Hd as <- <-. cbn. auto.
    - destruct (lfu_len (v_dec u) =? v_size u).
      + destruct (lfu_pop Nat.eqb (v_dec u)) as [[[[d x] b]|]|]; try discriminate.
        destruct (lfu_set Nat.eqb d x a); try discriminate. injection Hd as <- <-. cbn. auto.
      + unfold add_one in Hd. destruct (v_encoding u <? lim); try discriminate.
        destruct (lfu_set Nat.eqb (v_dec u) (S (v_encoding u)) a); try discriminate. injection Hd as <- <-. cbn. auto. }
  split; [congruence|]. exists j. rewrite D1, D2. split; [exact E1|]. split; [|exact Hi].
  destruct Hj as (H1 & H2 & H3 & H4 & H5). repeat (split; [assumption|]). split; [|exact H5]. intros x Hx. apply H4 in Hx. lia.
Qed.
Lemma encF_run all size os : length all <= size -> forall u u', (forall f, In (DoEncode f) os -> In f all) ->
  encF all size u -> cache_run (lfuc_encode aeq lim) (lfuc_decode lim) u os = Some u' -> encF all size u'.
Proof.
  intros Hall. induction os as [|o r IH]; intros u u' Hf Hu Hr; simpl in Hr.
  - injection Hr as <-. exact Hu.
  - destruct (cache_step _ _ u o) as [u1|] eqn:E; [|discriminate].
    apply (IH u1 u'); [intros f H; apply Hf; right; exact H| |exact Hr].
    destruct o as [f|m]; simpl in E.
    + destruct (lfuc_encode aeq lim u f) as [[u2 m]|] eqn:E2; [|discriminate]. injection E as <-. eapply encF_encode; eauto. apply Hf. left. reflexivity.
    + destruct (lfuc_decode lim u m) as [[u2 f]|] eqn:E2; [|discriminate]. injection E as <-. eapply encF_decode; eauto.
Qed.

(** The clone's decoder is filled with the pairs of the encoder, in some order. *)
Lemma set_all_ok (l : list (A * nat)) : forall k size, wf k -> f_cap k = size ->
  NoDup (map fst (keys k ++ l)) -> NoDup (map snd (keys k ++ l)) -> length (keys k ++ l) <= size ->
  exists k', lfu_set_all Nat.eqb (decside k) (map swap l) = Some (decside k') /\ wf k' /\ f_cap k' = size /\ keys k' = keys k ++ l.
Proof.
  induction l as [|[f x] r IH]; intros k size Hw Hc H1 H2 Hl.
  - exists k. rewrite app_nil_r. auto.
  - assert (Hfx : ~ In (f, x) (keys k)).
    { intros Hi. rewrite map_app in H1. apply NoDup_remove_2 in H1. apply H1. apply in_or_app. left. apply in_map_iff. exists (f, x). auto. }
    assert (Hx : ~ In x (map snd (keys k))).
    { intros Hi. rewrite map_app in H2. apply NoDup_remove_2 in H2. apply H2. apply in_or_app. left. exact Hi. }
    rewrite app_length in Hl. simpl in Hl.
    destruct (set_ok (@peq A aeq) (peq_eq aeq Ha) k (f, x) tt (proj1 Hw) (proj1 (proj2 Hw)) Hfx) as (k2 & Hs & Hw2 & Hc2 & Hk2); [lia|].
    destruct (IH k2 size Hw2) as (k' & Hs' & Hw' & Hc' & Hk').
    + lia.
    + rewrite Hk2, <- app_assoc. exact H1.
    + rewrite Hk2, <- app_assoc. exact H2.
    + rewrite Hk2, <- app_assoc, app_length. simpl. lia.
    + exists k'. split; [|split; [exact Hw'|split; [exact Hc'|rewrite Hk', Hk2, <- app_assoc; reflexivity]]].
      assert (Hset : lfu_set Nat.eqb (decside k) x f = Some (decside k2))
        by (apply (set_proj (@peq A aeq) (peq_eq aeq Ha) Nat.eqb eqb_eq snd fst k k2 (f, x)); auto; [apply tells_snd_new; exact Hx|lia]).
      change (map swap ((f, x) :: r)) with ((x, f) :: map swap r). cbn [lfu_set_all]. rewrite Hset. exact Hs'.
Qed.

Lemma picks (j : joint) os : NoDup (map fst (keys j)) -> Permutation os (map fst (keys j)) ->
  exists l, flat_map (fun a => match assoc aeq (f_values (encside j)) a with Some (x, _) => [(x, a)] | None => [] end) os = map swap l /\ Permutation l (keys j).
Proof.
  intros Hn Hp.
  exists (flat_map (fun a => match assoc aeq (f_values (encside j)) a with Some (x, _) => [(a, x)] | None => [] end) os). split.
  - clear Hp. induction os as [|a r IH]; [reflexivity|]. cbn [flat_map]. rewrite map_app, <- IH. f_equal.
    destruct (assoc aeq (f_values (encside j)) a) as [[x c]|]; reflexivity.
  - rewrite Hp. clear Hp os.
    assert (forall sub, incl sub (keys j) -> flat_map (fun a => match assoc aeq (f_values (encside j)) a with Some (x, _) => [(a, x)] | None => [] end) (map fst sub) = sub) as H.
    { induction sub as [|[a x] r IH]; intros Hi; [reflexivity|]. cbn [map flat_map fst].
      assert (exists c, assoc aeq (f_values (encside j)) a = Some (x, c)) as (c & ->).
      { assert (In (a, x) (keys j)) as Hin by (apply Hi; left; reflexivity). apply in_map_iff in Hin. destruct Hin as ([p [[] c]] & E & Hin). cbn in E. subst p.
        exists c. apply (assoc_nodup aeq Ha).
        - fold (keys (encside j)). unfold encside. rewrite proj_keys. exact Hn.
        - unfold encside, proj. cbn [f_values]. apply in_map_iff. exists ((a, x), (tt, c)). auto. }
      cbn [app]. f_equal. apply IH. intros p Hp. apply Hi. right. exact Hp. }
    rewrite H by apply incl_refl. apply Permutation_refl.
Qed.

(** C36 for LFU, while all fields of the history and of the future fit into the cache together.
    What is missing: a clone of a cache that evicts; see [C36_lfu_clone_refuted]. *)
Theorem C36_lfu_clone_partial (order : list A -> list A) all size u0 os u :
  (forall l, Permutation (order l) l) ->
  lfuc_new size = Some u0 -> cache_run (lfuc_encode aeq lim) (lfuc_decode lim) u0 os = Some u ->
  NoDup all -> length all <= size -> (forall f, In (DoEncode f) os -> In f all) ->
  exists w, lfuc_clone aeq order u = Some w /\
    forall fs u' ms, incl fs all -> enc_all (lfuc_encode aeq lim) u fs = Some (u', ms) ->
      exists w', dec_all (lfuc_decode lim) w ms = Some (w', fs).
Proof.
  intros Hord Hn Hr Hnd Hall Hf.
  assert (Hu : encF all size u).
  { eapply encF_run; eauto. destruct (fresh_lockF _ _ Hn) as (j & E1 & _ & _ & _ & Hj).
    unfold lfuc_new, lfu_new in Hn. destruct size; [discriminate|]. injection Hn as <-. split; [reflexivity|]. exists j. repeat (split; [assumption|]).
    cbn [v_enc] in E1. assert (length (keys j) = 0) as El by (rewrite <- (encside_len j), <- E1; reflexivity).
    destruct (keys j); [intros a []|discriminate]. }
  destruct Hu as (Hsz & j & E1 & Hj & Hi).
  assert (exists w, lfuc_clone aeq order u = Some w /\ lockW all u w) as (w & Hw & Hl).
  { unfold lfuc_clone. rewrite E1. destruct (picks j (order (map fst (f_values (encside j))))) as (l & Hl & Hp).
    - apply Hj.
    - rewrite Hord. fold (keys (encside j)). unfold encside. rewrite proj_keys. apply Permutation_refl.
    - rewrite Hl.
      assert (1 <= v_size u) as H1 by apply Hj. unfold lfu_new. destruct (v_size u) as [|s] eqn:Es; [lia|].
      change (mkLfu [] [] (S s) 0) with (decside (mkLfu [] [] (S s) 0 : joint)).
      assert (H2 : NoDup (map fst l)) by (eapply Permutation_NoDup; [apply Permutation_map, Permutation_sym, Hp|apply Hj]).
      assert (H3 : NoDup (map snd l)) by (eapply Permutation_NoDup; [apply Permutation_map, Permutation_sym, Hp|apply Hj]).
      assert (H4 : length l <= S s) by (rewrite (Permutation_length Hp); apply Hj).
      destruct (set_all_ok l (mkLfu [] [] (S s) 0) (S s)) as (k & Hk & Hwk & Hck & Hkk); auto.
      { unfold wf, wf_bins, keys. cbn. repeat apply conj; try apply NoDup_nil; try discriminate.
        - intros x v n [].
        - intros H. destruct H. reflexivity. }
      rewrite Hk. eexists. split; [reflexivity|]. exists j, k. cbn [v_enc v_dec v_encoding v_size]. unfold keys in Hkk at 2. cbn [f_values map app] in Hkk.
      repeat (split; [reflexivity || assumption|]). rewrite Es. split; [reflexivity|]. split; [exact Hj|]. rewrite Hkk. split; [|split; [apply Permutation_sym; exact Hp|exact Hi]].
      unfold jfine. rewrite Hkk. split; [exact Hwk|]. repeat (split; [assumption|]). split; [|repeat (split; [assumption|]); lia].
      intros x Hx. apply Hj. eapply Permutation_in; [apply Permutation_map; exact Hp|exact Hx]. }
  exists w. split; [exact Hw|]. intros fs u' ms Hfs He. eapply lockW_all; eauto. lia.
Qed.
End Lfu36.

(** ** Cases and refutations: fields are numbers, codes are bytes *)
Definition lru_run size fs := match lruc_new size with Some u => enc_all (lruc_encode Nat.eqb 255) u fs | None => None end.
Definition lfu_run size fs := match lfuc_new size with Some u => enc_all (lfuc_encode Nat.eqb 255) u fs | None => None end.

Example C34_case :
  exists u, lru_run 2 [7; 8; 7; 9; 8; 7; 7] =
    Some (u, [NotEncoded 7; NotEncoded 8; Encoded 1; NotEncoded 9; NotEncoded 8; NotEncoded 7; Encoded 2]).
Proof. vm_compute. eexists. reflexivity. Qed.
Example C35_case :
  exists u, lfu_run 2 [7; 8; 7; 9; 7; 8; 9; 9] =
    Some (u, [NotEncoded 7; NotEncoded 8; Encoded 1; NotEncoded 9; Encoded 1; NotEncoded 8; NotEncoded 9; Encoded 2]).
Proof. vm_compute. eexists. reflexivity. Qed.

(** With more slots than the encoded type has codes the encoder overflows (both policies). *)
Theorem C34_oversized_panics : exists size fs, lru_run size fs = None /\ lfu_run size fs = None /\ 1 <= size.
Proof. exists 256, (seq 0 256). vm_compute. split; [reflexivity|]. split; [reflexivity|]. repeat constructor. Qed.

(** C36 is false for LFU: the clone starts all counters again, so that it evicts another field than
    the leader.  Whatever the order in which the hash map is iterated, a history of three fields and
    two fields after it suffice. *)
Theorem C36_lfu_clone_refuted :
  forall order, (forall l : list nat, Permutation (order l) l) ->
  exists size hist fs u ms0 u' ms w,
    lfu_run size hist = Some (u, ms0) /\ lfuc_clone Nat.eqb order u = Some w /\
    enc_all (lfuc_encode Nat.eqb 255) u fs = Some (u', ms) /\
    exists w' fs', dec_all (lfuc_decode 255) w ms = Some (w', fs') /\ fs' <> fs.
Proof.
  intros order Hord.
  assert (order [0; 1] = [0; 1] \/ order [0; 1] = [1; 0]) as [E|E].
  { apply Permutation_length_2_inv. apply Permutation_sym. apply Hord. }
  - exists 2, [0; 1; 0], [2; 0].
    destruct (lfu_run 2 [0; 1; 0]) as [[u ms0]|] eqn:Er; [|vm_compute in Er; discriminate]. vm_compute in Er. injection Er as <- <-.
    do 5 eexists. split; [reflexivity|]. split.
    + unfold lfuc_clone. cbn [v_enc f_values map fst]. rewrite E. vm_compute. reflexivity.
    + split; [vm_compute; reflexivity|]. do 2 eexists. split; [vm_compute; reflexivity|]. discriminate.
  - exists 2, [0; 1; 1], [2; 1].
    destruct (lfu_run 2 [0; 1; 1]) as [[u ms0]|] eqn:Er; [|vm_compute in Er; discriminate]. vm_compute in Er. injection Er as <- <-.
    do 5 eexists. split; [reflexivity|]. split.
    + unfold lfuc_clone. cbn [v_enc f_values map fst]. rewrite E. vm_compute. reflexivity.
    + split; [vm_compute; reflexivity|]. do 2 eexists. split; [vm_compute; reflexivity|]. discriminate.
Qed.

(** C36 is false for a follower that becomes leader later: the clone it was sent has an encoder with
    one slot, and the decoders it sends out have all slots.  [c] is the follower's cache, [d] the clone
    that it sends as leader. *)
Theorem C36_later_leader_refuted :
  exists size u0 c d fs c' ms,
    lruc_new (A := nat) size = Some u0 /\ lruc_clone u0 = Some c /\ lruc_clone c = Some d /\
    enc_all (lruc_encode Nat.eqb 255) c fs = Some (c', ms) /\ dec_all (lruc_decode 255) d ms = None.
Proof.
  exists 2. do 3 eexists. exists [0; 1; 2; 2]. do 2 eexists.
  split; [vm_compute; reflexivity|]. split; [vm_compute; reflexivity|]. split; [vm_compute; reflexivity|]. split; vm_compute; reflexivity.
Qed.
Theorem C36_later_leader_lfu_refuted :
  exists size u0 c d fs c' ms,
    lfuc_new (A := nat) size = Some u0 /\ lfuc_clone Nat.eqb (fun l => l) u0 = Some c /\ lfuc_clone Nat.eqb (fun l => l) c = Some d /\
    enc_all (lfuc_encode Nat.eqb 255) c fs = Some (c', ms) /\ dec_all (lfuc_decode 255) d ms = None.
Proof.
  exists 2. do 3 eexists. exists [0; 1; 2; 2]. do 2 eexists.
  split; [vm_compute; reflexivity|]. split; [vm_compute; reflexivity|]. split; [vm_compute; reflexivity|]. split; vm_compute; reflexivity.
Qed.

(** C36 is false over a wire format that announces lengths: the empty encoder of a clone cannot be
    deserialised, whatever the cache. *)
Theorem C36_sent_with_length_refuted {A} (aeq : A -> A -> bool) (u c : lruc A) :
  lruc_clone u = Some c -> lruc_serde aeq Some c = None.
Proof.
  unfold lruc_clone. destruct (lru_new (u_size u)) as [d|]; [|discriminate]. cbn [lru_new]. intros H. injection H as <-. reflexivity.
Qed.

(** C36 is false when the clone is taken while encoded entries wait in the leader's batch: they are
    in the clone, and the follower decodes them once more ([send_accsync] at leader.rs 150-191 does
    not flush the batch). *)
Theorem C36_pending_batch_refuted :
  exists size u0 pending u1 ms1 w fs u2 ms2 w' fs',
    lruc_new (A := nat) size = Some u0 /\ enc_all (lruc_encode Nat.eqb 255) u0 pending = Some (u1, ms1) /\
    lruc_clone u1 = Some w /\ enc_all (lruc_encode Nat.eqb 255) u1 fs = Some (u2, ms2) /\
    dec_all (lruc_decode 255) w (ms1 ++ ms2) = Some (w', fs') /\ fs' <> pending ++ fs.
Proof.
  exists 2. eexists. exists [0]. do 3 eexists. exists [1; 1]. do 4 eexists.
  split; [vm_compute; reflexivity|]. split; [vm_compute; reflexivity|]. split; [vm_compute; reflexivity|]. split; [vm_compute; reflexivity|].
  split; [vm_compute; reflexivity|]. vm_compute. discriminate.
Qed.

(** The hypotheses of the theorems on clones are met by a cache that has encoded, decoded and evicted. *)
Example C36_case :
  exists u0 u c, lruc_new 2 = Some u0 /\
    cache_run (lruc_encode Nat.eqb 255) (lruc_decode 255) u0 [DoDecode (NotEncoded 5); DoEncode 7; DoEncode 8; DoEncode 9; DoEncode 8] = Some u /\
    lruc_clone u = Some c /\ l_items (u_dec c) = [(3, 8); (2, 9)].
Proof. do 3 eexists. split; [vm_compute; reflexivity|]. split; [vm_compute; reflexivity|]. split; vm_compute; reflexivity. Qed.
Example C36_lfu_case :
  exists u0 u, lfuc_new 3 = Some u0 /\
    cache_run (lfuc_encode Nat.eqb 255) (lfuc_decode 255) u0 [DoEncode 7; DoEncode 8; DoEncode 7] = Some u /\
    (forall f, In (DoEncode f) [DoEncode 7; DoEncode 8; DoEncode 7] -> In f [7; 8; 9]).
Proof.
  do 2 eexists. split; [vm_compute; reflexivity|]. split; [vm_compute; reflexivity|].
  intros f [H|[H|[H|[]]]]; injection H as <-; simpl; auto.
Qed.

Print Assumptions C34_lockstep.
Print Assumptions C34_encodes.
Print Assumptions C34_oversized_panics.
Print Assumptions C35_lockstep.
Print Assumptions C35_encodes.
Print Assumptions C36_lru_clone.
Print Assumptions C36_lru_clone_sent.
Print Assumptions C36_lfu_clone_partial.
Print Assumptions C36_lfu_clone_refuted.
Print Assumptions C36_later_leader_refuted.
Print Assumptions C36_later_leader_lfu_refuted.
Print Assumptions C36_sent_with_length_refuted.
Print Assumptions C36_pending_batch_refuted.
