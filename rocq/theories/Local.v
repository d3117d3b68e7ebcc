(** * Facts about single calls, from any state and for any message

    No assumption about the schedule: the lemmas hold for every call on every server
    state that satisfies [Loc], and [Loc] holds of every built server. *)
From Coq Require Import List Arith Bool Lia.
Import ListNotations.
From Verif Require Import Types Config MemStore Internal LeaderState SeqPaxos Ble Omni System Basics Spec.

Section WithEntry.
Context {E : EntryT}.

(** The cache agrees with the storage (all fields except the accepted index). *)
Record coh5 (s : istore) : Prop := {
  h_prom : c_prom (i_ca s) = promised (i_st s);
  h_around : c_around (i_ca s) = accepted_round (i_st s);
  h_dec : c_dec (i_ca s) = ms_dec (i_st s);
  h_comp : c_comp (i_ca s) = ms_comp (i_st s);
  h_ss : c_ss (i_ca s) = ms_ss (i_st s)
}.

Section Fix.
(** A lower bound of the promise and a set of entries. *)
Context (b0 : ballot) (A : T -> Prop).

Definition stok (st : mstore) : Prop := ble b0 (promised st) = true /\ Forall A (ms_log st) /\ ms_comp st = ms_trim st.

Record IL (s : istore) : Prop := {
  il_coh : coh5 s;
  il_st : stok (i_st s);
  il_batch : Forall A (c_batch (i_ca s));
  il_bs : length (c_batch (i_ca s)) < c_bsize (i_ca s);
  il_tr : Forall stok (i_tr s)
}.

Definition ilr {B} (r : res (istore * B)) : Prop :=
  match r with Ok (s, _) => IL s | Panic tr => Forall stok tr end.

Lemma il_put s m : IL s -> promised m = promised (i_st s) -> accepted_round m = accepted_round (i_st s) -> ms_dec m = ms_dec (i_st s) ->
  ms_comp m = ms_comp (i_st s) -> ms_ss m = ms_ss (i_st s) -> ms_trim m = ms_trim (i_st s) -> Forall A (ms_log m) -> IL (put_st s m).
Proof.
  intros [H1 H2 H3 Hbs H4] P1 P2 P3 P4 P5 P7 P6. assert (Hm : stok m) by (destruct H2 as (Q1 & Q2 & Q3); split; [rewrite P1; auto|split; [auto|congruence]]).
  constructor; auto; cbn.
  - destruct H1; constructor; cbn; congruence.
  - rewrite Forall_app. auto.
Qed.
Lemma il_ca s c : IL s -> c_prom c = c_prom (i_ca s) -> c_around c = c_around (i_ca s) -> c_dec c = c_dec (i_ca s) ->
  c_comp c = c_comp (i_ca s) -> c_ss c = c_ss (i_ca s) -> Forall A (c_batch c) -> length (c_batch c) < c_bsize c -> IL (set_ca s c).
Proof.
  intros [[A1 A2 A3 A4 A5] H2 H3 Hbs H4] P1 P2 P3 P4 P5 P6 P7. constructor; auto. constructor; cbn; congruence.
Qed.

Lemma il_awb s es : IL s -> Forall A es -> IL (fst (append_entries_without_batching s es)).
Proof.
  intros H Hes. unfold append_entries_without_batching. cbn [fst]. apply il_ca; try reflexivity.
  - apply il_put; auto. cbn. rewrite Forall_app. split; auto. apply (il_st _ H).
  - apply (il_batch _ H).
  - apply (il_bs _ H).
Qed.
Lemma il_fifb s r : IL s -> match r with Some es => Forall A es | None => True end -> IL (fst (flush_if_full_batch s r)).
Proof. destruct r as [es|]; intros; cbn; auto. change (IL (fst (append_entries_without_batching s es))). apply il_awb; auto. Qed.
Lemma il_full c es : Forall A (c_batch c) -> length (c_batch c) < c_bsize c -> Forall A es ->
  let '(c', r) := cache_append_entries c es in
  Forall A (c_batch c') /\ match r with Some x => Forall A x | None => True end /\
  c_prom c' = c_prom c /\ c_around c' = c_around c /\ c_dec c' = c_dec c /\ c_comp c' = c_comp c /\ c_ss c' = c_ss c /\ length (c_batch c') < c_bsize c'.
Proof.
  intros H1 Hb H2. unfold cache_append_entries, take_entries_if_batch_is_full. cbn [c_set_batch c_bsize c_batch].
  assert (H : Forall A (c_batch c ++ es)) by (rewrite Forall_app; auto).
  destruct (Nat.leb_spec (c_bsize c) (length (c_batch c ++ es))); cbn; auto 12. repeat split; auto. lia.
Qed.
Lemma il_aewb s e : IL s -> A e -> IL (fst (append_entry_with_batching s e)).
Proof.
  intros H He. unfold append_entry_with_batching, cache_append_entry.
  pose proof (il_full (i_ca s) [e] (il_batch _ H) (il_bs _ H)) as X. unfold cache_append_entries in X.
  destruct (take_entries_if_batch_is_full _) as [c r]. destruct X as (X1 & X2 & X3 & X4 & X5 & X6 & X7 & X8); auto.
  apply il_fifb; auto. apply il_ca; auto.
Qed.
Lemma il_aeswb s es : IL s -> Forall A es -> IL (fst (append_entries_with_batching s es)).
Proof.
  intros H He. unfold append_entries_with_batching.
  pose proof (il_full (i_ca s) es (il_batch _ H) (il_bs _ H)) as X.
  destruct (cache_append_entries _ _) as [c r]. destruct X as (X1 & X2 & X3 & X4 & X5 & X6 & X7 & X8); auto.
  apply il_fifb; auto. apply il_ca; auto.
Qed.
(** The entries of the accepted meta data, that the leader sends. *)
Definition metaA (r : option (nat * list T)) : Prop := match r with Some (_, es) => Forall A es | None => True end.
Lemma fifb_meta s r : match r with Some es => Forall A es | None => True end -> metaA (snd (flush_if_full_batch s r)).
Proof. destruct r; cbn; auto. Qed.
Lemma aewb_meta s e : IL s -> A e -> metaA (snd (append_entry_with_batching s e)).
Proof.
  intros H He. unfold append_entry_with_batching, cache_append_entry.
  pose proof (il_full (i_ca s) [e] (il_batch _ H) (il_bs _ H)) as X. unfold cache_append_entries in X.
  destruct (take_entries_if_batch_is_full _) as [c r]. destruct X as (X1 & X2 & _); auto. apply fifb_meta; auto.
Qed.
Lemma aeswb_meta s es : IL s -> Forall A es -> metaA (snd (append_entries_with_batching s es)).
Proof.
  intros H He. unfold append_entries_with_batching.
  pose proof (il_full (i_ca s) es (il_batch _ H) (il_bs _ H)) as X.
  destruct (cache_append_entries _ _) as [c r]. destruct X as (X1 & X2 & _); auto. apply fifb_meta; auto.
Qed.
Lemma il_ss s ss : IL s -> IL (fst (i_append_stopsign s ss)) /\ metaA (snd (i_append_stopsign s ss)).
Proof.
  intros H. unfold i_append_stopsign, cache_append_stopsign. cbn [c_set_ss c_batch take_batched_entries].
  assert (Main : forall c r, Forall A (c_batch c) -> length (c_batch c) < c_bsize c -> match r with Some es => Forall A es | None => True end ->
    c_prom c = c_prom (i_ca s) -> c_around c = c_around (i_ca s) -> c_dec c = c_dec (i_ca s) -> c_comp c = c_comp (i_ca s) -> c_ss c = Some ss ->
    let '(s0, meta) := flush_if_full_batch (set_ca s c) r in
    IL (set_ca (put_st s0 (ms_set_stopsign (i_st s0) (Some ss))) (c_set_acc (i_ca (put_st s0 (ms_set_stopsign (i_st s0) (Some ss)))) (i_acc (put_st s0 (ms_set_stopsign (i_st s0) (Some ss))) + 1))) /\ metaA meta).
  { intros c r C1 C1' C2 C3 C4 C5 C6 C7. pose proof (fifb_meta (set_ca s c) r C2) as M.
    assert (Hs0 : forall s0 m, flush_if_full_batch (set_ca s c) r = (s0, m) ->
       i_ca s0 = c_set_acc c (c_acc (i_ca s0)) /\ stok (i_st s0) /\ Forall stok (i_tr s0) /\ promised (i_st s0) = promised (i_st s) /\
       accepted_round (i_st s0) = accepted_round (i_st s) /\ ms_dec (i_st s0) = ms_dec (i_st s) /\ ms_comp (i_st s0) = ms_comp (i_st s)).
    { intros s0 m. destruct H as [B1 B2 B3 B5 B4]. destruct r as [es|]; cbn; intros X; injection X as <- <-; cbn.
      - assert (stok (ms_append_entries (i_st s) es)). { destruct B2 as (Q1 & Q2 & Q3). split; cbn; auto. rewrite Forall_app. auto. }
        split; [reflexivity|]. split; auto. split; [rewrite Forall_app; auto|]. auto 10.
      - split; [destruct c; reflexivity|]. split; auto 10. }
    destruct (flush_if_full_batch (set_ca s c) r) as [s0 meta]. destruct (Hs0 _ _ eq_refl) as (K1 & K2 & K3 & K4 & K5 & K6 & K7). split; auto.
    pose proof (il_coh _ H) as [Z1 Z2 Z3 Z4 Z5].
    assert (Hk : stok (ms_set_stopsign (i_st s0) (Some ss))) by exact K2.
    constructor; auto.
    - constructor; cbn; rewrite K1; cbn.
      + rewrite C3, Z1, <- K4. reflexivity.
      + rewrite C4, Z2, <- K5. reflexivity.
      + congruence.
      + congruence.
      + congruence.
    - cbn. rewrite K1. exact C1.
    - cbn. rewrite K1. exact C1'.
    - cbn. rewrite Forall_app. auto. }
  pose proof (il_bs _ H) as Hlt. destruct (c_batch (i_ca s)) as [|e es] eqn:Hb.
  - specialize (Main (c_set_ss (i_ca s) (Some ss)) None). cbn [c_set_ss c_batch] in Main. rewrite Hb in Main.
    destruct (flush_if_full_batch _ _) as [s0 meta]. cbn [fst snd]. apply Main; auto; try (constructor; fail); cbn; auto.
  - pose proof (il_batch _ H) as Hbt. rewrite Hb in Hbt.
    specialize (Main (c_set_batch (c_set_ss (i_ca s) (Some ss)) []) (Some (e :: es))).
    destruct (flush_if_full_batch _ _) as [s0 meta]. cbn [fst snd]. apply Main; auto; try (constructor; fail). cbn in *. lia.
Qed.
Lemma il_aegai s es : IL s -> Forall A es -> IL (fst (append_entries_and_get_accepted_idx s es)).
Proof.
  intros H He. unfold append_entries_and_get_accepted_idx.
  pose proof (il_full (i_ca s) es (il_batch _ H) (il_bs _ H)) as X.
  destruct (cache_append_entries _ _) as [c r]. destruct X as (X1 & X2 & X3 & X4 & X5 & X6 & X7 & X8); auto.
  assert (Hc : IL (set_ca s c)) by (apply il_ca; auto).
  destruct r as [fl|]; auto. pose proof (il_awb _ _ Hc X2) as Y. destruct (append_entries_without_batching (set_ca s c) fl). exact Y.
Qed.
Lemma il_flush s : IL s -> IL (fst (flush_batch s)).
Proof.
  intros H. unfold flush_batch, take_batched_entries. apply il_awb; [|apply (il_batch _ H)]. apply il_ca; auto; [constructor|]. pose proof (il_bs _ H). cbn. lia.
Qed.
Lemma il_fbge s : IL s -> IL (fst (flush_batch_and_get_entries s)) /\ metaA (snd (flush_batch_and_get_entries s)).
Proof.
  intros H. unfold flush_batch_and_get_entries. pose proof (il_batch _ H) as Hb. destruct (c_batch (i_ca s)) as [|e es] eqn:Hc; [split; cbn; auto|].
  unfold take_batched_entries. rewrite Hc. split; [apply il_fifb|apply fifb_meta]; auto. apply il_ca; auto; [constructor|]. pose proof (il_bs _ H). cbn. lia.
Qed.
Lemma il_prom s n : IL s -> ble b0 n = true -> IL (i_set_promise s n).
Proof.
  intros [[A1 A2 A3 A4 A5] H2 H3 Hbs H4] Hn. assert (stok (ms_set_promise (i_st s) n)) by (split; [exact Hn|apply H2]).
  constructor; auto; cbn; [|rewrite Forall_app; auto]. constructor; cbn; auto.
Qed.
Lemma il_dec s d : IL s -> IL (i_set_decided s d).
Proof.
  intros [[A1 A2 A3 A4 A5] H2 H3 Hbs H4]. assert (stok (ms_set_decided (i_st s) d)) by exact H2.
  constructor; auto; cbn; [|rewrite Forall_app; auto]. constructor; cbn; auto.
Qed.
Lemma il_setss s ss : IL s -> ilr (i_set_stopsign s ss).
Proof.
  intros [[A1 A2 A3 A4 A5] H2 H3 Hbs H4]. unfold i_set_stopsign. assert (stok (ms_set_stopsign (i_st s) ss)) by exact H2.
  assert (Main : forall a, IL (put_st (set_ca s (c_set_ss (c_set_acc (i_ca s) a) ss)) (ms_set_stopsign (i_st s) ss))).
  { intros a. constructor; auto; cbn; [|rewrite Forall_app; auto]. constructor; cbn; auto. }
  destruct ss as [ss|], (c_ss (i_ca s)) as [ss'|] eqn:Hss; cbn [bind ilr].
  - specialize (Main (c_acc (i_ca s))). destruct s as [st [c1 c2 c3 c4 c5 c6 c7 c8] tr]. exact Main.
  - apply Main.
  - destruct (sub_chk (i_acc s) 1); cbn; auto.
  - specialize (Main (c_acc (i_ca s))). destruct s as [st [c1 c2 c3 c4 c5 c6 c7 c8] tr]. exact Main.
Qed.

(** Atomic writes. *)
Definition opA (o : storage_op) : Prop :=
  match o with OpAppendEntry e => A e | OpAppendEntries es | OpAppendOnPrefix _ es => Forall A es | _ => True end.
Lemma Forall_firstn' k (l : list T) : Forall A l -> Forall A (firstn k l).
Proof. intros H. rewrite <- (firstn_skipn k l) in H. apply Forall_app in H. tauto. Qed.
Lemma Forall_skipn' k (l : list T) : Forall A l -> Forall A (skipn k l).
Proof. intros H. rewrite <- (firstn_skipn k l) in H. apply Forall_app in H. tauto. Qed.
Lemma write_log ops : forall m m', Forall opA ops -> ms_write m ops = Some m' -> Forall A (ms_log m) -> Forall A (ms_log m').
Proof.
  induction ops as [|o ops IH]; cbn [ms_write]; intros m m' Ho Hw Hm; [congruence|]. inversion Ho as [|? ? Ho1 Ho2]; subst.
  destruct (ms_op m o) as [m1|] eqn:Hop; [|discriminate]. eapply IH; eauto. clear - Ho1 Hop Hm.
  destruct o; cbn in *; try (injection Hop as <-; cbn; auto; rewrite ?Forall_app; auto).
  - unfold ms_append_on_prefix in Hop. destruct (sub_chk _ _); [|discriminate]. injection Hop as <-. cbn. rewrite Forall_app. split; auto. apply Forall_firstn'; auto.
  - unfold ms_do_trim in Hop. destruct (sub_chk _ _); [|discriminate]. injection Hop as <-. cbn. apply Forall_skipn'; auto.
Qed.

(** The fields after an atomic write. *)
Definition opprom (b : option ballot) (o : storage_op) := match o with OpSetPromise x => Some x | _ => b end.
Definition oparnd (b : option ballot) (o : storage_op) := match o with OpSetAround x => Some x | _ => b end.
Definition opdec (b : nat) (o : storage_op) := match o with OpSetDecided x => x | _ => b end.
Definition opcomp (b : nat) (o : storage_op) := match o with OpSetComp x => x | _ => b end.
Definition optrim (b : nat) (o : storage_op) := match o with OpTrim x => x | _ => b end.
Definition opss (b : option stopsign) (o : storage_op) := match o with OpSetStopsign x => x | _ => b end.
Lemma write_fields ops : forall m m', ms_write m ops = Some m' ->
  ms_prom m' = fold_left opprom ops (ms_prom m) /\ ms_around m' = fold_left oparnd ops (ms_around m) /\
  ms_dec m' = fold_left opdec ops (ms_dec m) /\ ms_comp m' = fold_left opcomp ops (ms_comp m) /\ ms_ss m' = fold_left opss ops (ms_ss m) /\ ms_trim m' = fold_left optrim ops (ms_trim m).
Proof.
  induction ops as [|o ops IH]; cbn [ms_write]; intros m m' Hw; [injection Hw as <-; cbn; auto 10|].
  destruct (ms_op m o) as [m1|] eqn:Hop; [|discriminate]. destruct (IH _ _ Hw) as (I1 & I2 & I3 & I4 & I5 & I6). cbn [fold_left].
  assert (H : ms_prom m1 = opprom (ms_prom m) o /\ ms_around m1 = oparnd (ms_around m) o /\ ms_dec m1 = opdec (ms_dec m) o /\
              ms_comp m1 = opcomp (ms_comp m) o /\ ms_ss m1 = opss (ms_ss m) o /\ ms_trim m1 = optrim (ms_trim m) o).
  { clear - Hop. destruct o; cbn in Hop; try (injection Hop as <-; cbn; auto 10).
    - unfold ms_append_on_prefix in Hop. destruct (sub_chk _ _); [|discriminate]. injection Hop as <-. cbn; auto 10.
    - unfold ms_do_trim in Hop. destruct (sub_chk _ _); [|discriminate]. injection Hop as <-. cbn; auto 10. }
  destruct H as (K1 & K2 & K3 & K4 & K5 & K6). rewrite I1, I2, I3, I4, I5, I6, K1, K2, K3, K4, K5, K6. auto 10.
Qed.

Lemma il_sync s n d sy : IL s -> match sy with Some x => Forall A (sy_suffix x) | None => True end -> ilr (sync_log s n d sy).
Proof.
  intros [[A1 A2 A3 A4 A5] (P1 & P2 & P3) H3 Hbs H4] Hsy. unfold sync_log, ilift. destruct sy as [sy|].
  2: { cbn. unfold stok in *. constructor; cbn; auto; [constructor; cbn; auto|split; auto|]. rewrite Forall_app. split; auto. constructor; auto. split; auto. }
  assert (Hpan : Forall stok (i_tr s)) by auto.
  assert (Main : forall sn (c : cache) ops,
    c = c_set_dec (c_set_around (i_ca s) n) d /\ ops = [OpSetAround n; OpSetDecided d] \/
    c = c_set_comp (c_set_dec (c_set_around (i_ca s) n) d) (sy_idx sy) /\ ops = [OpSetAround n; OpSetDecided d] ++ [OpTrim (sy_idx sy); OpSetComp (sy_idx sy); OpSetSnapshot sn] ->
    ilr (let s := set_ca s c in
      let s := set_ca s (c_set_acc (i_ca s) (sy_idx sy + length (sy_suffix sy))) in
      let ops2 := ops ++ [OpAppendOnPrefix (sy_idx sy) (sy_suffix sy)] in
      let '(s, ops3) :=
        match sy_ss sy with
        | Some ss => (set_ca s (c_set_acc (c_set_ss (i_ca s) (Some ss)) (i_acc s + 1)), ops2 ++ [OpSetStopsign (Some ss)])
        | None => match i_ss s with Some _ => (set_ca s (c_set_ss (i_ca s) None), ops2 ++ [OpSetStopsign None]) | None => (s, ops2) end
        end in
      m <- (match ms_write (i_st s) ops3 with Some a => Ok a | None => ipanic s end) ;;
      let s := put_st s m in Ok (s, i_acc s))).
  { intros sn c ops Hc. cbn zeta.
    assert (Hoa : Forall opA ops) by (destruct Hc as [[_ ->]|[_ ->]]; repeat constructor).
    assert (Fin : forall c' ops3 m, Forall opA ops3 -> ms_write (i_st s) ops3 = Some m -> Forall A (c_batch c') -> length (c_batch c') < c_bsize c' -> fold_left opcomp ops3 (ms_comp (i_st s)) = fold_left optrim ops3 (ms_trim (i_st s)) ->
       c_prom c' = promised (i_st s) -> fold_left opprom ops3 (ms_prom (i_st s)) = ms_prom (i_st s) ->
       fold_left oparnd ops3 (ms_around (i_st s)) = Some n -> c_around c' = n -> fold_left opdec ops3 (ms_dec (i_st s)) = c_dec c' ->
       fold_left opcomp ops3 (ms_comp (i_st s)) = c_comp c' -> fold_left opss ops3 (ms_ss (i_st s)) = c_ss c' ->
       IL (put_st (set_ca s c') m)).
    { intros c' ops3 m F0 F1 F2 F2' F2'' F3 F4 F5 F6 F7 F8 F9. destruct (write_fields _ _ _ F1) as (W1 & W2 & W3 & W4 & W5 & W6).
      pose proof (write_log _ _ _ F0 F1 P2) as WL.
      assert (Hm : stok m). { split; [|split; [auto|congruence]]. unfold promised in *. rewrite W1, F4. exact P1. }
      constructor; cbn; auto; [|rewrite Forall_app; auto]. constructor; cbn.
      - rewrite F3. unfold promised. rewrite W1, F4. reflexivity.
      - unfold accepted_round. rewrite W2, F5. exact F6.
      - congruence.
      - congruence.
      - congruence. }
    cbn [i_ca set_ca i_ss c_set_acc c_ss]. unfold i_ss. cbn [i_ca set_ca c_set_acc c_ss].
    assert (Hss : c_ss c = c_ss (i_ca s)) by (destruct Hc as [[-> _]|[-> _]]; reflexivity).
    destruct (sy_ss sy) as [ss|]; [|destruct (c_ss c) as [ss'|] eqn:Hcs]; cbn [i_st set_ca];
    (match goal with |- context [ms_write (i_st s) ?o] => destruct (ms_write (i_st s) o) as [m|] eqn:Hw end; [|exact Hpan]); cbn [bind ilr];
    (eapply Fin; [|exact Hw|..]); rewrite ?Forall_app, ?fold_left_app;
    try (split; [split|]; auto; repeat constructor; auto); try (split; auto; repeat constructor; auto);
    (destruct Hc as [[-> ->]|[-> ->]]); cbn; try reflexivity; try assumption; try congruence. }
  destruct (sy_snap sy) as [[c|dl]|]; cbn [bind].
  - apply (Main (Some c)); auto.
  - destruct (create_decided_snapshot _) as [sn| |]; [|exact Hpan|exact Hpan]. destruct (s_merge sn dl) as [sn'|]; [|exact Hpan]. apply (Main (Some sn')); auto.
  - apply (Main None); auto.
Qed.

Lemma il_write s ops m new : IL s -> ms_write (i_st s) ops = Some m ->
  (exists sn, ops = [OpTrim new; OpSetComp new; OpSetSnapshot sn]) \/ ops = [OpTrim new; OpSetComp new] ->
  IL (set_ca (put_st s m) (c_set_comp (i_ca (put_st s m)) new)).
Proof.
  intros [[A1 A2 A3 A4 A5] (P1 & P2 & P3) H3 Hbs H4] Hw Ho. destruct (write_fields _ _ _ Hw) as (W1 & W2 & W3 & W4 & W5 & W6).
  assert (Hoa : Forall opA ops) by (destruct Ho as [[sn ->]| ->]; repeat constructor).
  pose proof (write_log _ _ _ Hoa Hw P2) as WL.
  assert (W : ms_prom m = ms_prom (i_st s) /\ ms_around m = ms_around (i_st s) /\ ms_dec m = ms_dec (i_st s) /\ ms_comp m = new /\ ms_ss m = ms_ss (i_st s) /\ ms_trim m = new)
    by (destruct Ho as [[sn ->]| ->]; cbn in *; auto 10).
  destruct W as (V1 & V2 & V3 & V4 & V5 & V6).
  assert (Hm : stok m). { split; [|split; [auto|congruence]]. unfold promised in *. rewrite V1. exact P1. }
  assert (V1' : promised m = promised (i_st s)) by (unfold promised; rewrite V1; reflexivity).
  assert (V2' : accepted_round m = accepted_round (i_st s)) by (unfold accepted_round; rewrite V2; reflexivity).
  constructor; auto; [constructor; cbn; congruence|cbn; rewrite Forall_app; auto].
Qed.
Lemma il_trim s i : IL s -> ilr (try_trim s i).
Proof.
  intros H. pose proof (il_tr _ H) as Ht. unfold try_trim. destruct (dec_without_ss s) as [ld|]; [|exact Ht].
  assert (Main : forall new, ilr (if i_comp s <? new then
          m <- ilift s (ms_write (i_st s) [OpTrim new; OpSetComp new]) ;;
          let s := put_st s m in Ok (set_ca s (c_set_comp (i_ca s) new), None : option compaction_err) else Ok (s, None))).
  { intros new. destruct (i_comp s <? new); [|exact H]. unfold ilift. destruct (ms_write _ _) as [m|] eqn:Hw; [|exact Ht]. cbn [bind ilr]. eapply il_write; eauto. }
  destruct (Nat.compare i (i_dec s)); [apply Main|apply Main|exact H].
Qed.
Lemma il_snapshot s i : IL s -> ilr (try_snapshot s i).
Proof.
  intros H. pose proof (il_tr _ H) as Ht. unfold try_snapshot. destruct (dec_without_ss s) as [ld|]; [|exact Ht].
  assert (Main : forall new, ilr (if i_comp s <? new then
          match create_snapshot s new with
          | CPanic => ipanic s
          | CErr e => Ok (s, Some e)
          | COk sn =>
              m <- ilift s (ms_write (i_st s) [OpTrim new; OpSetComp new; OpSetSnapshot (Some sn)]) ;;
              let s := put_st s m in Ok (set_ca s (c_set_comp (i_ca s) new), None)
          end else Ok (s, None))).
  { intros new. destruct (i_comp s <? new); [|exact H]. destruct (create_snapshot s new) as [sn| |]; [|exact H|exact Ht].
    unfold ilift. destruct (ms_write _ _) as [m|] eqn:Hw; [|exact Ht]. cbn [bind ilr]. eapply il_write; eauto. }
  cbn zeta. destruct i as [i|]; [|apply Main]. destruct (Nat.compare i (i_dec s)); [apply Main|apply Main|exact H].
Qed.

(** ** Servers *)

Definition syncA (sy : option log_sync) : Prop := match sy with Some x => Forall A (sy_suffix x) | None => True end.
(** The entries carried by a message. *)
Definition pmA (m : pmsg) : Prop :=
  match m with
  | MPromise p => syncA (pr_sync p)
  | MAcceptSync _ _ _ sy => syncA (Some sy)
  | MAcceptDecide _ _ _ es | MProposalForward es => Forall A es
  | _ => True
  end.
Definition is_acceptedm (m : pmessage) : bool := match pm_msg m with MAccepted _ _ => true | _ => false end.

(** What may happen to a queued message: entries are added to an AcceptDecide and its
    decided index is changed, or the index of an Accepted is changed. *)
Definition ext1 (m m' : pmessage) : Prop :=
  pm_from m' = pm_from m /\ pm_to m' = pm_to m /\
  match pm_msg m with
  | MAcceptDecide n sq _ es => exists d' es', pm_msg m' = MAcceptDecide n sq d' (es ++ es')
  | MAccepted n _ => exists a', pm_msg m' = MAccepted n a'
  | x => pm_msg m' = x
  end.
(** The queue [q] only got such changes, and new messages at the end. *)
Definition qext (q q' : list pmessage) : Prop := exists old new, q' = old ++ new /\ Forall2 ext1 q old.

(** The queue at the beginning. *)
Context (q0 : list pmessage).

Record Loc (s : sp) : Prop := {
  lc_is : IL (s_is s);
  lc_bp : Forall A (s_bprops s);
  lc_out : Forall (fun m => pmA (pm_msg m)) (s_out s);
  lc_cp : match s_cprom s with Some p => syncA (pr_sync p) | None => True end;
  lc_ms : syncA (l_maxsync (s_ls s));
  lc_am : forall i b k, nth_error (l_accmeta (s_ls s)) i = Some (Some (b, k)) ->
            exists m, nth_error (s_out s) k = Some m /\ pm_to m = i + 1 /\ is_acceptdecide m = true;
  lc_lam : forall b k, s_lam s = Some (b, k) -> exists m, nth_error (s_out s) k = Some m /\ is_acceptedm m = true;
  lc_q : qext q0 (s_out s)
}.

Lemma ext1_refl m : ext1 m m.
Proof. unfold ext1. destruct (pm_msg m); auto 6. - split; auto. split; auto. exists dec, []. rewrite app_nil_r. auto. - split; auto. split; auto. eauto. Qed.
Lemma ext1_trans a b c : ext1 a b -> ext1 b c -> ext1 a c.
Proof.
  unfold ext1. intros (H1 & H2 & H3) (K1 & K2 & K3). split; [congruence|split; [congruence|]].
  destruct (pm_msg a); try (rewrite H3 in K3; exact K3).
  - destruct H3 as (d & es1 & H3). rewrite H3 in K3. destruct K3 as (d' & es2 & ->). rewrite <- app_assoc. eauto.
  - destruct H3 as (d & H3). rewrite H3 in K3. auto.
Qed.
Lemma ext_refl q : Forall2 ext1 q q.
Proof. induction q; constructor; auto. apply ext1_refl. Qed.
Lemma qext_refl q : qext q q.
Proof. exists q, []. rewrite app_nil_r. split; auto. apply ext_refl. Qed.
Lemma qext_push q q' m : qext q q' -> qext q (q' ++ m).
Proof. intros (old & new & -> & H). exists old, (new ++ m). rewrite app_assoc. auto. Qed.
Lemma qext_upd q q' k m m' : qext q q' -> nth_error q' k = Some m -> ext1 m m' -> qext q (upd q' k m').
Proof.
  intros (old & new & -> & H). revert old H k. induction q as [|x q IH]; intros old H k Hk He.
  - inversion H; subst. exists [], (upd new k m'). split; auto.
  - inversion H; subst. destruct k as [|k].
    + cbn in Hk. injection Hk as ->. exists (m' :: l'), new. split; auto. constructor; auto. eapply ext1_trans; eauto.
    + cbn in Hk. destruct (IH l' H4 k Hk He) as (o2 & n2 & E2 & F2). exists (y :: o2), n2. cbn. rewrite E2. split; auto.
Qed.
Lemma qext_trans a b c : qext a b -> qext b c -> qext a c.
Proof.
  intros (o1 & n1 & -> & H1) (o2 & n2 & -> & H2). apply Forall2_app_inv_l in H2. destruct H2 as (o3 & n3 & K1 & K2 & ->).
  exists o3, (n3 ++ n2). rewrite app_assoc. split; auto. clear K2 n1 n2 n3. revert o3 K1. induction H1; intros o3 K1; inversion K1; subst; constructor; auto. eapply ext1_trans; eauto.
Qed.

Definition okr (r : res sp) : Prop := match r with Ok s => Loc s | Panic tr => Forall stok tr end.
Definition okr2 {B} (r : res (sp * B)) : Prop := match r with Ok (s, _) => Loc s | Panic tr => Forall stok tr end.

Lemma lift_ok {B} s (o : option B) (f : B -> res sp) : Loc s -> (forall b, o = Some b -> okr (f b)) -> okr (bind (lift s o) f).
Proof. intros H Hf. destruct o; cbn; auto. apply (il_tr _ (lc_is _ H)). Qed.
Lemma bind_ok (r : res sp) f : okr r -> (forall s, Loc s -> okr (f s)) -> okr (bind r f).
Proof. destruct r; cbn; auto. Qed.
Lemma for_each_ok f : (forall s p, Loc s -> okr (f s p)) -> forall l s, Loc s -> okr (for_each s l f).
Proof. intros Hf. induction l as [|p l IH]; cbn; intros s H; auto. apply bind_ok; auto. Qed.

(** Updates. *)
Lemma loc_is s x : Loc s -> IL x -> Loc (set_is s x).
Proof. intros [] ?. constructor; auto. Qed.
Lemma loc_state s r p : Loc s -> Loc (set_state s r p).
Proof. intros []. constructor; auto. Qed.
Lemma loc_bp s x : Loc s -> Forall A x -> Loc (set_bprops s x).
Proof. intros [] ?. constructor; auto. Qed.
Lemma loc_bss s x : Loc s -> Loc (set_bss s x).
Proof. intros []. constructor; auto. Qed.
Lemma loc_cseq s x : Loc s -> Loc (set_cseq s x).
Proof. intros []. constructor; auto. Qed.
Lemma loc_cprom s x : Loc s -> match x with Some p => syncA (pr_sync p) | None => True end -> Loc (set_cprom s x).
Proof. intros [] ?. constructor; auto. Qed.
Lemma loc_ls s x : Loc s -> syncA (l_maxsync x) -> l_accmeta x = l_accmeta (s_ls s) -> Loc (set_ls s x).
Proof. intros [] Hs Hm. constructor; auto. cbn. rewrite Hm. auto. Qed.
Lemma nth_app_l {B} (l r : list B) k x : nth_error l k = Some x -> nth_error (l ++ r) k = Some x.
Proof. intros H. rewrite nth_error_app1; auto. apply nth_error_Some. congruence. Qed.
Lemma loc_push s to m : Loc s -> pmA m -> Loc (push s to m).
Proof.
  intros [] Hm. constructor; auto; cbn.
  - rewrite Forall_app. auto.
  - intros i b k Hk. destruct (lc_am0 i b k Hk) as (x & Hx & H2). exists x. split; auto. apply nth_app_l; auto.
  - intros b k Hk. destruct (lc_lam0 b k Hk) as (x & Hx & H2). exists x. split; auto. apply nth_app_l; auto.
  - apply qext_push; auto.
Qed.
Lemma loc_push_all m : pmA m -> forall l s, Loc s -> Loc (push_all s l m).
Proof. intros Hm. unfold push_all. induction l as [|p l IH]; cbn; intros s H; auto. apply IH. apply loc_push; auto. Qed.

Lemma suffix_A st k es : Forall A (ms_log st) -> ms_get_suffix st k = Some es -> Forall A es.
Proof.
  intros H. unfold ms_get_suffix, slice_get. destruct (sub_chk _ _); [|discriminate]. intros X. injection X as <-.
  destruct (_ && _); [|constructor]. apply Forall_firstn', Forall_skipn'. auto.
Qed.
Lemma log_A s : Loc s -> Forall A (ms_log (i_st (s_is s))).
Proof. intros H. apply (il_st _ (lc_is _ H)). Qed.
Lemma sync_A s a b sy : Loc s -> create_log_sync s a b = Some sy -> Forall A (sy_suffix sy).
Proof.
  intros H. unfold create_log_sync. destruct (_ && _).
  - destruct (create_diff_snapshot _ _) as [[sn c]| |]; try discriminate. destruct (ms_get_suffix _ _) eqn:Hs; [|discriminate].
    intros X. injection X as <-. cbn. eapply suffix_A; eauto. apply log_A; auto.
  - destruct (ms_get_suffix _ _) eqn:Hs; [|discriminate]. intros X. injection X as <-. cbn. eapply suffix_A; eauto. apply log_A; auto.
Qed.

(** Leader state. *)
Lemma vset_inv {B} (l l' : list B) pid x : vset l pid x = Some l' -> exists i, pid = i + 1 /\ i < length l /\ l' = upd l i x.
Proof.
  unfold vset, pid_to_idx, sub_chk. destruct (Nat.leb_spec 1 pid); [|discriminate]. destruct (Nat.ltb_spec (pid - 1) (length l)); [|discriminate].
  intros X. injection X as <-. exists (pid - 1). split; [lia|auto].
Qed.
Lemma upd_nth {B} (l : list B) i x j : i < length l -> nth_error (upd l i x) j = if j =? i then Some x else nth_error l j.
Proof.
  revert i j. induction l as [|y l IH]; intros [|i] [|j] H; cbn in *; try lia; auto. rewrite IH by lia. reflexivity.
Qed.
Lemma setp_ok l p from c l' m : ls_set_promise l p from c = Some (l', m) -> syncA (l_maxsync l) -> syncA (pr_sync p) ->
  syncA (l_maxsync l') /\ l_accmeta l' = l_accmeta l.
Proof.
  unfold ls_set_promise. destruct (vset _ _ _) as [v|]; [|discriminate]. intros X. injection X as <- <-. intros H1 H2.
  destruct (c && _); cbn; auto.
Qed.
Lemma next_ok l p l' q : next_seq_num l p = Some (l', q) -> l_maxsync l' = l_maxsync l /\ l_accmeta l' = l_accmeta l.
Proof.
  unfold next_seq_num. destruct (vget _ _); [|discriminate]. destruct (vset _ _ _); cbn; [|discriminate]. intros X. injection X as <- <-. auto.
Qed.
Lemma incr_ok l p l' : increment_seq_num_session l p = Some l' -> l_maxsync l' = l_maxsync l /\ l_accmeta l' = l_accmeta l.
Proof.
  unfold increment_seq_num_session. destruct (vget _ _); [|discriminate]. destruct (vset _ _ _); cbn; [|discriminate]. intros X. injection X as <-. auto.
Qed.
Lemma setacc_ok l p i l' : set_accepted_idx l p i = Some l' -> l_maxsync l' = l_maxsync l /\ l_accmeta l' = l_accmeta l.
Proof. unfold set_accepted_idx. destruct (vset _ _ _); cbn; [|discriminate]. intros X. injection X as <-. auto. Qed.
Lemma loc_setacc s p i l' : Loc s -> set_accepted_idx (s_ls s) p i = Some l' -> Loc (set_ls s l').
Proof. intros H Hl. destruct (setacc_ok _ _ _ _ Hl) as [X1 X2]. apply loc_ls; auto. rewrite X1. apply (lc_ms _ H). Qed.

(** Modification of a queued message. *)
Lemma loc_mod s idx f : Loc s -> (forall m, nth_error (s_out s) idx = Some m -> pmA (f (pm_msg m)) /\ ext1 m (mkPM (pm_from m) (pm_to m) (f (pm_msg m))) /\
   (is_acceptdecide m = true -> is_acceptdecide (mkPM (pm_from m) (pm_to m) (f (pm_msg m))) = true) /\
   (is_acceptedm m = true -> is_acceptedm (mkPM (pm_from m) (pm_to m) (f (pm_msg m))) = true)) -> Loc (mod_accdec s idx f).
Proof.
  intros H Hf. unfold mod_accdec. destruct (nth_error (s_out s) idx) as [m|] eqn:Hm; auto. destruct (Hf m eq_refl) as (F1 & F0 & F2 & F3).
  assert (Hl : idx < length (s_out s)) by (apply nth_error_Some; congruence).
  destruct H. constructor; auto; cbn.
  - rewrite Forall_forall in *. intros x Hx. apply In_nth_error in Hx. destruct Hx as [j Hj]. rewrite upd_nth in Hj; auto.
    destruct (j =? idx); [injection Hj as <-; auto|]. apply lc_out0. eapply nth_error_In; eauto.
  - intros i b k Hk. destruct (lc_am0 i b k Hk) as (x & Hx & H1 & H2). rewrite upd_nth; auto. destruct (Nat.eqb_spec k idx) as [->|]; [|eauto].
    rewrite Hm in Hx. injection Hx as ->. eauto.
  - intros b k Hk. destruct (lc_lam0 b k Hk) as (x & Hx & H1). rewrite upd_nth; auto. destruct (Nat.eqb_spec k idx) as [->|]; [|eauto].
    rewrite Hm in Hx. injection Hx as ->. eauto.
  - eapply qext_upd; eauto.
Qed.

(** The indexes stored with the last AcceptDecide and Accepted are inside the queue. *)
Lemma latest_accdec_ok s to : Loc s -> (exists x, get_latest_accept_meta (s_ls s) to = Some x) -> get_latest_accdec s to <> None.
Proof.
  intros H [x Hx]. unfold get_latest_accdec. rewrite Hx. destruct x as [[b k]|]; [|discriminate]. destruct (beq b (l_n (s_ls s))); [|discriminate].
  unfold get_latest_accept_meta, vget in Hx. destruct (pid_to_idx to) as [i|]; [|discriminate].
  destruct (lc_am _ H i b k Hx) as (m & -> & _). destruct (pm_msg m); discriminate.
Qed.
Lemma latest_accepted_ok s n : Loc s -> get_latest_accepted s n <> None.
Proof.
  intros H. unfold get_latest_accepted. destruct (s_lam s) as [[b k]|] eqn:Hl; [|discriminate]. destruct (beq b n); [|discriminate].
  destruct (lc_lam _ H b k Hl) as (m & -> & _). destruct (pm_msg m); discriminate.
Qed.

(** ** Handlers *)

Lemma send_ad_to_ok dec es s p : Forall A es -> Loc s -> okr (send_acceptdecide_to dec es s p).
Proof.
  intros He H. unfold send_acceptdecide_to. apply lift_ok; auto. intros [idx|] Hr.
  - cbn. apply loc_mod; auto. intros m Hm. assert (Hp : pmA (pm_msg m)). { pose proof (lc_out _ H) as Ho. rewrite Forall_forall in Ho. apply Ho. eapply nth_error_In; eauto. }
    unfold is_acceptdecide, is_acceptedm, ext1. cbn [pm_msg pm_from pm_to]. destruct (pm_msg m); cbn in *; try rewrite Forall_app; repeat split; eauto.
  - unfold set_latest_accept_meta. destruct (vset (l_accmeta (s_ls s)) p _) as [v|] eqn:Hv; cbn [option_map lift bind]; [|apply (il_tr _ (lc_is _ H))].
    set (ls := l_set_accmeta (s_ls s) v). destruct (next_seq_num ls p) as [[ls' sq]|] eqn:Hn; cbn [lift bind]; [|apply (il_tr _ (lc_is _ H))].
    destruct (next_ok _ _ _ _ Hn) as [N1 N2]. cbn [okr]. destruct (vset_inv _ _ _ _ Hv) as (i & -> & Hi & ->).
    destruct H. constructor; auto; cbn.
    + rewrite Forall_app. split; auto.
    + rewrite N1. exact lc_ms0.
    + intros j b k. rewrite N2. cbn. rewrite upd_nth; auto. destruct (Nat.eqb_spec j i) as [->|].
      * intros X. injection X as _ <-. eexists. split; [rewrite nth_error_app2, Nat.sub_diag by lia; reflexivity|]. cbn. auto.
      * intros Hk. destruct (lc_am0 j b k Hk) as (x & Hx & H2). exists x. split; auto. apply nth_app_l; auto.
    + intros b k Hk. destruct (lc_lam0 b k Hk) as (x & Hx & H2). exists x. split; auto. apply nth_app_l; auto.
    + apply qext_push; auto.
Qed.
Lemma send_ad_ok s es : Forall A es -> Loc s -> okr (send_acceptdecide s es).
Proof. intros He H. unfold send_acceptdecide. apply lift_ok; auto. intros ps _. apply for_each_ok; auto. intros. apply send_ad_to_ok; auto. Qed.

Lemma meta_ok s (is : istore) r : Loc s -> IL is -> metaA r ->
  okr (match r with Some (acc, es) => ls <- lift (set_is s is) (set_accepted_idx (s_ls s) (s_pid s) acc) ;; send_acceptdecide (set_ls (set_is s is) ls) es
       | None => Ok (set_is s is) end).
Proof.
  intros H Hi Hm. assert (H1 : Loc (set_is s is)) by (apply loc_is; auto). destruct r as [[acc es]|]; auto.
  apply lift_ok; auto. intros ls Hl. apply send_ad_ok; auto. eapply loc_setacc; eauto.
Qed.
Lemma accept_entry_ok s e : Loc s -> A e -> okr (accept_entry_leader s e).
Proof.
  intros H He. unfold accept_entry_leader. pose proof (il_aewb _ _ (lc_is _ H) He) as X1. pose proof (aewb_meta _ _ (lc_is _ H) He) as X2.
  destruct (append_entry_with_batching _ _) as [is r]. apply (meta_ok s is r); auto.
Qed.
Lemma accept_entries_ok s es : Loc s -> Forall A es -> okr (accept_entries_leader s es).
Proof.
  intros H He. unfold accept_entries_leader. pose proof (il_aeswb _ _ (lc_is _ H) He) as X1. pose proof (aeswb_meta _ _ (lc_is _ H) He) as X2.
  destruct (append_entries_with_batching _ _) as [is r]. apply (meta_ok s is r); auto.
Qed.
Lemma flush_leader_ok s : Loc s -> okr (flush_batch_leader s).
Proof.
  intros H. unfold flush_batch_leader. destruct (il_fbge _ (lc_is _ H)) as [X1 X2].
  destruct (flush_batch_and_get_entries _) as [is r]. apply (meta_ok s is r); auto.
Qed.

Lemma next_push_ok s (o : option (leader_state * seqnum)) to (m : leader_state -> seqnum -> pmsg) : Loc s ->
  (forall l q, o = Some (l, q) -> l_maxsync l = l_maxsync (s_ls s) /\ l_accmeta l = l_accmeta (s_ls s)) ->
  (forall l q, pmA (m l q)) -> okr ('(ls, sq) <- lift s o ;; Ok (push (set_ls s ls) to (m ls sq))).
Proof.
  intros H Ho Hm. apply lift_ok; auto. intros [l q] Hl. destruct (Ho _ _ Hl) as [X1 X2]. cbn [okr]. apply loc_push; auto. apply loc_ls; auto. rewrite X1. apply (lc_ms _ H).
Qed.
Lemma resend_seq s (b : bool) to : forall l q, (if b then option_map (fun q => (s_ls s, q)) (get_seq_num (s_ls s) to) else next_seq_num (s_ls s) to) = Some (l, q) ->
  l_maxsync l = l_maxsync (s_ls s) /\ l_accmeta l = l_accmeta (s_ls s).
Proof.
  intros l q. destruct b; [|apply next_ok]. destruct (get_seq_num _ _); cbn; [|discriminate]. intros X. injection X as <- <-. auto.
Qed.
Lemma send_ss_ok ss b s to : Loc s -> okr (send_accept_stopsign ss b s to).
Proof. intros H. unfold send_accept_stopsign. apply (next_push_ok s _ to (fun l q => MAcceptStopSign (l_n l) q ss)); auto; [apply resend_seq|constructor]. Qed.
Lemma send_decide_ok d b s to : Loc s -> okr (send_decide d b s to).
Proof. intros H. unfold send_decide. apply (next_push_ok s _ to (fun l q => MDecide (l_n l) q d)); auto; [apply resend_seq|constructor]. Qed.
Lemma accept_ss_ok s ss : Loc s -> okr (accept_stopsign_leader s ss).
Proof.
  intros H. unfold accept_stopsign_leader. destruct (il_ss _ ss (lc_is _ H)) as [X1 X2]. destruct (i_append_stopsign _ _) as [is r].
  assert (H1 : Loc (set_is s is)) by (apply loc_is; auto). apply bind_ok.
  - destruct r as [[acc es]|]; auto. apply send_ad_ok; auto.
  - intros s1 H2. apply lift_ok; auto. intros ls Hl. assert (H3 : Loc (set_ls s1 ls)) by (eapply loc_setacc; eauto).
    apply lift_ok; auto. intros ps _. apply for_each_ok; auto. intros. apply send_ss_ok; auto.
Qed.
Lemma forward_props_ok s es : Loc s -> Forall A es -> Loc (forward_proposals s es).
Proof. intros H He. unfold forward_proposals. destruct (_ && _); [apply loc_push; auto|]. apply loc_bp; auto. rewrite Forall_app. split; auto. apply (lc_bp _ H). Qed.
Lemma forward_ss_ok s ss : Loc s -> Loc (forward_stopsign s ss).
Proof. intros H. unfold forward_stopsign. destruct (_ && _); [apply loc_push; auto; constructor|]. destruct (s_bss s); auto. apply loc_bss; auto. Qed.
Lemma send_prepare_ok s to : Loc s -> Loc (send_prepare s to).
Proof. intros H. apply loc_push; auto. constructor. Qed.
Lemma handle_leader_ok s n : Loc s -> okr (handle_leader s n).
Proof.
  intros H. unfold handle_leader. destruct (ble n (l_n (s_ls s)) || ble n (i_prom (s_is s))) eqn:Hg; [exact H|]. apply orb_false_iff in Hg. destruct Hg as [_ Hg].
  destruct (s_pid s =? b_pid n); [|cbn; apply loc_state; auto]. cbn zeta. set (ls0 := ls_with n (l_maxpid (s_ls s)) (l_quorum (s_ls s))).
  assert (Hb : ble b0 n = true).
  { pose proof (il_st _ (lc_is _ H)) as [Hp _]. rewrite <- (h_prom _ (il_coh _ (lc_is _ H))) in Hp. fold (i_prom (s_is s)) in Hp.
    apply ble_spec in Hp. apply ble_spec. assert (~ (bal_lt n (i_prom (s_is s)) \/ bal_same n (i_prom (s_is s)))) by (intros X; apply ble_spec in X; congruence).
    unfold bal_lt, bal_same in *. lia. }
  assert (H1 : Loc (set_ls s ls0)).
  { destruct H. constructor; auto; cbn; auto. intros i b k Hk. exfalso. apply nth_error_In, repeat_spec in Hk. discriminate. }
  assert (H2 : Loc (set_is (set_is (set_ls s ls0) (fst (flush_batch (s_is (set_ls s ls0))))) (i_set_promise (fst (flush_batch (s_is (set_ls s ls0)))) n))).
  { apply loc_is; [apply loc_is; auto|]; [apply il_flush, (lc_is _ H1)|apply il_prom; auto; apply il_flush, (lc_is _ H1)]. }
  cbn [s_is set_is set_ls] in *. apply lift_ok; auto. intros [ls m] Hl. destruct (setp_ok _ _ _ _ _ _ Hl) as [X1 X2]; [exact I|exact I|].
  cbn [okr]. apply loc_push_all; [constructor|]. apply loc_state. apply loc_ls; auto.
Qed.
Lemma handle_preparereq_ok s n from : Loc s -> okr (handle_preparereq s n from).
Proof.
  intros H. unfold handle_preparereq. destruct (_ && _); [|exact H]. apply lift_ok; auto. intros ls Hl. apply lift_ok; auto. intros ls2 Hl2. cbn. apply send_prepare_ok.
  unfold reset_promise in Hl. destruct (vset (l_proms (s_ls s)) from NotPromised) as [v|]; cbn in Hl; [|discriminate]. injection Hl as <-.
  unfold set_latest_accept_meta in Hl2. cbn [l_set_proms l_accmeta] in Hl2. destruct (vset _ _ _) as [w|] eqn:Hw; cbn in Hl2; [|discriminate]. injection Hl2 as <-.
  destruct (vset_inv _ _ _ _ Hw) as (i & -> & Hi & ->). destruct H. constructor; auto. cbn. intros j b k. rewrite upd_nth; auto. destruct (j =? i); [discriminate|]. apply lc_am0.
Qed.
Lemma fwd_prop_ok s es : Loc s -> Forall A es -> okr (handle_forwarded_proposal s es).
Proof.
  intros H He. unfold handle_forwarded_proposal. destruct (accepted_reconfiguration s); [exact H|].
  destruct (s_role s), (s_phase s); cbn [okr]; try (apply forward_props_ok; auto); [|apply accept_entries_ok; auto]. apply loc_bp; auto. rewrite Forall_app. split; auto. apply (lc_bp _ H).
Qed.
Lemma fwd_ss_ok s ss : Loc s -> okr (handle_forwarded_stopsign s ss).
Proof.
  intros H. unfold handle_forwarded_stopsign. destruct (accepted_reconfiguration s); [exact H|].
  destruct (s_role s), (s_phase s); cbn [okr]; try (apply forward_ss_ok; auto); [|apply accept_ss_ok; auto]. apply loc_bss; auto.
Qed.
Lemma send_accsync_ok s to : Loc s -> okr (send_accsync s to).
Proof.
  intros H. unfold send_accsync. apply lift_ok; auto. intros m _. apply lift_ok; auto. intros fd _. apply lift_ok; auto. intros sy Hsy.
  apply lift_ok; auto. intros l1 H1. apply lift_ok; auto. intros [l2 sq] H2. destruct (incr_ok _ _ _ H1) as [X1 X2]. destruct (next_ok _ _ _ _ H2) as [Y1 Y2].
  cbn [okr]. apply loc_push; [|exact (sync_A _ _ _ _ H Hsy)]. apply loc_ls; auto; [rewrite Y1, X1; apply (lc_ms _ H)|congruence].
Qed.
Lemma majority_ok s : Loc s -> okr (handle_majority_promises s).
Proof.
  intros H. unfold handle_majority_promises, take_max_promise_sync. cbn zeta.
  set (s1 := set_ls s (l_set_max (s_ls s) (l_maxmeta (s_ls s)) None)). assert (H1 : Loc s1) by (apply loc_ls; auto; constructor).
  pose proof (il_sync (s_is s1) (l_n (s_ls s1)) (get_max_decided_idx (s_ls s1)) (l_maxsync (s_ls s)) (lc_is _ H1) (lc_ms _ H)) as X.
  destruct (sync_log _ _ _ _) as [[is acc]|tr]; [|exact X]. cbn [bind ilr] in *. assert (H2 : Loc (set_is s1 is)) by (apply loc_is; auto).
  match goal with |- okr (let '(_, _) := ?e in _) => assert (Hx : Loc (fst e)); [|destruct e as [s3 acc3]; cbn [fst] in Hx] end.
  { destruct (accepted_reconfiguration (set_is s1 is)); [exact H2|].
    match goal with |- Loc (fst (let '(_, _) := ?e in _)) => assert (Hx : Loc (fst e)); [|destruct e as [s3 acc3]; cbn [fst] in Hx] end.
    { change (s_bprops (set_is s1 is)) with (s_bprops s). pose proof (lc_bp _ H) as Hb. destruct (s_bprops s) as [|e es]; [exact H2|].
      assert (H3 : Loc (set_bprops (set_is s1 is) [])) by (apply loc_bp; auto). pose proof (il_awb _ (e :: es) (lc_is _ H3) Hb) as Y.
      destruct (append_entries_without_batching _ _) as [is2 acc2]. cbn [fst] in *. apply loc_is; auto. }
    destruct (s_bss s3) as [ss|]; [|exact Hx]. cbn [fst]. assert (H4 : Loc (set_bss s3 None)) by (apply loc_bss; auto).
    apply loc_is; auto. apply (il_ss _ ss (lc_is _ H4)). }
  assert (H4 : Loc (set_state s3 Leader PhAccept)) by (apply loc_state; auto). apply lift_ok; auto. intros ls Hl. assert (H5 : Loc (set_ls (set_state s3 Leader PhAccept) ls)) by (eapply loc_setacc; eauto).
  apply lift_ok; auto. intros ps _. apply for_each_ok; auto. intros. apply send_accsync_ok; auto.
Qed.
Lemma promise_prepare_ok s p from : Loc s -> syncA (pr_sync p) -> okr (handle_promise_prepare s p from).
Proof.
  intros H Hp. unfold handle_promise_prepare. destruct (beq _ _); [|exact H]. apply lift_ok; auto. intros [ls m] Hl.
  destruct (setp_ok _ _ _ _ _ _ Hl (lc_ms _ H) Hp) as [X1 X2]. assert (H1 : Loc (set_ls s ls)) by (apply loc_ls; auto). destruct m; [apply majority_ok; auto|exact H1].
Qed.
Lemma promise_accept_ok s p from : Loc s -> syncA (pr_sync p) -> okr (handle_promise_accept s p from).
Proof.
  intros H Hp. unfold handle_promise_accept. destruct (beq _ _); [|exact H]. apply lift_ok; auto. intros [ls m] Hl.
  destruct (setp_ok _ _ _ _ _ _ Hl (lc_ms _ H) Hp) as [X1 X2]. apply send_accsync_ok. apply loc_ls; auto.
Qed.
Lemma handle_accepted_to_ok d s p : Loc s -> okr (handle_accepted_to d s p).
Proof.
  intros H. unfold handle_accepted_to. apply lift_ok; auto. intros [idx|] _; [|apply send_decide_ok; auto]. cbn. apply loc_mod; auto.
  intros m Hm. assert (Hp : pmA (pm_msg m)). { pose proof (lc_out _ H) as Ho. rewrite Forall_forall in Ho. apply Ho. eapply nth_error_In; eauto. }
  unfold is_acceptdecide, is_acceptedm, ext1. cbn [pm_msg pm_from pm_to]. destruct (pm_msg m); cbn in *; repeat split; eauto.
  exists d, []. rewrite app_nil_r. auto.
Qed.
Lemma handle_accepted_ok s n a from : Loc s -> okr (handle_accepted s n a from).
Proof.
  intros H. unfold handle_accepted. destruct (_ && _); [|exact H]. apply lift_ok; auto. intros ls Hl. assert (H1 : Loc (set_ls s ls)) by (eapply loc_setacc; eauto).
  destruct (_ && _); [|exact H1]. assert (H2 : Loc (set_is (set_ls s ls) (i_set_decided (s_is (set_ls s ls)) a))) by (apply loc_is; auto; apply il_dec, (lc_is _ H1)).
  apply lift_ok; auto. intros ps _. apply for_each_ok; auto. intros. apply handle_accepted_to_ok; auto.
Qed.
Lemma notaccepted_ok s n from : Loc s -> okr (handle_notaccepted s n from).
Proof.
  intros H. unfold handle_notaccepted. destruct (_ && _); [|exact H]. apply lift_ok; auto. intros ls Hl. unfold lost_promise in Hl. destruct (vset _ _ _); cbn in Hl; [|discriminate]. injection Hl as <-.
  apply loc_ls; auto. apply (lc_ms _ H).
Qed.
Lemma prepare_all_ok l : forall s, Loc s -> Loc (fold_left send_prepare l s).
Proof. induction l as [|p l IH]; cbn; intros s H; auto. apply IH, send_prepare_ok; auto. Qed.
Lemma resend_leader_ok s : Loc s -> okr (resend_messages_leader s).
Proof.
  intros H. unfold resend_messages_leader. destruct (s_phase s); [| |exact H|exact H].
  - apply lift_ok; auto. intros ps _. apply prepare_all_ok; auto.
  - apply bind_ok.
    + destruct (i_ss (s_is s)) as [ss|]; [|exact H]. apply lift_ok; auto. intros ps _. apply for_each_ok; auto. intros s1 p H1. unfold resend_ss_to.
      destruct (stopsign_is_decided _); [apply send_decide_ok; auto|]. apply lift_ok; auto. intros a _. destruct (a =? _); [exact H1|apply send_ss_ok; auto].
    + intros s1 H1. apply lift_ok; auto. intros ps _. apply prepare_all_ok; auto.
Qed.

Lemma reconnected_ok s p : Loc s -> Loc (reconnected s p).
Proof. intros H. unfold reconnected. destruct (p =? s_pid s); auto. apply loc_push; [|constructor]. destruct (p =? sp_leader s); auto. apply loc_state; auto. Qed.
Lemma handle_prepare_ok s n d na a from : Loc s -> okr (handle_prepare s n d na a from).
Proof.
  intros H. unfold handle_prepare. destruct (blt (i_prom (s_is s)) n || _) eqn:Hg; [|exact H]. cbn zeta.
  assert (Hb : ble b0 n = true).
  { pose proof (il_st _ (lc_is _ H)) as [Hp _]. rewrite <- (h_prom _ (il_coh _ (lc_is _ H))) in Hp. fold (i_prom (s_is s)) in Hp.
    apply orb_true_iff in Hg. destruct Hg as [Hg|Hg].
    - apply blt_spec in Hg. apply ble_spec in Hp. apply ble_spec. unfold bal_lt, bal_same in *. lia.
    - apply andb_true_iff in Hg. destruct Hg as [Hg _]. apply beq_spec in Hg. congruence. }
  set (s1 := set_is s (fst (flush_batch (s_is s)))). assert (H1 : Loc s1) by (apply loc_is; auto; apply il_flush, (lc_is _ H)).
  set (s2 := set_cseq (set_state (set_is s1 (i_set_promise (s_is s1) n)) Follower PhPrepare) seq0).
  assert (H2 : Loc s2) by (apply loc_cseq, loc_state, loc_is; auto; apply il_prom; auto; apply (lc_is _ H1)).
  match goal with |- okr (bind ?e ?f) => assert (He : match e with Ok sy => syncA sy | Panic tr => Forall stok tr end) end.
  { pose proof (il_tr _ (lc_is _ H2)) as Ht. destruct (bgt _ na).
    - destruct (create_log_sync s2 d d) as [sy|] eqn:Hs; [|exact Ht]. exact (sync_A _ _ _ _ H2 Hs).
    - destruct (beq _ na && _); [|exact I]. destruct (create_log_sync s2 a d) as [sy|] eqn:Hs; [|exact Ht]. exact (sync_A _ _ _ _ H2 Hs). }
  match goal with |- okr (bind ?e ?f) => destruct e as [sy|tr] end; [|exact He]. cbn [bind okr]. apply loc_push; [|exact He]. apply loc_cprom; auto.
Qed.
Lemma check_valid_ok s b : Loc s -> Loc (fst (check_valid_ballot s b)).
Proof. intros H. unfold check_valid_ballot. destruct (bcmp _ _); cbn [fst]; auto; [apply reconnected_ok; auto|apply loc_push; auto; constructor]. Qed.
Lemma seqnum_ok s q from : Loc s -> Loc (fst (handle_sequence_num s q from)).
Proof. intros H. unfold handle_sequence_num. destruct (check_msg_status _ _); cbn [fst]; auto; [apply loc_cseq|apply reconnected_ok]; auto. Qed.
Lemma loc_lam s n to a : Loc s -> Loc (push (set_lam s (Some (n, length (s_out s)))) to (MAccepted n a)).
Proof.
  intros []. constructor; auto; cbn.
  - rewrite Forall_app. split; auto. constructor; auto. exact I.
  - intros i b k Hk. destruct (lc_am0 i b k Hk) as (x & Hx & H2). exists x. split; auto. apply nth_app_l; auto.
  - intros b k X. injection X as _ <-. eexists. split; [rewrite nth_error_app2, Nat.sub_diag by lia; reflexivity|]. reflexivity.
  - apply qext_push; auto.
Qed.
Lemma reply_ok s n a : Loc s -> okr (reply_accepted s n a).
Proof.
  intros H. unfold reply_accepted. apply lift_ok; auto. intros [idx|] _; [|cbn; apply loc_lam; auto]. cbn. apply loc_mod; auto.
  intros m Hm. assert (Hp : pmA (pm_msg m)). { pose proof (lc_out _ H) as Ho. rewrite Forall_forall in Ho. apply Ho. eapply nth_error_In; eauto. }
  unfold is_acceptdecide, is_acceptedm, ext1. cbn [pm_msg pm_from pm_to]. destruct (pm_msg m); cbn in *; repeat split; eauto.
  exists dec, []. rewrite app_nil_r. auto.
Qed.
Lemma fwd_buffered_ok s : Loc s -> Loc (forward_buffered_proposals s).
Proof.
  intros H. unfold forward_buffered_proposals. assert (H1 : Loc (set_bprops s [])) by (apply loc_bp; auto). pose proof (lc_bp _ H) as Hb.
  destruct (s_bprops s); auto. apply forward_props_ok; auto.
Qed.
Lemma acceptsync_ok s n q d sy from : Loc s -> Forall A (sy_suffix sy) -> okr (handle_acceptsync s n q d sy from).
Proof.
  intros H Hsy. unfold handle_acceptsync. pose proof (check_valid_ok s n H) as H1. destruct (check_valid_ballot s n) as [s1 v]. cbn [fst] in H1. destruct (_ && _); [|exact H1].
  assert (H2 : Loc (set_cprom s1 None)) by (apply loc_cprom; auto). pose proof (il_sync (s_is (set_cprom s1 None)) n d (Some sy) (lc_is _ H2) Hsy) as X.
  destruct (sync_log _ _ _ _) as [[is acc]|tr]; [|exact X]. cbn [bind ilr okr] in *. assert (H3 : Loc (set_is (set_cprom s1 None) is)) by (apply loc_is; auto).
  apply loc_lam. apply loc_cseq, loc_state. destruct (i_ss _); auto. apply fwd_buffered_ok; auto.
Qed.
Lemma update_decided_ok s d : Loc s -> Loc (fst (update_decided s d)).
Proof.
  intros H. unfold update_decided. destruct (d <=? _); auto. destruct (_ <? d).
  - pose proof (il_flush _ (lc_is _ H)) as X. destruct (flush_batch _) as [is a]. cbn [fst] in *. apply loc_is; auto. apply il_dec; auto.
  - cbn [fst]. apply loc_is; auto. apply il_dec, (lc_is _ H).
Qed.
Lemma acceptdecide_ok s n q d es : Loc s -> Forall A es -> okr (handle_acceptdecide s n q d es).
Proof.
  intros H He. unfold handle_acceptdecide. pose proof (check_valid_ok s n H) as H1. destruct (check_valid_ballot s n) as [s1 v]. cbn [fst] in H1. destruct (_ && _); [|exact H1].
  pose proof (seqnum_ok s1 q (b_pid n) H1) as H2. destruct (handle_sequence_num s1 q (b_pid n)) as [s2 st]. cbn [fst] in H2. destruct st; [|exact H2|exact H2].
  pose proof (il_aegai _ es (lc_is _ H2) He) as X. destruct (append_entries_and_get_accepted_idx _ _) as [is r1]. cbn [fst] in X.
  assert (H3 : Loc (set_is s2 is)) by (apply loc_is; auto). pose proof (update_decided_ok _ d H3) as H4. destruct (update_decided _ _) as [s4 r2]. cbn [fst] in H4.
  destruct (match r2 with Some _ => r2 | None => r1 end); [apply reply_ok; auto|exact H4].
Qed.
Lemma accept_ss_f_ok s n q ss : Loc s -> okr (handle_accept_stopsign s n q ss).
Proof.
  intros H. unfold handle_accept_stopsign. pose proof (check_valid_ok s n H) as H1. destruct (check_valid_ballot s n) as [s1 v]. cbn [fst] in H1. destruct (_ && _); [|exact H1].
  pose proof (seqnum_ok s1 q (b_pid n) H1) as H2. destruct (handle_sequence_num s1 q (b_pid n)) as [s2 st]. cbn [fst] in H2. destruct st; [|exact H2|exact H2].
  cbn zeta. assert (H3 : Loc (set_is s2 (fst (flush_batch (s_is s2))))) by (apply loc_is; auto; apply il_flush, (lc_is _ H2)).
  pose proof (il_setss _ (Some ss) (lc_is _ H3)) as X. destruct (i_set_stopsign _ _) as [[is acc]|tr]; [|exact X]. cbn [bind ilr] in *. apply reply_ok. apply loc_is; auto.
Qed.
Lemma decide_ok s n q d : Loc s -> okr (handle_decide s n q d).
Proof.
  intros H. unfold handle_decide. pose proof (check_valid_ok s n H) as H1. destruct (check_valid_ballot s n) as [s1 v]. cbn [fst] in H1. destruct (_ && _); [|exact H1].
  pose proof (seqnum_ok s1 q (b_pid n) H1) as H2. destruct (handle_sequence_num s1 q (b_pid n)) as [s2 st]. cbn [fst] in H2. destruct st; [|exact H2|exact H2].
  pose proof (update_decided_ok _ d H2) as H4. destruct (update_decided _ _) as [s4 r2]. cbn [fst] in H4. destruct r2; [apply reply_ok; auto|exact H4].
Qed.
Lemma resend_follower_ok s : Loc s -> Loc (resend_messages_follower s).
Proof.
  intros H. unfold resend_messages_follower, send_preparereq_to_all_peers. destruct (s_phase s); auto.
  - pose proof (lc_cp _ H) as Hc. destruct (s_cprom s) as [p|]; [apply loc_push; auto|]. apply loc_push_all; [constructor|]. apply loc_state; auto.
  - apply loc_push_all; auto. constructor.
Qed.
Lemma flush_follower_ok s : Loc s -> okr (flush_batch_follower s).
Proof.
  intros H. unfold flush_batch_follower. pose proof (il_flush _ (lc_is _ H)) as X. destruct (flush_batch _) as [is a]. cbn [fst] in X.
  assert (H1 : Loc (set_is s is)) by (apply loc_is; auto). destruct (_ <? a); [apply reply_ok; auto|exact H1].
Qed.
Lemma trim_ok s i : Loc s -> okr2 (sp_trim s i).
Proof.
  intros H. unfold sp_trim. destruct (s_role s); [exact H|]. destruct (get_min_all_accepted_idx _) as [mn|]; cbn [lift bind]; [|apply (il_tr _ (lc_is _ H))].
  assert (Main : forall k, okr2 ('(is, r) <- try_trim (s_is s) k ;;
        let s := set_is s is in
        match r with
        | None => Ok (push_all s (s_peers s) (MCompaction (CmpTrim k)), None)
        | Some e => Ok (s, Some e)
        end)).
  { intros k. pose proof (il_trim (s_is s) k (lc_is _ H)) as X. destruct (try_trim _ _) as [[is r]|tr]; [|exact X]. cbn [bind ilr] in *.
    assert (H1 : Loc (set_is s is)) by (apply loc_is; auto). destruct r; cbn; auto. apply loc_push_all; auto. constructor. }
  cbn zeta. destruct i as [i|]; [|apply Main]. destruct (i <=? mn); [apply Main|exact H].
Qed.
Lemma snapshot_ok s i l : Loc s -> okr2 (sp_snapshot s i l).
Proof.
  intros H. unfold sp_snapshot. pose proof (il_snapshot (s_is s) i (lc_is _ H)) as X. destruct (try_snapshot _ _) as [[is r]|tr]; [|exact X]. cbn [bind ilr] in *.
  assert (H1 : Loc (set_is s is)) by (apply loc_is; auto). destruct r; cbn; auto. destruct l; auto. apply loc_push_all; auto. constructor.
Qed.
Lemma compaction_ok s c : Loc s -> okr (handle_compaction s c).
Proof.
  intros H. unfold handle_compaction. destruct c as [i|i].
  - pose proof (il_trim (s_is s) i (lc_is _ H)) as X. destruct (try_trim _ _) as [[is r]|tr]; [|exact X]. cbn. apply loc_is; auto.
  - pose proof (snapshot_ok s i true H) as X. destruct (sp_snapshot s i true) as [[s1 r]|tr]; exact X.
Qed.
Lemma sp_handle_ok s m : Loc s -> pmA (pm_msg m) -> okr (sp_handle s m).
Proof.
  intros H Hm. unfold sp_handle. destruct (pm_msg m) as [n|n d na a|p|n q d sy|n q d es|n a|n|n q d|es|c|n q ss|ss]; cbn in Hm.
  - apply handle_preparereq_ok; auto.
  - apply handle_prepare_ok; auto.
  - destruct (s_role s), (s_phase s); try exact H; [apply promise_prepare_ok|apply promise_accept_ok]; auto.
  - apply acceptsync_ok; auto.
  - apply acceptdecide_ok; auto.
  - apply handle_accepted_ok; auto.
  - apply notaccepted_ok; auto.
  - apply decide_ok; auto.
  - apply fwd_prop_ok; auto.
  - apply compaction_ok; auto.
  - apply accept_ss_f_ok; auto.
  - apply fwd_ss_ok; auto.
Qed.
Lemma append_ok s e : Loc s -> A e -> okr2 (sp_append s e).
Proof.
  intros H He. unfold sp_append. destruct (accepted_reconfiguration s); [exact H|].
  assert (X : okr (propose_entry s e)).
  { unfold propose_entry. destruct (s_role s), (s_phase s); cbn [okr]; try (apply forward_props_ok; auto); [|apply accept_entry_ok; auto]. apply loc_bp; auto. rewrite Forall_app. split; auto. apply (lc_bp _ H). }
  destruct (propose_entry s e); exact X.
Qed.
Lemma reconfigure_ok s c m : Loc s -> okr2 (sp_reconfigure s c m).
Proof.
  intros H. unfold sp_reconfigure. destruct (accepted_reconfiguration s); [exact H|]. cbn zeta.
  match goal with |- okr2 (bind ?e _) => assert (X : okr e); [|destruct e; exact X] end.
  destruct (s_role s), (s_phase s); cbn [okr]; try (apply forward_ss_ok; auto); [|apply accept_ss_ok; auto]. apply loc_bss; auto.
Qed.

(** ** Calls *)

Definition okro {B} (r : res (omni * B)) : Prop := match r with Ok (o, _) => Loc (o_sp o) | Panic tr => Forall stok tr end.
Definition okro1 (r : res omni) : Prop := match r with Ok o => Loc (o_sp o) | Panic tr => Forall stok tr end.

Lemma election_ok_ o : Loc (o_sp o) -> okro1 (election_timeout o).
Proof.
  intros H. unfold election_timeout. destruct (hb_timeout _ _ _) as [b [n|]]; [|exact H]. pose proof (handle_leader_ok (o_sp o) n H) as X. destruct (handle_leader _ _); exact X.
Qed.
Lemma tick_ok_ o : Loc (o_sp o) -> okro1 (tick o).
Proof.
  intros H. unfold tick. destruct (clock_tick (o_eclk o)) as [ec f1]. 
  match goal with |- okro1 (bind ?e _) => assert (X : okro1 e); [|destruct e as [o1|tr]; [|exact X]] end.
  { destruct f1; [apply election_ok_; auto|exact H]. }
  cbn [bind]. cbn in X. destruct (clock_tick (o_rclk o1)) as [rc f2].
  match goal with |- okro1 (bind ?e _) => assert (X2 : okro1 e); [|destruct e as [o2|tr]; [|exact X2]] end.
  { destruct f2; [|exact X]. cbn [o_sp]. assert (Y : okr (resend_message_timeout (o_sp o1))).
    { unfold resend_message_timeout. destruct (s_role (o_sp o1)); [apply resend_follower_ok; auto|apply resend_leader_ok; auto]. }
    destruct (resend_message_timeout (o_sp o1)); exact Y. }
  cbn [bind]. cbn in X2. destruct (clock_tick (o_fclk o2)) as [fc f3]. destruct f3; [|exact X2]. cbn [o_sp].
  assert (Y : okr (flush_batch_timeout (o_sp o2))).
  { unfold flush_batch_timeout. destruct (s_role (o_sp o2)), (s_phase (o_sp o2)); try exact X2; [apply flush_follower_ok|apply flush_leader_ok]; auto. }
  destruct (flush_batch_timeout (o_sp o2)); exact Y.
Qed.

(** What a call brings in. *)
Definition callA (c : call) : Prop :=
  match c with CAppend e => A e | CHandle (MsgSP m) => pmA (pm_msg m) | _ => True end.

Lemma exec_call_ok o c : Loc (o_sp o) -> callA c -> okro (exec_call o c).
Proof.
  intros H Hc. destruct c as [e|cc0 meta| |i|i l|q| |q|m]; cbn [exec_call].
  - pose proof (append_ok _ e H Hc) as X. destruct (sp_append _ _) as [[s r]|]; exact X.
  - unfold reconfigure. destruct (cluster_validate cc0); [|exact H]. pose proof (reconfigure_ok (o_sp o) cc0 meta H) as X. destruct (sp_reconfigure _ _ _) as [[s r]|]; exact X.
  - pose proof (tick_ok_ o H) as X. destruct (tick o); exact X.
  - pose proof (trim_ok (o_sp o) i H) as X. destruct (sp_trim _ _) as [[s r]|]; exact X.
  - pose proof (snapshot_ok (o_sp o) i l H) as X. destruct (sp_snapshot _ _ _) as [[s r]|]; exact X.
  - cbn. apply reconnected_ok; auto.
  - unfold try_become_leader. pose proof (handle_leader_ok (o_sp o) (set_n (e_ballot (o_ble o)) (b_n (sp_promise (o_sp o)) + 1)) H) as X. destruct (handle_leader _ _); exact X.
  - exact H.
  - unfold handle_incoming. destruct m as [m|m]; [|exact H]. pose proof (sp_handle_ok (o_sp o) m H Hc) as X. destruct (sp_handle _ _); exact X.
Qed.
(** The state of a server between calls: nothing is recorded of earlier calls. *)
Definition rest (o : omni) : sp := o_sp (start_call o).
Lemma loc_rest o : Loc (o_sp o) -> Loc (rest o).
Proof.
  intros H. destruct o as [s b c1 c2 c3]. cbn in *. destruct H as [[I1 I2 I3 I5 I4] H2 H3 H4 H5 H6 H7 H8]. constructor; auto. cbn.
  constructor; [destruct I1; constructor; auto|auto|auto|auto|constructor].
Qed.
Lemma exec_ok o c : Loc (rest o) -> callA c -> okro (exec o c).
Proof. intros H Hc. unfold exec. apply exec_call_ok; auto. Qed.
Lemma crash_ok o c st : Loc (rest o) -> callA c -> In st (crash_points o c) -> stok st.
Proof.
  intros H Hc [<-|Hin]; [apply (il_st _ (lc_is _ H))|]. pose proof (exec_ok o c H Hc) as X. destruct (exec o c) as [[o' r]|tr]; cbn in X.
  - pose proof (il_tr _ (lc_is _ X)) as Y. rewrite Forall_forall in Y. auto.
  - rewrite Forall_forall in X. auto.
Qed.
End Fix.

Lemma loc_mono b0 b1 (A B : T -> Prop) q0 o : Loc b0 A q0 (rest o) -> ble b1 (promised (i_st (s_is (o_sp o)))) = true -> (forall e, A e -> B e) -> Loc b1 B (s_out (o_sp o)) (rest o).
Proof.
  intros [[I1 I2 I3 I5 I4] H2 H3 H4 H5 H6 H7 H8] Hb HA.
  assert (Hf : forall l, Forall A l -> Forall B l) by (intros l; apply Forall_impl; auto).
  assert (Hs : forall sy, syncA A sy -> syncA B sy) by (intros [sy|]; cbn; auto).
  constructor; auto.
  - constructor; auto; [|constructor]. destruct I2 as (J1 & J2 & J3). repeat split; auto.
  - eapply Forall_impl; [|exact H3]. intros m. cbn beta. destruct (pm_msg m) as [| |p|? ? ? sy| | | | | | | |]; cbn; auto.
  - destruct (s_cprom (rest o)); auto.
  - apply qext_refl.
Qed.

Lemma take_ok b0 A q0 o buf o' l : Loc b0 A q0 (rest o) -> take_outgoing_messages o buf = (o', l) -> Loc b0 A [] (rest o').
Proof.
  intros H. unfold take_outgoing_messages, sp_take_outgoing. intros X.
  assert (Hsp : rest o' = set_lam (set_ls (set_out (rest o) []) (reset_latest_accept_meta (s_ls (rest o)))) None) by (destruct buf; injection X as <- <-; reflexivity).
  rewrite Hsp. destruct H. constructor; auto; cbn; auto; try discriminate; [|apply qext_refl]. intros i b k Hk. apply nth_error_In, repeat_spec in Hk. discriminate.
Qed.

(** A server built from a storage. *)
Lemma build_loc A cc sc st o : build cc sc st = BOk o -> Forall A (ms_log st) -> ms_comp st = ms_trim st -> Loc (promised st) A (s_out (o_sp o)) (o_sp o).
Proof.
  intros Hb HA Htr. unfold build in Hb. destruct (config_validate cc sc) eqn:Hv; [|discriminate]. unfold sp_with in Hb.
  assert (Hbs : 0 < sc_batch sc).
  { unfold config_validate, server_validate in Hv. rewrite !andb_true_iff, !negb_true_iff, !Nat.eqb_neq in Hv. lia. }
  destruct (peers_of cc (sc_pid sc)) as [|p0 pr]; [discriminate|].
  assert (Hr : ble (promised st) (promised st) = true) by (apply ble_spec; right; unfold bal_same; auto).
  assert (Hx : forall ph ld out q ls b c1 c2 c3, ld = promised st -> Forall (fun m => pmA A (pm_msg m)) out -> l_maxsync ls = None -> l_accmeta ls = repeat None (l_maxpid ls) ->
    Loc (promised st) A out (o_sp (mkOmni (mkSP (i_set_promise (istore_with st (sc_batch sc)) ld) (sc_pid sc) q Follower ph [] None out ls None seq0 None) b c1 c2 c3))).
  { intros ph ld out q ls b c1 c2 c3 -> Ho Hl Ha. constructor; cbn; auto; try discriminate.
    - constructor; cbn; auto; [constructor; reflexivity|repeat split; auto|]. constructor; auto. repeat split; auto.
    - rewrite Hl. constructor.
    - intros i b1 k Hk. rewrite Ha in Hk. apply nth_error_In, repeat_spec in Hk. discriminate.
    - apply qext_refl. }
  destruct (ms_prom st) as [b|] eqn:Hp; injection Hb as <-; apply Hx; auto; try (unfold promised; rewrite Hp; reflexivity).
  constructor; [exact I|]. rewrite Forall_forall. intros m Hm. apply in_map_iff in Hm. destruct Hm as (x & <- & _). exact I.
Qed.
End WithEntry.
