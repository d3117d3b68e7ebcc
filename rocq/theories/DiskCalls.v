(** * The calls of the servers on the storage back-end *)
From Coq Require Import List Arith NArith Bool Lia.
Import ListNotations.
From Verif Require Import Types Config MemStore Internal LeaderState SeqPaxos Ble Omni System Basics Spec Persist PropPersist Prims.

Section WithEntry.
Context {E : EntryT}.

(** ** What the code calls *)

(** The batch of [sync_log]: internal_storage.rs 313-360.  A received delta of a snapshot is merged with the
    own snapshot before it is stored. *)
Definition sync_batch (s : istore) (n : ballot) (d : nat) (ls : option log_sync) (ops : list storage_op) : Prop :=
  match ls with
  | None => ops = [OpSetAround n; OpSetDecided d]
  | Some sy => exists snap,
      ops = ([OpSetAround n; OpSetDecided d] ++ snap) ++ [OpAppendOnPrefix (sy_idx sy) (sy_suffix sy)] ++
            match sy_ss sy, i_ss s with Some x, _ => [OpSetStopsign (Some x)] | None, Some _ => [OpSetStopsign None] | None, None => [] end /\
      match sy_snap sy with
      | None => snap = []
      | Some (Complete c) => snap = [OpTrim (sy_idx sy); OpSetComp (sy_idx sy); OpSetSnapshot (Some c)]
      | Some (Delta _) => exists c, snap = [OpTrim (sy_idx sy); OpSetComp (sy_idx sy); OpSetSnapshot (Some c)]
      end
  end.

(** One function of [InternalStorage] and the calls that it makes on the storage, in the order of
    internal_storage.rs: [append_entries_without_batching] 303-311, [append_stopsign] 226-235 (its flush of a
    batch is a separate operation here), [set_stopsign] 497-506, [set_promise] 455-458, [set_decided_idx]
    460-463, [sync_log] 313-360, [try_trim] 414-430, [try_snapshot] 432-453.  The functions that only change
    the batch of the cache make no call. *)
Inductive issues : istore -> list client -> istore -> Prop :=
| is_cache s b : issues s [] (set_ca s (c_set_batch (i_ca s) b))
| is_append s es : issues s [Method (OpAppendEntries es)] (fst (append_entries_without_batching s es))
| is_stop s ss : c_batch (i_ca s) = [] -> issues s [Method (OpSetStopsign (Some ss))] (fst (i_append_stopsign s ss))
| is_setss s ss s' a : i_set_stopsign s (Some ss) = Ok (s', a) -> issues s [Method (OpSetStopsign (Some ss))] s'
| is_prom s n : issues s [Method (OpSetPromise n)] (i_set_promise s n)
| is_dec s d : issues s [Method (OpSetDecided d)] (i_set_decided s d)
| is_sync s n d sy s' a ops : sync_log s n d sy = Ok (s', a) -> sync_batch s n d sy ops -> issues s [WriteBatch ops] s'
| is_trim s i s' r : try_trim s i = Ok (s', r) -> i_comp s < i_comp s' -> issues s [WriteBatch [OpTrim (i_comp s'); OpSetComp (i_comp s')]] s'
| is_snap s i s' r sn : try_snapshot s i = Ok (s', r) -> i_comp s < i_comp s' -> ms_snap (i_st s') = Some sn ->
    issues s [WriteBatch [OpTrim (i_comp s'); OpSetComp (i_comp s'); OpSetSnapshot (Some sn)]] s'.
(** The calls of a sequence of such functions. *)
Inductive issued : istore -> list client -> istore -> Prop :=
| id_nil s : issued s [] s
| id_snoc s1 s2 s3 k c : issued s1 k s2 -> issues s2 c s3 -> issued s1 (k ++ c) s3.

(** ** What the storage demands *)
Definition cnt (m : mstore) : nat := ms_trim m + length (ms_log m).
Definition small (m : mstore) : Prop := fits (cnt m).
(** The call meets the conditions of C30 and leaves the store ready to append. *)
Definition fine (m : mstore) (c : client) : Prop :=
  match c with
  | WriteBatch ops => ops_ok true m ops /\ flag_ops true m ops = true
  | Method o => op_ok true m o /\ flag_after true m o = true
  | Reopen => ms_comp m = ms_trim m
  end.
Definition finel (m : mstore) (k : list client) : Prop := match k with [] => True | [c] => fine m c | _ => False end.
Inductive fissued : istore -> list client -> istore -> Prop :=
| fi_nil s : fissued s [] s
| fi_snoc s1 s2 s3 k c : fissued s1 k s2 -> issues s2 c s3 -> run_calls mem_call (i_st s2) c = Some (i_st s3) -> finel (i_st s2) c -> fissued s1 (k ++ c) s3.
Lemma fissued_issued s k s' : fissued s k s' -> issued s k s'.
Proof. intros H. induction H; [constructor|]. eapply id_snoc; eauto. Qed.
Lemma fi_trans s1 k1 s2 k2 s3 : fissued s1 k1 s2 -> fissued s2 k2 s3 -> fissued s1 (k1 ++ k2) s3.
Proof. intros H1 H2. induction H2 as [s|a b c k ks H IH Hi Hm Hf]; [rewrite app_nil_r; auto|]. rewrite app_assoc. eapply fi_snoc; eauto. Qed.
Lemma fi_one s c s' : issues s c s' -> run_calls mem_call (i_st s) c = Some (i_st s') -> finel (i_st s) c -> fissued s c s'.
Proof. intros H1 H2 H3. change c with ([] ++ c). eapply fi_snoc; eauto. constructor. Qed.

Lemma fine_rel m c m' p : fine m c -> mem_call m c = Some m' -> rel true m (p_db p) (p_next p) -> exists p', per_call p c = Some p' /\ rel true m' (p_db p') (p_next p').
Proof.
  intros Hf Hm HR. destruct c as [ops|o|]; cbn [fine mem_call per_call] in *.
  - destruct Hf as [Ho Hfl]. exists (p_write p ops). split; [reflexivity|]. pose proof (ops_rel ops true m (p_db p) (p_next p) [] m' Ho Hm HR) as X. rewrite Hfl in X.
    unfold p_write. destruct (batch_ops (p_next p) [] ops). exact X.
  - destruct Hf as [Ho Hfl]. exists (p_method p o). split; [reflexivity|]. rewrite method_write. pose proof (op_rel true m (p_db p) (p_next p) [] o m' Ho Hm HR) as X. rewrite Hfl in X.
    unfold p_write. cbn [batch_ops]. destruct (batch_op (p_next p) [] o). exact X.
  - injection Hm as <-. exists p. split; [|exact HR]. rewrite (rel_open m _ _ HR Hf). destruct p. reflexivity.
Qed.
Lemma run_calls_app {S} (f : S -> client -> option S) a : forall b s, run_calls f s (a ++ b) = match run_calls f s a with Some s' => run_calls f s' b | None => None end.
Proof. induction a as [|c a IH]; intros b s; cbn; auto. destruct (f s c); auto. Qed.
Lemma fissued_rel s k s' : fissued s k s' -> forall p, rel true (i_st s) (p_db p) (p_next p) ->
  exists p', run_calls per_call p k = Some p' /\ rel true (i_st s') (p_db p') (p_next p') /\ run_calls mem_call (i_st s) k = Some (i_st s').
Proof.
  intros H. induction H as [s|a b c k ks H IH Hi Hm Hf]; intros p HR; [exists p; auto|].
  destruct (IH p HR) as (p1 & A & B & C). rewrite run_calls_app, A, run_calls_app, C. destruct ks as [|x [|]]; cbn [finel run_calls] in *.
  - injection Hm as Hm. exists p1. rewrite <- Hm. auto.
  - destruct (mem_call (i_st b) x) as [m'|] eqn:Hx; [|discriminate]. destruct (fine_rel _ _ _ p1 Hf Hx B) as (p2 & D & F). rewrite D. exists p2. injection Hm as <-. auto.
  - destruct Hf.
Qed.

(** ** Trims and snapshots *)
Lemma dws s ld : dec_without_ss s = Some ld -> ld <= i_dec s.
Proof. unfold dec_without_ss, sub_chk. destruct (stopsign_is_decided _); [destruct (_ <=? _); [|discriminate]|]; intros X; injection X as <-; unfold i_dec; lia. Qed.
Lemma trim_spec s i s' r : try_trim s i = Ok (s', r) -> s' = s \/
  exists new, i_comp s < new /\ new <= i_dec s /\ ms_write (i_st s) [OpTrim new; OpSetComp new] = Some (i_st s') /\
    i_tr s' = i_tr s ++ [i_st s'] /\ i_ca s' = c_set_comp (i_ca s) new.
Proof.
  unfold try_trim, ilift, ipanic. destruct (dec_without_ss s) as [ld|] eqn:Hd; [|discriminate]. apply dws in Hd.
  assert (Main : forall new, new <= i_dec s -> (if i_comp s <? new then
          m <- (match ms_write (i_st s) [OpTrim new; OpSetComp new] with Some a => Ok a | None => Panic (i_tr s) end) ;;
          let s := put_st s m in Ok (set_ca s (c_set_comp (i_ca s) new), None) else Ok (s, None)) = Ok (s', r) ->
     s' = s \/ exists new, i_comp s < new /\ new <= i_dec s /\ ms_write (i_st s) [OpTrim new; OpSetComp new] = Some (i_st s') /\ i_tr s' = i_tr s ++ [i_st s'] /\ i_ca s' = c_set_comp (i_ca s) new).
  { intros new Hn. destruct (Nat.ltb_spec (i_comp s) new) as [Hlt|]; [|intros X; injection X as <- _; auto]. destruct (ms_write _ _) as [m|] eqn:Hw; cbn [bind]; [|discriminate].
    intros X. injection X as <- _. right. exists new. cbn [set_ca put_st i_st i_tr i_ca]. auto. }
  destruct (Nat.compare_spec i (i_dec s)) as [->|Hlt|]; [apply Main; auto|apply Main; lia|intros X; injection X as <- _; auto].
Qed.
Lemma snap_spec s i s' r : try_snapshot s i = Ok (s', r) -> s' = s \/
  exists new sn, i_comp s < new /\ new <= i_dec s /\ ms_write (i_st s) [OpTrim new; OpSetComp new; OpSetSnapshot (Some sn)] = Some (i_st s') /\
    i_tr s' = i_tr s ++ [i_st s'] /\ i_ca s' = c_set_comp (i_ca s) new.
Proof.
  unfold try_snapshot, ilift, ipanic. destruct (dec_without_ss s) as [ld|] eqn:Hd; [|discriminate]. apply dws in Hd.
  assert (Main : forall new, new <= i_dec s -> (if i_comp s <? new then
          match create_snapshot s new with
          | CPanic => Panic (i_tr s)
          | CErr e => Ok (s, Some e)
          | COk sn =>
              m <- (match ms_write (i_st s) [OpTrim new; OpSetComp new; OpSetSnapshot (Some sn)] with Some a => Ok a | None => Panic (i_tr s) end) ;;
              let s := put_st s m in Ok (set_ca s (c_set_comp (i_ca s) new), None)
          end else Ok (s, None)) = Ok (s', r) ->
     s' = s \/ exists new sn, i_comp s < new /\ new <= i_dec s /\ ms_write (i_st s) [OpTrim new; OpSetComp new; OpSetSnapshot (Some sn)] = Some (i_st s') /\ i_tr s' = i_tr s ++ [i_st s'] /\ i_ca s' = c_set_comp (i_ca s) new).
  { intros new Hn. destruct (Nat.ltb_spec (i_comp s) new) as [Hlt|]; [|intros X; injection X as <- _; auto]. destruct (create_snapshot s new) as [sn|e|]; [|intros X; injection X as <- _; auto|discriminate].
    destruct (ms_write _ _) as [m|] eqn:Hw; cbn [bind]; [|discriminate]. intros X. injection X as <- _. right. exists new, sn. cbn [set_ca put_st i_st i_tr i_ca]. auto. }
  cbn zeta. destruct i as [i|]; [|apply Main; auto]. destruct (Nat.compare_spec i (i_dec s)) as [->|Hlt|]; [apply Main; auto|apply Main; lia|intros X; injection X as <- _; auto].
Qed.
Lemma snap_kept m ops sn m' : ms_write m (ops ++ [OpSetSnapshot (Some sn)]) = Some m' -> ms_snap m' = Some sn.
Proof.
  revert m. induction ops as [|o ops IH]; intros m; cbn [app ms_write]; [cbn; intros X; injection X as <-; reflexivity|]. destruct (ms_op m o); [apply IH|discriminate].
Qed.

(** ** A prefix of the writes *)
Lemma issues_tr s k s' : issues s k s' -> (i_tr s' = i_tr s /\ i_st s' = i_st s) \/ i_tr s' = i_tr s ++ [i_st s'].
Proof.
  intros H. destruct H as [s b|s es|s ss Hb|s ss s' a He|s n|s d|s n d sy s' a ops He Hs|s i s' r He Hc|s i s' r sn He Hc Hn]; try (right; reflexivity); try (left; split; reflexivity).
  - right. unfold i_append_stopsign, cache_append_stopsign. cbn. rewrite Hb. reflexivity.
  - right. unfold i_set_stopsign in He. destruct (c_ss (i_ca s)); cbn in He; injection He as <- _; reflexivity.
  - right. eapply sync_tr; eauto.
  - destruct (trim_spec _ _ _ _ He) as [->|(new & _ & _ & _ & X & _)]; auto.
  - destruct (snap_spec _ _ _ _ He) as [->|(new & sn0 & _ & _ & _ & X & _)]; auto.
Qed.
Lemma fissued_prefix s k s' : fissued s k s' -> i_tr s = [] -> forall j, j <= length (i_tr s') -> exists k1 s1, fissued s k1 s1 /\ i_tr s1 = firstn j (i_tr s').
Proof.
  intros H Ht. induction H as [s|a b c k ks H IH Hi Hm Hf]; intros j Hj.
  - rewrite Ht in *. destruct j; [|cbn in Hj; lia]. exists [], s. split; [constructor|]. rewrite Ht. reflexivity.
  - destruct (issues_tr _ _ _ Hi) as [[He _]|He]; rewrite He in *; [auto|]. rewrite app_length in Hj. cbn in Hj.
    destruct (Nat.eq_dec j (length (i_tr b) + 1)) as [->|Hne].
    + exists (k ++ ks), c. split; [eapply fi_snoc; eauto|]. rewrite He, firstn_all2; [reflexivity|]. rewrite app_length. cbn. lia.
    + destruct (IH Ht j) as (k1 & s1 & A & B); [lia|]. exists k1, s1. split; auto. rewrite B, firstn_app. replace (j - length (i_tr b)) with 0 by lia. cbn. rewrite app_nil_r. reflexivity.
Qed.
Lemma fissued_last s k s' : fissued s k s' -> i_tr s = [] -> nth_error (i_st s :: i_tr s') (length (i_tr s')) = Some (i_st s').
Proof.
  intros H Ht. induction H as [s|a b c k ks H IH Hi Hm Hf].
  - rewrite Ht. reflexivity.
  - destruct (issues_tr _ _ _ Hi) as [[He Hs]|He]; rewrite He.
    + rewrite Hs. exact (IH Ht).
    + rewrite app_length, Nat.add_1_r. cbn. rewrite nth_error_app2, Nat.sub_diag; auto.
Qed.

(** ** The operations without synchronisation *)
Definition step_ok (s s' : istore) : Prop := exists k, issues s k s' /\ run_calls mem_call (i_st s) k = Some (i_st s') /\ finel (i_st s) k.
Lemma f_method s o s' : issues s [Method o] s' -> ms_op (i_st s) o = Some (i_st s') -> op_ok true (i_st s) o -> flag_after true (i_st s) o = true -> step_ok s s'.
Proof. intros H1 H2 H3 H4. exists [Method o]. split; auto. split; [cbn; rewrite H2; reflexivity|]. split; auto. Qed.
Lemma f_batch s ops s' : issues s [WriteBatch ops] s' -> ms_write (i_st s) ops = Some (i_st s') -> ops_ok true (i_st s) ops -> flag_ops true (i_st s) ops = true -> step_ok s s'.
Proof. intros H1 H2 H3 H4. exists [WriteBatch ops]. split; auto. split; [cbn; rewrite H2; reflexivity|]. split; auto. Qed.
Lemma f_append s es : small (i_st (fst (append_entries_without_batching s es))) -> step_ok s (fst (append_entries_without_batching s es)).
Proof.
  intros H. apply (f_method s (OpAppendEntries es)); [constructor|reflexivity| |reflexivity]. split; [reflexivity|]. unfold small, cnt in H. cbn in H. rewrite app_length in H.
  rewrite <- Nat.add_assoc. exact H.
Qed.

Lemma f_plain (MS : option log_sync -> Prop) (SSP DC : Prop) PR s s' : prim (fun _ _ _ => False) MS False False False SSP DC PR s s' -> small (i_st s') -> step_ok s s'.
Proof.
  intros H Hs. destruct H as [s b|s es|s ss Hp Hn Hb|s ss s' a Hp He|s n HPR Hn|s d Hd Hc|s n d sy s' a Ha He|s n d sy s' a Hl Hm He|s i s' r Ht He|s i s' r Ht He]; try contradiction.
  - exists []. split; [constructor|]. split; reflexivity.
  - apply f_append. exact Hs.
  - eapply f_method; [apply is_stop; exact Hb| |exact I|reflexivity]. unfold i_append_stopsign, cache_append_stopsign. cbn. rewrite Hb. reflexivity.
  - eapply f_method; [eapply is_setss; exact He| |exact I|reflexivity]. unfold i_set_stopsign in He. destruct (c_ss (i_ca s)); cbn in He; injection He as <- _; reflexivity.
  - eapply f_method; [apply is_prom|reflexivity|exact I|reflexivity].
  - eapply f_method; [apply is_dec|reflexivity|exact I|reflexivity].
Qed.

Lemma trim_cnt m new m' : ms_do_trim m new = Some m' -> ms_trim m <= new /\ ms_trim m' = new /\ new <= cnt m' /\ (new <= cnt m -> cnt m' = cnt m).
Proof.
  unfold ms_do_trim, sub_chk. destruct (Nat.leb_spec (ms_trim m) new); [|discriminate]. intros X. injection X as <-. unfold cnt. cbn. rewrite skipn_length. lia.
Qed.
(** The cache knows the trimmed index, and nothing beyond the log is decided. *)
Definition tight (s : istore) : Prop := i_comp s = ms_trim (i_st s) /\ i_dec s <= cnt (i_st s).
Lemma f_trim s i s' r : try_trim s i = Ok (s', r) -> tight s -> small (i_st s') -> (s' = s \/ step_ok s s') /\ tight s'.
Proof.
  intros He [J1 J2] Hs. destruct (trim_spec _ _ _ _ He) as [->|(new & A & B & C & D & F)]; [split; [auto|split; auto]|].
  pose proof C as C'. cbn [ms_write ms_op] in C. destruct (ms_do_trim (i_st s) new) as [m1|] eqn:Hm; [|discriminate]. injection C as C. destruct (trim_cnt _ _ _ Hm) as (T1 & T2 & T3 & T4).
  assert (Hc : i_comp s' = new) by (unfold i_comp; rewrite F; reflexivity). assert (Hd : i_dec s' = i_dec s) by (unfold i_dec; rewrite F; reflexivity).
  assert (Hcn : cnt (i_st s') = cnt (i_st s)) by (rewrite <- C; unfold ms_set_comp, cnt in *; cbn; apply T4; lia).
  split; [right|split; [rewrite Hc, <- C; exact (eq_sym T2)|rewrite Hd, Hcn; exact J2]].
  eapply f_batch; [eapply is_trim; [exact He|rewrite Hc; exact A]| | |]; rewrite Hc; [exact C'| |].
  - cbn [ops_ok op_ok ms_op]. rewrite Hm. split; [split; [exact T1|]|auto]. eapply fits_le; [|exact Hs]. rewrite Hcn. lia.
  - cbn [flag_ops ms_op flag_after]. rewrite Hm. cbn. apply Nat.leb_le. unfold cnt in J2. lia.
Qed.
Lemma f_snap s i s' r : try_snapshot s i = Ok (s', r) -> tight s -> small (i_st s') -> (s' = s \/ step_ok s s') /\ tight s'.
Proof.
  intros He [J1 J2] Hs. destruct (snap_spec _ _ _ _ He) as [->|(new & sn & A & B & C & D & F)]; [split; [auto|split; auto]|].
  pose proof C as C'. cbn [ms_write ms_op] in C. destruct (ms_do_trim (i_st s) new) as [m1|] eqn:Hm; [|discriminate]. injection C as C. destruct (trim_cnt _ _ _ Hm) as (T1 & T2 & T3 & T4).
  assert (Hc : i_comp s' = new) by (unfold i_comp; rewrite F; reflexivity). assert (Hd : i_dec s' = i_dec s) by (unfold i_dec; rewrite F; reflexivity).
  assert (Hcn : cnt (i_st s') = cnt (i_st s)) by (rewrite <- C; unfold ms_set_comp, cnt in *; cbn; apply T4; lia).
  split; [right|split; [rewrite Hc, <- C; exact (eq_sym T2)|rewrite Hd, Hcn; exact J2]].
  eapply (f_batch s [OpTrim (i_comp s'); OpSetComp (i_comp s'); OpSetSnapshot (Some sn)]); [eapply is_snap; [exact He|rewrite Hc; exact A|rewrite <- C; reflexivity]| | |]; rewrite Hc; [exact C'| |].
  - cbn [ops_ok op_ok ms_op]. rewrite Hm. split; [split; [exact T1|]|auto]. eapply fits_le; [|exact Hs]. rewrite Hcn. lia.
  - cbn [flag_ops ms_op flag_after]. rewrite Hm. cbn. apply Nat.leb_le. unfold cnt in J2. lia.
Qed.

(** ** Synchronisations *)
Lemma sync_spec s n d sy s' a : sync_log s n d sy = Ok (s', a) -> exists ops, sync_batch s n d sy ops /\ ms_write (i_st s) ops = Some (i_st s').
Proof.
  unfold sync_log, ilift, ipanic. destruct sy as [sy|].
  2: { destruct (ms_write _ _) as [m|] eqn:Hw; cbn; [|discriminate]. intros X. injection X as <- _. cbn [i_st set_ca] in Hw. exists [OpSetAround n; OpSetDecided d]. split; [reflexivity|exact Hw]. }
  assert (Main : forall c snap, c_ss c = i_ss s ->
     match sy_snap sy with None => snap = [] | Some (Complete c) => snap = [OpTrim (sy_idx sy); OpSetComp (sy_idx sy); OpSetSnapshot (Some c)]
        | Some (Delta _) => exists c, snap = [OpTrim (sy_idx sy); OpSetComp (sy_idx sy); OpSetSnapshot (Some c)] end ->
     (let s0 := set_ca s c in let ops1 := [OpSetAround n; OpSetDecided d] ++ snap in
      let s := set_ca s0 (c_set_acc (i_ca s0) (sy_idx sy + length (sy_suffix sy))) in
      let ops2 := ops1 ++ [OpAppendOnPrefix (sy_idx sy) (sy_suffix sy)] in
      let '(s, ops3) :=
        match sy_ss sy with
        | Some ss => (set_ca s (c_set_acc (c_set_ss (i_ca s) (Some ss)) (i_acc s + 1)), ops2 ++ [OpSetStopsign (Some ss)])
        | None => match i_ss s with Some _ => (set_ca s (c_set_ss (i_ca s) None), ops2 ++ [OpSetStopsign None]) | None => (s, ops2) end
        end in
      m <- (match ms_write (i_st s) ops3 with Some a => Ok a | None => Panic (i_tr s) end) ;;
      let s := put_st s m in Ok (s, i_acc s)) = Ok (s', a) -> exists ops, sync_batch s n d (Some sy) ops /\ ms_write (i_st s) ops = Some (i_st s')).
  { intros c snap Hc Hsn. cbn zeta. unfold i_ss at 1. cbn [set_ca i_ca c_set_acc c_ss]. rewrite Hc.
    assert (Fin : forall (s2 : istore) x, i_st s2 = i_st s -> x = match sy_ss sy, i_ss s with Some x, _ => [OpSetStopsign (Some x)] | None, Some _ => [OpSetStopsign None] | None, None => [] end ->
      (m <- (match ms_write (i_st s2) ((([OpSetAround n; OpSetDecided d] ++ snap) ++ [OpAppendOnPrefix (sy_idx sy) (sy_suffix sy)]) ++ x) with Some a => Ok a | None => Panic (i_tr s2) end) ;;
      let s := put_st s2 m in Ok (s, i_acc s)) = Ok (s', a) -> exists ops, sync_batch s n d (Some sy) ops /\ ms_write (i_st s) ops = Some (i_st s')).
    { intros s2 x E2 Hx. rewrite E2. destruct (ms_write _ _) as [m|] eqn:Hw; cbn [bind]; [|discriminate]. intros X. injection X as <- _. cbn [put_st i_st].
      eexists. split; [|exact Hw]. exists snap. split; [rewrite <- app_assoc, Hx; reflexivity|exact Hsn]. }
    destruct (sy_ss sy) as [ss|]; [apply Fin; reflexivity|]. destruct (i_ss s); [apply Fin; reflexivity|]. rewrite <- (app_nil_r (_ ++ [OpAppendOnPrefix _ _])). apply Fin; reflexivity. }
  destruct (sy_snap sy) as [[c|dl]|]; cbn [bind].
  - apply (Main (c_set_comp (i_ca (set_ca s (c_set_dec (c_set_around (i_ca s) n) d))) (sy_idx sy))); reflexivity.
  - destruct (create_decided_snapshot _) as [sn|e|]; [|discriminate|discriminate]. destruct (s_merge sn dl) as [sn'|]; [|discriminate]. cbn [bind].
    apply (Main (c_set_comp (i_ca (set_ca s (c_set_dec (c_set_around (i_ca s) n) d))) (sy_idx sy))); [reflexivity|eauto].
  - apply (Main (c_set_dec (c_set_around (i_ca s) n) d) []); reflexivity.
Qed.
Lemma f_sync s n d sy s' a : sync_log s n d sy = Ok (s', a) -> (forall x, sy = Some x -> sy_snap x = None -> sy_idx x <= cnt (i_st s)) -> small (i_st s') -> step_ok s s'.
Proof.
  intros He Hi Hs. destruct (sync_spec _ _ _ _ _ _ He) as (ops & Hb & Hw). 
  assert (G : ops_ok true (i_st s) ops /\ flag_ops true (i_st s) ops = true).
  2: { destruct G. eapply f_batch; eauto. eapply is_sync; eauto. }
  destruct sy as [sy|]; cbn [sync_batch] in Hb; [|subst ops; cbn; auto]. specialize (Hi sy eq_refl). destruct Hb as (snap & -> & Hsn).
  set (ss := match sy_ss sy, i_ss s with Some x, _ => [OpSetStopsign (Some x)] | None, Some _ => [OpSetStopsign None] | None, None => [] end) in *.
  assert (Hss : forall m m', ms_write m ss = Some m' -> cnt m' = cnt m /\ ops_ok true m ss /\ flag_ops true m ss = true).
  { intros m m'. unfold ss. destruct (sy_ss sy), (i_ss s); cbn; intros X; injection X as <-; auto. }
  clearbody ss. rewrite <- !app_assoc in *. cbn [app ms_write ms_op ops_ok op_ok flag_ops flag_after] in *.
  set (m0 := ms_set_decided (ms_set_around (i_st s) n) d) in *. assert (C0 : ms_trim m0 = ms_trim (i_st s) /\ cnt m0 = cnt (i_st s)) by (split; reflexivity). clearbody m0. destruct C0 as [C0 C1].
  assert (Tail : forall t m m', ms_write m (OpAppendOnPrefix (sy_idx sy) (sy_suffix sy) :: ss) = Some m' -> sy_idx sy <= cnt m -> small m' ->
     sy_idx sy <= cnt m' /\ ops_ok t m (OpAppendOnPrefix (sy_idx sy) (sy_suffix sy) :: ss) /\ flag_ops t m (OpAppendOnPrefix (sy_idx sy) (sy_suffix sy) :: ss) = true).
  { intros t m m' Hm Hle Hsm. cbn [ms_write ms_op ops_ok op_ok flag_ops flag_after] in *. unfold ms_append_on_prefix, sub_chk in *. destruct (Nat.leb_spec (ms_trim m) (sy_idx sy)); [|discriminate].
    destruct (Hss _ _ Hm) as (H1 & H2 & H3). unfold small in Hsm. rewrite H1 in Hsm.
    assert (Hcc : cnt (ms_append_entries (mkMS (firstn (sy_idx sy - ms_trim m) (ms_log m)) (ms_prom m) (ms_around m) (ms_dec m) (ms_trim m) (ms_comp m) (ms_snap m) (ms_ss m)) (sy_suffix sy)) = sy_idx sy + length (sy_suffix sy)).
    { unfold cnt in *. cbn. rewrite app_length, firstn_length. lia. }
    rewrite Hcc in *. split; [lia|]. split; [|exact H3]. split; [|exact H2]. split; [unfold cnt in Hle; lia|exact Hsm]. }
  destruct (sy_snap sy) as [sn|] eqn:Hy.
  - assert (Hx : exists c, snap = [OpTrim (sy_idx sy); OpSetComp (sy_idx sy); OpSetSnapshot (Some c)]) by (destruct sn; eauto). destruct Hx as [c ->]. cbn [app ms_write ms_op ops_ok op_ok flag_ops flag_after] in *.
    destruct (ms_do_trim m0 (sy_idx sy)) as [m1|] eqn:Hm; [|discriminate]. destruct (trim_cnt _ _ _ Hm) as (T1 & T2 & T3 & T4).
    match type of Hw with match ms_append_on_prefix ?m _ _ with _ => _ end = _ => destruct (Tail (true && (sy_idx sy <=? ms_trim m0 + length (ms_log m0))) m _ Hw) as (U1 & U2 & U3); [exact T3|exact Hs|] end.
    split; [|exact U3]. split; [exact I|]. split; [exact I|]. split; [split; [exact T1|eapply fits_le; [exact U1|exact Hs]]|]. split; [exact I|]. split; [exact I|exact U2].
  - subst snap. cbn [app] in *. destruct (Tail true m0 _ Hw) as (U1 & U2 & U3); [rewrite C1; auto|exact Hs|]. split; [|exact U3]. split; [exact I|]. split; [exact I|exact U2].
Qed.

(** ** Sequences *)
Lemma fi_step s1 k s2 s3 : fissued s1 k s2 -> step_ok s2 s3 -> exists k', fissued s1 k' s3.
Proof. intros H (c & H1 & H2 & H3). exists (k ++ c). eapply fi_snoc; eauto. Qed.
Lemma prim_tr2 AS MS LD TR SN SSP DC PR s s' : prim AS MS LD TR SN SSP DC PR s s' -> (i_tr s' = i_tr s /\ i_st s' = i_st s) \/ i_tr s' = i_tr s ++ [i_st s'].
Proof.
  intros H. pose proof (prim_tr _ _ _ _ _ _ _ _ _ _ H) as X. destruct H as [s b|s es|s ss Hp Hn Hb|s ss s' a Hp He|s n HPR Hn|s d Hd Hc|s n d sy s' a Ha He|s n d sy s' a Hl Hm He|s i s' r Ht He|s i s' r Ht He]; try (right; reflexivity).
  - left. split; reflexivity.
  - right. unfold i_append_stopsign, cache_append_stopsign. cbn. rewrite Hb. reflexivity.
  - right. unfold i_set_stopsign in He. destruct (c_ss (i_ca s)); cbn in He; injection He as <- _; reflexivity.
  - right. eapply sync_tr; eauto.
  - right. eapply sync_tr; eauto.
  - destruct (trim_spec _ _ _ _ He) as [->|(new & _ & _ & _ & Y & _)]; auto.
  - destruct (snap_spec _ _ _ _ He) as [->|(new & sn0 & _ & _ & _ & Y & _)]; auto.
Qed.
Lemma smalls_step AS MS LD TR SN SSP DC PR s s' : prim AS MS LD TR SN SSP DC PR s s' -> Forall small (i_tr s') -> Forall small (i_tr s) /\ (small (i_st s) -> small (i_st s')).
Proof.
  intros H F. destruct (prim_tr2 _ _ _ _ _ _ _ _ _ _ H) as [[E1 E2]|E1]; rewrite E1 in F; [rewrite E2; auto|]. apply Forall_app in F. destruct F as [F1 F2]. inversion F2. auto.
Qed.
Lemma prims_plain (MS : option log_sync -> Prop) (SSP DC : Prop) PR s s' : prims (fun _ _ _ => False) MS False False False SSP DC PR s s' ->
  small (i_st s) -> Forall small (i_tr s') -> exists k, fissued s k s'.
Proof.
  intros H Hs. enough (X : Forall small (i_tr s') -> (exists k, fissued s k s') /\ small (i_st s')) by (intros F; apply X, F).
  induction H as [s|s1 s2 s3 H IH Hp]; intros F; [split; [exists []; constructor|auto]|].
  destruct (smalls_step _ _ _ _ _ _ _ _ _ _ Hp F) as [F2 S3]. destruct (IH Hs F2) as [[k Hk] S2]. split; auto. eapply fi_step; [exact Hk|]. eapply f_plain; eauto.
Qed.
Lemma prims_compact (MS : option log_sync -> Prop) s s' : prims (fun _ _ _ => False) MS False True True False False (fun _ => False) s s' ->
  tight s -> small (i_st s) -> Forall small (i_tr s') -> exists k, fissued s k s'.
Proof.
  intros H Ht Hs. enough (X : Forall small (i_tr s') -> (exists k, fissued s k s') /\ small (i_st s') /\ tight s') by (intros F; apply X, F).
  induction H as [s|s1 s2 s3 H IH Hp]; intros F; [split; [exists []; constructor|auto]|].
  destruct (smalls_step _ _ _ _ _ _ _ _ _ _ Hp F) as [F2 S3]. destruct (IH Ht Hs F2) as ([k Hk] & S2 & T2). specialize (S3 S2).
  destruct Hp as [s b|s es|s ss Hp Hn Hb|s ss s' a Hp He|s n HPR Hn|s d Hd Hc|s n d sy s' a Ha He|s n d sy s' a Hl Hm He|s i s' r _ He|s i s' r _ He]; try contradiction.
  - split; [|split; auto]. exists (k ++ []). eapply fi_snoc; [exact Hk|constructor|reflexivity|exact I].
  - split; [eapply fi_step; [exact Hk|apply f_append; exact S3]|]. split; auto. destruct T2 as [T2 T3]. split; [exact T2|]. unfold cnt, i_dec in *. cbn. rewrite app_length. lia.
  - destruct (f_trim _ _ _ _ He T2 S3) as [[->|X] T3]; (split; [|split; auto]); [eauto|]. eapply fi_step; eauto.
  - destruct (f_snap _ _ _ _ He T2 S3) as [[->|X] T3]; (split; [|split; auto]); [eauto|]. eapply fi_step; eauto.
Qed.
End WithEntry.
