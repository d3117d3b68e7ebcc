(** * C30, C31: the persistent storage *)
From Coq Require Import List Arith NArith Bool Lia.
Import ListNotations.
From Verif Require Import Types MemStore Persist Scen.

(** ** C31: keys *)

(** A 64-bit number. *)
Definition fits (n : nat) : Prop := (N.of_nat n < 2 ^ 64)%N.

Lemma be_mod k : forall n, be_bytes k n = be_bytes k (n mod 256 ^ N.of_nat k)%N.
Proof.
  induction k as [|k IH]; intros n; [reflexivity|]. cbn [be_bytes]. set (B := (256 ^ N.of_nat k)%N).
  assert (HB : (B <> 0)%N) by (apply N.pow_nonzero; discriminate).
  replace (256 ^ N.of_nat (S k))%N with (B * 256)%N by (unfold B; rewrite Nat2N.inj_succ, N.pow_succ_r'; lia).
  rewrite N.mod_mul_r by (auto; discriminate). f_equal.
  - rewrite (N.mul_comm B), N.div_add by auto. rewrite (N.div_small (n mod B)) by (apply N.mod_lt; auto). cbn. rewrite N.mod_mod by discriminate. reflexivity.
  - rewrite IH. rewrite (IH (_ + _)%N). fold B. f_equal. rewrite (N.mul_comm B), N.mod_add by auto. rewrite N.mod_mod by auto. reflexivity.
Qed.
Lemma be_cmp k : forall a b, (a < 256 ^ N.of_nat k)%N -> (b < 256 ^ N.of_nat k)%N -> key_cmp (be_bytes k a) (be_bytes k b) = N.compare a b.
Proof.
  induction k as [|k IH]; intros a b Ha Hb.
  - cbn in *. assert (a = 0)%N by lia. assert (b = 0)%N by lia. subst. reflexivity.
  - cbn [be_bytes key_cmp]. set (B := (256 ^ N.of_nat k)%N) in *. assert (HB : (B <> 0)%N) by (apply N.pow_nonzero; discriminate).
    replace (256 ^ N.of_nat (S k))%N with (B * 256)%N in * by (unfold B; rewrite Nat2N.inj_succ, N.pow_succ_r'; lia).
    rewrite !(N.mod_small (_ / B)) by (apply N.div_lt_upper_bound; auto).
    rewrite (be_mod k a), (be_mod k b). fold B. rewrite IH by (apply N.mod_lt; auto).
    pose proof (N.div_mod a B HB) as Da. pose proof (N.div_mod b B HB) as Db. pose proof (N.mod_lt a B HB). pose proof (N.mod_lt b B HB).
    set (qa := (a / B)%N) in *. set (qb := (b / B)%N) in *. set (ra := (a mod B)%N) in *. set (rb := (b mod B)%N) in *. clearbody qa qb ra rb B. clear IH Ha Hb.
    destruct (N.compare_spec qa qb) as [Hq|Hq|Hq].
    + rewrite Hq in Da. destruct (N.compare_spec ra rb) as [Hr|Hr|Hr]; symmetry.
      * apply N.compare_eq_iff. congruence.
      * apply N.compare_lt_iff. lia.
      * apply N.compare_gt_iff. lia.
    + symmetry. apply N.compare_lt_iff. assert (Hx : (B * (qa + 1) <= B * qb)%N) by (apply N.mul_le_mono_l; lia). rewrite N.mul_add_distr_l in Hx. lia.
    + symmetry. apply N.compare_gt_iff. assert (Hx : (B * (qb + 1) <= B * qa)%N) by (apply N.mul_le_mono_l; lia). rewrite N.mul_add_distr_l in Hx. lia.
Qed.
Lemma from_be_app k : forall n acc, fold_left (fun a b => (a * 256 + b)%N) (be_bytes k n) acc = (acc * 256 ^ N.of_nat k + n mod 256 ^ N.of_nat k)%N.
Proof.
  induction k as [|k IH]; intros n acc; [cbn; rewrite N.mod_1_r; lia|]. cbn [be_bytes fold_left]. rewrite IH. set (B := (256 ^ N.of_nat k)%N). assert (HB : (B <> 0)%N) by (apply N.pow_nonzero; discriminate).
  replace (256 ^ N.of_nat (S k))%N with (B * 256)%N in * by (unfold B; rewrite Nat2N.inj_succ, N.pow_succ_r'; lia).
  rewrite (N.mod_mul_r n B 256) by (auto; discriminate). lia.
Qed.
Lemma be_length k n : length (be_bytes k n) = k.
Proof. induction k; cbn; auto. Qed.

(** The order of the keys is the order of the indexes. *)
Theorem C31_key_order : forall a b, fits a -> fits b -> key_cmp (to_be_bytes a) (to_be_bytes b) = Nat.compare a b.
Proof. intros a b Ha Hb. unfold to_be_bytes. rewrite be_cmp by assumption. rewrite N2Nat.inj_compare, !Nat2N.id. reflexivity. Qed.
(** A key has eight bytes and decodes to its index. *)
Theorem C31_key_decodes : forall a, fits a -> length (to_be_bytes a) = 8 /\ from_be_bytes (to_be_bytes a) = N.of_nat a.
Proof.
  intros a Ha. split; [apply be_length|]. unfold from_be_bytes, to_be_bytes. rewrite from_be_app. rewrite N.mod_small by exact Ha. reflexivity.
Qed.
(** All bytes are bytes. *)
Theorem C31_key_bytes : forall a x, In x (to_be_bytes a) -> (x < 256)%N.
Proof.
  intros a. unfold to_be_bytes. generalize 8. intros k. induction k as [|k IH]; cbn [be_bytes In]; intros x H; [tauto|]. destruct H as [<-|H]; [apply N.mod_lt; discriminate|auto].
Qed.

Section WithEntry.
Context {E : EntryT}.

(** ** C30: the two storages *)

(** Everything that the methods of the trait return, for indexes that are not trimmed. *)
Definition same_answers (m : mstore) (p : pstore) : Prop :=
  (forall from to, ms_trim m <= from -> ms_trim m <= to -> p_get_entries p from to = ms_get_entries m from to) /\
  (forall from, ms_trim m <= from -> p_get_suffix p from = ms_get_suffix m from) /\
  p_log_len p = Some (ms_log_len m) /\
  p_promise p = ms_prom m /\ p_accepted_round p = ms_around m /\ p_decided p = ms_dec m /\
  p_compacted p = ms_comp m /\ p_stopsign p = ms_ss m /\ p_snapshot p = ms_snap m.

(** What a client of the storage has to respect.  The flag says that the end of the log is where
    the storage appends: a trim beyond the end of the log must be followed by [AppendOnPrefix]
    before anything is appended. *)
Definition op_ok (t : bool) (m : mstore) (o : storage_op) : Prop :=
  match o with
  | OpAppendEntry _ => t = true /\ fits (ms_trim m + length (ms_log m) + 1)
  | OpAppendEntries es => t = true /\ fits (ms_trim m + length (ms_log m) + length es)
  | OpAppendOnPrefix from es => ms_trim m <= from <= ms_trim m + length (ms_log m) /\ fits (from + length es)
  | OpTrim i => ms_trim m <= i /\ fits i
  | _ => True
  end.
Definition flag_after (t : bool) (m : mstore) (o : storage_op) : bool :=
  match o with
  | OpAppendOnPrefix _ _ => true
  | OpTrim i => t && (i <=? ms_trim m + length (ms_log m))
  | _ => t
  end.
Fixpoint ops_ok (t : bool) (m : mstore) (ops : list storage_op) : Prop :=
  match ops with
  | [] => True
  | o :: r => op_ok t m o /\ match ms_op m o with Some m' => ops_ok (flag_after t m o) m' r | None => False end
  end.
Fixpoint flag_ops (t : bool) (m : mstore) (ops : list storage_op) : bool :=
  match ops with
  | [] => t
  | o :: r => match ms_op m o with Some m' => flag_ops (flag_after t m o) m' r | None => t end
  end.
(** A consistent moment: the next entry goes to the end of the log, and the stored compacted
    index is the trimmed one. *)
Definition at_rest (t : bool) (m : mstore) : Prop := t = true /\ ms_comp m = ms_trim m.

(** Calls of a client: a batch, a single method, or closing and opening again. *)
Inductive client := WriteBatch (ops : list storage_op) | Method (o : storage_op) | Reopen.
Definition mem_call (m : mstore) (c : client) : option mstore :=
  match c with WriteBatch ops => ms_write m ops | Method o => ms_op m o | Reopen => Some m end.
Definition per_call (p : pstore) (c : client) : option pstore :=
  match c with WriteBatch ops => Some (p_write p ops) | Method o => Some (p_method p o) | Reopen => p_open (p_db p) end.
Fixpoint run_calls {S} (f : S -> client -> option S) (s : S) (l : list client) : option S :=
  match l with [] => Some s | c :: r => match f s c with Some s' => run_calls f s' r | None => None end end.
(** The whole sequence respects the conditions, and reopens at consistent moments. *)
Fixpoint client_ok (t : bool) (m : mstore) (l : list client) : Prop :=
  match l with
  | [] => at_rest t m
  | WriteBatch ops :: r => ops_ok t m ops /\ match ms_write m ops with Some m' => client_ok (flag_ops t m ops) m' r | None => False end
  | Method o :: r => op_ok t m o /\ match ms_op m o with Some m' => client_ok (flag_after t m o) m' r | None => False end
  | Reopen :: r => at_rest t m /\ client_ok t m r
  end.

(** ** The relation between the storages *)

Fixpoint rows (i : nat) (l : list T) : column :=
  match l with [] => [] | e :: r => (to_be_bytes i, e) :: rows (S i) r end.
Record rel (t : bool) (m : mstore) (d : db) (next : nat) : Prop := {
  r_log : d_log d = rows (ms_trim m) (ms_log m);
  r_fit : fits (ms_trim m + length (ms_log m));
  r_next : next <= ms_trim m + length (ms_log m);
  r_tight : t = true \/ ms_log m <> [] -> next = ms_trim m + length (ms_log m);
  r_prom : d_prom d = ms_prom m;
  r_acc : d_acc d = ms_around m;
  r_dec : match d_decide d with Some i => i | None => 0 end = ms_dec m;
  r_trim : match d_trim d with Some i => i | None => 0 end = ms_comp m;
  r_ss : match d_ss d with Some s => s | None => None end = ms_ss m;
  r_snap : match d_snap d with Some s => s | None => None end = ms_snap m
}.

Lemma fits_le a b : a <= b -> fits b -> fits a.
Proof. unfold fits. lia. Qed.
Ltac ft := first [assumption | match goal with H : fits ?b |- fits ?a => apply (fits_le a b); [lia|exact H] end].
Lemma kcmp a b : fits a -> fits b -> key_cmp (to_be_bytes a) (to_be_bytes b) = Nat.compare a b.
Proof. apply C31_key_order. Qed.
Lemma kltb a b : fits a -> fits b -> key_ltb (to_be_bytes a) (to_be_bytes b) = (a <? b).
Proof. intros. unfold key_ltb. rewrite kcmp by auto. destruct (Nat.compare_spec a b), (Nat.ltb_spec a b); auto; lia. Qed.
Lemma kleb a b : fits a -> fits b -> key_leb (to_be_bytes a) (to_be_bytes b) = (a <=? b).
Proof. intros. unfold key_leb. rewrite kcmp by auto. destruct (Nat.compare_spec a b), (Nat.leb_spec a b); auto; lia. Qed.

Lemma put_rows X : forall i Y e, fits (i + length X + 1) -> col_put (rows i (X ++ Y)) (to_be_bytes (i + length X)) e = rows i (X ++ e :: tl Y).
Proof.
  induction X as [|x X IH]; intros i Y e Hf; cbn [app length rows] in *.
  - rewrite Nat.add_0_r in *. destruct Y as [|y Y]; cbn [rows col_put tl]; [reflexivity|].
    rewrite kcmp by ft. rewrite Nat.compare_refl. reflexivity.
  - cbn [col_put]. rewrite kcmp by ft. destruct (Nat.compare_spec (i + S (length X)) i); try lia.
    f_equal. replace (i + S (length X)) with (S i + length X) by lia. apply IH. eapply fits_le; [|exact Hf]. lia.
Qed.

Lemma db_write_app d a b : db_write d (a ++ b) = db_write (db_write d a) b.
Proof. apply fold_left_app. Qed.
Definition with_log (d : db) (c : column) : db := mkDB c (d_prom d) (d_acc d) (d_decide d) (d_trim d) (d_ss d) (d_snap d).
Lemma append_rows es : forall X Y i batch d, fits (i + length X + length es) -> d_log (db_write d batch) = rows i (X ++ Y) ->
  fst (batch_append_entries (i + length X) batch es) = i + length X + length es /\
  db_write d (snd (batch_append_entries (i + length X) batch es)) = with_log (db_write d batch) (rows i (X ++ es ++ skipn (length es) Y)).
Proof.
  induction es as [|e es IH]; intros X Y i batch d Hf Hd.
  - cbn [length batch_append_entries fst snd skipn app]. split; [lia|]. rewrite <- Hd. unfold with_log. destruct (db_write d batch); reflexivity.
  - cbn [batch_append_entries length]. cbn [length] in Hf. replace (i + length X + 1) with (i + length (X ++ [e])) by (rewrite app_length; cbn; lia).
    destruct (IH (X ++ [e]) (tl Y) i (batch ++ [PutLog (to_be_bytes (i + length X)) e]) d) as [A B].
    + rewrite app_length. cbn. eapply fits_le; [|exact Hf]. lia.
    + rewrite db_write_app. cbn [db_write fold_left db_do d_log]. rewrite Hd. rewrite put_rows by ft. rewrite <- app_assoc. reflexivity.
    + rewrite A, B. split; [rewrite app_length; cbn; lia|]. rewrite db_write_app. unfold with_log. cbn [db_write fold_left db_do d_prom d_acc d_decide d_trim d_ss d_snap]. f_equal.
      rewrite <- app_assoc. cbn [app]. do 4 f_equal. destruct Y; cbn; [destruct (length es); reflexivity|reflexivity].
Qed.
Lemma rows_from a l : forall i, fits (i + length l) -> fits a -> i <= a ->
  filter (fun kv => negb (key_leb (to_be_bytes 0) (fst kv) && key_ltb (fst kv) (to_be_bytes a))) (rows i l) = rows a (skipn (a - i) l).
Proof.
  induction l as [|e l IH]; intros i Hf Ha Hi; cbn [rows filter]; [rewrite skipn_nil; reflexivity|]. cbn [length fst] in *.
  rewrite kleb by ft. rewrite kltb by ft. destruct (Nat.leb_spec 0 i); [|lia]. cbn [andb].
  destruct (Nat.ltb_spec i a); cbn [negb].
  - replace (a - i) with (S (a - S i)) by lia. cbn [skipn]. apply IH; first [lia | ft].
  - assert (a = i) by lia. subst a. rewrite Nat.sub_diag. cbn [skipn rows]. f_equal.
    rewrite <- (skipn_O l) at 2. clear IH H H0. enough (G : forall j, i < j -> fits (j + length l) -> filter (fun kv => negb (key_leb (to_be_bytes 0) (fst kv) && key_ltb (fst kv) (to_be_bytes i))) (rows j l) = rows j l).
    { apply G; [lia|]. eapply fits_le; [|exact Hf]. lia. }
    clear Hf. induction l as [|e' l IH]; intros j Hj Hf; cbn [rows filter]; auto. cbn [fst length] in *. rewrite kltb by ft. destruct (Nat.ltb_spec j i); [lia|].
    rewrite andb_false_r. cbn [negb]. f_equal. apply IH; [lia|]. eapply fits_le; [|exact Hf]. lia.
Qed.
Lemma rows_cut a b l : forall i, fits (i + length l) -> fits b -> i <= a -> a <= b -> i + length l <= b ->
  filter (fun kv => negb (key_leb (to_be_bytes a) (fst kv) && key_ltb (fst kv) (to_be_bytes b))) (rows i l) = rows i (firstn (a - i) l).
Proof.
  induction l as [|e l IH]; intros i Hf Hb Hi Hab Hib; cbn [rows filter]; [rewrite firstn_nil; reflexivity|]. cbn [length fst] in *.
  assert (Ha : fits a) by (eapply fits_le; eauto).
  rewrite kleb by ft. rewrite kltb by ft. destruct (Nat.ltb_spec i b); [|lia]. rewrite andb_true_r.
  destruct (Nat.leb_spec a i); cbn [negb].
  - assert (a = i) by lia. subst a. rewrite Nat.sub_diag. cbn [firstn rows].
    enough (G : forall j, i <= j -> fits (j + length l) -> j + length l <= b -> filter (fun kv => negb (key_leb (to_be_bytes i) (fst kv) && key_ltb (fst kv) (to_be_bytes b))) (rows j l) = []).
    { apply G; [lia|eapply fits_le; [|exact Hf]; lia|lia]. }
    clear IH Hf Hib H H0. induction l as [|e' l IH]; intros j Hj Hf Hl; cbn [rows filter]; auto. cbn [fst length] in *.
    rewrite kleb by ft. rewrite kltb by ft.
    destruct (Nat.leb_spec i j), (Nat.ltb_spec j b); try lia. cbn [andb negb]. apply IH; first [lia | ft].
  - replace (a - i) with (S (a - S i)) by lia. cbn [firstn rows]. f_equal. apply IH; first [lia | ft].
Qed.

Lemma prefix_rows m from (es : list T) (d : db) next t : rel t m d next -> ms_trim m <= from <= ms_trim m + length (ms_log m) -> fits (from + length es) ->
  let del := from + length es in
  exists Y, d_log (if del <? next then db_do d (DeleteLog (to_be_bytes del) (to_be_bytes next)) else d) = rows (ms_trim m) (firstn (from - ms_trim m) (ms_log m) ++ Y) /\ length Y <= length es.
Proof.
  intros HR Hfr Hf del. pose proof (r_fit _ _ _ _ HR) as Hfit. pose proof (r_next _ _ _ _ HR) as Hn. destruct (Nat.ltb_spec del next) as [Hd|Hd].
  - cbn [db_do d_log]. unfold col_delete_range. rewrite (r_log _ _ _ _ HR).
    assert (Hne : ms_log m <> []). { intros X. rewrite X in *. cbn in *. subst del. lia. }
    assert (Hnx : next = ms_trim m + length (ms_log m)) by (apply (r_tight _ _ _ _ HR); auto). subst del.
    rewrite rows_cut by (first [lia | subst next; ft]).
    exists (firstn (length es) (skipn (from - ms_trim m) (ms_log m))). split; [|rewrite firstn_length; lia]. f_equal.
    rewrite <- (firstn_skipn (from - ms_trim m) (firstn _ (ms_log m))) at 1. rewrite firstn_firstn, Nat.min_l by lia. f_equal. rewrite skipn_firstn_comm. f_equal. lia.
  - exists (skipn (from - ms_trim m) (ms_log m)). rewrite firstn_skipn. split; [apply (r_log _ _ _ _ HR)|]. rewrite skipn_length. destruct (ms_log m) as [|x l] eqn:Hl; [cbn; lia|].
    assert (Hnx : next = ms_trim m + length (ms_log m)) by (apply (r_tight _ _ _ _ HR); right; rewrite Hl; discriminate). rewrite Hl in Hnx. subst del. lia.
Qed.

Lemma op_rel t m d next batch o m' : op_ok t m o -> ms_op m o = Some m' -> rel t m (db_write d batch) next ->
  rel (flag_after t m o) m' (db_write d (snd (batch_op next batch o))) (fst (batch_op next batch o)).
Proof.
  intros Hok Hm HR. pose proof HR as [R1 R2 R3 R4 R5 R6 R7 R8 R9 R10]. destruct o as [e|es|from es|b|i|b|i|i|s|s]; cbn [ms_op op_ok flag_after batch_op fst snd] in *.
  - injection Hm as <-. destruct Hok as [Ht Hf]. rewrite (R4 (or_introl Ht)).
    destruct (append_rows [e] (ms_log m) [] (ms_trim m) batch d) as [A B]; [exact Hf|rewrite app_nil_r; exact R1|].
    cbn [batch_append_entries length fst snd] in A, B. unfold batch_append_entry. cbn [fst snd]. rewrite B. clear A B.
    cbn [skipn app].
    constructor; cbn; auto; rewrite ?app_length; cbn [length]; intros; try lia. rewrite Nat.add_assoc. exact Hf.
  - injection Hm as <-. destruct Hok as [Ht Hf]. rewrite (R4 (or_introl Ht)).
    destruct (append_rows es (ms_log m) [] (ms_trim m) batch d) as [A B]; [exact Hf|rewrite app_nil_r; exact R1|]. rewrite A, B, skipn_nil, app_nil_r.
    constructor; cbn; auto; rewrite ?app_length; intros; try lia. rewrite Nat.add_assoc. exact Hf.
  - destruct Hok as [Hfr Hf]. unfold ms_append_on_prefix, sub_chk in Hm. destruct (Nat.leb_spec (ms_trim m) from); [|lia]. injection Hm as <-. unfold batch_append_on_prefix. cbn zeta.
    destruct (prefix_rows m from es _ next t HR Hfr Hf) as (Y & HY & HYl). cbn zeta in HY.
    set (batch' := if from + length es <? next then batch ++ [DeleteLog (to_be_bytes (from + length es)) (to_be_bytes next)] else batch).
    assert (Hb : db_write d batch' = if from + length es <? next then db_do (db_write d batch) (DeleteLog (to_be_bytes (from + length es)) (to_be_bytes next)) else db_write d batch).
    { subst batch'. destruct (_ <? _); [rewrite db_write_app|]; reflexivity. }
    assert (Hl : ms_trim m + length (firstn (from - ms_trim m) (ms_log m)) = from) by (rewrite firstn_length; lia).
    destruct (append_rows es (firstn (from - ms_trim m) (ms_log m)) Y (ms_trim m) batch' d) as [A B]; [rewrite Hl; exact Hf|rewrite Hb; exact HY|].
    rewrite Hl in A, B. rewrite A, B. rewrite (skipn_all2 Y) by lia. rewrite app_nil_r. unfold with_log.
    constructor; cbn [ms_append_entries d_log d_prom d_acc d_decide d_trim d_ss d_snap ms_trim ms_log ms_prom ms_around ms_dec ms_comp ms_ss ms_snap]; try reflexivity; try (rewrite Hb; destruct (from + length es <? next); assumption);
      rewrite ?app_length; intros; try lia. eapply fits_le; [|exact Hf]. lia.
  - injection Hm as <-. rewrite db_write_app. constructor; cbn [db_write fold_left db_do d_log d_prom d_acc d_decide d_trim d_ss d_snap]; auto.
  - injection Hm as <-. rewrite db_write_app. constructor; cbn [db_write fold_left db_do d_log d_prom d_acc d_decide d_trim d_ss d_snap]; auto.
  - injection Hm as <-. rewrite db_write_app. constructor; cbn [db_write fold_left db_do d_log d_prom d_acc d_decide d_trim d_ss d_snap]; auto.
  - injection Hm as <-. rewrite db_write_app. constructor; cbn [db_write fold_left db_do d_log d_prom d_acc d_decide d_trim d_ss d_snap]; auto.
  - destruct Hok as [Hi Hf]. unfold ms_do_trim, sub_chk in Hm. destruct (Nat.leb_spec (ms_trim m) i); [|lia]. injection Hm as <-. rewrite db_write_app.
    assert (Hs : skipn (Nat.min (i - ms_trim m) (length (ms_log m))) (ms_log m) = skipn (i - ms_trim m) (ms_log m)).
    { destruct (Nat.le_ge_cases (i - ms_trim m) (length (ms_log m))); [rewrite Nat.min_l by auto; reflexivity|]. rewrite Nat.min_r by auto. rewrite !skipn_all2 by lia. reflexivity. }
    constructor; cbn [db_write fold_left db_do d_log d_prom d_acc d_decide d_trim d_ss d_snap ms_trim ms_log ms_prom ms_around ms_dec ms_comp ms_ss ms_snap]; auto; rewrite ?Hs.
    + unfold col_delete_range. fold (db_write d batch). rewrite R1. apply rows_from; auto.
    + rewrite skipn_length. destruct (Nat.le_ge_cases i (ms_trim m + length (ms_log m))); [eapply fits_le; [|exact R2]; lia|eapply fits_le; [|exact Hf]; lia].
    + rewrite skipn_length. lia.
    + rewrite skipn_length. intros [Hx|Hx].
      * apply andb_true_iff in Hx. destruct Hx as [-> Hx]. apply Nat.leb_le in Hx. rewrite (R4 (or_introl eq_refl)). lia.
      * assert (Hlt : i - ms_trim m < length (ms_log m)). { destruct (Nat.lt_ge_cases (i - ms_trim m) (length (ms_log m))); auto. rewrite skipn_all2 in Hx by lia. congruence. }
        rewrite R4 by (right; intros X; rewrite X in Hlt; cbn in Hlt; lia). lia.
  - injection Hm as <-. rewrite db_write_app. constructor; cbn [db_write fold_left db_do d_log d_prom d_acc d_decide d_trim d_ss d_snap]; auto.
  - injection Hm as <-. rewrite db_write_app. constructor; cbn [db_write fold_left db_do d_log d_prom d_acc d_decide d_trim d_ss d_snap]; auto.
Qed.
Lemma ops_rel ops : forall t m d next batch m', ops_ok t m ops -> ms_write m ops = Some m' -> rel t m (db_write d batch) next ->
  rel (flag_ops t m ops) m' (db_write d (snd (batch_ops next batch ops))) (fst (batch_ops next batch ops)).
Proof.
  induction ops as [|o ops IH]; intros t m d next batch m' Hok Hw HR.
  - cbn [ms_write flag_ops batch_ops fst snd] in *. injection Hw as <-. exact HR.
  - cbn [ops_ok ms_write batch_ops flag_ops] in *. destruct Hok as [Ho Hok]. destruct (ms_op m o) as [m1|] eqn:Hm; [|tauto]. pose proof (op_rel t m d next batch o m1 Ho Hm HR) as H1.
    destruct (batch_op next batch o) as [n1 b1]. cbn [fst snd] in H1. eapply IH; eauto.
Qed.
Lemma method_write p o : p_method p o = p_write p [o].
Proof.
  destruct o; try reflexivity.
  - unfold p_write. cbn [batch_ops batch_op p_method p_append_entries]. unfold p_append_entries. destruct (batch_append_entries _ _ _); reflexivity.
  - unfold p_write. cbn [batch_ops batch_op p_method]. unfold p_append_on_prefix, batch_append_on_prefix, p_append_entries. cbn zeta. cbn [p_next p_db app].
    assert (G : forall l next b d, fst (batch_append_entries next b l) = fst (batch_append_entries next [] l) /\ db_write d (snd (batch_append_entries next b l)) = db_write (db_write d b) (snd (batch_append_entries next [] l))).
    { induction l as [|e l IH]; intros next b d; cbn [batch_append_entries fst snd]; [auto|]. destruct (IH (next + 1) (b ++ [PutLog (to_be_bytes next) e]) d) as [A B].
      destruct (IH (next + 1) ([] ++ [PutLog (to_be_bytes next) e]) (db_write d b)) as [A' B']. rewrite A, B, A', B'. rewrite db_write_app. auto. }
    destruct (_ <? _).
    + destruct (G es from [DeleteLog (to_be_bytes (from + length es)) (to_be_bytes (p_next p))] (p_db p)) as [A B].
      destruct (batch_append_entries from [_] es) as [n1 b1]. destruct (batch_append_entries from [] es) as [n2 b2]. cbn [fst snd] in A, B. rewrite A, B. reflexivity.
    + destruct (batch_append_entries from [] es) as [n2 b2]. reflexivity.
Qed.

(** ** Reading *)
Lemma seek_rows a l : forall i, fits (i + length l) -> fits a -> i <= a -> col_seek (rows i l) (to_be_bytes a) = rows a (skipn (a - i) l).
Proof.
  induction l as [|e l IH]; intros i Hf Ha Hi; cbn [rows col_seek]; [rewrite skipn_nil; reflexivity|]. cbn [length] in Hf. rewrite kltb by ft. destruct (Nat.ltb_spec i a).
  - replace (a - i) with (S (a - S i)) by lia. cbn [skipn]. apply IH; first [lia | ft].
  - assert (a = i) by lia. subst a. rewrite Nat.sub_diag. reflexivity.
Qed.
Lemma take_rows n : forall l i, n <= length l -> take_values (rows i l) n = Some (firstn n l).
Proof.
  induction n as [|n IH]; intros l i Hn; [destruct l; reflexivity|]. destruct l as [|e l]; [cbn in Hn; lia|]. cbn [rows take_values firstn]. rewrite IH by (cbn in Hn; lia). reflexivity.
Qed.
Lemma rows_app l2 : forall l1 i, rows i (l1 ++ l2) = rows i l1 ++ rows (i + length l1) l2.
Proof.
  induction l1 as [|e l1 IH]; intros i; cbn [rows app length]; [rewrite Nat.add_0_r; reflexivity|]. rewrite IH. do 3 f_equal. lia.
Qed.
Lemma rel_answers m d next : rel true m d next -> ms_comp m = ms_trim m -> same_answers m (mkPS d next).
Proof.
  intros HR Hc. pose proof HR as [R1 R2 R3 R4 R5 R6 R7 R8 R9 R10]. specialize (R4 (or_introl eq_refl)).
  assert (HE : forall from to, ms_trim m <= from -> ms_trim m <= to -> p_get_entries (mkPS d next) from to = ms_get_entries m from to).
  { intros from to Hf Ht. unfold p_get_entries, ms_get_entries, sub_chk. cbn [p_next p_db]. destruct (Nat.leb_spec (ms_trim m) from); [|lia]. destruct (Nat.leb_spec (ms_trim m) to); [|lia].
    unfold slice_get. destruct (Nat.ltb_spec next to); cbn [orb].
    - destruct (Nat.leb_spec (to - ms_trim m) (length (ms_log m))); [lia|]. rewrite andb_false_r. reflexivity.
    - destruct (Nat.leb_spec to from).
      + destruct (Nat.leb_spec (from - ms_trim m) (to - ms_trim m)), (Nat.leb_spec (to - ms_trim m) (length (ms_log m))); cbn [andb]; auto.
        replace (to - ms_trim m - (from - ms_trim m)) with 0 by lia. reflexivity.
      + destruct (Nat.leb_spec (from - ms_trim m) (to - ms_trim m)); [|lia]. destruct (Nat.leb_spec (to - ms_trim m) (length (ms_log m))); [|lia]. cbn [andb].
        rewrite R1, seek_rows by ft. rewrite take_rows by (rewrite skipn_length; lia). do 2 f_equal. lia. }
  split; [exact HE|]. split; [|split].
  - intros from Hf. unfold p_get_suffix. cbn [p_next]. rewrite HE by lia. unfold ms_get_entries, ms_get_suffix, sub_chk. destruct (Nat.leb_spec (ms_trim m) from); [|lia].
    destruct (Nat.leb_spec (ms_trim m) next); [|lia]. replace (next - ms_trim m) with (length (ms_log m)) by lia. reflexivity.
  - unfold p_log_len, p_compacted, sub_chk. cbn [p_db p_next]. rewrite R8, Hc. destruct (Nat.leb_spec (ms_trim m) next); [|lia]. unfold ms_log_len. f_equal. lia.
  - unfold p_promise, p_accepted_round, p_decided, p_compacted, p_stopsign, p_snapshot. cbn [p_db]. auto 10.
Qed.
Lemma list_eq_nil_dec {A} (l : list A) : {l = []} + {l <> []}.
Proof. destruct l; [left; reflexivity|right; discriminate]. Defined.
Lemma rel_open m d next : rel true m d next -> ms_comp m = ms_trim m -> p_open d = Some (mkPS d next).
Proof.
  intros HR Hc. pose proof HR as [R1 R2 R3 R4 R5 R6 R7 R8 R9 R10]. specialize (R4 (or_introl eq_refl)). unfold p_open. rewrite R1.
  destruct (list_eq_nil_dec (ms_log m)) as [Hl|Hl].
  - rewrite Hl. cbn. rewrite R8, Hc. rewrite Hl in R4. cbn in R4. rewrite R4, Nat.add_0_r. reflexivity.
  - destruct (exists_last Hl) as (l' & x & Hx). rewrite Hx, rows_app, rev_app_distr. cbn [rows rev app].
    rewrite Hx, app_length in R2. cbn in R2. destruct (C31_key_decodes (ms_trim m + length l')) as [A B]; [ft|]. rewrite A, B. cbn [Nat.eqb].
    replace (N.to_nat (N.of_nat (ms_trim m + length l') + 1)) with next; [reflexivity|]. rewrite R4, Hx, app_length. cbn. lia.
Qed.

(** C30: from related storages, any respected sequence of calls succeeds on both, and afterwards
    all methods of the trait return the same. *)
Lemma calls_rel l : forall t m p, client_ok t m l -> rel t m (p_db p) (p_next p) ->
  exists m' p', run_calls mem_call m l = Some m' /\ run_calls per_call p l = Some p' /\ ms_comp m' = ms_trim m' /\ rel true m' (p_db p') (p_next p').
Proof.
  induction l as [|c l IH]; intros t m p Hok HR; cbn [client_ok run_calls] in *.
  - destruct Hok as [-> Hc]. exists m, p. auto.
  - destruct c as [ops|o|]; cbn [mem_call per_call].
    + destruct Hok as [Ho Hok]. destruct (ms_write m ops) as [m1|] eqn:Hw; [|tauto].
      pose proof (ops_rel ops t m (p_db p) (p_next p) [] m1 Ho Hw HR) as H1. apply (IH _ m1 (p_write p ops) Hok). unfold p_write. destruct (batch_ops _ _ _). exact H1.
    + destruct Hok as [Ho Hok]. destruct (ms_op m o) as [m1|] eqn:Hw; [|tauto].
      pose proof (op_rel t m (p_db p) (p_next p) [] o m1 Ho Hw HR) as H1. apply (IH _ m1 (p_method p o) Hok). rewrite method_write. unfold p_write. cbn [batch_ops]. destruct (batch_op _ _ _). exact H1.
    + destruct Hok as [[-> Hc] Hok]. rewrite (rel_open m (p_db p) (p_next p) HR Hc). apply (IH _ m _ Hok). exact HR.
Qed.
Theorem C30_interchangeable :
  forall l, client_ok true ms_default l ->
  exists m p0 p, run_calls mem_call ms_default l = Some m /\ p_open empty_db = Some p0 /\ run_calls per_call p0 l = Some p /\ same_answers m p.
Proof.
  intros l Hok. assert (HR : rel true ms_default empty_db 0) by (constructor; cbn; auto; unfold fits; cbn; lia).
  destruct (calls_rel l true ms_default (mkPS empty_db 0) Hok HR) as (m & p & A & B & C & D). exists m, (mkPS empty_db 0), p. split; [exact A|]. split; [reflexivity|]. split; [exact B|].
  destruct p as [d n]. apply rel_answers; auto.
Qed.
(** Reopening at the end recovers exactly the state before. *)
Theorem C30_reopen :
  forall l, client_ok true ms_default l -> forall p0 p, p_open empty_db = Some p0 -> run_calls per_call p0 l = Some p -> p_open (p_db p) = Some p.
Proof.
  intros l Hok p0 p Hp0 Hp. assert (HR : rel true ms_default empty_db 0) by (constructor; cbn; auto; unfold fits; cbn; lia). injection Hp0 as <-.
  destruct (calls_rel l true ms_default (mkPS empty_db 0) Hok HR) as (m & p' & A & B & C & D). rewrite Hp in B. injection B as <-. rewrite (rel_open m _ _ D C). destruct p; reflexivity.
Qed.
(** A single method is the batch with that one operation. *)
Theorem C30_method_is_batch : forall p o, p_method p o = p_write p [o].
Proof. exact method_write. Qed.
End WithEntry.

(** ** Concrete cases *)
Section Case.
Local Instance persist_case : EntryT := list_entry.
(** Appends, a local snapshot, a synchronisation that overwrites the end of the log, reopening, a
    synchronisation with a complete snapshot beyond the end of the log, another append. *)
Definition calls_case : list client :=
  [ Method (OpSetPromise (mkB 1 1 0 1)); Method (OpAppendEntries ([11; 12; 13; 14] : list T)); Method (OpSetDecided 2);
    WriteBatch [OpTrim 2; OpSetComp 2; OpSetSnapshot (Some ([11; 12] : Snap))]; Reopen;
    WriteBatch [OpSetAround (mkB 1 2 0 2); OpSetDecided 3; OpAppendOnPrefix 3 ([24] : list T)]; Method (OpAppendEntry (25 : T)); Reopen;
    WriteBatch [OpSetAround (mkB 1 3 0 1); OpSetDecided 9; OpTrim 9; OpSetComp 9; OpSetSnapshot (Some ([1; 2; 3] : Snap)); OpAppendOnPrefix 9 ([30] : list T); OpSetStopsign None];
    Method (OpAppendEntry (31 : T)); Reopen ].
Example C30_case :
  client_ok true ms_default calls_case /\
  match p_open empty_db with
  | Some p0 => match run_calls per_call p0 calls_case with
      | Some p => (p_next p, p_get_suffix p 9, p_get_entries p 10 11, p_get_entries p 10 12, p_log_len p) = (11, Some ([30; 31] : list T), Some ([31] : list T), Some [], Some 2)
      | None => False end
  | None => False end.
Proof.
  split; [|vm_compute; reflexivity].
  assert (F : forall n, n <= 20 -> fits n) by (unfold fits; intros; lia).
  cbn. unfold at_rest, fits. cbn. repeat (split; try lia; auto).
Qed.
(** The order of bytes on keys with different numbers of significant bytes. *)
Example C31_case : fits 255 /\ fits 256 /\ to_be_bytes 255 = [0; 0; 0; 0; 0; 0; 0; 255]%N /\ to_be_bytes 256 = [0; 0; 0; 0; 0; 0; 1; 0]%N /\ key_cmp (to_be_bytes 255) (to_be_bytes 256) = Lt.
Proof. unfold fits. split; [lia|]. split; [lia|]. vm_compute. auto. Qed.
End Case.

Print Assumptions C30_interchangeable.
Print Assumptions C30_reopen.
Print Assumptions C30_method_is_batch.
Print Assumptions C31_key_order.
Print Assumptions C31_key_decodes.
Print Assumptions C31_key_bytes.
