(** * Snapshots of one server

    C26 and the parts of C27 and C28 that hold. *)
From Coq Require Import List Arith Bool Lia.
Import ListNotations.
From Verif Require Import Types Config MemStore Internal LeaderState SeqPaxos Ble Omni System Spec Basics Scen Refute
  Ghost GhostOps Inv SysInv Agree PropRefuted PropAgreement Reads Local PropLocal PropCalls PropTrim PropRead Prims.

Section WithEntry.
Context {E : EntryT}.

(** ** The operations of the storage *)

(** The server has decided no more than it holds. *)
Definition settled (o : omni) : Prop := matched o /\ get_decided_idx o <= log_end (storage o).

Lemma dec_entries s : readable s -> i_acc s = log_end (i_st s) -> i_dec s <= log_end (i_st s) ->
  dec_without_ss s = Some (Nat.min (i_dec s) (ms_comp (i_st s) + length (ms_log (i_st s)))).
Proof.
  intros [R1 R2 R3 R4] Ha Hd. unfold dec_without_ss, stopsign_is_decided. fold (i_ss s) (i_dec s) (i_acc s). rewrite Ha.
  unfold log_end in *. rewrite <- R3 in *. destruct (i_ss s).
  - destruct (Nat.eqb_spec (i_dec s) (ms_comp (i_st s) + length (ms_log (i_st s)) + 1)); [|f_equal; lia].
    unfold sub_chk. destruct (Nat.leb_spec 1 (i_dec s)); [|lia]. f_equal. lia.
  - f_equal. lia.
Qed.

Lemma firstn_split_at (l : list T) a b : a <= b -> firstn b l = firstn a l ++ firstn (b - a) (skipn a l).
Proof.
  intros H. rewrite <- (firstn_skipn a (firstn b l)). rewrite firstn_firstn, Nat.min_l by auto. f_equal. apply skipn_firstn_comm.
Qed.
Lemma skipn_skipn' (l : list T) a b : skipn a (skipn b l) = skipn (b + a) l.
Proof. revert l. induction b as [|b IH]; intros l; [reflexivity|]. destruct l; cbn; [apply skipn_nil|apply IH]. Qed.

(** The snapshot of the log up to [new]. *)
Lemma create_ok s full new : snapshot_law -> readable s -> represents (i_st s) full ->
  ms_comp (i_st s) <= new <= length full ->
  exists sn, create_snapshot s new = COk sn /\ s_create (firstn new full) = Some sn.
Proof.
  intros [L1 L2] [R1 R2 R3 R4] (P1 & P2 & P3) Hn. unfold create_snapshot. rewrite R2. destruct (Nat.ltb_spec new (ms_comp (i_st s))); [lia|].
  unfold ms_get_entries, sub_chk. rewrite R4 in *. rewrite Nat.leb_refl. destruct (Nat.leb_spec (ms_trim (i_st s)) new); [|lia].
  rewrite slice_whole; [|lia|rewrite P2, skipn_length; lia]. replace (ms_trim (i_st s) - ms_trim (i_st s)) with 0 by lia. cbn [skipn]. rewrite Nat.sub_0_r.
  destruct (L1 (firstn (new - ms_trim (i_st s)) (ms_log (i_st s)))) as [delta Hd]. rewrite Hd.
  rewrite (firstn_split_at full (ms_trim (i_st s)) new) by lia. rewrite <- P2. destruct (ms_snap (i_st s)) as [sn|].
  - rewrite (L2 _ _ _ _ P3 Hd). destruct (L1 (firstn (ms_trim (i_st s)) full ++ firstn (new - ms_trim (i_st s)) (ms_log (i_st s)))) as [r Hr]. rewrite Hr. eauto.
  - rewrite P3 in *. cbn [firstn app]. eauto.
Qed.

Lemma snap_write st full new sn : ms_comp st = ms_trim st -> represents st full -> ms_comp st <= new <= length full ->
  s_create (firstn new full) = Some sn ->
  exists m, ms_write st [OpTrim new; OpSetComp new; OpSetSnapshot (Some sn)] = Some m /\ represents m full /\ ms_comp m = new.
Proof.
  intros Hc (P1 & P2 & P3) Hn Hs. cbn. unfold ms_do_trim, sub_chk. destruct (Nat.leb_spec (ms_trim st) new); [|lia]. cbn. eexists. split; [reflexivity|].
  split; [|reflexivity]. split; [cbn; lia|]. split; [|exact Hs]. cbn. rewrite P2, skipn_length, Nat.min_l by lia. rewrite skipn_skipn'. f_equal. lia.
Qed.

(** [try_snapshot]. *)
Definition snap_go (s : istore) (new : nat) : res (istore * option compaction_err) :=
  if i_comp s <? new then
    match create_snapshot s new with
    | CPanic => ipanic s
    | CErr e => Ok (s, Some e)
    | COk sn =>
        m <- ilift s (ms_write (i_st s) [OpTrim new; OpSetComp new; OpSetSnapshot (Some sn)]) ;;
        let s := put_st s m in Ok (set_ca s (c_set_comp (i_ca s) new), None)
    end
  else Ok (s, None).
Lemma snapshot_go s i ld : dec_without_ss s = Some ld -> try_snapshot s i =
  match i with
  | Some k => match Nat.compare k (i_dec s) with Lt => snap_go s k | Eq => snap_go s ld | Gt => Ok (s, Some (UndecidedIndex (i_dec s))) end
  | None => snap_go s ld
  end.
Proof. intros H. unfold try_snapshot. rewrite H. reflexivity. Qed.

(** The number of entries that a snapshot request covers. *)
Definition snap_upto (st : mstore) (i : option nat) : nat :=
  Nat.min (match i with Some k => k | None => ms_dec st end) (ms_comp st + length (ms_log st)).
Definition refused (st : mstore) (i : option nat) : bool := match i with Some k => ms_dec st <? k | None => false end.

Lemma snapshot_ok s full i : snapshot_law -> readable s -> i_acc s = log_end (i_st s) -> i_dec s <= log_end (i_st s) -> represents (i_st s) full ->
  if refused (i_st s) i then try_snapshot s i = Ok (s, Some (UndecidedIndex (i_dec s)))
  else exists s', try_snapshot s i = Ok (s', None) /\ only_compacted (i_st s) (i_st s') /\ represents (i_st s') full /\
    ms_comp (i_st s') = Nat.max (ms_comp (i_st s)) (snap_upto (i_st s) i) /\ (i_tr s' = i_tr s \/ i_tr s' = i_tr s ++ [i_st s']).
Proof.
  intros HL HR Ha Hd HP. rewrite (snapshot_go s i _ (dec_entries s HR Ha Hd)).
  assert (Hlen : length full = ms_comp (i_st s) + length (ms_log (i_st s))). { destruct HP as (P1 & P2 & _). rewrite P2, skipn_length. lia. }
  assert (Main : forall new, new <= length full -> exists s', snap_go s new = Ok (s', None) /\
    only_compacted (i_st s) (i_st s') /\ represents (i_st s') full /\ ms_comp (i_st s') = Nat.max (ms_comp (i_st s)) new /\ (i_tr s' = i_tr s \/ i_tr s' = i_tr s ++ [i_st s'])).
  { intros new Hn. unfold snap_go. rewrite (rd_comp _ HR). destruct (Nat.ltb_spec (ms_comp (i_st s)) new).
    - destruct (create_ok s full new HL HR HP) as (sn & -> & Hs); [lia|]. destruct (snap_write (i_st s) full new sn (rd_trim _ HR) HP) as (m & Hw & Hm & Hc); [lia|auto|].
      unfold ilift. rewrite Hw. cbn [bind]. eexists. split; [reflexivity|]. cbn.
      destruct (oc_write _ _ _ _ (rd_trim _ HR) H (or_intror (ex_intro _ _ eq_refl)) Hw) as (O1 & _ & _). split; [exact O1|]. split; [exact Hm|]. split; [lia|auto].
    - eexists. split; [reflexivity|]. split; [apply oc_refl|]. split; [exact HP|]. split; [lia|auto]. }
  unfold refused, snap_upto. rewrite <- !(rd_dec _ HR). destruct i as [k|].
  - destruct (Nat.compare_spec k (i_dec s)) as [X|X|X]; (destruct (Nat.ltb_spec (i_dec s) k); [lia || auto|try lia]).
    + subst k. apply Main. lia.
    + assert (Hk : k <= ms_comp (i_st s) + length (ms_log (i_st s))). { unfold log_end in Hd. destruct (ms_ss (i_st s)); lia. }
      rewrite Nat.min_l by lia. apply Main. lia.
  - apply Main. lia.
Qed.

Lemma push_all_is m l : forall s, s_is (push_all s l m) = s_is s.
Proof. unfold push_all. induction l as [|p l IH]; cbn; intros s; auto. apply (IH (push s p m)). Qed.
Lemma state_exec o c o' r : server_state o -> exec o c = Ok (o', r) -> server_state o'.
Proof. intros (cc & sc & o0 & Hb & Hl) He. exists cc, sc, o0. split; auto. eapply lv_step; eauto. eapply sv_call; eauto. Qed.
Lemma comp_is o : server_state o -> get_compacted_idx o = ms_comp (storage o).
Proof. intros H. apply (rd_comp _ (state_readable o H)). Qed.
Lemma dec_is o : server_state o -> get_decided_idx o = ms_dec (storage o).
Proof. intros H. apply (rd_dec _ (state_readable o H)). Qed.

(** C26: a snapshot request at one server, for a usable snapshot type.  Only decided entries are
    snapshotted, an undecided index is refused, the storage still represents the same log (so the
    snapshot is the snapshot of everything below the compacted index) and nothing else changes. *)
Definition snapshot_request (c : call) (i : option nat) : Prop :=
  (exists l, c = CSnapshot i l) \/ exists from to, c = CHandle (MsgSP (mkPM from to (MCompaction (CmpSnapshot i)))).
Theorem C26_snapshot_call :
  forall o full c i, snapshot_law -> server_state o -> settled o -> represents (storage o) full -> snapshot_request c i ->
  exists o' r, exec o c = Ok (o', r) /\
    (forall l, c = CSnapshot i l -> r = RCompact (if refused (storage o) i then Some (UndecidedIndex (get_decided_idx o)) else None)) /\
    represents (storage o') full /\ only_compacted (storage o) (storage o') /\
    get_compacted_idx o' = (if refused (storage o) i then get_compacted_idx o else Nat.max (get_compacted_idx o) (snap_upto (storage o) i)) /\
    (get_compacted_idx o <= get_decided_idx o -> get_compacted_idx o' <= get_decided_idx o').
Proof.
  intros o full c i HL Hs (Hm & Hd) HP Hc. assert (HR : readable (s_is (rest o))) by (destruct (state_readable o Hs); constructor; auto). pose proof (snapshot_ok (s_is (rest o)) full i HL HR Hm Hd HP) as X.
  change (i_st (s_is (rest o))) with (storage o) in X.
  assert (Main : forall o' r, exec o c = Ok (o', r) -> (forall l, c = CSnapshot i l -> r = RCompact (if refused (storage o) i then Some (UndecidedIndex (get_decided_idx o)) else None)) ->
    represents (storage o') full -> only_compacted (storage o) (storage o') ->
    ms_comp (storage o') = (if refused (storage o) i then ms_comp (storage o) else Nat.max (ms_comp (storage o)) (snap_upto (storage o) i)) ->
    exists o' r, exec o c = Ok (o', r) /\
    (forall l, c = CSnapshot i l -> r = RCompact (if refused (storage o) i then Some (UndecidedIndex (get_decided_idx o)) else None)) /\
    represents (storage o') full /\ only_compacted (storage o) (storage o') /\
    get_compacted_idx o' = (if refused (storage o) i then get_compacted_idx o else Nat.max (get_compacted_idx o) (snap_upto (storage o) i)) /\
    (get_compacted_idx o <= get_decided_idx o -> get_compacted_idx o' <= get_decided_idx o')).
  { intros o' r He Hr H1 H2 H3. pose proof (state_exec _ _ _ _ Hs He) as Hs'. exists o', r. split; [exact He|]. split; [exact Hr|]. split; [exact H1|]. split; [exact H2|].
    rewrite !comp_is, !dec_is by auto. split; [exact H3|]. rewrite H3. destruct H2 as (_ & _ & _ & _ & -> & _). unfold refused, snap_upto. destruct i as [k|]; [|lia].
    destruct (Nat.ltb_spec (ms_dec (storage o)) k); lia. }
  destruct Hc as [[l ->]|(from & to & ->)].
  - unfold exec in *. cbn [exec_call] in *. fold (rest o) in *. unfold sp_snapshot in *. destruct (refused (storage o) i).
    + rewrite X in *. cbn [bind] in *. eapply Main; [reflexivity| |exact HP|apply oc_refl|reflexivity]. intros; reflexivity.
    + destruct X as (s' & X0 & X1 & X2 & X3 & _). rewrite X0 in *. cbn [bind] in *.
      assert (Hi : forall b, s_is (if b : bool then set_is (rest o) s' else push_all (set_is (rest o) s') (s_peers (set_is (rest o) s')) (MCompaction (CmpSnapshot i))) = s').
      { intros []; [reflexivity|]. rewrite push_all_is. reflexivity. }
      eapply Main; [reflexivity|intros; reflexivity| | |]; unfold storage; cbn [o_sp set_sp]; rewrite Hi; auto.
  - unfold exec in *. cbn [exec_call handle_incoming sp_handle pm_msg handle_compaction] in *. change (o_sp (start_call o)) with (rest o) in *. unfold sp_snapshot in *. destruct (refused (storage o) i).
    + rewrite X in *. cbn [bind] in *. eapply Main; [reflexivity|discriminate|exact HP|apply oc_refl|reflexivity].
    + destruct X as (s' & X0 & X1 & X2 & X3 & _). rewrite X0 in *. cbn [bind] in *. eapply Main; [reflexivity|discriminate| | |]; auto.
Qed.

(** ** All other calls *)

(** A synchronisation without a snapshot, or with the complete snapshot of entries allowed by [Q]. *)
Definition sync_fine (Q : nat -> T -> Prop) (sy : log_sync) : Prop :=
  match sy_snap sy with
  | None => True
  | Some (Complete sn) => exists a, length a = sy_idx sy /\ s_create a = Some sn /\ forall i e, nth_error a i = Some e -> Q i e
  | Some (Delta _) => False
  end.
(** The storage represents a log whose compacted entries are allowed by [Q]. *)
Definition rep (Q : nat -> T -> Prop) (st : mstore) : Prop :=
  ms_comp st = ms_trim st /\ exists full, represents st full /\ forall i e, i < ms_comp st -> nth_error full i = Some e -> Q i e.

Lemma rep_append Q st es : rep Q st -> rep Q (ms_append_entries st es).
Proof.
  intros (A & full & (P1 & P2 & P3) & B). split; [exact A|]. exists (full ++ es). split.
  - split; [cbn; rewrite app_length; lia|]. split.
    + cbn. rewrite P2, skipn_app. replace (ms_comp st - length full) with 0 by lia. reflexivity.
    + cbn. rewrite firstn_app. replace (ms_comp st - length full) with 0 by lia. rewrite app_nil_r. exact P3.
  - cbn. intros i e Hi. rewrite nth_error_app1 by lia. apply B. exact Hi.
Qed.
(** Writes of other fields. *)
Lemma rep_same Q st st' : rep Q st -> ms_log st' = ms_log st -> ms_comp st' = ms_comp st -> ms_trim st' = ms_trim st -> ms_snap st' = ms_snap st -> rep Q st'.
Proof. intros (A & full & P & B) H1 H2 H3 H4. split; [congruence|]. exists full. unfold represents in *. rewrite H1, H2, H4. auto. Qed.

(** The writes of [sync_log]. *)
Lemma sync_write s n d sy s' a : sync_log s n d (Some sy) = Ok (s', a) ->
  exists pre post, ms_write (i_st s) (pre ++ OpAppendOnPrefix (sy_idx sy) (sy_suffix sy) :: post) = Some (i_st s') /\
    (post = [] \/ exists ss, post = [OpSetStopsign ss]) /\
    match sy_snap sy with
    | None => pre = [OpSetAround n; OpSetDecided d]
    | Some (Complete sn) => pre = [OpSetAround n; OpSetDecided d; OpTrim (sy_idx sy); OpSetComp (sy_idx sy); OpSetSnapshot (Some sn)]
    | Some (Delta _) => True
    end.
Proof.
  unfold sync_log, ilift, ipanic. cbn [i_st set_ca].
  assert (Main : forall ca pre, (let '(s0, ops3) := match sy_ss sy with
        | Some ss => (set_ca (set_ca s (c_set_acc ca (sy_idx sy + length (sy_suffix sy)))) (c_set_acc (c_set_ss (c_set_acc ca (sy_idx sy + length (sy_suffix sy))) (Some ss)) (i_acc (set_ca s (c_set_acc ca (sy_idx sy + length (sy_suffix sy)))) + 1)),
             (pre ++ [OpAppendOnPrefix (sy_idx sy) (sy_suffix sy)]) ++ [OpSetStopsign (Some ss)])
        | None => match i_ss (set_ca s (c_set_acc ca (sy_idx sy + length (sy_suffix sy)))) with
            | Some _ => (set_ca (set_ca s (c_set_acc ca (sy_idx sy + length (sy_suffix sy)))) (c_set_ss (c_set_acc ca (sy_idx sy + length (sy_suffix sy))) None), (pre ++ [OpAppendOnPrefix (sy_idx sy) (sy_suffix sy)]) ++ [OpSetStopsign None])
            | None => (set_ca s (c_set_acc ca (sy_idx sy + length (sy_suffix sy))), pre ++ [OpAppendOnPrefix (sy_idx sy) (sy_suffix sy)])
            end end in
      m <- match ms_write (i_st s0) ops3 with Some m => Ok m | None => Panic (i_tr s0) end ;;
      let s := put_st s0 m in Ok (s, i_acc s)) = Ok (s', a) ->
    exists post, ms_write (i_st s) (pre ++ OpAppendOnPrefix (sy_idx sy) (sy_suffix sy) :: post) = Some (i_st s') /\ (post = [] \/ exists ss, post = [OpSetStopsign ss])).
  { intros ca pre. destruct (sy_ss sy) as [ss|]; [|destruct (i_ss _)]; cbn [i_st set_ca]; rewrite <- ?app_assoc; cbn [app];
      (match goal with |- context [ms_write ?x ?y] => destruct (ms_write x y) as [m|] eqn:Hw end; [|discriminate]; cbn [bind]; intros X; injection X as <- _; cbn; eauto). }
  destruct (sy_snap sy) as [[c|dl]|]; cbn [bind].
  - intros X. apply (Main _ [OpSetAround n; OpSetDecided d; OpTrim (sy_idx sy); OpSetComp (sy_idx sy); OpSetSnapshot (Some c)]) in X. destruct X as (post & X1 & X2). eauto.
  - destruct (create_decided_snapshot _) as [sn|e|]; [|discriminate|discriminate]. destruct (s_merge sn dl) as [sn'|]; [|discriminate]. cbn [bind].
    intros X. apply (Main _ [OpSetAround n; OpSetDecided d; OpTrim (sy_idx sy); OpSetComp (sy_idx sy); OpSetSnapshot (Some sn')]) in X. destruct X as (post & X1 & X2). eauto.
  - intros X. apply (Main _ [OpSetAround n; OpSetDecided d]) in X. destruct X as (post & X1 & X2). eauto.
Qed.
Lemma rep_sync Q s n d sy s' a : match sy with Some x => sync_fine Q x | None => True end -> rep Q (i_st s) -> sync_log s n d sy = Ok (s', a) -> rep Q (i_st s').
Proof.
  intros Hsy H Hs. destruct sy as [sy|].
  2: { unfold sync_log, ilift in Hs. cbn in Hs. injection Hs as <- _. cbn. eapply rep_same; eauto. }
  apply sync_write in Hs. destruct Hs as (pre & post & Hw & Hpo & Hpr). unfold sync_fine in Hsy. destruct H as (A & full & (P1 & P2 & P3) & B).
  assert (Hf : forall st, rep Q st -> ms_write st post = Some (i_st s') -> rep Q (i_st s')).
  { intros st Hst Hp. destruct Hpo as [->|[ss ->]]; cbn in Hp; injection Hp as <-; [exact Hst|eapply rep_same; eauto]. }
  destruct (sy_snap sy) as [[c|dl]|]; [|tauto|]; subst pre; cbn [app ms_write ms_op] in Hw; unfold ms_set_around, ms_set_decided in Hw.
  - destruct Hsy as (b & B1 & B2 & B3). unfold ms_do_trim, sub_chk in Hw. cbn [ms_trim] in Hw. destruct (Nat.leb_spec (ms_trim (i_st s)) (sy_idx sy)); [|discriminate]. unfold ms_set_comp, ms_set_snapshot in Hw.
    unfold ms_append_on_prefix, sub_chk in Hw. cbn [ms_trim] in Hw. rewrite Nat.leb_refl, Nat.sub_diag in Hw. cbn [firstn] in Hw.
    eapply Hf; [|exact Hw]. split; [reflexivity|]. cbn. exists (b ++ sy_suffix sy). split.
    + split; [cbn; rewrite app_length; lia|]. cbn. rewrite <- B1. split.
      * rewrite skipn_app, skipn_all, Nat.sub_diag. reflexivity.
      * rewrite firstn_app, firstn_all, Nat.sub_diag. cbn. rewrite app_nil_r. exact B2.
    + intros i e Hi. rewrite nth_error_app1 by lia. apply B3.
  - unfold ms_append_on_prefix, sub_chk in Hw. cbn [ms_trim] in Hw. destruct (Nat.leb_spec (ms_trim (i_st s)) (sy_idx sy)) as [Hle|]; [|discriminate].
    eapply Hf; [|exact Hw]. split; [exact A|]. cbn. exists (firstn (sy_idx sy) full ++ sy_suffix sy).
    assert (Hl : ms_comp (i_st s) <= length (firstn (sy_idx sy) full)) by (rewrite firstn_length; lia). split.
    + split; [cbn; rewrite app_length; lia|]. cbn. split.
      * rewrite skipn_app. replace (ms_comp (i_st s) - length (firstn (sy_idx sy) full)) with 0 by lia. cbn [skipn]. f_equal. rewrite P2, skipn_firstn_comm, A. reflexivity.
      * rewrite firstn_app. replace (ms_comp (i_st s) - length (firstn (sy_idx sy) full)) with 0 by lia. cbn [firstn]. rewrite app_nil_r, firstn_firstn, Nat.min_l by lia. exact P3.
    + intros i e Hi. rewrite nth_error_app1 by lia. rewrite <- (firstn_skipn (sy_idx sy) full) in B. specialize (B i e Hi). rewrite nth_error_app1 in B by lia. exact B.
Qed.

Lemma rep_prim Q (AS : ballot -> nat -> log_sync -> Prop) (MS : option log_sync -> Prop) (LD SSP DC : Prop) (PR : ballot -> Prop) : (forall n d sy, AS n d sy -> sync_fine Q sy) -> (forall sy, MS (Some sy) -> sync_fine Q sy) ->
  forall s s', rep Q (i_st s) -> prim AS MS LD False False SSP DC PR s s' -> rep Q (i_st s').
Proof.
  intros HA HM s s' H Hp. destruct Hp as [s b|s es|s ss Hp Hn Hb|s ss s' a Hp He|s n HPR Hn|s d Hd Hc|s n d sy s' a Ha He|s n d sy s' a Hl Hm He|s i s' r Ht He|s i s' r Hs He]; try tauto; try exact H.
  - cbn. apply rep_append. exact H.
  - unfold i_append_stopsign, cache_append_stopsign. cbn. rewrite Hb. cbn. eapply rep_same; eauto.
  - unfold i_set_stopsign in He. destruct (c_ss (i_ca s)); cbn in He; injection He as <- _; cbn; eapply rep_same; eauto.
  - eapply (rep_sync Q s n d (Some sy)); eauto.
  - eapply (rep_sync Q s n d sy); eauto. destruct sy; auto.
Qed.

(** Without synchronisations the log only grows at its end. *)
Definition grown (full : list T) (st : mstore) : Prop := exists new, represents st (full ++ new).
Lemma grown_prim full MS (SSP DC : Prop) (PR : ballot -> Prop) s s' : grown full (i_st s) -> prim (fun _ _ _ => False) MS False False False SSP DC PR s s' -> grown full (i_st s').
Proof.
  intros (new & H) Hp. assert (Hf : forall st, ms_log st = ms_log (i_st s) -> ms_comp st = ms_comp (i_st s) -> ms_snap st = ms_snap (i_st s) -> grown full st).
  { intros st H1 H2 H3. exists new. unfold represents in *. rewrite H1, H2, H3. auto. }
  destruct Hp as [s b|s es|s ss Hp Hn Hb|s ss s' a Hp He|s n HPR Hn|s d Hd Hc|s n d sy s' a Ha He|s n d sy s' a Hl Hm He|s i s' r Ht He|s i s' r Hs He]; try tauto; try (apply Hf; reflexivity).
  - destruct H as (P1 & P2 & P3). exists (new ++ es). rewrite app_assoc. split; [|split]; cbn.
    + rewrite app_length. lia.
    + rewrite P2, (skipn_app _ (full ++ new)). replace (ms_comp (i_st s) - length (full ++ new)) with 0 by lia. reflexivity.
    + rewrite (firstn_app _ (full ++ new)). replace (ms_comp (i_st s) - length (full ++ new)) with 0 by lia. rewrite app_nil_r. exact P3.
  - unfold i_append_stopsign, cache_append_stopsign. cbn. rewrite Hb. cbn. apply Hf; reflexivity.
  - unfold i_set_stopsign in He. destruct (c_ss (i_ca s)); cbn in He; injection He as <- _; cbn; apply Hf; reflexivity.
Qed.

(** C26: every other call, except the requests to trim and the synchronisations, only appends to
    the represented log; also a crash in the middle of the call. *)
Definition local_call (c : call) : Prop :=
  match c with
  | CTrim _ | CSnapshot _ _ => False
  | CHandle (MsgSP m) => match pm_msg m with MCompaction _ | MAcceptSync _ _ _ _ | MPromise _ => False | _ => True end
  | _ => True
  end.
Theorem C26_kept_by_calls :
  forall o full c, represents (storage o) full -> local_call c ->
  (forall o' r, exec o c = Ok (o', r) -> exists new, represents (storage o') (full ++ new)) /\
  (forall st, In st (crash_points o c) -> exists new, represents st (full ++ new)).
Proof.
  intros o full c HP Hc. set (AS := fun (_ : ballot) (_ : nat) (_ : log_sync) => False). set (MS := fun _ : option log_sync => True).
  assert (Hm : may_call AS MS False False False True True (fun _ => True) o c).
  { destruct c as [e|cc0 meta| |i|i l|q| |q|m]; cbn in *; auto. destruct m as [m|m]; [|exact I]. destruct (pm_msg m); cbn in *; tauto. }
  assert (Hg : grown full (i_st (s_is (o_sp (start_call o))))) by (exists []; rewrite app_nil_r; exact HP).
  split.
  - intros o' r He. destruct (exec_prims AS MS False False False True True (fun _ => True) o c o' r I Hm I He) as [X _].
    exact (prims_inv _ _ _ _ _ _ _ _ (fun s => grown full (i_st s)) (fun s s' H1 H2 => grown_prim full MS True True (fun _ => True) s s' H1 H2) _ _ X Hg).
  - intros st Hin. destruct (crash_prims AS MS False False False True True (fun _ => True) o c st I Hm I Hin) as [->|(is & X & Hi)]; [exact Hg|].
    destruct (prims_tr _ _ _ _ _ _ _ _ (fun s => grown full (i_st s)) _ _ (fun s s' H1 H2 => grown_prim full MS True True (fun _ => True) s s' H1 H2) X Hg eq_refl) as [_ Y].
    destruct (Y st Hi) as (x & X1 & <-). exact X1.
Qed.

(** ** Synchronisations *)

Definition call_sync (c : call) : option log_sync :=
  match c with CHandle (MsgSP m) => sync_of (pm_msg m) | _ => None end.
Definition is_trim (c : call) : Prop :=
  match c with CTrim _ => True | CHandle (MsgSP m) => match pm_msg m with MCompaction (CmpTrim _) => True | _ => False end | _ => False end.
Definition is_snapshot (c : call) : Prop := exists i, snapshot_request c i.

Definition kept (Q : nat -> T -> Prop) (sy : option log_sync) : Prop := match sy with Some x => sync_fine Q x | None => True end.
(** The entries below the decided index are allowed. *)
Definition dec_fine (Q : nat -> T -> Prop) (st : mstore) : Prop := forall i e, stored st i e -> i < ms_dec st -> Q i e.

(** What a call does to the represented log and to the kept and offered synchronisations. *)
Record fine (Q : nat -> T -> Prop) (o : omni) : Prop := {
  f_st : rep Q (storage o);
  f_ms : kept Q (l_maxsync (s_ls (o_sp o)));
  f_off : forall sy, offered o sy -> sy_snap sy = None \/ sync_fine Q sy \/ exists d, sy_snap sy = Some (Delta d)
}.
Definition sync_any (Q : nat -> T -> Prop) (sy : log_sync) : Prop := sy_snap sy = None \/ sync_fine Q sy \/ exists d, sy_snap sy = Some (Delta d).

Lemma rep_wider (Q Q' : nat -> T -> Prop) st : (forall i e, Q i e -> Q' i e) -> rep Q st -> rep Q' st.
Proof. intros H (A & full & P & B). split; auto. exists full. split; eauto. Qed.
Lemma sync_wider (Q Q' : nat -> T -> Prop) sy : (forall i e, Q i e -> Q' i e) -> sync_fine Q sy -> sync_fine Q' sy.
Proof. intros H. unfold sync_fine. destruct (sy_snap sy) as [[c|d]|]; auto. intros (a & A1 & A2 & A3). eauto 6. Qed.
Lemma any_wider (Q Q' : nat -> T -> Prop) sy : (forall i e, Q i e -> Q' i e) -> sync_any Q sy -> sync_any Q' sy.
Proof. intros H [A|[A|A]]; [left|right; left|right; right]; auto. eapply sync_wider; eauto. Qed.
Lemma fine_wider (Q Q' : nat -> T -> Prop) o : (forall i e, Q i e -> Q' i e) -> fine Q o -> fine Q' o.
Proof.
  intros H [A B C]. constructor; [eapply rep_wider; eauto| |].
  - unfold kept in *. destruct (l_maxsync _); auto. eapply sync_wider; eauto.
  - intros sy X. apply (any_wider _ _ _ H (C sy X)).
Qed.

Lemma may_any Q (SN : Prop) o c : ~ is_trim c -> (is_snapshot c -> SN) -> (forall sy, call_sync c = Some sy -> sync_fine Q sy) ->
  may_call (fun _ _ sy => sync_fine Q sy) (kept Q) True False SN True True (fun _ => True) o c.
Proof.
  intros H1 H2 H3. destruct c as [e|cc0 meta| |i|i l|q| |q|m]; cbn in *; auto.
  - apply H2. exists i. left. eauto.
  - destruct m as [[from to m]|m]; [|exact I]. cbn in *. destruct m as [n|n d na a|p|n q d sy|n q d es|n a|n|n q d|es|c|n q ss|ss]; cbn in *; auto.
    + split; auto. split; auto. unfold kept. destruct (pr_sync p); auto.
    + destruct c as [i|i]; [tauto|]. apply H2. exists i. right. eauto.
Qed.

(** The synchronisations made by a server. *)
Lemma made_fine Q s k d sy : snapshot_law -> readable (s_is s) -> i_acc (s_is s) = log_end (i_st (s_is s)) -> i_dec (s_is s) <= log_end (i_st (s_is s)) ->
  ms_ss (i_st (s_is s)) = None -> rep Q (i_st (s_is s)) -> dec_fine Q (i_st (s_is s)) -> create_log_sync s k d = Some sy -> sync_any Q sy.
Proof.
  intros HL HR Ha Hd Hss (A & full & HP & B) Hdec. unfold create_log_sync. cbn zeta. destruct (_ && _).
  2: { destruct (ms_get_suffix _ _); [|discriminate]. intros X. injection X as <-. left. reflexivity. }
  destruct (create_diff_snapshot _ _) as [[sn comp]| |] eqn:Hc; try discriminate. destruct (ms_get_suffix _ _) as [suf|] eqn:Hs; [|discriminate]. intros X. injection X as <-.
  apply (SyncOps.suffix_spec) in Hs. destruct Hs as [Ht _]. rewrite <- A in Ht.
  unfold create_diff_snapshot in Hc. rewrite (dec_entries _ HR Ha Hd) in Hc. unfold log_end in Hd. rewrite Hss in Hd. rewrite Nat.min_l in Hc by lia.
  pose proof HP as (P1 & P2 & P3). assert (Hlen : length full = ms_comp (i_st (s_is s)) + length (ms_log (i_st (s_is s)))) by (rewrite P2, skipn_length; lia).
  assert (Hq : forall i e, nth_error (firstn (i_dec (s_is s)) full) i = Some e -> Q i e).
  { intros i e Hi. assert (Hid : i < i_dec (s_is s)). { assert (X : i < length (firstn (i_dec (s_is s)) full)) by (apply nth_error_Some; congruence). rewrite firstn_length in X. lia. }
    rewrite Ghost.nth_error_firstn in Hi by auto. destruct (Nat.le_gt_cases (ms_comp (i_st (s_is s))) i); [|apply B; auto].
    apply Hdec; [|rewrite <- (rd_dec _ HR); auto]. split; [lia|]. rewrite P2, nth_skipn. rewrite <- A. replace (ms_comp (i_st (s_is s)) + (i - ms_comp (i_st (s_is s)))) with i by lia. exact Hi. }
  rewrite (rd_comp _ HR) in Hc. destruct (d <=? ms_comp (i_st (s_is s))).
  - right. left. unfold sync_fine. destruct (Nat.ltb_spec (ms_comp (i_st (s_is s))) (i_dec (s_is s))).
    + destruct (create_ok (s_is s) full (i_dec (s_is s)) HL HR HP) as (sn' & E1 & E2); [lia|]. rewrite E1 in Hc. injection Hc as <- <-. cbn.
      exists (firstn (i_dec (s_is s)) full). split; [rewrite firstn_length; lia|]. split; [exact E2|exact Hq].
    + injection Hc as <- <-. cbn. assert (Hdc : i_dec (s_is s) = ms_comp (i_st (s_is s))) by lia. destruct (ms_snap (i_st (s_is s))) as [sn'|]; cbn; [|exact I].
      exists (firstn (i_dec (s_is s)) full). split; [rewrite firstn_length; lia|]. split; [rewrite Hdc; exact P3|exact Hq].
  - destruct (ms_get_entries _ _ _); [|discriminate]. destruct (s_create _); [|discriminate]. injection Hc as <- <-. right. right. cbn. eauto.
Qed.

Lemma rep_snapshot Q o c o' r : snapshot_law -> server_state o -> is_snapshot c -> settled o -> dec_fine Q (storage o) -> rep Q (storage o) ->
  exec o c = Ok (o', r) -> rep Q (storage o').
Proof.
  intros HL Hs (i & Hc) Hset Hdec (A & full & HP & B) He. pose proof HP as (P1 & P2 & P3).
  destruct (C26_snapshot_call o full c i HL Hs Hset HP Hc) as (o1 & r1 & He1 & _ & HP' & Hoc & Hcomp & _). rewrite He in He1. injection He1 as <- <-.
  pose proof (state_exec _ _ _ _ Hs He) as Hs'. split; [apply (rd_trim _ (state_readable o' Hs'))|]. exists full. split; [exact HP'|].
  rewrite !comp_is in Hcomp by auto. rewrite Hcomp. intros j e Hj Hn. destruct (Nat.le_gt_cases (ms_comp (storage o)) j); [|apply B; auto].
  assert (Hjd : j < ms_dec (storage o)). { unfold refused, snap_upto in Hj. destruct i as [k|]; [destruct (Nat.ltb_spec (ms_dec (storage o)) k)|]; lia. }
  apply Hdec; auto. split; [lia|]. rewrite P2, nth_skipn, <- A. replace (ms_comp (storage o) + (j - ms_comp (storage o))) with j by lia. exact Hn.
Qed.

Lemma is_snapshot_dec c : is_snapshot c \/ ~ is_snapshot c.
Proof.
  destruct c as [e|cc0 meta| |i|i l|q| |q|m]; try (right; intros (j & [[l' X]|(f & t & X)]); discriminate X).
  - left. exists i. left. eauto.
  - destruct m as [[from to m]|m]; [|right; intros (j & [[l' X]|(f & t & X)]); discriminate X].
    destruct m; try (right; intros (j & [[l' X]|(f & t & X)]); discriminate X). destruct c as [i|i]; [right; intros (j & [[l' X]|(f & t & X)]); discriminate X|]. left. exists i. right. eauto.
Qed.

Lemma fine_exec (Q Q' : nat -> T -> Prop) o c o' r : snapshot_law -> (forall i e, Q i e -> Q' i e) -> server_state o -> fine Q o -> ~ is_trim c -> (forall sy, call_sync c = Some sy -> sync_fine Q sy) ->
  (is_snapshot c -> settled o /\ dec_fine Q (storage o)) -> exec o c = Ok (o', r) ->
  settled o' -> ms_ss (storage o') = None -> dec_fine Q' (storage o') -> fine Q' o'.
Proof.
  intros HL HQ Hs [F1 F2 F3] Ht Hsy Hsn He Hset Hss Hdec. pose proof (state_exec _ _ _ _ Hs He) as Hs'.
  assert (R : rep Q (storage o')).
  { destruct (is_snapshot_dec c) as [Hc|Hc].
    - destruct (Hsn Hc) as [S1 S2]. exact (rep_snapshot Q o c o' r HL Hs Hc S1 S2 F1 He).
    - destruct (exec_prims _ _ _ _ _ _ _ _ o c o' r I (may_any Q False o c Ht Hc Hsy) F2 He) as [X _].
      refine (prims_inv _ _ _ _ _ _ _ _ (fun s => rep Q (i_st s)) _ _ _ X F1). intros s s' H1 H2. eapply rep_prim; [| |exact H1|exact H2]; auto. }
  destruct (exec_prims_sent _ _ _ _ _ _ _ _ (sync_any Q) o c o' r I (may_any Q True o c Ht (fun _ => I) Hsy) F2 F3 He) as (_ & X2 & X3).
  constructor.
  - eapply rep_wider; eauto.
  - unfold sync_kept, kept in *. destruct (l_maxsync (s_ls (o_sp o'))); auto. eapply sync_wider; eauto.
  - intros sy Ho. destruct (X3 sy Ho) as [Y|(k & d & Y)]; [apply (any_wider _ _ _ HQ Y)|]. destruct Hset as [M1 M2]. eapply (made_fine Q' (o_sp o')); eauto.
    + apply state_readable; auto.
    + eapply rep_wider; eauto.
Qed.
Lemma fine_crash Q o c st cc sc o' : snapshot_law -> server_state o -> fine Q o -> ~ is_trim c -> (forall sy, call_sync c = Some sy -> sync_fine Q sy) ->
  (is_snapshot c -> settled o /\ dec_fine Q (storage o)) -> In st (crash_points o c) -> build cc sc st = BOk o' -> fine Q o'.
Proof.
  intros HL Hs [F1 F2 F3] Ht Hsy Hsn Hin Hb.
  assert (R : rep Q st).
  { destruct (is_snapshot_dec c) as [Hc|Hc].
    - destruct (Hsn Hc) as [S1 S2]. destruct Hin as [<-|Hin]; [exact F1|].
      pose proof Hc as (i & Hi). destruct F1 as (A & full & HP & B).
      destruct (C26_snapshot_call o full c i HL Hs S1 HP Hi) as (o1 & r1 & He1 & _). rewrite He1 in Hin.
      assert (R1 : rep Q (storage o1)) by exact (rep_snapshot Q o c o1 r1 HL Hs Hc S1 S2 (conj A (ex_intro _ full (conj HP B))) He1).
      assert (Htr : i_tr (s_is (o_sp o1)) = [] \/ i_tr (s_is (o_sp o1)) = [storage o1]).
      { clear - He1 Hi. unfold exec in He1. destruct Hi as [[l ->]|(f & t & ->)]; cbn [exec_call handle_incoming sp_handle pm_msg handle_compaction] in He1; unfold sp_snapshot in He1;
          destruct (try_snapshot _ _) as [[is x]|] eqn:Hk; try discriminate; pose proof (snap_tr _ _ _ _ Hk) as Y; cbn [bind] in He1.
        - destruct x; injection He1 as <- _; unfold storage; cbn [o_sp set_sp]; [exact Y|]. destruct l; [exact Y|]. rewrite push_all_is. exact Y.
        - destruct x; injection He1 as <- _; exact Y. }
      destruct Htr as [Htr|Htr]; rewrite Htr in Hin; [destruct Hin|]. destruct Hin as [<-|[]]. exact R1.
    - destruct (crash_prims _ _ _ _ _ _ _ _ o c st I (may_any Q False o c Ht Hc Hsy) F2 Hin) as [->|(is & X & Hi)]; [exact F1|].
      assert (Hpr : forall s s', rep Q (i_st s) -> prim (fun _ _ sy => sync_fine Q sy) (kept Q) True False False True True (fun _ => True) s s' -> rep Q (i_st s')).
      { intros s s' H1 H2. eapply rep_prim; [| |exact H1|exact H2]; auto. }
      destruct (prims_tr _ _ _ _ _ _ _ _ (fun s => rep Q (i_st s)) _ _ Hpr X F1 eq_refl) as [_ Y].
      destruct (Y st Hi) as (x & X1 & <-). exact X1. }
  clear - R Hb. unfold build in Hb. destruct (config_validate cc sc); [|discriminate]. unfold sp_with in Hb.
  destruct (peers_of cc (sc_pid sc)) as [|p0 pr]; [discriminate|].
  assert (Hx : forall ph ld out q ls b c1 c2 c3, (forall m, In m out -> sync_of (pm_msg m) = None) -> l_maxsync ls = None ->
    fine Q (mkOmni (mkSP (i_set_promise (istore_with st (sc_batch sc)) ld) (sc_pid sc) q Follower ph [] None out ls None seq0 None) b c1 c2 c3)).
  { intros ph ld out q ls b c1 c2 c3 Ho Hl. constructor.
    - exact R.
    - cbn. rewrite Hl. exact I.
    - intros sy [(m & H1 & H2)|(p & H1 & H2)]; [|discriminate]. cbn in H1. rewrite (Ho m H1) in H2. discriminate. }
  destruct (ms_prom st) as [b|] eqn:Hp; injection Hb as <-; apply Hx; auto.
  - intros m Hm. destruct Hm as [<-|Hm]; [reflexivity|]. apply in_map_iff in Hm. destruct Hm as (x & <- & _). reflexivity.
  - intros m [].
Qed.

(** ** Clusters *)

(** The call of a step is no trim request and brings no delta snapshot. *)
Definition snap_only (s : sys) (a : action) : Prop :=
  match action_event a with
  | Some (p, ev) => match event_call s p ev with
      | Some c => ~ is_trim c /\ forall sy, call_sync c = Some sy -> forall d, sy_snap sy <> Some (Delta d)
      | None => True
      end
  | None => True
  end.

Section Cluster.
Context (cc : cluster_config) (Hv : cluster_validate cc = true) (H0 : ~ In 0 (nds cc)).

Definition Qg (G : ghost) (i : nat) (e : T) : Prop := fixed cc G i (Ent e).
Record SnapInv (G : ghost) (s : sys) : Prop := {
  si_n : forall p o, nodes s p = Some o -> fine (Qg G) o;
  si_m : forall a b m sy, In (MsgSP m) (net s a b) -> sync_of (pm_msg m) = Some sy -> sync_any (Qg G) sy
}.

Lemma q_gle G G' : gle G G' -> forall i e, Qg G i e -> Qg G' i e.
Proof. intros L i e. apply fixed_gle. exact L. Qed.
Lemma sysinv_dec G s p o : SysInv cc G s -> nodes s p = Some o -> dec_fine (Qg G) (storage o).
Proof.
  intros HS Ho i e Hst Hi. pose proof (y_G _ _ _ HS) as HG. pose proof (n_st _ _ _ _ (node_inv _ _ _ _ _ HS Ho)) as HN. fold (storage o) in HN.
  destruct (stored_at cc G p _ _ _ HG HN Hst) as (l & Hl & Hx). destruct (dec_fixed cc Hv H0 G _ _ i l _ HG (st_dec _ _ _ _ HN) Hi Hl Hx) as (b & _ & _ & F). exact F.
Qed.
Lemma in_remove {A} (l : list A) k x : In x (remove_nth l k) -> In x l.
Proof. revert k. induction l as [|y l IH]; intros [|k]; cbn; auto. intros [->|H]; auto. right. eapply IH; eauto. Qed.
Lemma in_event_net s p ev a b m : In m (event_net s p ev a b) -> In m (net s a b).
Proof.
  destruct ev as [c|src k]; cbn; auto. unfold upd2. destruct ((a =? src) && (b =? p)) eqn:Hab; auto. apply andb_true_iff in Hab. destruct Hab as [X Y].
  apply Nat.eqb_eq in X, Y. subst. apply in_remove.
Qed.
Lemma any_fine Q sy : sync_any Q sy -> (forall d, sy_snap sy <> Some (Delta d)) -> sync_fine Q sy.
Proof. intros [A|[A|(d & A)]] H; auto; [|exfalso; eapply H; eauto]. unfold sync_fine. rewrite A. exact I. Qed.

Lemma event_sync G s p ev c : SnapInv G s -> event_call s p ev = Some c ->
  (forall sy, call_sync c = Some sy -> forall d, sy_snap sy <> Some (Delta d)) -> forall sy, call_sync c = Some sy -> sync_fine (Qg G) sy.
Proof.
  intros HI Hc Hd sy Hs. apply any_fine; auto. destruct ev as [c0|src k]; cbn in Hc.
  - destruct c0; try discriminate Hc; injection Hc as <-; discriminate Hs.
  - destruct (nth_error _ _) as [m|] eqn:Hn; [|discriminate]. injection Hc as <-. cbn in Hs. destruct m as [m|m]; [|discriminate]. apply nth_error_In in Hn. eapply (si_m _ _ HI); eauto.
Qed.

Definition quiet (s : sys) : Prop := forall p o, nodes s p = Some o -> server_state o /\ settled o /\ ms_ss (storage o) = None.

Lemma step_fine G G' s a s' : snapshot_law -> SysInv cc G s -> SysInv cc G' s' -> gle G G' -> SnapInv G s -> snap_only s a -> exec_action cc s a = Some s' ->
  quiet s -> quiet s' -> SnapInv G' s'.
Proof.
  intros HL HS HS' L HI Hsn He Hq Hq'. pose proof (q_gle _ _ L) as HQ.
  assert (Hm : forall a b m sy, In (MsgSP m) (net s a b) -> sync_of (pm_msg m) = Some sy -> sync_any (Qg G') sy).
  { intros x y m sy X Y. eapply any_wider; [exact HQ|]. eapply (si_m _ _ HI); eauto. }
  assert (Hn : forall p o, nodes s p = Some o -> fine (Qg G') o) by (intros p o X; eapply fine_wider; [exact HQ|]; eapply (si_n _ _ HI); eauto).
  unfold snap_only in Hsn. destruct a as [p ev|p|src dst k|p ev j sc]; cbn in He, Hsn.
  - destruct (nodes s p) as [o|] eqn:Ho; [|discriminate]. destruct (event_call s p ev) as [c|] eqn:Hc; [|discriminate]. destruct Hsn as [Ht Hd].
    destruct (exec o c) as [[o' r]|] eqn:Hx; [|discriminate]. injection He as <-. destruct (Hq p o Ho) as (S1 & S2 & S3). 
    assert (Ho' : nodes (mkSys (upd1 (nodes s) p (Some o')) (event_net s p ev)) p = Some o') by (cbn; unfold upd1; rewrite Nat.eqb_refl; reflexivity).
    destruct (Hq' p o' Ho') as (S1' & S2' & S3'). constructor.
    + intros q x. cbn. unfold upd1. destruct (Nat.eqb_spec q p) as [->|]; [|apply Hn]. intros X. injection X as <-.
      eapply fine_exec; [exact HL|exact HQ|exact S1|eapply (si_n _ _ HI); eauto|exact Ht|eapply event_sync; eauto|intros _; split; [exact S2|eapply sysinv_dec; eauto]|exact Hx|exact S2'|exact S3'|eapply sysinv_dec; eauto].
    + cbn. intros x y m sy X. apply Hm with (a := x) (b := y). eapply in_event_net; eauto.
  - destruct (nodes s p) as [o|] eqn:Ho; [|discriminate]. destruct (take_outgoing_messages o []) as [o' l] eqn:Hk. injection He as <-. pose proof (Hn p o Ho) as [F1 F2 F3].
    unfold take_outgoing_messages, sp_take_outgoing in Hk. injection Hk as <- <-. constructor.
    + intros q x. cbn. unfold upd1. destruct (Nat.eqb_spec q p) as [->|]; [|apply Hn]. intros X. injection X as <-. constructor; [exact F1|exact F2|].
      intros sy [(m & [] & _)|(pr & X1 & X2)]. apply F3. right. eauto.
    + cbn [net]. intros x y m sy X Y. rewrite send_all_net in X. destruct (Nat.eqb_spec x p) as [->|]; [|eapply Hm; eauto]. apply in_app_or in X. destruct X as [X|X]; [eapply Hm; eauto|].
      apply filter_In in X. destruct X as [X _]. cbn in X. apply in_app_or in X. destruct X as [X|X]; apply in_map_iff in X; destruct X as (z & Z1 & Z2); [|discriminate]. injection Z1 as ->.
      apply F3. left. eauto.
  - injection He as <-. constructor; [exact Hn|]. cbn. intros x y m sy X. apply Hm with (a := x) (b := y). revert X. unfold upd2. destruct ((x =? src) && (y =? dst)) eqn:Hab; auto.
    apply andb_true_iff in Hab. destruct Hab as [X1 X2]. apply Nat.eqb_eq in X1, X2. subst. apply in_remove.
  - destruct (nodes s p) as [o|] eqn:Ho; [|discriminate]. destruct (event_call s p ev) as [c|] eqn:Hc; [|discriminate]. destruct Hsn as [Ht Hd].
    destruct (nth_error (crash_points o c) j) as [st|] eqn:Hst; [|discriminate]. apply nth_error_In in Hst. destruct (_ =? p); [|discriminate].
    destruct (build cc sc st) as [| |o'] eqn:Hb; try discriminate. injection He as <-. destruct (Hq p o Ho) as (S1 & S2 & S3). constructor.
    + intros q x. cbn. unfold upd1. destruct (Nat.eqb_spec q p) as [->|]; [|apply Hn]. intros X. injection X as <-. eapply fine_wider; [exact HQ|].
      eapply fine_crash; [exact HL|exact S1|eapply (si_n _ _ HI); eauto|exact Ht|eapply event_sync; eauto|intros _; split; [exact S2|eapply sysinv_dec; eauto]|exact Hst|exact Hb].
    + cbn. intros x y m sy X. apply Hm with (a := x) (b := y). eapply in_event_net; eauto.
Qed.

(** One ghost above the ghosts of all moments of the run. *)
Lemma run_fine (HL : snapshot_law) : forall l G s, SysInv cc G s -> SnapInv G s ->
  all_steps h1h2 cc s l -> all_steps snap_only cc s l -> (forall l2 l3 x, l = l2 ++ l3 -> run cc s l2 = Some x -> quiet x) ->
  exists G', gle G G' /\ GInv cc G' /\ forall l2 l3 x, l = l2 ++ l3 -> run cc s l2 = Some x -> exists Gx, gle Gx G' /\ SysInv cc Gx x /\ SnapInv Gx x.
Proof.
  induction l as [|a l IH]; intros G s HS HI Hh Hs Hq.
  - exists G. split; [apply gle_refl|]. split; [apply (y_G _ _ _ HS)|]. intros l2 l3 x Hl Hx. destruct l2; [|discriminate]. cbn in Hx. injection Hx as <-. exists G. split; [apply gle_refl|auto].
  - cbn in Hh, Hs. destruct Hh as [Ha Hh], Hs as [Hb Hs]. destruct (exec_action cc s a) as [s1|] eqn:He.
    + destruct (step_inv cc Hv H0 G s a s1 HS Ha He) as (G1 & L1 & S1).
      assert (Q0 : quiet s) by (apply (Hq [] (a :: l)); reflexivity).
      assert (Q1 : quiet s1) by (apply (Hq [a] l); [reflexivity|cbn; rewrite He; reflexivity]).
      pose proof (step_fine G G1 s a s1 HL HS S1 L1 HI Hb He Q0 Q1) as I1.
      destruct (IH G1 s1 S1 I1 Hh Hs) as (G2 & L2 & HG2 & M2).
      { intros l2 l3 x -> X. apply (Hq (a :: l2) l3); [reflexivity|]. cbn. rewrite He. exact X. }
      exists G2. split; [eapply gle_trans; eauto|]. split; [exact HG2|]. intros l2 l3 x Hl Hx. destruct l2 as [|a' l2]; cbn in Hl, Hx.
      * injection Hx as <-. exists G. split; [eapply gle_trans; eauto|auto].
      * injection Hl as <- Hl. rewrite He in Hx. eapply M2; eauto.
    + exists G. split; [apply gle_refl|]. split; [apply (y_G _ _ _ HS)|]. intros l2 l3 x Hl Hx. destruct l2 as [|a' l2]; cbn in Hl, Hx.
      * injection Hx as <-. exists G. split; [apply gle_refl|auto].
      * injection Hl as <- Hl. rewrite He in Hx. discriminate.
Qed.
Lemma init_fine scs : SnapInv (G00 (E:=E)) (init_sys cc scs).
Proof.
  constructor.
  - cbn. intros p o. destruct (_ && _); [|discriminate]. destruct (build cc (scs p) ms_default) as [| |x] eqn:Hb; try discriminate. intros X. injection X as <-.
    unfold build in Hb. destruct (config_validate cc (scs p)); [|discriminate]. unfold sp_with in Hb. destruct (peers_of cc (sc_pid (scs p))) as [|p0 pr]; [discriminate|]. cbn in Hb. injection Hb as <-.
    constructor; [| exact I|].
    + split; [reflexivity|]. exists []. split; [|cbn; intros; lia]. split; [cbn; lia|]. cbn. auto.
    + intros sy [(m & [] & _)|(pr' & X1 & X2)]. discriminate.
  - intros a b m sy [].
Qed.
End Cluster.

(** No server has a stop sign at any moment of the run. *)
Definition never_stopped cc scs l : Prop :=
  forall s, moment cc scs l s -> forall p o, nodes s p = Some o -> ms_ss (storage o) = None.

(** The runs in question: no trims, no delta snapshots, no stop signs. *)
Definition snap_run cc scs l : Prop :=
  all_steps h1h2 cc (init_sys cc scs) l /\ all_steps snap_only cc (init_sys cc scs) l /\ never_stopped cc scs l.

Lemma snap_moments cc scs l : snapshot_law -> good_config cc scs -> snap_run cc scs l ->
  exists G, GInv cc G /\ forall s, moment cc scs l s -> exists Gs, gle Gs G /\ SysInv cc Gs s /\ SnapInv cc Gs s.
Proof.
  intros HL Hg (Hh & Hs & Hn). pose proof Hg as (Hv & H0 & Hc).
  destruct (run_fine cc Hv H0 HL l G00 _ (init_inv cc scs) (init_fine cc scs) Hh Hs) as (G & _ & HG & M).
  { intros a b x Hab Rx p o Ho. assert (Hss : ms_ss (storage o) = None) by (eapply (Hn x); eauto; exists a, b; auto). split; [eapply cluster_server_state; eauto|]. split; auto.
    subst l. destruct (all_steps_app cc h1h2 a b _ _ Hh Rx) as [Hha _]. exact (C21_matched_in_clusters cc scs Hg a Hha x Rx p o Ho Hss). }
  exists G. split; [exact HG|]. intros s (a & b & Hab & Rx). eapply M; eauto.
Qed.

(** The entries of the compacted prefix behind a stored snapshot, fixed in the last ghost. *)
Lemma rep_is cc G Gs s p o : SnapInv cc Gs s -> gle Gs G -> nodes s p = Some o ->
  exists full, represents (storage o) full /\ forall i e, i < ms_comp (storage o) -> nth_error full i = Some e -> fixed cc G i (Ent e).
Proof.
  intros HI L Ho. destruct (f_st _ _ (si_n _ _ _ HI p o Ho)) as (_ & full & HR & HF). exists full. split; [exact HR|]. intros i e Hi Hf. eapply fixed_gle; [exact L|]. exact (HF i e Hi Hf).
Qed.

(** C27, without trims, stop signs and delta snapshots: at every moment every server stores
    the snapshot of exactly the entries below its compacted index; these are the entries
    that the servers report as decided there, at any moment. *)
Theorem C27_snapshot_contents_partial :
  forall cc scs, good_config cc scs -> snapshot_law ->
  forall l, snap_run cc scs l -> forall s, moment cc scs l s -> forall p o, nodes s p = Some o ->
    exists full, represents (storage o) full /\
      forall s' q i e, moment cc scs l s' -> server_reports s' q i (LDecided e) -> i < ms_comp (storage o) -> nth_error full i = Some e.
Proof.
  intros cc scs Hg HL l Hr s M p o Ho. destruct (snap_moments cc scs l HL Hg Hr) as (G & HG & HM). destruct Hg as (Hv & H0 & _).
  destruct (HM s M) as (Gs & L & _ & HI). destruct (rep_is cc G Gs s p o HI L Ho) as (full & HR & HF). exists full. split; [exact HR|].
  intros s' q i e M' (o' & Ho' & Hrep) Hi. destruct (HM s' M') as (Gs' & L' & HS' & _).
  destruct (reports_decided cc Hv H0 Gs' q o' i e (y_G _ _ _ HS') (node_inv _ _ _ _ _ HS' Ho') Hrep) as (_ & _ & F).
  destruct HR as (Hle & _). destruct (nth_error full i) as [e'|] eqn:Hn; [|apply nth_error_None in Hn; lia].
  pose proof (fixed_agree cc Hv H0 G i _ _ HG (HF i e' Hi Hn) (fixed_gle cc _ _ _ _ L' F)). congruence.
Qed.

Lemma nth_ext_opt {A} (l l' : list A) : (forall i, nth_error l i = nth_error l' i) -> l = l'.
Proof.
  revert l'. induction l as [|x l IH]; intros [|y l'] H; auto; [specialize (H 0); discriminate|specialize (H 0); discriminate|].
  pose proof (H 0) as H0. cbn in H0. injection H0 as ->. f_equal. apply IH. intros i. exact (H (S i)).
Qed.

(** Hence all stored snapshots with the same compacted index are the same, at all servers
    and at all moments. *)
Theorem C27_snapshots_agree_partial :
  forall cc scs, good_config cc scs -> snapshot_law ->
  forall l, snap_run cc scs l -> forall s1 s2, moment cc scs l s1 -> moment cc scs l s2 ->
  forall p q o1 o2, nodes s1 p = Some o1 -> nodes s2 q = Some o2 -> ms_comp (storage o1) = ms_comp (storage o2) ->
  forall sn1 sn2, ms_snap (storage o1) = Some sn1 -> ms_snap (storage o2) = Some sn2 -> sn1 = sn2.
Proof.
  intros cc scs Hg HL l Hr s1 s2 M1 M2 p q o1 o2 H1 H2 Hc sn1 sn2 E1 E2. destruct (snap_moments cc scs l HL Hg Hr) as (G & HG & HM). destruct Hg as (Hv & H0 & _).
  destruct (HM s1 M1) as (Gs & L & _ & HI). destruct (rep_is cc G Gs s1 p o1 HI L H1) as (f1 & R1 & F1).
  destruct (HM s2 M2) as (Gs2 & L2 & _ & HI2). destruct (rep_is cc G Gs2 s2 q o2 HI2 L2 H2) as (f2 & R2 & F2).
  destruct R1 as (A1 & _ & B1), R2 as (A2 & _ & B2). rewrite E1 in B1. rewrite E2 in B2. rewrite <- Hc in *.
  assert (Hf : firstn (ms_comp (storage o1)) f1 = firstn (ms_comp (storage o1)) f2); [|congruence].
  apply nth_ext_opt. intros i. destruct (Nat.lt_ge_cases i (ms_comp (storage o1))) as [Hi|Hi].
  - rewrite !nth_error_firstn by auto.
    destruct (nth_error f1 i) as [x|] eqn:Hx; [|apply nth_error_None in Hx; lia]. destruct (nth_error f2 i) as [y|] eqn:Hy; [|apply nth_error_None in Hy; lia].
    pose proof (fixed_agree cc Hv H0 G i _ _ HG (F1 i x Hi Hx) (F2 i y Hi Hy)). congruence.
  - transitivity (@None T); [|symmetry]; apply nth_error_None; rewrite firstn_length; lia.
Qed.

(** ** What a read shows *)

(** A read function of the server answers with a snapshot labelled [k]. *)
Definition shows_snapshot (o : omni) (k : nat) (sn : Snap) : Prop :=
  (exists i, read o i = RSome (LSnapshotted k sn)) \/
  (exists lo hi l, read_entries o lo hi = RSome l /\ In (LSnapshotted k sn) l) \/
  (exists from l, read_decided_suffix o from = RSome l /\ In (LSnapshotted k sn) l).

Lemma mark_no_snap dec es : forall idx k sn, ~ In (LSnapshotted k sn) (mark_entries dec idx es).
Proof. induction es as [|e es IH]; cbn [mark_entries In]; intros idx k sn; auto. intros [H|H]; [destruct (Nat.ltb idx dec) in H; discriminate|eapply IH; eauto]. Qed.
Lemma i_read_snap s lo hi l k sn : i_read s lo hi = Some (Some l) -> In (LSnapshotted k sn) l -> ms_snap (i_st s) = Some sn /\ k = i_comp s.
Proof.
  assert (Hc : forall r, In (LSnapshotted k sn) (create_compacted_entry s (i_comp s) :: r) -> ~ In (LSnapshotted k sn) r -> ms_snap (i_st s) = Some sn /\ k = i_comp s).
  { intros r [H|H]; [|tauto]. intros _. unfold create_compacted_entry in H. destruct (ms_snap (i_st s)); [|discriminate]. injection H as -> ->. auto. }
  assert (Hm : forall a b es, create_read_log_entries s a b = Some es -> ~ In (LSnapshotted k sn) es).
  { intros a b es. unfold create_read_log_entries. destruct (ms_get_entries _ _ _); [|discriminate]. intros H. injection H as <-. apply mark_no_snap. }
  unfold i_read. cbn zeta. destruct (_ =? 0); [discriminate|]. destruct (get_entry_type s _ _ _) as [[| |ss]|]; try discriminate.
  2: { intros H. injection H as <-. intros Hi. apply (Hc []); auto. }
  all: destruct (get_entry_type s _ _ _) as [[| |ss']|]; try discriminate.
  1-2: match goal with |- context [create_read_log_entries ?a ?b ?c] => destruct (create_read_log_entries a b c) as [es|] eqn:He; [|discriminate] end; intros H; injection H as <-; intros Hi; apply Hm in He; first [tauto | eapply Hc; eauto].
  1-2: match goal with |- context [create_read_log_entries ?a ?b ?c] => destruct (create_read_log_entries a b c) as [es|] eqn:He; [|discriminate] end; intros H; injection H as <-; intros Hi; apply Hm in He.
  - apply in_app_or in Hi. destruct Hi as [Hi|[Hi|[]]]; [tauto|discriminate].
  - eapply Hc; [exact Hi|]. intros X. apply in_app_or in X. destruct X as [X|[X|[]]]; [tauto|discriminate].
  - intros H. injection H as <-. intros [Hi|[]]. discriminate.
Qed.
Lemma i_suffix_snap s from l k sn : i_read_decided_suffix s from = Some (Some l) -> In (LSnapshotted k sn) l -> ms_snap (i_st s) = Some sn /\ k = i_comp s.
Proof.
  unfold i_read_decided_suffix. destruct (_ <? _); [|discriminate]. apply i_read_snap.
Qed.

(** C28, for a store that represents a log: a read that answers with a snapshot gives the
    snapshot of all entries below the index it names. *)
Theorem C28_snapshot_label_partial :
  forall o full, server_state o -> represents (storage o) full ->
  forall k sn, shows_snapshot o k sn -> k = ms_comp (storage o) /\ ms_snap (storage o) = Some sn /\ s_create (firstn k full) = Some sn.
Proof.
  intros o full Ho (_ & _ & Hs) k sn H. pose proof (rd_comp _ (state_readable o Ho)) as Hc. fold (storage o) in Hc.
  assert (Main : ms_snap (storage o) = Some sn /\ k = i_comp (s_is (o_sp o))).
  { destruct H as [(i & H)|[(lo & hi & l & H & Hi)|(from & l & H & Hi)]].
    - unfold read in H. destruct (i_read _ _ _) as [[l|]|] eqn:Hr; try discriminate. eapply i_read_snap; [exact Hr|].
      destruct (rev l) as [|x r] eqn:Hl; [discriminate|]. injection H as ->. apply in_rev. rewrite Hl. left. reflexivity.
    - unfold read_entries in H. destruct (i_read _ _ _) as [[l'|]|] eqn:Hr; try discriminate. injection H as <-. eapply i_read_snap; eauto.
    - unfold read_decided_suffix in H. destruct (i_read_decided_suffix _ _) as [[l'|]|] eqn:Hr; try discriminate. injection H as <-. eapply i_suffix_snap; eauto. }
  destruct Main as [A B]. rewrite Hc in B. subst k. rewrite A in Hs. auto.
Qed.

(** The same for the runs of C27: a snapshot that any server shows at any moment is the snapshot
    of as many entries as its label says, and these are the entries that the servers report as
    decided, before or after. *)
Theorem C27_shown_snapshot_partial :
  forall cc scs, good_config cc scs -> snapshot_law ->
  forall l, snap_run cc scs l -> forall s, moment cc scs l s -> forall p o k sn, nodes s p = Some o -> shows_snapshot o k sn ->
    exists es, length es = k /\ s_create es = Some sn /\
      forall s' q i e, moment cc scs l s' -> server_reports s' q i (LDecided e) -> i < k -> nth_error es i = Some e.
Proof.
  intros cc scs Hg HL l Hr s M p o k sn Ho Hk. destruct (C27_snapshot_contents_partial cc scs Hg HL l Hr s M p o Ho) as (full & HR & HF).
  assert (Hs : server_state o) by (destruct M as (a & b & _ & R); eapply cluster_server_state; eauto).
  destruct (C28_snapshot_label_partial o full Hs HR k sn Hk) as (Hc & _ & Hcr). exists (firstn k full). destruct HR as (Hle & _).
  split; [rewrite firstn_length; lia|]. split; [exact Hcr|]. intros s' q i e M' Hrep Hi. rewrite nth_error_firstn by auto. eapply HF; eauto. lia.
Qed.

(** ** Sequences of calls at one server *)

(** Calls at one server from [o] to [o']: snapshot requests in settled states, and any calls that
    neither trim nor synchronise. *)
Fixpoint snap_calls (o : omni) (l : list call) (o' : omni) : Prop :=
  match l with
  | [] => o' = o
  | c :: r => ((settled o /\ is_snapshot c) \/ local_call c) /\ exists o1 x, exec o c = Ok (o1, x) /\ snap_calls o1 r o'
  end.
Theorem C26_snapshot_calls :
  forall l o o' full, snapshot_law -> server_state o -> represents (storage o) full -> snap_calls o l o' ->
    exists new, represents (storage o') (full ++ new).
Proof.
  induction l as [|c l IH]; intros o o' full HL Hs HR H.
  - cbn in H. subst o'. exists []. rewrite app_nil_r. exact HR.
  - destruct H as [Hc (o1 & x & He & H)]. pose proof (state_exec _ _ _ _ Hs He) as Hs1. destruct Hc as [[Hm (i & Hi)]|Hc].
    + destruct (C26_snapshot_call o full c i HL Hs Hm HR Hi) as (o2 & r2 & He2 & _ & HR2 & _). rewrite He in He2. injection He2 as <- <-. eapply IH; eauto.
    + destruct (C26_kept_by_calls o full c HR Hc) as [A _]. destruct (A _ _ He) as (new & HR1). destruct (IH o1 o' _ HL Hs1 HR1 H) as (new' & HR'). exists (new ++ new'). rewrite app_assoc. exact HR'.
Qed.
End WithEntry.

(** ** Concrete cases *)
Section Case.
Local Existing Instance lsnap.

(** Server 3 misses the entries 11, 12, 13 and is synchronised with a complete snapshot; later
    server 2 makes a snapshot of its own, server 1 one of the first two entries, and all get
    further entries. *)
Definition sch_snap : list cmd :=
  [ Settle [1;2;3] 2; Call 1 CTryLeader; Settle [1;2;3] 3; append' 1 11; append' 1 12; append' 1 13;
    Fetch [1]; Deliver 1 2; Lose 1 3; Fetch [2]; Deliver 2 1; Fetch [1]; Deliver 1 2; Lose 1 3;
    Call 3 (CReconnected 1); Settle [1;2;3] 5; append' 1 14; Settle [1;2;3] 4;
    Call 2 (CSnapshot None true); Call 1 (CSnapshot (Some 2) true); Call 1 (CSnapshot (Some 3) true); append' 1 15; Settle [1;2;3] 4 ].
Definition acts_snap := Eval vm_compute in acts_of cc3 ini' sch_snap.
Definition sys_snap : sys := match run cc3 ini' acts_snap with Some s => s | None => ini' end.
Lemma snap_reach : reaches cc3 scs acts_snap sys_snap.
Proof. apply is_some_eta. vm_compute. reflexivity. Qed.

Definition snap_onlyb (s : sys) (a : action) : bool :=
  match action_event a with
  | Some (p, ev) => match event_call s p ev with
      | Some c => negb (match c with CTrim _ => true | CHandle (MsgSP m) => match pm_msg m with MCompaction (CmpTrim _) => true | _ => false end | _ => false end) &&
          match call_sync c with Some sy => match sy_snap sy with Some (Delta _) => false | _ => true end | None => true end
      | None => true
      end
  | None => true
  end.
Lemma snap_onlyb_ok s a : snap_onlyb s a = true -> snap_only s a.
Proof.
  unfold snap_onlyb, snap_only. destruct (action_event a) as [[p ev]|]; auto. destruct (event_call s p ev) as [c|]; auto. intros H. apply andb_true_iff in H. destruct H as [H1 H2].
  split.
  - intros X. destruct c as [e|cc0 meta| |i|i l|q| |q|m]; cbn in *; try tauto; try discriminate. destruct m as [m|m]; [|tauto]. destruct (pm_msg m); try tauto. destruct c; [discriminate|tauto].
  - intros sy Hs d Hd. rewrite Hs, Hd in H2. discriminate.
Qed.
(** All steps pass the test, and servers 1, 2, 3 have no stop sign at any moment. *)
Fixpoint snap_test (cc : cluster_config) (s : sys) (l : list action) : bool :=
  forallb (fun p => match nodes s p with Some o => match ms_ss (storage o) with None => true | Some _ => false end | None => true end) [1; 2; 3] &&
  match l with [] => true | a :: r => snap_onlyb s a && match exec_action cc s a with Some s' => snap_test cc s' r | None => true end end.
Lemma step_none cc s a s' p : exec_action cc s a = Some s' -> nodes s p = None -> nodes s' p = None.
Proof.
  intros He Hp. destruct a as [q ev|q|src dst k|q ev j sc]; cbn in He.
  - destruct (nodes s q) as [o|] eqn:Hq; [|discriminate]. destruct (event_call s q ev); [|discriminate]. destruct (exec o c) as [[o1 r]|]; [|discriminate]. injection He as <-. cbn. unfold upd1.
    destruct (Nat.eqb_spec p q); congruence.
  - destruct (nodes s q) as [o|] eqn:Hq; [|discriminate]. destruct (take_outgoing_messages o []) as [o1 l]. injection He as <-. cbn. unfold upd1. destruct (Nat.eqb_spec p q); congruence.
  - injection He as <-. exact Hp.
  - destruct (nodes s q) as [o|] eqn:Hq; [|discriminate]. destruct (event_call s q ev); [|discriminate]. destruct (nth_error _ _); [|discriminate]. destruct (_ =? q); [|discriminate].
    destruct (build cc sc _) as [| |o1]; try discriminate. injection He as <-. cbn. unfold upd1. destruct (Nat.eqb_spec p q); congruence.
Qed.
Lemma snap_test_ok cc l : forall s, snap_test cc s l = true -> (forall p, ~ In p [1; 2; 3] -> nodes s p = None) ->
  all_steps snap_only cc s l /\ forall l1 l2 x, l = l1 ++ l2 -> run cc s l1 = Some x -> forall p o, nodes x p = Some o -> ms_ss (storage o) = None.
Proof.
  assert (Hnow : forall s l, snap_test cc s l = true -> (forall p, ~ In p [1; 2; 3] -> nodes s p = None) -> forall p o, nodes s p = Some o -> ms_ss (storage o) = None).
  { intros s l' H Hn p o Ho. destruct l'; cbn [snap_test] in H; apply andb_true_iff in H; destruct H as [H _]; rewrite forallb_forall in H;
      (destruct (in_dec Nat.eq_dec p [1; 2; 3]) as [Hi|Hi]; [specialize (H p Hi); rewrite Ho in H; destruct (ms_ss (storage o)); [discriminate|reflexivity]|rewrite Hn in Ho by auto; discriminate]). }
  induction l as [|a l IH]; intros s H Hn; pose proof (Hnow s _ H Hn) as H0.
  - split; [exact I|]. intros l1 l2 x Hl Hx. destruct l1; [|discriminate]. cbn in Hx. injection Hx as <-. exact H0.
  - cbn [snap_test] in H. apply andb_true_iff in H. destruct H as [_ H]. apply andb_true_iff in H. destruct H as [Ha H]. cbn [all_steps]. destruct (exec_action cc s a) as [s1|] eqn:He.
    + destruct (IH s1 H) as [A B]. { intros p Hp. eapply step_none; eauto. }
      split; [split; [apply snap_onlyb_ok; exact Ha|exact A]|]. intros l1 l2 x Hl Hx. destruct l1 as [|a' l1]; cbn in Hl, Hx; [injection Hx as <-; exact H0|].
      injection Hl as <- Hl. rewrite He in Hx. eapply B; eauto.
    + split; [split; [apply snap_onlyb_ok; exact Ha|exact I]|]. intros l1 l2 x Hl Hx. destruct l1 as [|a' l1]; cbn in Hl, Hx; [injection Hx as <-; exact H0|].
      injection Hl as <- Hl. rewrite He in Hx. discriminate.
Qed.

Lemma h1h2_run' cc l : forall s : sys, forallb fifob l = true -> drained_run cc s l = true -> all_steps h1h2 cc s l.
Proof.
  induction l as [|a l IH]; cbn; intros s Hf Hd; auto. apply andb_true_iff in Hf, Hd. destruct Hf as [F1 F2], Hd as [D1 D2].
  split; [split|].
  - pose proof (fifob_ok [a]) as H. cbn in H. rewrite F1 in H. specialize (H eq_refl). apply fifo_syncs_in_order. inversion H; auto.
  - apply drainedb_ok; auto.
  - destruct (exec_action cc s a); auto.
Qed.
Lemma h1h2_snap : all_steps h1h2 cc3 ini' acts_snap.
Proof. apply h1h2_run'; vm_compute; reflexivity. Qed.
Lemma snap_case_run : snap_run cc3 scs acts_snap.
Proof.
  assert (X : snap_test cc3 ini' acts_snap = true) by (vm_compute; reflexivity).
  destruct (snap_test_ok cc3 acts_snap ini' X) as [A B].
  { intros p Hp. cbn -[existsb]. destruct (existsb (Nat.eqb p) [1; 2; 3]) eqn:Hx; [|reflexivity]. exfalso. apply existsb_exists in Hx. destruct Hx as (y & Hy & Hyp). apply Nat.eqb_eq in Hyp. subst y. tauto. }
  split; [exact h1h2_snap|]. split; [exact A|]. intros s (l1 & l2 & Hl & R). exact (B l1 l2 s Hl R).
Qed.

(** The state at the end: three different compacted indexes, all snapshots of the same entries. *)
Example C27_case :
  good_config cc3 scs /\ @snapshot_law lsnap /\ snap_run cc3 scs acts_snap /\ moment cc3 scs acts_snap sys_snap /\
  map (fun p => obs sys_snap p (fun o => (read o 0, read_decided_suffix o 4))) [1; 2; 3] =
    [Some (RSome (LSnapshotted 3 ([11; 12; 13] : @Snap list_entry)), RSome [LDecided (15 : @T list_entry)]);
     Some (RSome (LSnapshotted 4 ([11; 12; 13; 14] : @Snap list_entry)), RSome [LDecided (15 : @T list_entry)]);
     Some (RSome (LSnapshotted 3 ([11; 12; 13] : @Snap list_entry)), RSome [LDecided (15 : @T list_entry)])].
Proof.
  split; [apply good3|]. split; [apply list_entry_law|]. split; [exact snap_case_run|]. split; [exists acts_snap, []; rewrite app_nil_r; split; [reflexivity|exact snap_reach]|].
  vm_compute. reflexivity.
Qed.

Definition ret_of' (o : omni) (c : call) : option ret := match exec o c with Ok (_, r) => Some r | Panic _ => None end.
(** Server 3 in that state: the hypotheses of C26 hold with the five entries; an index that is
    not decided is refused, a decided one is not. *)
Example C26_case :
  (exists o, nodes sys_snap 3 = Some o /\ server_state o /\ settled o /\ represents (storage o) ([11; 12; 13; 14; 15] : list (@T list_entry))) /\
  obs sys_snap 3 (fun o => (ms_comp (storage o), ret_of' o (CSnapshot (Some 9) true), ret_of' o (CSnapshot (Some 4) true), ret_of' o (CSnapshot (Some 2) true))) =
    Some (3, Some (RCompact (Some (UndecidedIndex 5))), Some (RCompact None), Some (RCompact None)) /\
  obs sys_snap 3 (fun o => match exec o (CSnapshot (Some 4) true) with Ok (o', _) => Some (ms_comp (storage o'), ms_snap (storage o'), ms_log (storage o')) | Panic _ => None end) =
    Some (Some (4, Some ([11; 12; 13; 14] : @Snap list_entry), ([15] : list (@T list_entry)))).
Proof.
  split; [|vm_compute; auto].
  assert (W : exists o, nodes sys_snap 3 = Some o /\ (i_acc (s_is (o_sp o)) =? log_end (storage o)) && (get_decided_idx o <=? log_end (storage o)) = true /\
    (ms_comp (storage o), ms_log (storage o), ms_snap (storage o)) = (3, ([14; 15] : list (@T list_entry)), Some ([11; 12; 13] : @Snap list_entry))).
  { eexists. split; [vm_compute; reflexivity|]. split; vm_compute; reflexivity. }
  destruct W as (o & N & T & X). apply andb_true_iff in T. destruct T as [T1 T2]. injection X as X1 X2 X3. exists o. split; [exact N|].
  split; [exact (cluster_server_state _ _ _ _ 3 o snap_reach N)|]. split; [split; [apply Nat.eqb_eq; exact T1|apply Nat.leb_le; exact T2]|].
  unfold represents. rewrite X1, X2, X3. split; [cbn; lia|]. split; reflexivity.
Qed.
End Case.

Print Assumptions C26_snapshot_call.
Print Assumptions C26_kept_by_calls.
Print Assumptions C26_snapshot_calls.
Print Assumptions C27_snapshot_contents_partial.
Print Assumptions C27_snapshots_agree_partial.
Print Assumptions C27_shown_snapshot_partial.
Print Assumptions C28_snapshot_label_partial.
