(** * C74: what the dashboard shows, and when it panics *)
From Coq Require Import List Arith Bool Lia.
Import ListNotations.
From Verif Require Import Types Config MemStore Internal LeaderState SeqPaxos Ble Omni System Basics Scen Spec Refute PropAgreement Local Frame PropLocal Ui.
From Verif Require Agree PropElect PropHeart PropRounds PropCompact PropLeader PropChosen PropRoute.

Section WithEntry.
Context {E : EntryT}.

(** ** The specification *)

(** The dashboard of server [p], built from the configuration of this server and updated with the states [us]. *)
Definition dashboard (cc : cluster_config) (sc : server_config) (us : list ui_states) (a : dash) : Prop :=
  exists a0, app_with (ui_config_from cc sc) = Some a0 /\ ui_ticks a0 us = Some a.
(** What the last update said. *)
Definition last_leader (us : list ui_states) : option node_id := last (map us_leader us) None.
Definition last_decided (us : list ui_states) : nat := last (map us_decided us) 0.
(** The index that server [q] has acknowledged, as recorded at [o]. *)
Definition recorded (o : omni) (q : node_id) : option nat := if q =? 0 then None else nth_error (l_accs (s_ls (o_sp o))) (q - 1).
(** The row of server [q] in the table of peers. *)
Definition row (a : dash) (q : node_id) (n : ui_node) : Prop := In n (ap_peers a) /\ nd_pid n = q.

(** ** Every server of an execution *)

Lemma reach_local cc scs (Q : node_id -> omni -> Prop) :
  (forall sc st o, build cc sc st = BOk o -> Q (sc_pid sc) o) ->
  (forall p o c o' r, Framed o -> Q p o -> exec o c = Ok (o', r) -> Q p o') ->
  (forall p o o' ms, Framed o -> Q p o -> take_outgoing_messages o [] = (o', ms) -> Q p o') ->
  forall l s, reaches cc scs l s -> forall p o, nodes s p = Some o -> Framed o /\ Q p o.
Proof.
  intros HB HX HT l. unfold reaches.
  assert (H0 : forall p o, nodes (init_sys cc scs) p = Some o -> Framed o /\ Q p o).
  { intros p o. cbn [nodes init_sys]. destruct (existsb _ _ && _) eqn:Hx; [|discriminate]. apply andb_true_iff in Hx. destruct Hx as [_ Hx]. apply Nat.eqb_eq in Hx.
    destruct (build cc (scs p) ms_default) as [| |o1] eqn:Hb; try discriminate. intros X. injection X as <-. split; [eapply build_f; eauto|]. apply HB in Hb. rewrite Hx in Hb. exact Hb. }
  revert H0. generalize (init_sys cc scs). induction l as [|a l IH]; intros s0 H s R; cbn [run] in R; [injection R as <-; exact H|].
  destruct (exec_action cc s0 a) as [s1|] eqn:He; [|discriminate]. apply (IH s1); [|exact R]. clear IH R. intros p o Ho.
  destruct a as [q ev|q|src dst k|q ev j sc]; cbn [exec_action] in He.
  - destruct (nodes s0 q) as [o1|] eqn:Hq; [|discriminate]. destruct (event_call s0 q ev) as [c|]; [|discriminate]. destruct (exec o1 c) as [[o2 r]|] eqn:Hx; [|discriminate]. injection He as <-. cbn [nodes] in Ho. unfold upd1 in Ho.
    destruct (Nat.eqb_spec p q) as [->|]; [|apply H; exact Ho]. injection Ho as <-. destruct (H q o1 Hq) as (F1 & F2). split; [apply (framed_exec _ _ _ _ F1 Hx)|eauto].
  - destruct (nodes s0 q) as [o1|] eqn:Hq; [|discriminate]. destruct (take_outgoing_messages o1 []) as [o2 ms] eqn:Ht. injection He as <-. cbn [nodes] in Ho. unfold upd1 in Ho.
    destruct (Nat.eqb_spec p q) as [->|]; [|apply H; exact Ho]. injection Ho as <-. destruct (H q o1 Hq) as (F1 & F2). split; [eapply framed_take; eauto|eauto].
  - injection He as <-. apply H. exact Ho.
  - destruct (nodes s0 q) as [o1|] eqn:Hq; [|discriminate]. destruct (event_call s0 q ev) as [c|]; [|discriminate]. destruct (nth_error _ j) as [st|]; [|discriminate]. destruct (Nat.eqb_spec (sc_pid sc) q) as [Hsq|]; [|discriminate].
    destruct (build cc sc st) as [| |o2] eqn:Hb; try discriminate. injection He as <-. cbn [nodes] in Ho. unfold upd1 in Ho. destruct (Nat.eqb_spec p q) as [->|]; [|apply H; exact Ho]. injection Ho as <-. split; [eapply build_f; eauto|]. apply HB in Hb. rewrite Hsq in Hb. exact Hb.
Qed.

(** The largest id, as both sides compute it. *)
Definition top_pid (cc : cluster_config) (p : node_id) : nat :=
  match peers_of cc p with [] => 0 | x :: r => Nat.max (fold_left Nat.max r x) p end.
Lemma reach_top cc scs l s p o : reaches cc scs l s -> nodes s p = Some o -> peers_of cc p <> [] /\ length (l_accs (s_ls (o_sp o))) = top_pid cc p.
Proof.
  intros R Ho. destruct (reach_local cc scs (fun p o => peers_of cc p <> [] /\ maxpid o = top_pid cc p)) with (l := l) (s := s) (p := p) (o := o) as (HF & H1 & H2); auto.
  - clear. intros sc st o Hb. unfold build in Hb. destruct (config_validate cc sc); [|discriminate]. destruct (sp_with _ _ _ _ _) as [x|] eqn:Hw; [|discriminate]. injection Hb as <-.
    unfold sp_with in Hw. unfold top_pid. destruct (peers_of cc (sc_pid sc)) as [|p0 pr]; [discriminate|]. destruct (ms_prom st); injection Hw as <-; (split; [discriminate|reflexivity]).
  - clear. intros p o c o' r F [H1 H2] He. destruct (framed_exec _ _ _ _ F He) as (_ & _ & _ & X & _). split; [exact H1|congruence].
  - clear. intros p o o' ms F [H1 H2] Ht. split; [exact H1|]. unfold take_outgoing_messages, sp_take_outgoing in Ht. injection Ht as <- _. exact H2.
  - split; [exact H1|]. rewrite <- H2. apply (lv_accs _ _ _ (fr_ls _ _ _ _ _ (proj1 HF))).
Qed.

(** ** The nodes of the dashboard *)

Lemma insert_in x y l : In y (insert x l) <-> y = x \/ In y l.
Proof. induction l as [|z l IH]; cbn; [intuition|]. destruct (x <=? z); cbn; [intuition|]. rewrite IH. intuition. Qed.
Lemma sort_in y l : In y (sort l) <-> In y l.
Proof. induction l as [|x l IH]; cbn; [tauto|]. rewrite insert_in, IH. intuition. Qed.
Lemma make_pids l : forall i, map nd_pid (make_nodes i l) = l.
Proof. induction l as [|x l IH]; intros i; cbn; [reflexivity|]. rewrite IH. reflexivity. Qed.
Lemma filter_pids p l : map nd_pid (filter (fun n => negb (nd_pid n =? p)) l) = filter (fun x => negb (x =? p)) (map nd_pid l).
Proof. induction l as [|n l IH]; cbn; [reflexivity|]. destruct (negb _); cbn; rewrite IH; reflexivity. Qed.

(** What stays as it is. *)
Record DI (cc : cluster_config) (p : node_id) (a : dash) : Prop := mkDI {
  di_pid : nd_pid (ap_node a) = p;
  di_nodes : forall q, In q (map nd_pid (ap_nodes a)) <-> In q (cc_nodes cc) \/ q = p;
  di_peers : forall q, In q (map nd_pid (ap_peers a)) <-> In q (cc_nodes cc) /\ q <> p;
  di_prog : length (ap_progress a) = top_pid cc p + 1;
  di_acc : length (ap_accepted a) = top_pid cc p + 1;
  di_draw : ap_role a = ULeader -> draws a = true
}.

Lemma di_with cc sc a : app_with (ui_config_from cc sc) = Some a -> DI cc (sc_pid sc) a /\ ap_leader a = None /\ ap_decided a = 0.
Proof.
  unfold app_with, ui_config_from. cbn [uc_pid uc_peers].
  change (filter (fun x => negb (x =? sc_pid sc)) (cc_nodes cc)) with (peers_of cc (sc_pid sc)). destruct (peers_of cc (sc_pid sc)) as [|x r] eqn:Hp; [discriminate|].
  intros X. injection X as <-. split; [|split; reflexivity].
  assert (Hin : forall q, In q (x :: r) <-> In q (cc_nodes cc) /\ q <> sc_pid sc).
  { intros q. rewrite <- Hp. unfold peers_of. rewrite filter_In, negb_true_iff, Nat.eqb_neq. tauto. }
  change (x :: r ++ [sc_pid sc]) with ((x :: r) ++ [sc_pid sc]).
  assert (Hn : forall q, In q (sort ((x :: r) ++ [sc_pid sc])) <-> In q (cc_nodes cc) \/ q = sc_pid sc).
  { intros q. rewrite sort_in, in_app_iff, Hin. cbn. destruct (Nat.eq_dec q (sc_pid sc)); intuition. }
  constructor; cbn [ap_node ap_nodes ap_peers ap_progress ap_accepted ap_role nd_pid]; auto; try discriminate.
  - intros q. rewrite make_pids. apply Hn.
  - intros q. rewrite filter_pids, make_pids, filter_In, Hn, negb_true_iff, Nat.eqb_neq. tauto.
  - rewrite repeat_length. unfold top_pid. rewrite Hp. reflexivity.
  - rewrite repeat_length. unfold top_pid. rewrite Hp. reflexivity.
Qed.

(** ** One tick *)

Lemma put_some {A} (v : list A) i x : i < length v -> put v i x = Some (upd v i x).
Proof. intros H. unfold put. destruct (Nat.ltb_spec i (length v)); [reflexivity|lia]. Qed.
Lemma put_none {A} (v : list A) i x : length v <= i -> put v i x = None.
Proof. intros H. unfold put. destruct (Nat.ltb_spec i (length v)); [lia|reflexivity]. Qed.

Definition frac (d x : nat) : nat * nat := if d =? 0 then (0, 1) else (x, d).
Lemma fill_some d l : forall i pr ac, i + length l <= length pr -> i + length l <= length ac ->
  exists pr' ac', fill i d l pr ac = Some (pr', ac') /\ length pr' = length pr /\ length ac' = length ac /\
  (forall j, j < length l -> nth_error pr' (i + j) = option_map (frac d) (nth_error l j) /\ nth_error ac' (i + j) = nth_error l j) /\
  (forall j, j < i -> nth_error pr' j = nth_error pr j /\ nth_error ac' j = nth_error ac j).
Proof.
  induction l as [|x l IH]; intros i pr ac H1 H2; cbn [fill length] in *.
  - exists pr, ac. repeat split; auto; lia.
  - rewrite !put_some by lia. fold (frac d x). destruct (IH (i + 1) (upd pr i (frac d x)) (upd ac i x)) as (pr' & ac' & F & L1 & L2 & V & W); rewrite ?upd_len; try lia.
    rewrite upd_len in L1. rewrite upd_len in L2. exists pr', ac'. split; [exact F|]. split; [exact L1|]. split; [exact L2|]. split.
    + intros [|j] Hj.
      * destruct (W i ltac:(lia)) as [W1 W2]. rewrite Nat.add_0_r, W1, W2, !upd_nth by lia. rewrite Nat.eqb_refl. split; reflexivity.
      * destruct (V j ltac:(lia)) as [V1 V2]. replace (i + S j) with (i + 1 + j) by lia. split; [exact V1|exact V2].
    + intros j Hj. destruct (W j ltac:(lia)) as [W1 W2]. rewrite W1, W2, !upd_nth by lia. destruct (Nat.eqb_spec j i); [lia|]. split; reflexivity.
Qed.
Lemma fill_len d l : forall i pr ac pr' ac', fill i d l pr ac = Some (pr', ac') -> length pr' = length pr /\ length ac' = length ac.
Proof.
  induction l as [|x l IH]; intros i pr ac pr' ac' H; cbn [fill] in H; [injection H as <- <-; auto|].
  destruct (put pr i _) as [pr1|] eqn:H1; [|discriminate]. destruct (put ac i x) as [ac1|] eqn:H2; [|discriminate].
  unfold put in H1, H2. destruct (i <? length pr); [|discriminate]. destruct (i <? length ac); [|discriminate]. injection H1 as <-. injection H2 as <-. apply IH in H. rewrite !upd_len in H. exact H.
Qed.

Lemma peer_pid hs n : nd_pid (update_peer hs n) = nd_pid n.
Proof. unfold update_peer. destruct (find _ hs); reflexivity. Qed.
Lemma peers_pid hs l : map nd_pid (map (update_peer hs) l) = map nd_pid l.
Proof. rewrite map_map. apply map_ext. intros n. apply peer_pid. Qed.

(** [draws] in terms of the ids of the peers. *)
Definition fits (ac : list nat) (pr : list (nat * nat)) (q : nat) : bool :=
  (q <? length ac) && match nth_error pr q with Some (x, d) => x <=? d | None => false end.
Lemma draws_pids a : draws a = match ap_role a with UFollower => true | ULeader => (nd_pid (ap_node a) <? length (ap_accepted a)) && forallb (fits (ap_accepted a) (ap_progress a)) (map nd_pid (ap_peers a)) end.
Proof.
  unfold draws. destruct (ap_role a); [reflexivity|]. f_equal. generalize (ap_peers a). induction l as [|n l IH]; cbn [forallb map]; [reflexivity|]. rewrite IH. reflexivity.
Qed.

(** The steps of a tick. *)
Lemma tick_parts a u a' : ui_tick a u = Some a' ->
  exists r pr ac c t,
    sub_chk (us_decided u) (ap_decided a) = Some t /\
    a' = mkApp (mkNode (nd_pid (ap_node a)) (b_n (us_ballot u)) (nd_leader (ap_node a)) (nd_color (ap_node a)) (nd_connected (ap_node a)))
           (us_leader u) c r (us_decided u) (ap_nodes a) (map (update_peer (cs_heartbeats (us_cluster u))) (ap_peers a)) (t :: ap_throughput a) pr ac /\
    draws a' = true /\
    match ap_leader a with
    | None => r = ap_role a /\ pr = ap_progress a /\ ac = ap_accepted a
    | Some q =>
        if q =? nd_pid (ap_node a) then r = ULeader /\ exists d, nth_error (cs_accepted (us_cluster u)) q = Some d /\ fill 0 d (cs_accepted (us_cluster u)) (ap_progress a) (ap_accepted a) = Some (pr, ac)
        else r = UFollower /\ pr = ap_progress a /\ ac = ap_accepted a
    end.
Proof.
  unfold ui_tick, set_decided_idx. cbn [ap_decided ap_set_node]. destruct (sub_chk _ _) as [t|]; [|discriminate].
  assert (Fin : forall n l c0 r pr ac, nd_pid n = nd_pid (ap_node a) ->
    match ui_update_leader (update_active_peers (mkApp n l c0 r (us_decided u) (ap_nodes a) (ap_peers a) (t :: ap_throughput a) pr ac) u) u with None => None | Some a2 => if draws a2 then Some a2 else None end = Some a' ->
    exists c, a' = mkApp n (us_leader u) c r (us_decided u) (ap_nodes a) (map (update_peer (cs_heartbeats (us_cluster u))) (ap_peers a)) (t :: ap_throughput a) pr ac /\ draws a' = true).
  { intros n l c0 r pr ac _ H. unfold ui_update_leader in H. destruct (us_leader u) as [q|].
    - destruct (q =? _).
      + destruct (draws _) eqn:Hd; [|discriminate]. injection H as <-. eexists. split; [reflexivity|exact Hd].
      + destruct (find _ _) as [m|]; [|discriminate]. destruct (draws _) eqn:Hd; [|discriminate]. injection H as <-. eexists. split; [reflexivity|exact Hd].
    - destruct (draws _) eqn:Hd; [|discriminate]. injection H as <-. eexists. split; [reflexivity|exact Hd]. }
  unfold update_progress. cbn [ap_leader ap_set_decided ap_set_node ap_node nd_pid]. destruct (ap_leader a) as [q|].
  - destruct (q =? nd_pid (ap_node a)) eqn:Hq.
    + destruct (nth_error (cs_accepted (us_cluster u)) q) as [d|] eqn:Hd; [|discriminate]. destruct (fill _ _ _ _ _) as [[pr ac]|] eqn:Hf; [|discriminate].
      intros H. apply Fin in H; [|reflexivity]. destruct H as (c & H1 & H2). exists ULeader, pr, ac, c, t. split; [reflexivity|]. split; [exact H1|]. split; [exact H2|]. split; [reflexivity|]. exists d. split; [reflexivity|exact Hf].
    + intros H. apply Fin in H; [|reflexivity]. destruct H as (c & H1 & H2). exists UFollower, (ap_progress a), (ap_accepted a), c, t. auto 10.
  - intros H. apply Fin in H; [|reflexivity]. destruct H as (c & H1 & H2). exists (ap_role a), (ap_progress a), (ap_accepted a), c, t. auto 10.
Qed.

Lemma di_tick cc p a u a' : DI cc p a -> ui_tick a u = Some a' -> DI cc p a' /\ ap_leader a' = us_leader u /\ ap_decided a' = us_decided u.
Proof.
  intros [D1 D2 D3 D4 D5 D6] H. destruct (tick_parts _ _ _ H) as (r & pr & ac & c & t & _ & -> & Hd & Hm). split; [|split; reflexivity].
  assert (HL : length pr = top_pid cc p + 1 /\ length ac = top_pid cc p + 1).
  { destruct (ap_leader a) as [q|]; [destruct (q =? _)|].
    - destruct Hm as (_ & d & _ & Hf). apply fill_len in Hf. lia.
    - destruct Hm as (_ & -> & ->). auto.
    - destruct Hm as (_ & -> & ->). auto. }
  constructor; cbn [ap_node ap_nodes ap_peers ap_progress ap_accepted ap_role nd_pid]; try tauto; auto.
  intros q. rewrite peers_pid. apply D3.
Qed.
Lemma di_ticks cc p us : forall a a', DI cc p a -> ui_ticks a us = Some a' -> DI cc p a' /\ ap_leader a' = last (map us_leader us) (ap_leader a) /\ ap_decided a' = last (map us_decided us) (ap_decided a).
Proof.
  induction us as [|u us IH]; intros a a' D H; cbn [ui_ticks] in H; [injection H as <-; auto|]. destruct (ui_tick a u) as [a1|] eqn:Ht; [|discriminate].
  destruct (di_tick _ _ _ _ _ D Ht) as (D1 & L1 & L2). destruct (IH a1 a' D1 H) as (D2 & L3 & L4). split; [exact D2|]. rewrite L3, L4, L1, L2. clear.
  split; destruct us as [|v us]; cbn [map last]; auto; revert v; induction us as [|w us IH]; intros v; cbn [map last] in *; auto.
Qed.
Lemma dash_di cc sc us a : dashboard cc sc us a -> DI cc (sc_pid sc) a /\ ap_leader a = last_leader us /\ ap_decided a = last_decided us.
Proof.
  intros (a0 & H0 & H). destruct (di_with _ _ _ H0) as (D & L1 & L2). destruct (di_ticks _ _ _ _ _ D H) as (D1 & L3 & L4). rewrite L1 in L3. rewrite L2 in L4. auto.
Qed.

(** The leader that a server reports has a row. *)
Lemma leader_known cc scs l s p o a n la lc r d t pr ac pe : ~ In 0 (cc_nodes cc) -> reaches cc scs l s -> nodes s p = Some o -> DI cc p a -> nd_pid n = p ->
  exists c, ui_update_leader (mkApp n la lc r d (ap_nodes a) pe t pr ac) (get_ui_states o) = Some (mkApp n (us_leader (get_ui_states o)) c r d (ap_nodes a) pe t pr ac).
Proof.
  intros H0 R Ho D Hn. pose proof (PropLeader.C70_reported_leader_is_a_server cc scs l s p o H0 R Ho) as HL. unfold ui_update_leader. cbn [us_leader get_ui_states]. destruct (get_current_leader o) as [[q b]|]; cbn [option_map fst]; [|eexists; reflexivity].
  cbn [ap_node ap_nodes]. destruct (q =? nd_pid n); [eexists; reflexivity|]. destruct (find (fun n => nd_pid n =? q) (ap_nodes a)) as [m|] eqn:Hf; [eexists; reflexivity|].
  exfalso. assert (X : In q (map nd_pid (ap_nodes a))) by (apply (di_nodes _ _ _ D); auto). apply in_map_iff in X. destruct X as (m & X1 & X2). pose proof (find_none _ _ Hf m X2) as X3. cbn in X3. rewrite X1, Nat.eqb_refl in X3. discriminate.
Qed.
Lemma in_range cc scs l s p o q : ~ In 0 (cc_nodes cc) -> reaches cc scs l s -> nodes s p = Some o -> In q (cc_nodes cc) \/ q = p -> 1 <= q <= top_pid cc p.
Proof.
  intros H0 R Ho Hq. destruct (PropCompact.reach_sp cc scs l s p o R Ho) as ((F1 & F2 & F3) & Hp & Hps). destruct (reach_top cc scs l s p o R Ho) as [_ Ht]. pose proof (lv_accs _ _ _ (fr_ls _ _ _ _ _ F1)) as La. rewrite <- Ht, La.
  destruct (Nat.eq_dec q p) as [->|Hne]; [rewrite <- Hp; exact F2|]. destruct Hq as [Hq|]; [|contradiction]. rewrite Forall_forall in F3.
  assert (X : In q (s_peers (o_sp o))). { rewrite Hps. apply filter_In. split; [exact Hq|]. apply negb_true_iff, Nat.eqb_neq. exact Hne. }
  destruct (F3 q X). assert (q <> 0) by (intros ->; contradiction). lia.
Qed.
Lemma acc_at o q : 1 <= q -> nth_error (cs_accepted (us_cluster (get_ui_states o))) q = recorded o q.
Proof. intros H. cbn [get_ui_states us_cluster cs_accepted cluster_state_from]. unfold recorded. destruct q as [|q]; [lia|]. cbn [nth_error Nat.eqb]. replace (S q - 1) with q by lia. reflexivity. Qed.
Lemma recorded_some cc scs l s p o q : reaches cc scs l s -> nodes s p = Some o -> 1 <= q <= top_pid cc p -> exists k, recorded o q = Some k.
Proof.
  intros R Ho Hq. destruct (reach_top cc scs l s p o R Ho) as [_ Ht]. unfold recorded. destruct (Nat.eqb_spec q 0); [lia|]. destruct (nth_error _ _) as [k|] eqn:Hk; [eauto|]. apply nth_error_None in Hk. lia.
Qed.

(** ** The theorems *)

(** A dashboard can be built for every server of an execution. *)
Theorem C74_dashboard_exists :
  forall cc scs l s p o sc, reaches cc scs l s -> nodes s p = Some o -> sc_pid sc = p -> exists a, dashboard cc sc [] a.
Proof.
  intros cc scs l s p o sc R Ho Hp. destruct (reach_top cc scs l s p o R Ho) as [Hne _]. unfold dashboard, app_with, ui_config_from. cbn [uc_pid uc_peers].
  change (filter (fun x => negb (x =? sc_pid sc)) (cc_nodes cc)) with (peers_of cc (sc_pid sc)). rewrite Hp. destruct (peers_of cc p) as [|x r]; [contradiction|]. eexists. eexists. split; reflexivity.
Qed.

(** When a tick panics, exactly: the decided index has gone down since the last tick, or the last tick showed the
    server itself as the leader and now a peer has acknowledged more than the server itself (and the server
    not nothing).  The states shown before are arbitrary. *)
Theorem C74_panics_iff :
  forall cc scs l s p o sc us a,
  ~ In 0 (cc_nodes cc) -> reaches cc scs l s -> nodes s p = Some o -> sc_pid sc = p -> dashboard cc sc us a ->
  (ui_tick a (get_ui_states o) = None <->
   get_decided_idx o < last_decided us \/
   (last_leader us = Some p /\ exists q d k, In q (cc_nodes cc) /\ q <> p /\ recorded o p = Some d /\ recorded o q = Some k /\ 0 < d /\ d < k)).
Proof.
  intros cc scs l s p o sc us a H0 R Ho Hsc HD. destruct (dash_di _ _ _ _ HD) as (D & L1 & L2). rewrite Hsc in D. rewrite <- L1, <- L2. clear HD L1 L2 us.
  unfold ui_tick, set_decided_idx. cbn [ap_decided ap_set_node]. change (us_decided (get_ui_states o)) with (get_decided_idx o). unfold sub_chk.
  destruct (Nat.leb_spec (ap_decided a) (get_decided_idx o)) as [Hle|Hlt]; [|split; auto].
  pose proof (di_pid _ _ _ D) as Dp. set (n := mkNode _ _ _ _ _). assert (Hn : nd_pid n = p) by exact Dp.
  set (pe := map (update_peer (cs_heartbeats (us_cluster (get_ui_states o)))) (ap_peers a)).
  assert (Hpe : forall q, In q (map nd_pid pe) <-> In q (cc_nodes cc) /\ q <> p) by (intros q; unfold pe; rewrite peers_pid; apply (di_peers _ _ _ D)).
  assert (Fin : forall r la lc t pr ac, exists a2, ap_role a2 = r /\ ap_accepted a2 = ac /\ ap_progress a2 = pr /\ ap_peers a2 = pe /\ nd_pid (ap_node a2) = p /\
    ui_update_leader (update_active_peers (mkApp n la lc r (get_decided_idx o) (ap_nodes a) (ap_peers a) t pr ac) (get_ui_states o)) (get_ui_states o) = Some a2).
  { intros r la lc t pr ac. destruct (leader_known cc scs l s p o a n la lc r (get_decided_idx o) t pr ac pe H0 R Ho D Hn) as (c & Hc). eexists. split; [|split; [|split; [|split; [|split]]]]; [| | | | |exact Hc]; auto. }
  unfold update_progress. cbn [ap_leader ap_set_decided ap_set_node ap_node]. rewrite Hn.
  destruct (ap_leader a) as [q|] eqn:Hl.
  - destruct (Nat.eqb_spec q p) as [->|Hqp].
    + pose proof (in_range cc scs l s p o p H0 R Ho (or_intror eq_refl)) as Rp. rewrite acc_at by lia. destruct (recorded_some cc scs l s p o p R Ho Rp) as (d & Hd). rewrite Hd.
      set (ll := cs_accepted (us_cluster (get_ui_states o))). assert (Lll : length ll = top_pid cc p + 1). { unfold ll. cbn [get_ui_states us_cluster cs_accepted cluster_state_from length]. destruct (reach_top cc scs l s p o R Ho) as [_ Ht]. lia. }
      change (ap_progress (ap_set_role _ ULeader)) with (ap_progress a). change (ap_accepted (ap_set_role _ ULeader)) with (ap_accepted a).
      pose proof (di_prog _ _ _ D) as D4. pose proof (di_acc _ _ _ D) as D5. destruct (fill_some d ll 0 (ap_progress a) (ap_accepted a)) as (pr & ac & Hf & E1 & E2 & V & _); try lia. rewrite Hf. clear Hf.
      unfold ap_set_progress, ap_set_role, ap_set_decided, ap_set_node; cbn [ap_node ap_leader ap_color ap_role ap_decided ap_nodes ap_peers ap_throughput ap_progress ap_accepted]; rewrite ?Hl.
      destruct (Fin ULeader (Some p) (ap_color a) (get_decided_idx o - ap_decided a :: ap_throughput a) pr ac) as (a2 & A1 & A2 & A3 & A4 & A5 & A6). rewrite A6. clear A6 Fin.
      assert (HF : draws a2 = true <-> forall q k, In q (cc_nodes cc) -> q <> p -> recorded o q = Some k -> 0 < d -> k <= d).
      { rewrite draws_pids, A1, A2, A3, A4, A5, andb_true_iff, Nat.ltb_lt, forallb_forall. split.
        - intros [_ H] q k Hq Hne Hk Hd0. specialize (H q (proj2 (Hpe q) (conj Hq Hne))). unfold fits in H. apply andb_true_iff in H. destruct H as [_ H].
          pose proof (in_range cc scs l s p o q H0 R Ho (or_introl Hq)) as Rq. destruct (V q ltac:(lia)) as [V1 _]. cbn [Nat.add] in V1. unfold ll in V1. rewrite acc_at, Hk in V1 by lia. cbn [option_map] in V1. rewrite V1 in H. unfold frac in H. destruct (Nat.eqb_spec d 0); [lia|]. apply Nat.leb_le. exact H.
        - intros H. split; [lia|]. intros q Hin. apply Hpe in Hin. destruct Hin as [Hq Hne]. pose proof (in_range cc scs l s p o q H0 R Ho (or_introl Hq)) as Rq. unfold fits. apply andb_true_iff. split; [apply Nat.ltb_lt; lia|].
          destruct (V q ltac:(lia)) as [V1 _]. cbn [Nat.add] in V1. unfold ll in V1. destruct (recorded_some cc scs l s p o q R Ho Rq) as (k & Hk). rewrite acc_at, Hk in V1 by lia. cbn [option_map] in V1. rewrite V1. unfold frac. destruct (Nat.eqb_spec d 0); [reflexivity|]. apply Nat.leb_le. apply (H q k Hq Hne Hk). lia. }
      destruct (draws a2) eqn:Hdr.
      * split; [discriminate|]. intros [X|(_ & q & d' & k & Q1 & Q2 & Q3 & Q4 & Q5 & Q6)]; [lia|]. injection Q3 as <-. pose proof (proj1 HF eq_refl q k Q1 Q2 Q4 Q5). lia.
      * split; [|reflexivity]. intros _. right. split; [reflexivity|].
        assert (Hex : ~ forall q, In q (map nd_pid pe) -> fits ac pr q = true).
        { intros H. rewrite draws_pids, A1, A2, A3, A4, A5 in Hdr. assert (X : (p <? length ac) && forallb (fits ac pr) (map nd_pid pe) = true) by (apply andb_true_iff; split; [apply Nat.ltb_lt; lia|apply forallb_forall; exact H]). congruence. }
        destruct (forallb (fits ac pr) (map nd_pid pe)) eqn:Hfb; [exfalso; apply Hex; apply forallb_forall; exact Hfb|].
        assert (Y : exists q, In q (map nd_pid pe) /\ fits ac pr q = false). { clear -Hfb. induction (map nd_pid pe) as [|x r IH]; cbn in Hfb; [discriminate|]. destruct (fits ac pr x) eqn:Hx; [|exists x; split; [left; reflexivity|exact Hx]]. destruct (IH Hfb) as (q & Q1 & Q2). exists q. split; [right; exact Q1|exact Q2]. }
        destruct Y as (q & Y1 & Y2). apply Hpe in Y1. destruct Y1 as [Hq Hne]. pose proof (in_range cc scs l s p o q H0 R Ho (or_introl Hq)) as Rq. destruct (recorded_some cc scs l s p o q R Ho Rq) as (k & Hk).
        destruct (V q ltac:(lia)) as [V1 _]. cbn [Nat.add] in V1. unfold ll in V1. rewrite acc_at, Hk in V1 by lia. cbn [option_map] in V1. unfold fits in Y2. rewrite V1 in Y2.
        assert (Z : q <? length ac = true) by (apply Nat.ltb_lt; lia). rewrite Z in Y2. cbn [andb] in Y2. unfold frac in Y2. destruct (Nat.eqb_spec d 0); [discriminate|]. apply Nat.leb_gt in Y2. exists q, d, k. repeat split; auto. lia.
    + unfold ap_set_progress, ap_set_role, ap_set_decided, ap_set_node; cbn [ap_node ap_leader ap_color ap_role ap_decided ap_nodes ap_peers ap_throughput ap_progress ap_accepted]; rewrite ?Hl.
      destruct (Fin UFollower (Some q) (ap_color a) (get_decided_idx o - ap_decided a :: ap_throughput a) (ap_progress a) (ap_accepted a)) as (a2 & A1 & A2 & A3 & A4 & A5 & A6). rewrite A6. rewrite draws_pids, A1.
      split; [discriminate|]. intros [X|[X _]]; [lia|congruence].
  - unfold ap_set_progress, ap_set_role, ap_set_decided, ap_set_node; cbn [ap_node ap_leader ap_color ap_role ap_decided ap_nodes ap_peers ap_throughput ap_progress ap_accepted]; rewrite ?Hl.
    destruct (Fin (ap_role a) None (ap_color a) (get_decided_idx o - ap_decided a :: ap_throughput a) (ap_progress a) (ap_accepted a)) as (a2 & A1 & A2 & A3 & A4 & A5 & A6). rewrite A6.
    assert (X : draws a2 = true). { rewrite draws_pids, A1, A2, A3, A4, A5. pose proof (di_draw _ _ _ D) as Dd. rewrite draws_pids in Dd. destruct (ap_role a); [reflexivity|]. specialize (Dd eq_refl). rewrite Dp in Dd. unfold pe. rewrite peers_pid. exact Dd. }
    rewrite X. split; [discriminate|]. intros [Y|[Y _]]; [lia|congruence].
Qed.

(** What a tick shows of the server and of its peers.  The heartbeats are the subject of
    [C74_heartbeats_of_the_previous_round]. *)
Theorem C74_shows :
  forall cc scs l s p o sc us a a',
  reaches cc scs l s -> nodes s p = Some o -> sc_pid sc = p -> dashboard cc sc us a -> ui_tick a (get_ui_states o) = Some a' ->
  nd_pid (ap_node a') = p /\ nd_ballot (ap_node a') = b_n (own_ballot o) /\
  ap_decided a' = get_decided_idx o /\ ap_leader a' = option_map fst (get_current_leader o) /\
  (exists t, ap_throughput a' = t :: ap_throughput a /\ last_decided us + t = get_decided_idx o) /\
  (forall q, (exists n, row a' q n) <-> In q (cc_nodes cc) /\ q <> p) /\
  forall q n, row a' q n ->
    (nd_connected n = true <-> exists r, In r (us_heartbeats (get_ui_states o)) /\ b_pid (hr_ballot r) = q) /\
    (nd_connected n = true -> exists r, In r (us_heartbeats (get_ui_states o)) /\ hr_ballot r = mkB (b_cfg (hr_ballot r)) (nd_ballot n) (b_prio (hr_ballot r)) q /\ b_pid (hr_leader r) = nd_leader n).
Proof.
  intros cc scs l s p o sc us a a' R Ho Hsc HD H. destruct (dash_di _ _ _ _ HD) as (D & _ & L2). rewrite Hsc in D. destruct (tick_parts _ _ _ H) as (r & pr & ac & c & t & Ht & -> & _ & _).
  cbn [ap_node nd_pid nd_ballot ap_decided ap_leader ap_throughput]. split; [apply (di_pid _ _ _ D)|]. split; [reflexivity|]. split; [reflexivity|]. split; [reflexivity|]. split.
  { exists t. split; [reflexivity|]. unfold sub_chk in Ht. change (us_decided (get_ui_states o)) with (get_decided_idx o) in Ht. destruct (Nat.leb_spec (ap_decided a) (get_decided_idx o)); [|discriminate]. injection Ht as <-. lia. }
  unfold row. cbn [ap_peers]. split.
  - intros q. rewrite <- (di_peers _ _ _ D q), <- (peers_pid (cs_heartbeats (us_cluster (get_ui_states o)))), in_map_iff. split; intros (n & A & B); exists n; tauto.
  - intros q n [Hn Hq]. apply in_map_iff in Hn. destruct Hn as (m & <- & Hm). rewrite peer_pid in Hq. change (us_heartbeats (get_ui_states o)) with (cs_heartbeats (us_cluster (get_ui_states o))). unfold update_peer.
    destruct (find _ _) as [h|] eqn:Hf; cbn [nd_connected nd_ballot nd_leader].
    + apply find_some in Hf. destruct Hf as [F1 F2]. apply Nat.eqb_eq in F2. split.
      * split; [|reflexivity]. intros _. exists h. split; [exact F1|congruence].
      * intros _. exists h. split; [exact F1|]. split; [|reflexivity]. destruct (hr_ballot h) as [b1 b2 b3 b4]. cbn in *. congruence.
    + split; [|discriminate]. split; [discriminate|]. intros (x & X1 & X2). pose proof (find_none _ _ Hf x X1) as X3. cbn in X3. rewrite X2, Hq, Nat.eqb_refl in X3. discriminate.
Qed.

(** The role that a tick shows is the one of the tick before: the server leads if the last tick showed it as the leader.  Then the
    accepted indexes and the progress are those recorded now. *)
Theorem C74_shows_role :
  forall cc scs l s p o sc us a a' q,
  ~ In 0 (cc_nodes cc) -> reaches cc scs l s -> nodes s p = Some o -> sc_pid sc = p -> dashboard cc sc us a -> ui_tick a (get_ui_states o) = Some a' ->
  last_leader us = Some q ->
  (ap_role a' = ULeader <-> q = p) /\
  (q = p -> exists d, recorded o p = Some d /\
    forall x, In x (cc_nodes cc) -> exists k, recorded o x = Some k /\ nth_error (ap_accepted a') x = Some k /\ nth_error (ap_progress a') x = Some (if d =? 0 then (0, 1) else (k, d))).
Proof.
  intros cc scs l s p o sc us a a' q H0 R Ho Hsc HD H HL. destruct (dash_di _ _ _ _ HD) as (D & L1 & _). rewrite Hsc in D. destruct (tick_parts _ _ _ H) as (r & pr & ac & c & t & Ht & -> & _ & Hm).
  rewrite L1, HL, (di_pid _ _ _ D) in Hm. cbn [ap_role ap_accepted ap_progress]. destruct (Nat.eqb_spec q p) as [->|Hne].
  - destruct Hm as (-> & d & Hd & Hf). split; [tauto|]. intros _. pose proof (in_range cc scs l s p o p H0 R Ho (or_intror eq_refl)) as Rp. rewrite acc_at in Hd by lia. exists d. split; [exact Hd|].
    intros x Hx. pose proof (in_range cc scs l s p o x H0 R Ho (or_introl Hx)) as Rx. destruct (recorded_some cc scs l s p o x R Ho Rx) as (k & Hk). exists k. split; [exact Hk|].
    assert (Lll : length (cs_accepted (us_cluster (get_ui_states o))) = top_pid cc p + 1). { cbn [get_ui_states us_cluster cs_accepted cluster_state_from length]. destruct (reach_top cc scs l s p o R Ho) as [_ X]. lia. }
    destruct (fill_some d (cs_accepted (us_cluster (get_ui_states o))) 0 (ap_progress a) (ap_accepted a)) as (pr1 & ac1 & F1 & _ & _ & V & _); [rewrite (di_prog _ _ _ D); lia|rewrite (di_acc _ _ _ D); lia|].
    rewrite F1 in Hf. injection Hf as -> ->. destruct (V x ltac:(lia)) as [V1 V2]. cbn [Nat.add] in V1, V2. rewrite acc_at in V1, V2 by lia. rewrite Hk in V1, V2. split; [exact V2|exact V1].
  - destruct Hm as (-> & _). split; [|tauto]. split; [discriminate|tauto].
Qed.

(** Without a stop sign at a leader in the accept phase the progress causes no panic. *)
Theorem C74_no_panic_partial :
  forall cc scs, good_config cc scs ->
  forall l, all_steps h1h2 cc (init_sys cc scs) l ->
  forall s, reaches cc scs l s ->
  forall p o sc us a, nodes s p = Some o -> sc_pid sc = p -> dashboard cc sc us a ->
  last_decided us <= get_decided_idx o ->
  last_leader us <> Some p \/ role_of o = (Leader, PhAccept) /\ ms_ss (storage o) = None ->
  ui_tick a (get_ui_states o) <> None.
Proof.
  intros cc scs HG l Hh s R p o sc us a Ho Hsc HD Hdec Hcase X. pose proof HG as (_ & H0 & _). apply (proj1 (C74_panics_iff cc scs l s p o sc us a H0 R Ho Hsc HD)) in X.
  destruct X as [X|(X & q & d & k & Q1 & Q2 & Q3 & Q4 & Q5 & Q6)]; [lia|]. destruct Hcase as [C|[C1 C2]]; [contradiction|].
  destruct (PropChosen.C57_nobody_acknowledges_more_than_the_leader cc scs HG l Hh s R p o Ho C1 C2) as [A1 A2].
  assert (Eq : forall x, 1 <= x -> PropChosen.acknowledged o x = recorded o x). { intros x Hx. unfold PropChosen.acknowledged, vget, recorded, pid_to_idx, sub_chk. destruct (Nat.leb_spec 1 x); [|lia]. destruct (Nat.eqb_spec x 0); [lia|reflexivity]. }
  pose proof (in_range cc scs l s p o p H0 R Ho (or_intror eq_refl)) as Rp. pose proof (in_range cc scs l s p o q H0 R Ho (or_introl Q1)) as Rq. rewrite Eq in A1 by lia. specialize (A2 q k). rewrite Eq in A2 by lia. specialize (A2 Q4). congruence || (rewrite A1 in Q3; injection Q3 as <-; lia).
Qed.

(** ** The heartbeats *)

Lemma timeout_prev b st prom : e_prev (fst (hb_timeout b st prom)) = e_replies b /\ e_round (fst (hb_timeout b st prom)) = e_round b + 1.
Proof.
  unfold hb_timeout. cbn [fst].
  assert (H1 : forall b, e_replies (update_leader b) = e_replies b /\ e_round (update_leader b) = e_round b).
  { intros x. unfold update_leader. destruct (max_ballot _); auto. destruct (bgt _ _); auto. }
  assert (H2 : forall b, e_replies (check_takeover b) = e_replies b /\ e_round (check_takeover b) = e_round b).
  { intros x. unfold check_takeover. destruct (negb _); auto. destruct (_ && _); auto. }
  set (b1 := update_happiness (update_leader b) st). destruct (H1 b) as [A1 A2]. destruct (H2 b1) as [B1 B2]. change (e_replies b1) with (e_replies (update_leader b)) in B1. change (e_round b1) with (e_round (update_leader b)) in B2.
  rewrite <- A1, <- A2, <- B1, <- B2. destruct (bgt _ _); [|split; reflexivity]. destruct (_ =? _); split; reflexivity.
Qed.

(** The heartbeats shown are the replies that the server had counted when the last election timeout, which ended the round
    before the current one, came; there are none before the first election timeout and after a restart. *)
Theorem C74_heartbeats_of_the_previous_round :
  forall cc scs l s p o, reaches cc scs l s -> nodes s p = Some o ->
  us_heartbeats (get_ui_states o) = cs_heartbeats (us_cluster (get_ui_states o)) /\
  (us_heartbeats (get_ui_states o) = [] \/
   exists l1 l2 s1 o1, l = l1 ++ ADo p (ECall CTick) :: l2 /\ reaches cc scs l1 s1 /\ nodes s1 p = Some o1 /\ election_due o1 /\
     us_heartbeats (get_ui_states o) = replies o1 /\ PropHeart.hb_round o = PropHeart.hb_round o1 + 1).
Proof.
  intros cc scs l s p o R Ho. split; [reflexivity|]. change (us_heartbeats (get_ui_states o)) with (e_prev (o_ble o)). unfold PropHeart.hb_round. revert s o R Ho. induction l as [|a l IH] using rev_ind; intros s o R Ho.
  - left. unfold reaches in R. cbn [run] in R. injection R as <-. cbn [nodes init_sys] in Ho. destruct (existsb _ _ && _); [|discriminate]. destruct (build _ _ _) as [| |o1] eqn:Hb; try discriminate. injection Ho as <-.
    unfold build in Hb. destruct (config_validate _ _); [|discriminate]. destruct (sp_with _ _ _ _ _); [|discriminate]. injection Hb as <-. reflexivity.
  - destruct (Agree.run_app cc l [a] _ _ R) as (s0 & R0 & R1). clear R. rename R1 into R. cbn [run] in R. destruct (exec_action cc s0 a) as [s1|] eqn:He; [|discriminate]. injection R as ->.
    assert (Keep : forall o0, nodes s0 p = Some o0 -> e_prev (o_ble o) = e_prev (o_ble o0) -> e_round (o_ble o) = e_round (o_ble o0) ->
      e_prev (o_ble o) = [] \/ exists l1 l2 s1 o1, l ++ [a] = l1 ++ ADo p (ECall CTick) :: l2 /\ reaches cc scs l1 s1 /\ nodes s1 p = Some o1 /\ election_due o1 /\ e_prev (o_ble o) = replies o1 /\ e_round (o_ble o) = e_round (o_ble o1) + 1).
    { intros o0 N0 E1 E2. rewrite E1, E2. destruct (IH s0 o0 R0 N0) as [X|(l1 & l2 & x & o1 & -> & X)]; [left; exact X|right]. exists l1, (l2 ++ [a]), x, o1. rewrite <- app_assoc. split; [reflexivity|exact X]. }
    destruct a as [q ev|q|src dst k|q ev j sc]; cbn [exec_action] in He.
    + destruct (nodes s0 q) as [o1|] eqn:Hq; [|discriminate]. destruct (event_call s0 q ev) as [c|] eqn:Hc; [|discriminate]. destruct (exec o1 c) as [[o2 r]|] eqn:Hx; [|discriminate]. injection He as <-. cbn [nodes] in Ho. unfold upd1 in Ho.
      destruct (Nat.eqb_spec p q) as [<-|]; [|apply (Keep o Ho); reflexivity]. injection Ho as ->. apply PropElect.exec_ble in Hx. destruct c as [e|cc0 meta| |i|i lo|y| |y|[m|m]]; try (apply (Keep o1 Hq); rewrite Hx; reflexivity).
      * destruct (PropElect.due (o_eclk o1)) eqn:Hdue; [|apply (Keep o1 Hq); rewrite Hx; reflexivity]. destruct (timeout_prev (o_ble o1) (role_of o1) (get_promise o1)) as [T1 T2]. rewrite <- Hx in T1, T2. right.
        assert (Hev : ev = ECall CTick). { destruct ev as [c|src k]; cbn in Hc; [destruct c; congruence|]. destruct (nth_error _ _) as [m|]; cbn in Hc; discriminate. } subst ev.
        exists l, [], s0, o1. split; [reflexivity|]. split; [exact R0|]. split; [exact Hq|]. split; [apply Nat.eqb_eq; exact Hdue|]. split; [exact T1|exact T2].
      * apply (Keep o1 Hq); rewrite Hx; unfold ble_handle; (destruct (bm_msg m); [reflexivity|]); unfold handle_reply; destruct (_ && _); reflexivity.
    + destruct (nodes s0 q) as [o1|] eqn:Hq; [|discriminate]. destruct (take_outgoing_messages o1 []) as [o2 ms] eqn:Ht. injection He as <-. cbn [nodes] in Ho. unfold upd1 in Ho.
      destruct (Nat.eqb_spec p q) as [<-|]; [|apply (Keep o Ho); reflexivity]. injection Ho as ->. unfold take_outgoing_messages, sp_take_outgoing in Ht. injection Ht as <- _. apply (Keep o1 Hq); reflexivity.
    + injection He as <-. apply (Keep o Ho); reflexivity.
    + destruct (nodes s0 q) as [o1|] eqn:Hq; [|discriminate]. destruct (event_call s0 q ev) as [c|]; [|discriminate]. destruct (nth_error _ j) as [st|]; [|discriminate]. destruct (Nat.eqb_spec (sc_pid sc) q) as [Hsq|]; [|discriminate].
      destruct (build cc sc st) as [| |o2] eqn:Hb; try discriminate. injection He as <-. cbn [nodes] in Ho. unfold upd1 in Ho. destruct (Nat.eqb_spec p q) as [<-|]; [|apply (Keep o Ho); reflexivity]. injection Ho as ->.
      left. unfold build in Hb. destruct (config_validate _ _); [|discriminate]. destruct (sp_with _ _ _ _ _); [|discriminate]. injection Hb as <-. cbn [o_ble]. unfold ble_with. destruct (ms_prom st) as [b|]; [destruct (negb _)|]; reflexivity.
Qed.

(** The heartbeats come from other servers of the cluster, never from the server itself; from each at most one if the server has not restarted. *)
Theorem C74_heartbeats_of_the_peers :
  forall cc scs l s p o, NoDup (cc_nodes cc) -> reaches cc scs l s -> nodes s p = Some o ->
  let senders := map (fun r => b_pid (hr_ballot r)) (us_heartbeats (get_ui_states o)) in
  (forall q, In q senders -> In q (cc_nodes cc) /\ q <> p) /\
  ((forall ev j sc, ~ In (ACrash p ev j sc) l) -> NoDup senders).
Proof.
  intros cc scs l s p o Hcc R Ho senders.
  assert (Fresh : exists z, Forall (PropRounds.not_at z) l).
  { set (f := fun a => match a with ACrash q _ _ _ => q | _ => 0 end). exists (S (list_max (map f l))). apply Forall_forall. intros a Ha.
    assert (Z : f a <= list_max (map f l)). { destruct (list_max_le (map f l) (list_max (map f l))) as [Q _]. specialize (Q (Nat.le_refl _)). rewrite Forall_forall in Q. apply Q. apply in_map. exact Ha. }
    destruct a as [| | |q ev j sc]; cbn [PropRounds.not_at]; auto. cbn [f] in Z. intros X. rewrite X in Z. lia. }
  destruct (C74_heartbeats_of_the_previous_round cc scs l s p o R Ho) as [_ [X|(l1 & l2 & s1 & o1 & -> & R1 & N1 & _ & X & _)]]; unfold senders; rewrite X.
  - cbn. split; [tauto|]. intros _. constructor.
  - split.
    + intros q Hq. destruct Fresh as (z & Hz). apply Forall_app in Hz. destruct Hz as [Hz _].
      pose proof (PropRounds.ri_run (cc_nodes cc) cc z l1 Hcc eq_refl _ _ (PropRounds.ri_init _ cc scs z Hcc eq_refl) Hz R1) as HR. pose proof (PropRounds.we_rep _ _ _ (PropRounds.ri_we _ _ _ HR _ _ N1)) as HP.
      rewrite Forall_forall in HP. apply in_map_iff in Hq. destruct Hq as (r & <- & Hin). destruct (HP r Hin). auto.
    + intros Hnc. assert (Hnc1 : forall ev j sc, ~ In (ACrash p ev j sc) l1) by (intros ev j sc Hin; apply (Hnc ev j sc); apply in_or_app; left; exact Hin).
      destruct (PropRounds.C18_replies_of_different_servers_partial cc scs l1 s1 p o1 Hcc R1 Hnc1 N1) as [X1 _]. inversion X1; assumption.
Qed.
End WithEntry.

(** ** Cases *)
Section Case.
Local Existing Instance plain.

(** What a dashboard of server [p] shows after ticks at given states. *)
Definition shows (us : list ui_states) (p : node_id) : option dash :=
  match app_with (ui_config_from cc3 (scs p)) with Some a => ui_ticks a us | None => None end.
Definition states_at (s : sys) (p : node_id) : ui_states :=
  match nodes s p with Some o => get_ui_states o | None => mkUS bdef None 0 [] (mkCS [] []) end.

(** Server 2 leads, and everybody has answered its last heartbeat; two ticks. *)
Example C74_case :
  let u := states_at PropHeart.sys_before 2 in
  match shows [u; u] 2 with
  | Some a =>
      (ap_role a, ap_leader a, ap_decided a, nd_ballot (ap_node a)) = (ULeader, Some 2, 0, 2) /\
      ap_peers a = [mkNode 1 2 2 (Some 0) true; mkNode 3 1 2 (Some 2) true]
  | None => False
  end.
Proof. vm_compute. auto. Qed.
(** After a takeover by server 2, which has 4 entries: server 1 has acknowledged nothing, server 3 everything. *)
Example C74_progress_case :
  let u := states_at sys_case2 2 in
  match shows [u; u] 2 with
  | Some a => (ap_role a, ap_progress a, ap_accepted a, ap_throughput a) = (ULeader, [(0, 4); (0, 4); (4, 4); (4, 4)], [0; 0; 4; 4], [0; 4])
  | None => False
  end.
Proof. vm_compute. reflexivity. Qed.

(** The first tick at a leader in the accept phase shows it as a follower, with itself as the leader. *)
Theorem C74_role_refuted :
  exists (E : EntryT) cc scs l s p o a a', good_config cc scs /\ all_steps h1h2 cc (init_sys cc scs) l /\ reaches cc scs l s /\ nodes s p = Some o /\ role_of o = (Leader, PhAccept) /\
    dashboard cc (scs p) [] a /\ ui_tick a (get_ui_states o) = Some a' /\ ap_leader a' = Some p /\ ap_role a' = UFollower.
Proof.
  assert (H : match nodes sys_case1 1 with
              | Some o => match app_with (ui_config_from cc3 (scs 1)) with
                          | Some a => match ui_tick a (get_ui_states o) with Some a' => (role_of o, ap_leader a', ap_role a') = (Leader, PhAccept, Some 1, UFollower) | None => False end
                          | None => False end
              | None => False end) by (vm_compute; reflexivity).
  destruct (nodes sys_case1 1) as [o|] eqn:Ho; [|destruct H]. destruct (app_with _) as [a|] eqn:Ha; [|destruct H]. destruct (ui_tick a _) as [a'|] eqn:Ht; [|destruct H]. injection H as H1 H2 H3 H4.
  exists plain, cc3, scs, acts_case1, sys_case1, 1, o, a, a'. split; [apply good3|]. split; [apply h1h2_run; vm_compute; reflexivity|]. split; [exact case_reach1|]. split; [exact Ho|]. split; [unfold role_of; congruence|].
  split; [exists a; split; [exact Ha|reflexivity]|]. split; [exact Ht|]. split; [exact H3|exact H4].
Qed.

(** A tick panics because the decided index has gone down: the execution of C06. *)
Theorem C74_decided_panics_refuted :
  exists (E : EntryT) cc scs l s src s' p o o' a, good_config cc scs /\ Forall fifo l /\ all_steps drained cc (init_sys cc scs) l /\ reaches cc scs l s /\ exec_action cc s (ADo p (EDeliver src 0)) = Some s' /\
    nodes s p = Some o /\ nodes s' p = Some o' /\ dashboard cc (scs p) [get_ui_states o] a /\ ui_tick a (get_ui_states o') = None.
Proof.
  destruct c06_witness as (s & s' & o & o' & Hr & He & Hn & Hn' & Hd & Hd'). destruct c06_steps as [Hf Hdr].
  assert (R' : reaches cc3 scs (acts_c06 ++ [ADo 1 (EDeliver 3 0)]) s') by (unfold reaches; eapply run_app_ok; [exact Hr|]; cbn [run]; rewrite He; reflexivity).
  assert (H0 : ~ In 0 (cc_nodes cc3)) by apply good3.
  destruct (C74_dashboard_exists cc3 scs _ s 1 o (scs 1) Hr Hn eq_refl) as (a0 & D0).
  destruct (ui_tick a0 (get_ui_states o)) as [a|] eqn:Ht.
  - exists plain, cc3, scs, acts_c06, s, 3, s', 1, o, o', a. split; [apply good3|]. split; [exact Hf|]. split; [exact Hdr|]. split; [exact Hr|]. split; [exact He|]. split; [exact Hn|]. split; [exact Hn'|].
    assert (D : dashboard cc3 (scs 1) [get_ui_states o] a). { destruct D0 as (x & X1 & X2). cbn [ui_ticks] in X2. injection X2 as ->. exists a0. split; [exact X1|]. cbn [ui_ticks]. rewrite Ht. reflexivity. }
    split; [exact D|]. apply (C74_panics_iff cc3 scs _ s' 1 o' (scs 1) _ a H0 R' Hn' eq_refl D). left. change (last_decided [get_ui_states o]) with (get_decided_idx o). lia.
  - apply (C74_panics_iff cc3 scs _ s 1 o (scs 1) [] a0 H0 Hr Hn eq_refl D0) in Ht. destruct Ht as [X|[X _]]; [cbn in X; lia|discriminate].
Qed.

(** A tick panics because a peer has acknowledged more than the leader: server 2 has been synchronised twice
    behind the stop sign (C08), without a crash or a lost message. *)
Definition acts_c74 := Eval vm_compute in
  acts_c08 ++ acts_c08' ++ match run cc3 ini (acts_c08 ++ acts_c08') with Some s => acts_of cc3 s [ Call 2 (CReconnected 1); Settle [1;2;3] 4 ] | None => [] end.
Definition sys_c74 := match run cc3 ini acts_c74 with Some s => s | None => ini end.
Theorem C74_progress_panics_refuted :
  exists (E : EntryT) cc scs l s p o a, good_config cc scs /\ Forall fifo l /\ all_steps drained cc (init_sys cc scs) l /\ Forall (fun a => match a with ACrash _ _ _ _ | ADrop _ _ _ => False | _ => True end) l /\ reaches cc scs l s /\
    nodes s p = Some o /\ role_of o = (Leader, PhAccept) /\ dashboard cc (scs p) [get_ui_states o] a /\ ui_tick a (get_ui_states o) = None.
Proof.
  assert (R : reaches cc3 scs acts_c74 sys_c74) by (apply is_some_eta; vm_compute; reflexivity).
  assert (H : match nodes sys_c74 1 with
              | Some o => match app_with (ui_config_from cc3 (scs 1)) with
                          | Some a => match ui_tick a (get_ui_states o) with Some a' => role_of o = (Leader, PhAccept) /\ ui_tick a' (get_ui_states o) = None | None => False end
                          | None => False end
              | None => False end) by (vm_compute; auto).
  destruct (nodes sys_c74 1) as [o|] eqn:Ho; [|destruct H]. destruct (app_with _) as [a|] eqn:Ha; [|destruct H]. destruct (ui_tick a _) as [a'|] eqn:Ht; [|destruct H]. destruct H as [H1 H2].
  exists plain, cc3, scs, acts_c74, sys_c74, 1, o, a'. split; [apply good3|]. split; [apply fifob_ok; vm_compute; reflexivity|]. split; [apply drained_run_ok; vm_compute; reflexivity|]. split; [repeat constructor|]. split; [exact R|]. split; [exact Ho|]. split; [exact H1|].
  split; [|exact H2]. exists a. split; [exact Ha|]. cbn [ui_ticks]. rewrite Ht. reflexivity.
Qed.

(** utils/ui.rs 13, 42 and ballot_leader_election.rs 82 say that the heartbeats include the current node. *)
Theorem C74_own_heartbeat_refuted :
  exists (E : EntryT) cc scs l s p o, good_config cc scs /\ all_steps h1h2 cc (init_sys cc scs) l /\ reaches cc scs l s /\ nodes s p = Some o /\
    map (fun r => b_pid (hr_ballot r)) (us_heartbeats (get_ui_states o)) = filter (fun q => negb (q =? p)) (cc_nodes cc).
Proof.
  assert (R : reaches cc3 PropElect.scs1 PropHeart.acts_before PropHeart.sys_before) by (apply is_some_eta; vm_compute; reflexivity).
  assert (H : match nodes PropHeart.sys_before 2 with Some o => map (fun r => b_pid (hr_ballot r)) (us_heartbeats (get_ui_states o)) = [1; 3] | None => False end) by (vm_compute; reflexivity).
  destruct (nodes PropHeart.sys_before 2) as [o|] eqn:Ho; [|destruct H]. exists plain, cc3, PropElect.scs1, PropHeart.acts_before, PropHeart.sys_before, 2, o.
  split; [split; [reflexivity|]; split; [intros [X|[X|[X|[]]]]; discriminate|]; intros p [<-|[<-|[<-|[]]]]; split; reflexivity|]. split; [apply h1h2_run; vm_compute; reflexivity|]. split; [exact R|]. split; [exact Ho|exact H].
Qed.
End Case.

Print Assumptions C74_dashboard_exists.
Print Assumptions C74_panics_iff.
Print Assumptions C74_shows.
Print Assumptions C74_shows_role.
Print Assumptions C74_no_panic_partial.
Print Assumptions C74_heartbeats_of_the_previous_round.
Print Assumptions C74_heartbeats_of_the_peers.
Print Assumptions C74_role_refuted.
Print Assumptions C74_decided_panics_refuted.
Print Assumptions C74_progress_panics_refuted.
Print Assumptions C74_own_heartbeat_refuted.
