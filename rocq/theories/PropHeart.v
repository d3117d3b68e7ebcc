(** * C66, C68: priorities and heartbeats *)
From Coq Require Import List Arith Bool Lia.
Import ListNotations.
From Verif Require Import Types Config MemStore Internal LeaderState SeqPaxos Ble Omni System Basics Scen Spec Refute Inv SysInv Agree PropAgreement Prims PropLocal PropElect TwoConf.
From Verif Require PropStable Progress PropAnswer.

Section WithEntry.
Context {E : EntryT}.

(** ** Specification *)

(** Server [p] never calls [try_become_leader] in the run. *)
Definition never_tries (p : node_id) (l : list action) : Prop :=
  forall a, In a l -> action_event a <> Some (p, ECall CTryLeader).
(** The priority last set at [p]: by [set_priority], or by the configuration with which it was started. *)
Definition priority_set (p : node_id) (x : nat) (a : action) : nat :=
  match a with
  | ADo q (ECall (CSetPriority y)) => if q =? p then y else x
  | ACrash q _ _ sc => if q =? p then sc_prio sc else x
  | _ => x
  end.
Definition last_priority (scs : node_id -> server_config) (p : node_id) (l : list action) : nat :=
  fold_left (priority_set p) l (sc_prio (scs p)).

(** The election messages that wait to be sent. *)
Definition heartbeats (o : omni) : list ble_message := e_out (o_ble o).
Definition hb_round (o : omni) : nat := e_round (o_ble o).
(** The heartbeat request of a round to each of the servers [l]. *)
Definition asks (o : omni) (r : nat) (l : list node_id) : list ble_message :=
  map (fun q => mkBM (own_pid o) q (HbRequest r)) l.

(** ** C66 *)

(** A promise with the own id is not beyond the view of the election. *)
Definition covered (p : node_id) (o : omni) : Prop := b_pid (get_promise o) = p -> ble (get_promise o) (election_view o) = true.

Lemma hb_prio b st prom : (b_pid prom = e_pid b -> ble prom (e_leader b) = true) -> b_prio (e_ballot (fst (hb_timeout b st prom))) = b_prio (e_ballot b).
Proof.
  intros H. unfold hb_timeout. cbn [fst]. destruct (update_leader_view b) as (v & (Hv1 & Hv2) & Hu). rewrite Hu. set (b1 := update_happiness (e_set_leader b v) st).
  assert (K : b_prio (e_ballot (check_takeover b1)) = b_prio (e_ballot b)). { unfold check_takeover. destruct (negb _); [|reflexivity]. destruct (_ && _); reflexivity. }
  change (e_leader (new_hb_round (check_takeover b1))) with (e_leader (check_takeover b1)). destruct (bgt prom (e_leader (check_takeover b1))) eqn:Hg; [|exact K].
  assert (Hp : e_pid (e_set_leader (new_hb_round (check_takeover b1)) prom) = e_pid b). { unfold check_takeover. destruct (negb _); [|reflexivity]. destruct (_ && _); reflexivity. }
  rewrite Hp. destruct (Nat.eqb_spec (b_pid prom) (e_pid b)) as [Hq|]; [|exact K]. exfalso. specialize (H Hq).
  assert (X : ble prom (e_leader (check_takeover b1)) = true). { eapply ble_tr; [exact H|]. eapply ble_tr; [apply (Hv2 (e_leader b)); left; reflexivity|]. apply (takeover_leader b1). }
  rewrite bgt_blt in Hg. unfold blt in Hg. unfold ble in X. pose proof (bcmp_spec prom (e_leader (check_takeover b1))) as Y. pose proof (bcmp_spec (e_leader (check_takeover b1)) prom) as Z.
  destruct (bcmp (e_leader (check_takeover b1)) prom); try discriminate. destruct (bcmp prom _); try discriminate; unfold bal_lt, bal_same in *; lia.
Qed.

Lemma hb_elected b st prom n : snd (hb_timeout b st prom) = Some n -> n = e_leader (fst (hb_timeout b st prom)).
Proof.
  unfold hb_timeout. cbn [fst snd]. match goal with |- context[beq (e_leader ?x) (e_ballot ?x)] => destruct (beq (e_leader x) (e_ballot x)) eqn:H end; [|discriminate].
  intros X. injection X as <-. apply beq_spec in H. auto.
Qed.

(** What is promised after a call: the old promise, or a ballot with which the server may promise. *)
Lemma exec_promise (PR : ballot -> Prop) o c o' r :
  may_call (fun _ _ _ => True) (fun _ => True) True True True True True PR o c -> exec o c = Ok (o', r) -> get_promise o' = get_promise o \/ PR (get_promise o').
Proof.
  intros Hm He. destruct (exec_prims (fun _ _ _ => True) (fun _ => True) True True True True True PR o c o' r I Hm) as [X _]; [|exact He|].
  { constructor. }
  refine (prims_inv _ _ _ _ _ _ _ _ (fun s => i_prom s = get_promise o \/ PR (i_prom s)) _ _ _ X (or_introl eq_refl)).
  clear. intros x y H Hp. assert (Hk : PropStable.prom_kept x y -> i_prom y = get_promise o \/ PR (i_prom y)) by (intros [-> _]; exact H).
  destruct Hp as [s c|s es|s ss Hp Hn Hb|s ss s' a Hp He|s n HPR Hn|s e Hd Hc|s n e sy s' a Ha He|s n e sy s' a Hl Hm He|s i s' r Ht He|s i s' r Hs He].
  - exact H.
  - apply Hk. split; reflexivity.
  - apply Hk. unfold i_append_stopsign, cache_append_stopsign. cbn. rewrite Hb. split; reflexivity.
  - apply Hk. unfold i_set_stopsign in He. destruct (c_ss (i_ca s)); cbn in He; injection He as <- _; split; reflexivity.
  - right. exact HPR.
  - apply Hk. split; reflexivity.
  - apply Hk. eapply PropStable.sync_prom; eauto.
  - apply Hk. eapply PropStable.sync_prom; eauto.
  - apply Hk. eapply PropStable.trim_prom; eauto.
  - apply Hk. eapply PropStable.snap_prom; eauto.
Qed.

Lemma exec_prio p o c o' r : e_pid (o_ble o) = p -> covered p o -> c <> CTryLeader ->
  match c with CHandle (MsgSP m) => match pm_msg m with MPrepare n _ _ _ => b_pid n <> p | _ => True end | _ => True end ->
  exec o c = Ok (o', r) ->
  covered p o' /\ b_prio (own_ballot o') = match c with CSetPriority x => x | _ => b_prio (own_ballot o) end.
Proof.
  intros Hp Hc Ht Hm He. pose (PR := fun n => (b_pid n = p -> c = CTick) /\ (b_pid n = p -> due (o_eclk o) = true /\ ble n (e_leader (fst (hb_timeout (o_ble o) (role_of o) (get_promise o)))) = true)).
  assert (HM : may_call (fun _ _ _ => True) (fun _ => True) True True True True True PR o c).
  { destruct c as [e|cc0 meta| |i|i l|q| |q|[m|m]]; cbn [may_call]; auto; [|congruence|].
    - intros n [Hd Hn]. split; [reflexivity|]. intros _. split; [rewrite <- clock_due; exact Hd|]. apply hb_elected in Hn. rewrite Hn. apply ble_refl.
    - destruct (pm_msg m) as [| | | | | | | | |cp| |]; cbn [may_handle]; auto; [|destruct cp; exact I]. split; intros X; contradiction. }
  pose proof (exec_promise PR o c o' r HM He) as HP. apply exec_ble in He.
  assert (Same : o_ble o' = o_ble o -> c <> CTick -> (forall x, c <> CSetPriority x) -> covered p o' /\ b_prio (own_ballot o') = match c with CSetPriority x => x | _ => b_prio (own_ballot o) end).
  { intros X Y Z. unfold covered, election_view, own_ballot in *. rewrite X. split; [|destruct c; auto; exfalso; eapply Z; reflexivity]. intros K. destruct HP as [HP|[HP _]]; [rewrite HP in *; auto|exfalso; auto]. }
  destruct c as [e|cc0 meta| |i|i l|q| |q|[m|m]]; try (apply Same; [exact He|discriminate|discriminate]).
  - destruct (due (o_eclk o)) eqn:Hd.
    + unfold covered, election_view, own_ballot in *. rewrite He. destruct (hb_leader (o_ble o) (role_of o) (get_promise o)) as [L1 L2]. split.
      * intros K. destruct HP as [->|[_ HP]]; [exact L2|apply HP; exact K].
      * apply hb_prio. rewrite Hp. exact Hc.
    + unfold covered, election_view, own_ballot in *. rewrite He. split; [|reflexivity]. intros K. destruct HP as [HP|[_ HP]]; [rewrite HP in *; auto|]. destruct (HP K); discriminate.
  - unfold covered, election_view, own_ballot in *. rewrite He. cbn. split; [|reflexivity]. intros K. destruct HP as [HP|[HP _]]; [rewrite HP in *; auto|]. specialize (HP K). discriminate.
  - unfold covered, election_view, own_ballot in *. rewrite He. assert (X : e_leader (ble_handle (o_ble o) m) = e_leader (o_ble o) /\ e_ballot (ble_handle (o_ble o) m) = e_ballot (o_ble o)).
    { unfold ble_handle. destruct (bm_msg m); [split; reflexivity|]. unfold handle_reply. destruct (_ && _); split; reflexivity. }
    destruct X as [-> ->]. split; [|reflexivity]. intros K. destruct HP as [HP|[HP _]]; [rewrite HP in *; auto|]. specialize (HP K). discriminate.
Qed.

Lemma build_prio cc sc st o : build cc sc st = BOk o -> sc_pid sc <> 0 -> covered (sc_pid sc) o /\ b_prio (own_ballot o) = sc_prio sc.
Proof.
  unfold build. destruct (config_validate cc sc); [|discriminate]. destruct (sp_with _ _ _ _ _) as [x|] eqn:Hw; [|discriminate]. intros X H0. injection X as <-.
  assert (HP : i_prom (s_is x) = match ms_prom st with Some b => b | None => bdef end).
  { unfold sp_with in Hw. destruct (peers_of _ _); [discriminate|]. destruct (ms_prom st); injection Hw as <-; reflexivity. }
  unfold covered, get_promise, election_view, own_ballot. cbn [o_sp o_ble]. rewrite HP. unfold ble_with. destruct (ms_prom st) as [v|].
  - destruct (beq v bdef) eqn:Hb; cbn; (split; [|reflexivity]); intros K; [|apply ble_refl]. apply beq_spec in Hb. rewrite Hb in K. cbn in K. congruence.
  - cbn. split; [|reflexivity]. intros K. congruence.
Qed.

Section Cluster.
Context (cc : cluster_config) (scs : node_id -> server_config) (Hg : good_config cc scs).

Lemma never_app p l1 l2 : never_tries p (l1 ++ l2) -> never_tries p l1 /\ never_tries p l2.
Proof. intros H. split; intros a Ha; apply H; apply in_or_app; auto. Qed.

Lemma prio_run l : forall s, all_steps h1h2 cc (init_sys cc scs) l -> reaches cc scs l s ->
  forall p o, nodes s p = Some o -> never_tries p l -> covered p o /\ b_prio (own_ballot o) = last_priority scs p l.
Proof.
  destruct Hg as (Hv & H0 & Hsc). induction l as [|a l IH] using rev_ind; intros s A R p o Ho Hn.
  - cbn in R. injection R as <-. cbn [nodes init_sys] in Ho. destruct (existsb _ _ && _) eqn:Hx; [|discriminate]. apply andb_true_iff in Hx. destruct Hx as [Hx1 Hx2]. apply existsb_exists in Hx1. destruct Hx1 as (q & Hq & Hx1). apply Nat.eqb_eq in Hx1, Hx2. subst q.
    destruct (build cc (scs p) ms_default) as [| |o1] eqn:Hb; try discriminate. injection Ho as <-. apply build_prio in Hb; [|intros X; apply H0; congruence]. rewrite Hx2 in Hb. exact Hb.
  - unfold reaches in R. destruct (run_app _ _ _ _ _ R) as (s1 & R1 & R2). destruct (all_steps_app _ _ _ _ _ _ A R1) as [A1 A2]. destruct (never_app _ _ _ Hn) as [N1 N2].
    assert (Step : forall o1, nodes s1 p = Some o1 -> covered p o1 /\ b_prio (own_ballot o1) = last_priority scs p l) by (intros o1 Ho1; apply (IH s1 A1 R1 p o1 Ho1 N1)).
    destruct (one_moment cc Hv H0 scs l s1 A1 R1) as (G & HS).
    assert (Hne : action_event a <> Some (p, ECall CTryLeader)) by (apply N2; left; reflexivity). unfold last_priority. rewrite fold_left_app. cbn [fold_left]. fold (last_priority scs p l).
    cbn [run] in R2. destruct (exec_action cc s1 a) as [s2|] eqn:He; [|discriminate]. injection R2 as ->. destruct a as [q ev|q|src dst k|q ev j sc]; cbn [exec_action] in He.
    + destruct (nodes s1 q) as [o1|] eqn:Hq; [|discriminate]. destruct (event_call s1 q ev) as [c|] eqn:Hc; [|discriminate]. destruct (exec o1 c) as [[o2 r]|] eqn:Hx; [|discriminate]. injection He as <-.
      cbn [nodes] in Ho. unfold upd1 in Ho. destruct (Nat.eqb_spec p q) as [<-|Hpq].
      2: { specialize (Step o Ho). destruct ev as [[]|]; try exact Step. cbn [priority_set]. destruct (Nat.eqb_spec q p); [congruence|exact Step]. }
      injection Ho as <-. destruct (Step o1 Hq) as [S1 S2]. pose proof (y_ble _ _ _ HS p o1 Hq) as (Bp & _).
      destruct (exec_prio p o1 c o2 r Bp S1) as [X1 X2]; [| |exact Hx|].
      * intros ->. apply Hne. destruct ev as [[]|]; cbn in *; try discriminate; [reflexivity|]. destruct (nth_error _ _); discriminate.
      * destruct ev as [c0|src k]; [destruct c0; cbn in Hc; try discriminate; injection Hc as <-; exact I|]. cbn [event_call] in Hc. destruct (nth_error (net s1 src p) k) as [m|] eqn:Hk; [|discriminate]. injection Hc as <-.
        destruct m as [m|m]; [|exact I]. apply nth_error_In in Hk. assert (P0 : p <> 0). { intros ->. apply H0. pose proof (y_N _ _ _ HS 0 (o_sp o1)) as Y. unfold osp in Y. rewrite Hq in Y. apply (n_in _ _ _ _ (Y eq_refl)). }
        pose proof (net_of_conf cc H0 G s1 src p m HS Hk P0) as [_ Y]. destruct (pm_msg m); auto. apply Y.
      * split; [exact X1|]. rewrite X2. destruct ev as [c0|src k].
        -- cbn in Hc. destruct c0; try discriminate; injection Hc as <-; cbn [priority_set]; try exact S2. rewrite Nat.eqb_refl. reflexivity.
        -- cbn in Hc. destruct (nth_error (net s1 src p) k); [|discriminate]. injection Hc as <-. exact S2.
    + destruct (nodes s1 q) as [o1|] eqn:Hq; [|discriminate]. destruct (take_outgoing_messages o1 []) as [o2 ms] eqn:Ht. injection He as <-. cbn [nodes] in Ho. unfold upd1 in Ho. cbn [priority_set].
      destruct (Nat.eqb_spec p q) as [<-|Hpq]; [|exact (Step o Ho)]. injection Ho as <-. unfold take_outgoing_messages, sp_take_outgoing in Ht. injection Ht as <- _. exact (Step o1 Hq).
    + injection He as <-. exact (Step o Ho).
    + destruct (nodes s1 q) as [o1|] eqn:Hq; [|discriminate]. destruct (event_call s1 q ev) as [c|]; [|discriminate]. destruct (nth_error _ j) as [st|]; [|discriminate]. destruct (Nat.eqb_spec (sc_pid sc) q) as [Hsq|]; [|discriminate].
      destruct (build cc sc st) as [| |o2] eqn:Hb; try discriminate. injection He as <-. cbn [nodes] in Ho. unfold upd1 in Ho. cbn [priority_set]. rewrite (Nat.eqb_sym q p). destruct (Nat.eqb_spec p q) as [<-|Hpq]; [|exact (Step o Ho)].
      injection Ho as <-. assert (P0 : p <> 0). { intros ->. apply H0. pose proof (y_N _ _ _ HS 0 (o_sp o1)) as Y. unfold osp in Y. rewrite Hq in Y. apply (n_in _ _ _ _ (Y eq_refl)). }
      apply build_prio in Hb; [|congruence]. rewrite Hsq in Hb. exact Hb.
Qed.
End Cluster.

(** In a run in which the server never calls [try_become_leader], its ballot has the priority last set. The
    ballot with which an election timeout makes it start a prepare phase has it too. *)
Theorem C66_priority_is_used_partial :
  forall cc scs, good_config cc scs ->
  forall l s, all_steps h1h2 cc (init_sys cc scs) l -> reaches cc scs l s ->
  forall p o, nodes s p = Some o -> never_tries p l ->
  b_prio (own_ballot o) = last_priority scs p l /\
  forall o' r, exec o CTick = Ok (o', r) -> leader_ballot o' <> leader_ballot o -> b_prio (leader_ballot o') = last_priority scs p l.
Proof.
  intros cc scs Hg l s A R p o Ho Hn. destruct (prio_run cc scs Hg l s A R p o Ho Hn) as [H1 H2]. split; [exact H2|]. intros o' r He Hl. destruct Hg as (Hv & H0 & _).
  destruct (one_moment cc Hv H0 scs l s A R) as (G & HS). destruct (y_ble _ _ _ HS p o Ho) as (Bp & _).
  pose proof (exec_prio p o CTick o' r Bp H1 ltac:(discriminate) I He) as [_ X]. rewrite <- H2, <- X.
  assert (Y : leader_ballot o' = own_ballot o'); [|rewrite Y; reflexivity].
  pose proof (exec_ble _ _ _ _ He) as Hb. unfold exec in He. cbn [exec_call] in He. destruct (tick (start_call o)) as [o1|] eqn:Ht; [|discriminate]. injection He as <- _. apply tick_parts in Ht. destruct Ht as (s1 & Hs1 & (_ & K2 & _)).
  change (o_eclk (start_call o)) with (o_eclk o) in Hs1. change (o_ble (start_call o)) with (o_ble o) in Hs1. destruct (due (o_eclk o)); [|destruct Hs1 as [_ ->]; contradiction].
  change (s_role (o_sp (start_call o)), s_phase (o_sp (start_call o))) with (role_of o) in Hs1. change (sp_promise (o_sp (start_call o))) with (get_promise o) in Hs1.
  destruct (hb_timeout (o_ble o) (role_of o) (get_promise o)) as [b [n|]] eqn:Hh; destruct Hs1 as [Hs1 Hs2]; [|subst s1; contradiction].
  assert (Hn2 : n = e_ballot b). { unfold hb_timeout in Hh. injection Hh as E1 E2. destruct (beq _ _); [|discriminate]. injection E2 as <-. rewrite <- E1. reflexivity. }
  apply handle_leader_cases in Hs2. unfold leader_ballot, own_ballot in *. rewrite K2 in *. destruct Hs2 as [[-> _]|[(_ & _ & _ & L & _)|(_ & _ & L & _)]]; [contradiction| |congruence].
  exfalso. apply Hl. rewrite L. reflexivity.
Qed.

(** [set_priority] changes the own ballot only; [try_become_leader] uses the number after the promise and the
    rest of the own ballot. *)
Theorem C66_set_priority :
  forall o x, exists o', exec o (CSetPriority x) = Ok (o', RUnit) /\ own_ballot o' = mkB (b_cfg (own_ballot o)) (b_n (own_ballot o)) x (b_pid (own_ballot o)) /\
    o_sp o' = o_sp (start_call o) /\ election_view o' = election_view o /\ replies o' = replies o /\ heartbeats o' = heartbeats o.
Proof. intros o x. eexists. split; [reflexivity|]. split; [reflexivity|]. split; [reflexivity|]. split; [reflexivity|]. split; reflexivity. Qed.

Theorem C66_try_become_leader_uses_the_priority :
  forall o o' r, server_state o -> exec o CTryLeader = Ok (o', r) ->
  leader_ballot o' = mkB (b_cfg (own_ballot o)) (b_n (get_promise o) + 1) (b_prio (own_ballot o)) (b_pid (own_ballot o)).
Proof.
  intros o o' r Hs He. destruct (PropAnswer.answer_state o Hs) as ((H1 & H2) & _). unfold exec in He. cbn [exec_call] in He. unfold try_become_leader in He.
  destruct (handle_leader _ _) as [s1|] eqn:Hl; [|discriminate]. injection He as <- _. unfold leader_ballot. cbn [o_sp set_sp].
  change (set_n (e_ballot (o_ble (start_call o))) (b_n (sp_promise (o_sp (start_call o))) + 1)) with (set_n (own_ballot o) (b_n (get_promise o) + 1)) in Hl.
  set (b := set_n (own_ballot o) (b_n (get_promise o) + 1)) in *.
  assert (G : ble b (get_promise o) = false). { unfold ble. pose proof (bcmp_spec b (get_promise o)) as X. destruct (bcmp b _); auto; unfold bal_lt, bal_same, b in X; cbn in X; lia. }
  assert (G2 : ble b (leader_ballot o) = false). { pose proof (Progress.lead_ballot_le o Hs) as X. destruct (ble b (leader_ballot o)) eqn:Y; auto. rewrite <- G. symmetry. eapply ble_tr; eauto. }
  apply handle_leader_cases in Hl. destruct Hl as [(_ & [X|X])|[(_ & _ & _ & _ & X)|(_ & _ & X & _)]].
  - unfold leader_ballot in G2. change (s_ls (o_sp (start_call o))) with (s_ls (o_sp o)) in X. congruence.
  - unfold get_promise in G. change (i_prom (s_is (o_sp (start_call o)))) with (i_prom (s_is (o_sp o))) in X. congruence.
  - exfalso. apply X. exact H2.
  - rewrite X. reflexivity.
Qed.

(** ** C68 *)

(** A heartbeat request is always answered, to its sender, with its round and the ballots and the happiness
    of the server; nothing else changes. *)
Theorem C68_requests_are_answered :
  forall o from to k, exists o', exec o (CHandle (MsgBLE (mkBM from to (HbRequest k)))) = Ok (o', RUnit) /\
    heartbeats o' = heartbeats o ++ [mkBM (e_pid (o_ble o)) from (HbReply (mkHR k (own_ballot o) (election_view o) (e_happy (o_ble o))))] /\
    o_sp o' = o_sp (start_call o) /\ own_ballot o' = own_ballot o /\ election_view o' = election_view o /\ replies o' = replies o /\ hb_round o' = hb_round o /\ e_happy (o_ble o') = e_happy (o_ble o).
Proof. intros o from to k. eexists. split; [reflexivity|]. split; [reflexivity|]. split; [reflexivity|]. split; [reflexivity|]. split; [reflexivity|]. split; [reflexivity|]. split; reflexivity. Qed.

Lemma hb_shape b st prom : let b' := fst (hb_timeout b st prom) in
  e_out b' = e_out b ++ map (fun q => mkBM (e_pid b) q (HbRequest (e_round b + 1))) (e_peers b) /\ e_round b' = e_round b + 1 /\ e_peers b' = e_peers b /\ e_pid b' = e_pid b /\ e_replies b' = [].
Proof.
  unfold hb_timeout. cbn [fst]. destruct (update_leader_view b) as (v & _ & Hu). rewrite Hu. set (b1 := update_happiness (e_set_leader b v) st).
  assert (K : e_out (check_takeover b1) = e_out b /\ e_round (check_takeover b1) = e_round b /\ e_peers (check_takeover b1) = e_peers b /\ e_pid (check_takeover b1) = e_pid b).
  { unfold check_takeover. destruct (negb _); [|split; [|split; [|split]]; reflexivity]. destruct (_ && _); split; [|split; [|split]| |split; [|split]]; reflexivity. }
  destruct K as (K1 & K2 & K3 & K4). set (b2 := new_hb_round (check_takeover b1)).
  assert (N : e_out b2 = e_out b ++ map (fun q => mkBM (e_pid b) q (HbRequest (e_round b + 1))) (e_peers b) /\ e_round b2 = e_round b + 1 /\ e_peers b2 = e_peers b /\ e_pid b2 = e_pid b /\ e_replies b2 = []).
  { unfold b2, new_hb_round. cbn. rewrite K1, K2, K3, K4. split; [reflexivity|]. split; [reflexivity|]. split; [reflexivity|]. split; reflexivity. }
  cbn zeta. destruct (bgt prom _); [|exact N]. destruct (_ =? _); exact N.
Qed.

Section Peers.
Context (cc : cluster_config) (scs : node_id -> server_config).
Definition ble_of (p : node_id) (o : omni) : Prop := e_pid (o_ble o) = p /\ e_peers (o_ble o) = filter (fun q => negb (q =? p)) (cc_nodes cc).
Lemma build_ble sc st o : build cc sc st = BOk o -> ble_of (sc_pid sc) o.
Proof.
  unfold build. destruct (config_validate cc sc); [|discriminate]. destruct (sp_with _ _ _ _ _) as [x|]; [|discriminate]. intros X. injection X as <-. unfold ble_of, ble_with. cbn [o_ble].
  destruct (ms_prom st) as [v|]; [destruct (negb (beq v bdef))|]; split; reflexivity.
Qed.
Lemma exec_ble_of p o c o' r : ble_of p o -> exec o c = Ok (o', r) -> ble_of p o'.
Proof.
  intros H He. apply exec_ble in He. unfold ble_of in *. destruct c as [e|cc0 meta| |i|i l|q| |q|[m|m]]; try (rewrite He; exact H).
  - destruct (due _); rewrite He; [|exact H]. destruct (hb_shape (o_ble o) (role_of o) (get_promise o)) as (_ & _ & -> & -> & _). exact H.
  - rewrite He. unfold ble_handle. destruct (bm_msg m); [exact H|]. unfold handle_reply. destruct (_ && _); exact H.
Qed.
Lemma run_ble l : forall s0 s, (forall p o, nodes s0 p = Some o -> ble_of p o) -> run cc s0 l = Some s -> forall p o, nodes s p = Some o -> ble_of p o.
Proof.
  induction l as [|a l IH]; intros s0 s H R; cbn [run] in R; [injection R as <-; exact H|]. destruct (exec_action cc s0 a) as [s1|] eqn:He; [|discriminate]. apply (IH s1 s); [|exact R]. clear IH R. intros p o Ho.
  destruct a as [q ev|q|src dst k|q ev j sc]; cbn [exec_action] in He.
  - destruct (nodes s0 q) as [o1|] eqn:Hq; [|discriminate]. destruct (event_call s0 q ev) as [c|]; [|discriminate]. destruct (exec o1 c) as [[o2 r]|] eqn:Hx; [|discriminate]. injection He as <-. cbn [nodes] in Ho. unfold upd1 in Ho.
    destruct (Nat.eqb_spec p q) as [->|]; [|apply H; exact Ho]. injection Ho as <-. eapply exec_ble_of; eauto.
  - destruct (nodes s0 q) as [o1|] eqn:Hq; [|discriminate]. destruct (take_outgoing_messages o1 []) as [o2 ms] eqn:Ht. injection He as <-. cbn [nodes] in Ho. unfold upd1 in Ho.
    destruct (Nat.eqb_spec p q) as [->|]; [|apply H; exact Ho]. injection Ho as <-. unfold take_outgoing_messages, sp_take_outgoing in Ht. injection Ht as <- _. exact (H q o1 Hq).
  - injection He as <-. apply H. exact Ho.
  - destruct (nodes s0 q) as [o1|] eqn:Hq; [|discriminate]. destruct (event_call s0 q ev) as [c|]; [|discriminate]. destruct (nth_error _ j) as [st|]; [|discriminate]. destruct (Nat.eqb_spec (sc_pid sc) q) as [Hsq|]; [|discriminate].
    destruct (build cc sc st) as [| |o2] eqn:Hb; try discriminate. injection He as <-. cbn [nodes] in Ho. unfold upd1 in Ho. destruct (Nat.eqb_spec p q) as [->|]; [|apply H; exact Ho]. injection Ho as <-. apply build_ble in Hb. congruence.
Qed.
Lemma init_ble p o : nodes (init_sys cc scs) p = Some o -> ble_of p o.
Proof.
  cbn [nodes init_sys]. destruct (existsb _ _ && _) eqn:Hx; [|discriminate]. apply andb_true_iff in Hx. destruct Hx as [_ Hx]. apply Nat.eqb_eq in Hx.
  destruct (build cc (scs p) ms_default) as [| |o1] eqn:Hb; try discriminate. intros X. injection X as <-. apply build_ble in Hb. congruence.
Qed.
End Peers.

(** In every run (any messages in any order, lost messages, crashes): an election timeout begins a new round
    and asks every other server of the cluster. *)
Theorem C68_timeout_asks_every_server :
  forall cc scs l s, reaches cc scs l s ->
  forall p o o' r, nodes s p = Some o -> election_due o -> exec o CTick = Ok (o', r) ->
  hb_round o' = hb_round o + 1 /\ replies o' = [] /\
  (forall q, In q (cc_nodes cc) -> q <> p -> In (mkBM p q (HbRequest (hb_round o'))) (heartbeats o')) /\
  exists new, heartbeats o' = heartbeats o ++ new.
Proof.
  intros cc scs l s R p o o' r Ho Hd He. destruct (run_ble cc l (init_sys cc scs) s (init_ble cc scs) R p o Ho) as [Hp Hq]. apply exec_ble in He. unfold due in He. rewrite (proj2 (Nat.eqb_eq _ _) Hd) in He.
  unfold hb_round, replies, heartbeats. rewrite He. destruct (hb_shape (o_ble o) (role_of o) (get_promise o)) as (E1 & E2 & _ & _ & E5). rewrite E1, E2, E5. split; [reflexivity|]. split; [reflexivity|].
  split; [|eexists; reflexivity]. intros q Hin Hne. apply in_or_app. right. rewrite Hp, Hq. apply in_map_iff. exists q. split; [reflexivity|]. apply filter_In. split; [exact Hin|]. destruct (Nat.eqb_spec q p); [contradiction|reflexivity].
Qed.
(** So does a server that starts, for the first time or after a crash. *)
Theorem C68_started_server_asks_every_server :
  forall cc sc st o, build cc sc st = BOk o ->
  forall q, In q (cc_nodes cc) -> q <> sc_pid sc -> In (mkBM (sc_pid sc) q (HbRequest (hb_round o))) (heartbeats o).
Proof.
  intros cc sc st o Hb q Hq Hne. unfold build in Hb. destruct (config_validate cc sc); [|discriminate]. destruct (sp_with _ _ _ _ _) as [x|]; [|discriminate]. injection Hb as <-.
  assert (X : In (mkBM (sc_pid sc) q (HbRequest 1)) (map (fun p => mkBM (sc_pid sc) p (HbRequest 1)) (peers_of cc (sc_pid sc)))).
  { apply in_map_iff. exists q. split; [reflexivity|]. apply filter_In. split; [exact Hq|]. destruct (Nat.eqb_spec q (sc_pid sc)); [contradiction|reflexivity]. }
  unfold hb_round, heartbeats, ble_with. cbn [o_ble]. destruct (ms_prom st) as [v|]; [destruct (negb (beq v bdef))|]; exact X.
Qed.
End WithEntry.

Section Case.
Existing Instance plain.

(** Server 2 gets priority 7 and takes over with it. *)
Definition sch_prio : list cmd :=
  [ Call 2 (CSetPriority 7); Call 1 CTick; Call 2 CTick; Call 3 CTick; Settle [1;2;3] 2; Call 2 CTick ].
Definition acts_prio := Eval vm_compute in acts_of cc3 ini1 sch_prio.
Definition sys_prio := match run cc3 ini1 acts_prio with Some s => s | None => ini1 end.
Example C66_case :
  reaches cc3 scs1 acts_prio sys_prio /\ last_priority scs1 2 acts_prio = 7 /\
  obs sys_prio 2 (fun o => (leader_ballot o, own_ballot o)) = Some (mkB 1 2 7 2, mkB 1 2 7 2).
Proof. split; [apply is_some_eta; vm_compute; reflexivity|]. vm_compute. auto. Qed.

(** Server 1 calls [try_become_leader] twice, then sets its priority to 9. At the next election timeout the
    election takes up the promised ballot, and with it the old priority. *)
Definition sch_lost : list cmd := [ Call 1 CTryLeader; Call 1 CTryLeader; Call 1 (CSetPriority 9); Call 1 CTick ].
Definition acts_lost := Eval vm_compute in acts_of cc3 ini1 sch_lost.
Theorem C66_priority_refuted :
  exists (E : EntryT) cc scs l s o o',
    good_config cc scs /\ cc_nodes cc = [1; 2; 3] /\ all_steps h1h2 cc (init_sys cc scs) l /\ Forall (fun a => match a with ACrash _ _ _ _ => False | _ => True end) l /\
    reaches cc scs l s /\ nodes s 1 = Some o /\ last_priority scs 1 l = 9 /\ b_prio (own_ballot o) = 0 /\
    exec o CTryLeader = Ok (o', RUnit) /\ role_of o' = (Leader, PhPrepare) /\ b_prio (leader_ballot o') = 0.
Proof.
  exists plain, cc3, scs1, acts_lost. assert (H : exists s, run cc3 ini1 acts_lost = Some s /\ exists o, nodes s 1 = Some o /\ b_prio (own_ballot o) = 0 /\ exists o', exec o CTryLeader = Ok (o', RUnit) /\ role_of o' = (Leader, PhPrepare) /\ b_prio (leader_ballot o') = 0).
  { vm_compute. eexists. split; [reflexivity|]. eexists. split; [reflexivity|]. split; [reflexivity|]. eexists. split; [reflexivity|]. split; reflexivity. }
  destruct H as (s & H1 & o & H2 & H3 & o' & H4 & H5 & H6). exists s, o, o'.
  split; [split; [reflexivity|]; split; [intros [X|[X|[X|[]]]]; discriminate|]; intros p [<-|[<-|[<-|[]]]]; split; reflexivity|]. split; [reflexivity|]. split.
  { apply h1h2_run; vm_compute; reflexivity. }
  split; [repeat constructor|]. split; [exact H1|]. split; [exact H2|]. split; [reflexivity|]. split; [exact H3|]. split; [exact H4|]. split; [exact H5|exact H6].
Qed.

(** omni_paxos.rs 399-400 says that changing the priority triggers a leader re-election. Here server 3 gets the
    highest priority, everybody hears everybody in the five election timeouts that follow, and server 2 stays
    the leader with the same ballot: the number of its ballot is higher. *)
Definition hb_rounds (n : nat) : list cmd := concat (repeat [ Call 1 CTick; Call 2 CTick; Call 3 CTick; Settle [1;2;3] 3 ] n).
Definition acts_before := Eval vm_compute in acts_of cc3 ini1 (hb_rounds 1 ++ [ Call 1 CTryLeader; Settle [1;2;3] 4 ] ++ hb_rounds 3).
Definition sys_before := match run cc3 ini1 acts_before with Some s => s | None => ini1 end.
Definition acts_after := Eval vm_compute in acts_of cc3 sys_before (Call 3 (CSetPriority 7) :: hb_rounds 5).
Theorem C66_reelection_refuted :
  exists (E : EntryT) cc scs l0 l1 s0 s1 b,
    good_config cc scs /\ cc_nodes cc = [1; 2; 3] /\ all_steps h1h2 cc (init_sys cc scs) (l0 ++ ADo 3 (ECall (CSetPriority 7)) :: l1) /\
    Forall (fun a => match a with ACrash _ _ _ _ | ADrop _ _ _ => False | _ => True end) (l0 ++ ADo 3 (ECall (CSetPriority 7)) :: l1) /\
    reaches cc scs l0 s0 /\ reaches cc scs (l0 ++ ADo 3 (ECall (CSetPriority 7)) :: l1) s1 /\ b_pid b = 2 /\ b_prio b = 0 /\
    (forall p, In p [1;2;3] -> exists o, nodes s0 p = Some o /\ election_view o = b /\ get_promise o = b) /\
    (forall p, In p [1;2;3] -> exists o, nodes s1 p = Some o /\ election_view o = b /\ get_promise o = b /\ b_prio (own_ballot o) = if p =? 3 then 7 else 0) /\
    (forall p, In p [1;2;3] -> length (filter (fun a => match a with ADo q (ECall CTick) => q =? p | _ => false end) l1) = 5).
Proof.
  exists plain, cc3, scs1, acts_before, (tl acts_after).
  assert (H0 : exists s0, run cc3 ini1 acts_before = Some s0 /\ forall p, In p [1;2;3] -> exists o, nodes s0 p = Some o /\ election_view o = mkB 1 2 0 2 /\ get_promise o = mkB 1 2 0 2).
  { vm_compute. eexists. split; [reflexivity|]. intros p [<-|[<-|[<-|[]]]]; (eexists; split; [reflexivity|]; split; reflexivity). }
  assert (H1 : exists s1, run cc3 ini1 (acts_before ++ ADo 3 (ECall (CSetPriority 7)) :: tl acts_after) = Some s1 /\
     forall p, In p [1;2;3] -> exists o, nodes s1 p = Some o /\ election_view o = mkB 1 2 0 2 /\ get_promise o = mkB 1 2 0 2 /\ b_prio (own_ballot o) = if p =? 3 then 7 else 0).
  { vm_compute. eexists. split; [reflexivity|]. intros p [<-|[<-|[<-|[]]]]; (eexists; split; [reflexivity|]; split; [reflexivity|]; split; reflexivity). }
  destruct H0 as (s0 & R0 & V0), H1 as (s1 & R1 & V1). exists s0, s1, (mkB 1 2 0 2).
  split; [split; [reflexivity|]; split; [intros [X|[X|[X|[]]]]; discriminate|]; intros p [<-|[<-|[<-|[]]]]; split; reflexivity|]. split; [reflexivity|].
  split; [apply h1h2_run; vm_compute; reflexivity|]. split; [repeat constructor|]. split; [exact R0|]. split; [exact R1|]. split; [reflexivity|]. split; [reflexivity|]. split; [exact V0|]. split; [exact V1|].
  intros p [<-|[<-|[<-|[]]]]; vm_compute; reflexivity.
Qed.

(** A request of round 5 is answered; a timeout begins round 3 of server 1. *)
Example C68_case :
  obs sys_elect 1 (fun o => (lc_time (o_eclk o) + 1, lc_timeout (o_eclk o), hb_round o)) = Some (1, 1, 2) /\
  obs sys_elect 1 (fun o => after_tick o (fun o => (hb_round o, heartbeats o))) = Some (Some (3, [mkBM 1 2 (HbRequest 3); mkBM 1 3 (HbRequest 3)])) /\
  obs sys_elect 1 (fun o => match exec o (CHandle (MsgBLE (mkBM 2 1 (HbRequest 5)))) with Ok (o', _) => heartbeats o' | Panic _ => [] end) =
    Some [mkBM 1 2 (HbReply (mkHR 5 (mkB 1 1 0 1) (mkB 1 1 0 1) false))].
Proof. vm_compute. auto. Qed.
End Case.

Print Assumptions C66_priority_is_used_partial.
Print Assumptions C66_set_priority.
Print Assumptions C66_try_become_leader_uses_the_priority.
Print Assumptions C66_priority_refuted.
Print Assumptions C66_reelection_refuted.
Print Assumptions C68_requests_are_answered.
Print Assumptions C68_timeout_asks_every_server.
Print Assumptions C68_started_server_asks_every_server.
