(** * Links that also duplicate messages

    System.v lets links lose messages and deliver them in any order.  Here a message that
    is on a link can also be copied, to any place of the queue of its link and any number
    of times. *)
From Coq Require Import List Arith Bool Lia.
Import ListNotations.
From Verif Require Import Types Config MemStore Internal LeaderState SeqPaxos Ble Omni System Basics Ghost GhostOps Inv
  Op SysInv Spec.

Section WithEntry.
Context {E : EntryT}.

(** An action of System.v, or: the [k]-th message from [src] to [dst] is copied, and the copy
    stands at place [i] of the queue. *)
Inductive daction :=
| DAct (a : action)
| DCopy (src dst : node_id) (k i : nat).

Definition insert_nth {A} (l : list A) (i : nat) (x : A) : list A := firstn i l ++ x :: skipn i l.

Definition exec_daction (cc : cluster_config) (s : sys) (d : daction) : option sys :=
  match d with
  | DAct a => exec_action cc s a
  | DCopy src dst k i =>
      match nth_error (net s src dst) k with
      | Some m => Some (mkSys (nodes s) (upd2 (net s) src dst (insert_nth (net s src dst) i m)))
      | None => None
      end
  end.

Fixpoint drun (cc : cluster_config) (s : sys) (l : list daction) : option sys :=
  match l with
  | [] => Some s
  | d :: r => match exec_daction cc s d with Some s' => drun cc s' r | None => None end
  end.

Fixpoint all_dsteps (P : sys -> daction -> Prop) (cc : cluster_config) (s : sys) (l : list daction) : Prop :=
  match l with
  | [] => True
  | d :: r => P s d /\ match exec_daction cc s d with Some s' => all_dsteps P cc s' r | None => True end
  end.

(** H1 and H2 as for [h1h2]; only messages other than AcceptSync are copied. *)
Definition copies_ok (s : sys) (d : daction) : Prop :=
  match d with
  | DAct a => h1h2 s a
  | DCopy src dst k i => forall m, nth_error (net s src dst) k = Some m -> sync_ballot m = None
  end.

(** [s] is reached from the initial state by the actions [l]; [s] is the cluster state at some
    moment of the run [l]. *)
Definition dreaches (cc : cluster_config) (scs : node_id -> server_config) (l : list daction) (s : sys) : Prop :=
  drun cc (init_sys cc scs) l = Some s.
Definition dmoment (cc : cluster_config) (scs : node_id -> server_config) (l : list daction) (s : sys) : Prop :=
  exists l1 l2, l = l1 ++ l2 /\ dreaches cc scs l1 s.

Lemma drun_app cc l1 l2 s s2 : drun cc s (l1 ++ l2) = Some s2 -> exists s1, drun cc s l1 = Some s1 /\ drun cc s1 l2 = Some s2.
Proof.
  revert s. induction l1 as [|d l1 IH]; intros s H; cbn in *; eauto. destruct (exec_daction cc s d); [|discriminate]. auto.
Qed.
Lemma all_dsteps_app cc P l1 l2 s s1 : all_dsteps P cc s (l1 ++ l2) -> drun cc s l1 = Some s1 ->
  all_dsteps P cc s l1 /\ all_dsteps P cc s1 l2.
Proof.
  revert s. induction l1 as [|d l1 IH]; intros s H R; cbn in *.
  - injection R as <-. auto.
  - destruct H as [H1 H2]. destruct (exec_daction cc s d) as [s'|]; [|discriminate]. destruct (IH s' H2 R). auto.
Qed.

Lemma dmoments_ordered cc scs P l s1 s2 : all_dsteps P cc (init_sys cc scs) l -> dmoment cc scs l s1 -> dmoment cc scs l s2 ->
  exists l1 l2, all_dsteps P cc (init_sys cc scs) (l1 ++ l2) /\
    ((dreaches cc scs l1 s1 /\ dreaches cc scs (l1 ++ l2) s2) \/ (dreaches cc scs l1 s2 /\ dreaches cc scs (l1 ++ l2) s1)).
Proof.
  intros Hh (a1 & b1 & E1 & R1) (a2 & b2 & E2 & R2).
  assert (Hp : forall a b s, l = a ++ b -> dreaches cc scs a s -> all_dsteps P cc (init_sys cc scs) a).
  { intros a b s -> R. destruct (all_dsteps_app cc P a b _ _ Hh R). auto. }
  assert (Hx : forall (a b a' b' : list daction), l = a ++ b -> l = a' ++ b' -> length a <= length a' -> a ++ skipn (length a) a' = a').
  { intros a b a' b' F1 F2 Hle.
    assert (Hf : firstn (length a) l = firstn (length a) a') by (rewrite F2, firstn_app; replace (length a - length a') with 0 by lia; cbn; apply app_nil_r).
    rewrite F1, firstn_app, Nat.sub_diag, firstn_all in Hf. cbn in Hf. rewrite app_nil_r in Hf. rewrite Hf at 1. apply firstn_skipn. }
  destruct (le_lt_dec (length a1) (length a2)) as [Hle|Hlt].
  - exists a1, (skipn (length a1) a2). rewrite (Hx a1 b1 a2 b2); auto. split; eauto.
  - exists a2, (skipn (length a2) a1). rewrite (Hx a2 b2 a1 b1); auto; [|lia]. split; eauto.
Qed.

(** ** A run with copies, seen as a run without

    In the other run a message that is not an AcceptSync stays on its link for ever: it is
    delivered without being taken out ([netafter]). *)
Definition isync (m : message) : bool := match sync_ballot m with Some _ => true | None => false end.

Record shadow (s r : sys) : Prop := {
  sh_nodes : nodes r = nodes s;
  sh_sync : forall a b, filter isync (net r a b) = filter isync (net s a b);
  sh_in : forall a b m, In m (net s a b) -> In m (net r a b)
}.

Lemma filter_split {A} (f : A -> bool) l x a b : filter f l = a ++ x :: b ->
  exists l1 l2, l = l1 ++ x :: l2 /\ filter f l1 = a /\ filter f l2 = b.
Proof.
  revert a. induction l as [|y l IH]; intros a H; cbn in H; [destruct a; discriminate|].
  destruct (f y) eqn:Hy.
  - destruct a as [|z a]; cbn in H; injection H as -> H.
    + exists [], l. auto.
    + destruct (IH a H) as (l1 & l2 & -> & H1 & H2). exists (z :: l1), l2. cbn. rewrite Hy, H1. auto.
  - destruct (IH a H) as (l1 & l2 & -> & H1 & H2). exists (y :: l1), l2. cbn. rewrite Hy. auto.
Qed.

(** The message in the other run, and what is left there. *)
Lemma shadow_take s r p src k m : shadow s r -> nth_error (net s src p) k = Some m ->
  exists k', nth_error (net r src p) k' = Some m /\
    (isync m = true ->
       (forall j m', j < k' -> nth_error (net r src p) j = Some m' -> isync m' = true ->
          exists j0, j0 < k /\ nth_error (net s src p) j0 = Some m') /\
       filter isync (remove_nth (net r src p) k') = filter isync (remove_nth (net s src p) k) /\
       forall x, In x (remove_nth (net s src p) k) -> In x (remove_nth (net r src p) k')).
Proof.
  intros Hs Hk. destruct (isync m) eqn:Hm.
  - destruct (nth_error_split _ _ Hk) as (d1 & d2 & Hd & Hl).
    pose proof (sh_sync _ _ Hs src p) as Hf. rewrite Hd, filter_app in Hf. cbn [filter] in Hf. rewrite Hm in Hf.
    destruct (filter_split isync _ m _ _ Hf) as (r1 & r2 & Hr & F1 & F2).
    exists (length r1). rewrite Hr. split; [rewrite nth_error_app2, Nat.sub_diag by lia; reflexivity|]. intros _. split; [|split].
    + intros j m' Hj Hn Hy. rewrite nth_error_app1 in Hn by auto. apply nth_error_In in Hn.
      assert (Hi : In m' (filter isync d1)) by (rewrite <- F1; apply filter_In; auto).
      apply filter_In in Hi. destruct Hi as [Hi _]. apply In_nth_error in Hi. destruct Hi as [j0 Hj0]. exists j0.
      assert (Hlt : j0 < length d1) by (apply nth_error_Some; congruence). split; [lia|]. rewrite Hd, nth_error_app1 by auto. exact Hj0.
    + rewrite Hd, <- Hl, !remove_nth_mid, !filter_app. congruence.
    + rewrite Hd, <- Hl, !remove_nth_mid. intros x Hx. destruct (isync x) eqn:Hy.
      * assert (Hi : In x (filter isync (r1 ++ r2))) by (rewrite filter_app, F1, F2, <- filter_app; apply filter_In; auto).
        apply filter_In in Hi. apply Hi.
      * assert (Hi : In x (r1 ++ m :: r2)).
        { rewrite <- Hr. apply (sh_in _ _ Hs). rewrite Hd. rewrite in_app_iff in *. cbn. tauto. }
        rewrite in_app_iff in *. cbn in Hi. destruct Hi as [|[->|]]; auto. congruence.
  - pose proof (sh_in _ _ Hs src p m (nth_error_In _ _ Hk)) as Hi. apply In_nth_error in Hi. destruct Hi as [k' Hk'].
    exists k'. split; [exact Hk'|discriminate].
Qed.

Lemma filter_remove {A} (f : A -> bool) l : forall k x, nth_error l k = Some x -> f x = false -> filter f (remove_nth l k) = filter f l.
Proof.
  induction l as [|y l IH]; intros [|k] x H Hx; cbn in *; try discriminate.
  - injection H as ->. rewrite Hx. reflexivity.
  - rewrite (IH k x) by auto. reflexivity.
Qed.
Lemma remove_in {A} (l : list A) k x : In x (remove_nth l k) -> In x l.
Proof. apply sub_in, sub_remove. Qed.
Lemma remove_none {A} (l : list A) : forall k, nth_error l k = None -> remove_nth l k = l.
Proof. induction l as [|y l IH]; intros [|k] H; cbn in *; auto; try discriminate. f_equal. auto. Qed.

Lemma upd2_eq {A} (f : node_id -> node_id -> list A) a b x c d : upd2 f a b x c d = if (c =? a) && (d =? b) then x else f c d.
Proof. reflexivity. Qed.

(** An event and the corresponding one. *)
Lemma shadow_event s r p ev c : shadow s r -> event_call s p ev = Some c -> h12 s p ev ->
  exists ev' n', event_call r p ev' = Some c /\ h12 r p ev' /\ netafter r p ev' n' /\
    (forall a b, filter isync (n' a b) = filter isync (event_net s p ev a b)) /\
    (forall a b m, In m (event_net s p ev a b) -> In m (n' a b)).
Proof.
  intros Hs Hc Hh. destruct ev as [c0|src k].
  - exists (ECall c0), (net r). split; [exact Hc|]. split; [exact I|]. split; [left; reflexivity|]. cbn. destruct Hs; auto.
  - cbn in Hc. destruct (nth_error (net s src p) k) as [m|] eqn:Hk; [|discriminate]. cbn in Hc.
    destruct (shadow_take s r p src k m Hs Hk) as (k' & Hk' & Hy). destruct Hh as [Hh1 Hh2].
    assert (Hh2' : forall o m0, nodes r p = Some o -> nth_error (net r src p) k' = Some m0 -> is_promise_msg m0 = true ->
        forall x, In x (s_out (o_sp o)) -> pm_to x = src -> is_acceptdecide x = false).
    { intros o m0 Ho Hm0. rewrite (sh_nodes _ _ Hs) in Ho. rewrite Hk' in Hm0. injection Hm0 as <-. eapply Hh2; eauto. }
    destruct (isync m) eqn:Hm.
    + destruct (Hy eq_refl) as (Y1 & Y2 & Y3). exists (EDeliver src k'), (event_net r p (EDeliver src k')).
      split; [cbn; rewrite Hk'; exact Hc|]. split; [split; [|exact Hh2']|split; [left; reflexivity|split]].
      * intros j m1 m2 n Hj Hm1 Hm2 Hsy. rewrite Hk' in Hm2. injection Hm2 as <-.
        destruct (Y1 j m1 Hj Hm1) as (j0 & Hj0 & Hm1'); [unfold isync; rewrite Hsy; reflexivity|]. eapply Hh1; eauto.
      * intros a b. cbn [event_net]. rewrite !upd2_eq. destruct ((a =? src) && (b =? p)); [exact Y2|apply (sh_sync _ _ Hs)].
      * intros a b x. cbn [event_net]. rewrite !upd2_eq. destruct ((a =? src) && (b =? p)); [apply Y3|apply (sh_in _ _ Hs)].
    + exists (EDeliver src k'), (net r).
      assert (Hsy : sync_ballot m = None) by (unfold isync in Hm; destruct (sync_ballot m); [discriminate|reflexivity]).
      split; [cbn; rewrite Hk'; exact Hc|]. split; [split; [|exact Hh2']|split; [right; split; [reflexivity|]|split]].
      * intros j m1 m2 n Hj Hm1 Hm2 _. rewrite Hk' in Hm2. injection Hm2 as <-. congruence.
      * intros src0 k0 m0 He Hm0. injection He as <- <-. congruence.
      * intros a b. cbn [event_net]. rewrite !upd2_eq, (sh_sync _ _ Hs). destruct (Nat.eqb_spec a src) as [->|]; [|reflexivity].
        destruct (Nat.eqb_spec b p) as [->|]; [|reflexivity]. cbn [andb]. symmetry. eapply filter_remove; eauto.
      * intros a b x. cbn [event_net]. rewrite !upd2_eq. intros Hx. apply (sh_in _ _ Hs).
        destruct (Nat.eqb_spec a src) as [->|]; [|exact Hx]. destruct (Nat.eqb_spec b p) as [->|]; [|exact Hx].
        cbn [andb] in Hx. eapply remove_in; eauto.
Qed.

Section Inv.
Context (cc : cluster_config) (Hv : cluster_validate cc = true) (H0 : ~ In 0 (cc_nodes cc)).

Lemma h12_of s p ev : h1h2 s (ADo p ev) -> h12 s p ev.
Proof.
  intros [Hf Hd]. destruct ev as [c|src k]; cbn; auto. cbn in Hf, Hd. split; auto. intros o m Ho Hm. rewrite Ho, Hm in Hd. exact Hd.
Qed.
Lemma h12_of_crash s p ev j sc : h1h2 s (ACrash p ev j sc) -> h12 s p ev.
Proof.
  intros [Hf Hd]. destruct ev as [c|src k]; cbn; auto. cbn in Hf, Hd. split; auto. intros o m Ho Hm. rewrite Ho, Hm in Hd. exact Hd.
Qed.

Lemma dstep_inv G s r d s' : shadow s r -> SysInv cc G r -> copies_ok s d -> exec_daction cc s d = Some s' ->
  exists G' r', gle G G' /\ SysInv cc G' r' /\ shadow s' r'.
Proof.
  intros Hs HS Hok He. destruct d as [a|src dst k i]; cbn [exec_daction] in He.
  2:{ destruct (nth_error (net s src dst) k) as [m|] eqn:Hk; [|discriminate]. injection He as <-.
      exists G, r. split; [apply gle_refl|]. split; [exact HS|]. pose proof (Hok m Hk) as Hm. destruct Hs as [A B C]. constructor; cbn [nodes net]; auto.
      - intros a b. rewrite upd2_eq, B. destruct (Nat.eqb_spec a src) as [->|]; [|reflexivity]. destruct (Nat.eqb_spec b dst) as [->|]; [|reflexivity].
        cbn [andb]. unfold insert_nth. rewrite <- (firstn_skipn i (net s src dst)) at 1. rewrite !filter_app. cbn [filter].
        unfold isync at 4. rewrite Hm. reflexivity.
      - intros a b x. rewrite upd2_eq. destruct (Nat.eqb_spec a src) as [->|]; [|apply C]. destruct (Nat.eqb_spec b dst) as [->|]; [|apply C].
        cbn [andb]. unfold insert_nth. intros Hx. apply C. rewrite <- (firstn_skipn i (net s src dst)).
        rewrite in_app_iff in *. cbn in Hx. destruct Hx as [|[<-|]]; auto.
        apply in_app_iff. rewrite firstn_skipn. eapply nth_error_In; eauto. }
  destruct a as [p ev|p|src dst k|p ev j sc]; cbn [exec_action] in He.
  - destruct (nodes s p) as [o|] eqn:Ho; [|discriminate]. destruct (event_call s p ev) as [c|] eqn:Hc; [|discriminate].
    destruct (exec o c) as [[o' x]|] eqn:Hx; [|discriminate]. injection He as <-.
    destruct (shadow_event s r p ev c Hs Hc (h12_of _ _ _ Hok)) as (ev' & n' & C' & H' & N' & F1 & F2).
    assert (Ho' : nodes r p = Some o) by (rewrite (sh_nodes _ _ Hs); exact Ho).
    destruct (do_inv_n cc Hv H0 nothing (upto 0) G r p ev' n' o c o' x HS Ho' C' H' N' (roomt_nothing G _ c) Hx) as (G' & [L _] & S' & _).
    exists G', (mkSys (upd1 (nodes r) p (Some o')) n'). split; [exact L|]. split; [exact S'|].
    constructor; cbn [nodes net]; auto. rewrite (sh_nodes _ _ Hs). reflexivity.
  - destruct (nodes s p) as [o|] eqn:Ho; [|discriminate]. destruct (take_outgoing_messages o []) as [o' l] eqn:Ht. injection He as <-.
    assert (Ho' : nodes r p = Some o) by (rewrite (sh_nodes _ _ Hs); exact Ho).
    exists G, (mkSys (upd1 (nodes r) p (Some o')) (send_all (net r) p l)). split; [apply gle_refl|]. split; [eapply fetch_inv; eauto|].
    constructor; cbn [nodes net].
    + rewrite (sh_nodes _ _ Hs). reflexivity.
    + intros a b. rewrite !send_all_net. destruct (a =? p); [|apply (sh_sync _ _ Hs)]. rewrite !filter_app, (sh_sync _ _ Hs). reflexivity.
    + intros a b m. rewrite !send_all_net. destruct (a =? p); [|apply (sh_in _ _ Hs)]. rewrite !in_app_iff. intros [Hm|Hm]; [left; apply (sh_in _ _ Hs), Hm|right; exact Hm].
  - injection He as <-. destruct (nth_error (net s src dst) k) as [m|] eqn:Hk.
    + destruct (shadow_take s r dst src k m Hs Hk) as (k' & Hk' & Hy). destruct (isync m) eqn:Hm.
      * destruct (Hy eq_refl) as (_ & Y2 & Y3). exists G, (mkSys (nodes r) (upd2 (net r) src dst (remove_nth (net r src dst) k'))).
        split; [apply gle_refl|]. split; [apply drop_inv; auto|]. constructor; cbn [nodes net].
        -- apply (sh_nodes _ _ Hs).
        -- intros a b. rewrite !upd2_eq. destruct ((a =? src) && (b =? dst)); [exact Y2|apply (sh_sync _ _ Hs)].
        -- intros a b x. rewrite !upd2_eq. destruct ((a =? src) && (b =? dst)); [apply Y3|apply (sh_in _ _ Hs)].
      * exists G, r. split; [apply gle_refl|]. split; [exact HS|]. constructor; cbn [nodes net].
        -- apply (sh_nodes _ _ Hs).
        -- intros a b. rewrite upd2_eq, (sh_sync _ _ Hs). destruct (Nat.eqb_spec a src) as [->|]; [|reflexivity].
           destruct (Nat.eqb_spec b dst) as [->|]; [|reflexivity]. cbn [andb]. symmetry. eapply filter_remove; eauto.
        -- intros a b x. rewrite upd2_eq. intros Hx. apply (sh_in _ _ Hs).
           destruct (Nat.eqb_spec a src) as [->|]; [|exact Hx]. destruct (Nat.eqb_spec b dst) as [->|]; [|exact Hx].
           cbn [andb] in Hx. eapply remove_in; eauto.
    + exists G, r. split; [apply gle_refl|]. split; [exact HS|]. rewrite (remove_none _ _ Hk).
      destruct Hs as [A B C]. constructor; cbn [nodes net]; auto.
      * intros a b. rewrite upd2_eq, B. destruct (Nat.eqb_spec a src) as [->|]; [|reflexivity]. destruct (Nat.eqb_spec b dst) as [->|]; reflexivity.
      * intros a b x. rewrite upd2_eq. destruct (Nat.eqb_spec a src) as [->|]; [|apply C]. destruct (Nat.eqb_spec b dst) as [->|]; apply C.
  - destruct (nodes s p) as [o|] eqn:Ho; [|discriminate]. destruct (event_call s p ev) as [c|] eqn:Hc; [|discriminate].
    destruct (nth_error (crash_points o c) j) as [st|] eqn:Hst; [|discriminate]. apply nth_error_In in Hst.
    destruct (Nat.eqb_spec (sc_pid sc) p) as [Hsc|]; [|discriminate].
    destruct (build cc sc st) as [| |o'] eqn:Hb; try discriminate. injection He as <-.
    destruct (shadow_event s r p ev c Hs Hc (h12_of_crash _ _ _ _ _ Hok)) as (ev' & n' & C' & H' & N' & F1 & F2).
    assert (Ho' : nodes r p = Some o) by (rewrite (sh_nodes _ _ Hs); exact Ho).
    destruct (crash_inv_n cc Hv H0 nothing (upto 0) G r p ev' n' o c st sc o' HS Ho' C' H' N' (roomt_nothing G _ c) Hst Hsc Hb) as (G' & [L _] & S' & _).
    exists G', (mkSys (upd1 (nodes r) p (Some o')) n'). split; [exact L|]. split; [exact S'|].
    constructor; cbn [nodes net]; auto. rewrite (sh_nodes _ _ Hs). reflexivity.
Qed.

Lemma drun_inv l : forall G s r s', shadow s r -> SysInv cc G r -> all_dsteps copies_ok cc s l -> drun cc s l = Some s' ->
  exists G' r', gle G G' /\ SysInv cc G' r' /\ shadow s' r'.
Proof.
  induction l as [|d l IH]; intros G s r s' Hs HS Hl Hr; cbn in *.
  - injection Hr as <-. exists G, r. split; [apply gle_refl|auto].
  - destruct Hl as [Hd Hl]. destruct (exec_daction cc s d) as [s1|] eqn:He; [|discriminate].
    destruct (dstep_inv G s r d s1 Hs HS Hd He) as (G1 & r1 & L1 & S1 & Sh1).
    destruct (IH G1 s1 r1 s' Sh1 S1 Hl Hr) as (G2 & r2 & L2 & S2 & Sh2). exists G2, r2. split; auto. eapply gle_trans; eauto.
Qed.

(** Two moments of a run with copies. *)
Lemma dtwo_moments scs l1 l2 s1 s2 : all_dsteps copies_ok cc (init_sys cc scs) (l1 ++ l2) ->
  dreaches cc scs l1 s1 -> dreaches cc scs (l1 ++ l2) s2 ->
  exists G1 G2 r1 r2, SysInv cc G1 r1 /\ SysInv cc G2 r2 /\ gle G1 G2 /\ nodes r1 = nodes s1 /\ nodes r2 = nodes s2.
Proof.
  unfold dreaches. intros Hh R1 R2. destruct (drun_app _ _ _ _ _ R2) as (s1' & R1' & R12).
  assert (s1' = s1) by congruence. subst s1'. destruct (all_dsteps_app _ _ _ _ _ _ Hh R1) as [A1 A2].
  destruct (drun_inv l1 G00 (init_sys cc scs) (init_sys cc scs) s1) as (G1 & r1 & _ & S1 & Sh1); auto using init_inv.
  { constructor; auto. }
  destruct (drun_inv l2 G1 s1 r1 s2 Sh1 S1 A2 R12) as (G2 & r2 & L & S2 & Sh2).
  exists G1, G2, r1, r2. split; auto. split; auto. split; auto. split; [apply (sh_nodes _ _ Sh1)|apply (sh_nodes _ _ Sh2)].
Qed.
End Inv.
End WithEntry.
