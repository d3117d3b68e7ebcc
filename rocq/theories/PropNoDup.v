(** * No entry is decided more often than it was appended *)
From Coq Require Import List Arith Bool Lia.
Import ListNotations.
From Verif Require Import Types Config MemStore Internal LeaderState SeqPaxos Ble Omni System Basics Ghost GhostOps Inv
  Op SysInv Spec Reads Agree Scen Refute PropAgreement PropLocal PropAccepted.

(** ** Sums *)
Lemma sum_cons {A} (f : A -> nat) a l : list_sum (map f (a :: l)) = f a + list_sum (map f l).
Proof. reflexivity. Qed.
Lemma sum_le {A} (l : list A) (f g : A -> nat) : (forall a, f a <= g a) -> list_sum (map f l) <= list_sum (map g l).
Proof. intros Hle. induction l as [|a l IH]; auto. rewrite !sum_cons. specialize (Hle a). lia. Qed.
Lemma sum_le_at {A} (l : list A) (f g : A -> nat) p k : In p l -> f p + k <= g p -> (forall a, f a <= g a) ->
  list_sum (map f l) + k <= list_sum (map g l).
Proof.
  intros Hin Hp Hle. induction l as [|a l IH]; [destruct Hin|]. rewrite !sum_cons.
  destruct Hin as [->|Hin]; [pose proof (sum_le l f g Hle)|specialize (IH Hin); specialize (Hle a)]; lia.
Qed.
Lemma sum_plus {A} (l : list A) (f g : A -> nat) : list_sum (map (fun a => f a + g a) l) = list_sum (map f l) + list_sum (map g l).
Proof. induction l as [|a l IH]; auto. rewrite !sum_cons. lia. Qed.
Lemma sum_ext {A} (l : list A) (f g : A -> nat) : (forall a, In a l -> f a = g a) -> list_sum (map f l) = list_sum (map g l).
Proof. intros H. f_equal. apply map_ext_in. exact H. Qed.
Lemma sum_split (l : list nat) (f : nat -> nat) p : NoDup l -> In p l ->
  exists r, forall g, (forall a, a <> p -> g a = f a) -> list_sum (map g l) = g p + r.
Proof.
  intros Hn Hin. induction Hn as [|a l Ha Hn IH]; [destruct Hin|]. destruct Hin as [->|Hin].
  - exists (list_sum (map f l)). intros g Hg. rewrite sum_cons. f_equal. apply sum_ext. intros b Hb. apply Hg. intros ->. auto.
  - destruct (IH Hin) as [r Hr]. exists (f a + r). intros g Hg. rewrite sum_cons, (Hr g Hg), (Hg a); [lia|]. intros ->. auto.
Qed.
Lemma sum_one (l : list nat) p k : NoDup l -> list_sum (map (fun b => if p =? b then k else 0) l) <= k.
Proof.
  induction 1 as [|a l Ha Hn IH]; [apply Nat.le_0_l|]. rewrite sum_cons.
  destruct (Nat.eqb_spec p a) as [->|]; [|lia].
  replace (list_sum _) with 0; [lia|]. symmetry. clear IH Hn. induction l as [|b l IH]; auto. rewrite sum_cons.
  destruct (Nat.eqb_spec a b) as [->|]; [exfalso; apply Ha; left; reflexivity|]. apply IH. intros H. apply Ha. right. exact H.
Qed.

Section WithEntry.
Context {E : EntryT}.

(** ** The entries that wait in the cluster *)
Section Count.
Context (cc : cluster_config) (Hv : cluster_validate cc = true) (H0 : ~ In 0 (nds cc)).
Context (t : T -> bool).

Definition all : list nat := nodup Nat.eq_dec (nds cc).
Definition atn (s : sys) (a : node_id) : nat := match osp s a with Some x => pendt t x | None => 0 end.
Definition lk (s : sys) (a b : node_id) : nat := list_sum (map (pendmt t) (pmsgs (net s a b))).
Definition row (s : sys) (a : node_id) : nat := list_sum (map (lk s a) all).
Definition links (s : sys) : nat := list_sum (map (row s) all).
Definition waiting (s : sys) : nat := list_sum (map (atn s) all) + links s.

Lemma all_in p : In p (nds cc) -> In p all.
Proof. apply nodup_In. Qed.
Lemma all_nodup : NoDup all.
Proof. apply NoDup_nodup. Qed.

Lemma sub_sum (l l' : list pmsg) : sub l l' -> list_sum (map (pendmt t) l) <= list_sum (map (pendmt t) l').
Proof. induction 1; rewrite ?sum_cons; lia. Qed.
Lemma links_sub s s' : (forall a b, sub (net s' a b) (net s a b)) -> links s' <= links s.
Proof. intros H. apply sum_le. intros a. apply sum_le. intros b. apply sub_sum, sub_pmsgs, H. Qed.

Lemma remove_sum (l : list message) k m : nth_error l k = Some (MsgSP m) ->
  list_sum (map (pendmt t) (pmsgs (remove_nth l k))) + pendmt t (pm_msg m) = list_sum (map (pendmt t) (pmsgs l)).
Proof.
  revert k. induction l as [|x l IH]; intros [|k] Hk; cbn in Hk; try discriminate.
  - injection Hk as ->. cbn [remove_nth pmsgs flat_map app]. rewrite sum_cons. apply Nat.add_comm.
  - specialize (IH k Hk). cbn [remove_nth]. change (pmsgs (x :: ?y)) with (pmsgs ([x] ++ y)). rewrite !pmsgs_app, !map_app, !list_sum_app. lia.
Qed.

(** A delivered message leaves the network. *)
Lemma links_event G s p ev c : SysInv cc G s -> In p (nds cc) -> event_call s p ev = Some c ->
  forall nd, links (mkSys nd (event_net s p ev)) + match ev with EDeliver _ _ => callt t c | ECall _ => 0 end <= links s.
Proof.
  intros HS Hp Hc nd.
  assert (Hle : links (mkSys nd (event_net s p ev)) <= links s) by (apply links_sub; intros a b; apply event_sub).
  destruct ev as [c0|src k]; [lia|]. cbn in Hc. destruct (nth_error (net s src p) k) as [[m|m]|] eqn:Hk; cbn in Hc; try discriminate; injection Hc as <-; cbn [callt]; [|lia].
  destruct (y_net _ _ _ HS src p m (nth_error_In _ _ Hk)) as (_ & _ & Hsrc).
  apply (sum_le_at _ _ _ src); [apply all_in; exact Hsrc| |].
  - apply (sum_le_at _ _ _ p); [apply all_in; exact Hp| |].
    + unfold lk. cbn [net event_net]. unfold upd2. rewrite !Nat.eqb_refl. cbn [andb]. rewrite (remove_sum _ _ _ Hk). auto.
    + intros b. apply sub_sum, sub_pmsgs. apply (event_sub s p (EDeliver src k)).
  - intros a. apply sum_le. intros b. apply sub_sum, sub_pmsgs. apply (event_sub s p (EDeliver src k)).
Qed.

Lemma atn_split s p : In p (nds cc) -> exists r, list_sum (map (atn s) all) = atn s p + r /\
  forall o' n', list_sum (map (atn (mkSys (upd1 (nodes s) p (Some o')) n')) all) = pendt t (o_sp o') + r.
Proof.
  intros Hp. destruct (sum_split all (atn s) p all_nodup (all_in p Hp)) as [r Hr]. exists r. split; [apply Hr; auto|].
  intros o' n'. rewrite (Hr (atn (mkSys (upd1 (nodes s) p (Some o')) n'))).
  - f_equal. unfold atn. rewrite osp_upd, Nat.eqb_refl. reflexivity.
  - intros a Ha. unfold atn. rewrite osp_upd. destruct (Nat.eqb_spec a p); [congruence|]. reflexivity.
Qed.

(** The entries that satisfy the test and are in the log of a ballot or wait are within [B]. *)
Definition Cnt (B : budget) (G : ghost) (s : sys) : Prop := roomt t B G (waiting s).
(** [B'] allows [w] more than [B]. *)
Definition more (B B' : budget) (w : nat) : Prop := forall l k, bq B t l k -> bq B' t l (k + w).
Lemma more_upto B w : more (upto B) (upto (B + w)) w.
Proof. intros l k. cbn. lia. Qed.
Lemma more_0 B : more B B 0.
Proof. intros l k. rewrite Nat.add_0_r. auto. Qed.

Definition weight (s : sys) (a : action) : nat := if takes t s a then 1 else 0.

Lemma cft_one e : cft t [e] = if t e then 1 else 0.
Proof. unfold cft. cbn. destruct (t e); reflexivity. Qed.

Lemma event_room B B' G s p ev o c w : more B B' w -> SysInv cc G s -> nodes s p = Some o -> event_call s p ev = Some c -> Cnt B G s ->
  callt t c <= w + match ev with EDeliver _ _ => callt t c | ECall _ => 0 end ->
  exists B1 : budget, roomt t B1 G (pendt t (o_sp o) + callt t c) /\
    forall G' o', SysInv cc G' (mkSys (upd1 (nodes s) p (Some o')) (event_net s p ev)) -> roomt t B1 G' (pendt t (o_sp o')) ->
      Cnt B' G' (mkSys (upd1 (nodes s) p (Some o')) (event_net s p ev)).
Proof.
  intros Hm HS Ho Hc HC Hw.
  assert (Hosp : osp s p = Some (o_sp o)) by (unfold osp; rewrite Ho; reflexivity).
  pose proof (y_N _ _ _ HS p _ Hosp) as HN. pose proof (n_in _ _ _ _ HN) as Hp.
  destruct (atn_split s p Hp) as (r & Hr & Hr').
  assert (Hap : atn s p = pendt t (o_sp o)) by (unfold atn; rewrite Hosp; reflexivity). rewrite Hap in Hr.
  assert (HL : forall o', links (mkSys (upd1 (nodes s) p (Some o')) (event_net s p ev)) = links (mkSys (nodes s) (event_net s p ev))) by reflexivity.
  pose proof (links_event G s p ev c HS Hp Hc (nodes s)) as Hle.
  set (q := r + links (mkSys (nodes s) (event_net s p ev))).
  exists (aside q B'). unfold Cnt, waiting in HC. split.
  - intros b l Hl. change (bq B' t (ll_es l) (pendt t (o_sp o) + callt t c + q)). eapply bq_le; [|exact (Hm _ _ (HC b l Hl))]. unfold q. lia.
  - intros G' o' HS' HR b l Hl. unfold waiting. rewrite Hr', HL. eapply bq_le; [|exact (HR b l Hl)]. unfold q. lia.
Qed.

Lemma append_rejected o e o' r x : exec o (CAppend e) = Ok (o', r) -> r = RPropose (Some x) -> o' = start_call o.
Proof.
  intros H ->. unfold exec in H. cbn [exec_call] in H. unfold sp_append in H. destruct (accepted_reconfiguration _).
  - injection H as <- _. destruct o. reflexivity.
  - destruct (propose_entry _ e); discriminate.
Qed.
Lemma append_ret o e o' r : exec o (CAppend e) = Ok (o', r) -> exists x, r = RPropose x.
Proof.
  intros H. unfold exec in H. cbn [exec_call] in H. destruct (sp_append _ e) as [[s x]|]; [|discriminate]. injection H as _ <-. eauto.
Qed.

Lemma h1h2_h12 s p ev a : h1h2 s a -> action_event a = Some (p, ev) -> h12 s p ev.
Proof.
  intros [Hf Hd] Ha. destruct a as [p0 ev0| | |p0 ev0 j sc]; cbn in Ha; try discriminate; injection Ha as -> ->; (destruct ev as [c0|src k]; cbn; [auto|]; cbn in Hf; split; auto;
    intros o0 m Ho0 Hm; cbn in Hd; rewrite Ho0, Hm in Hd; exact Hd).
Qed.

Lemma fetch_outs (l : list pmessage) (bs : list nat) : NoDup bs ->
  list_sum (map (fun b => list_sum (map (pendmt t) (outs b l))) bs) <= list_sum (map (fun m => pendmt t (pm_msg m)) l).
Proof.
  intros Hn. induction l as [|m l IH].
  - cbn. clear Hn. induction bs; cbn; auto.
  - rewrite sum_cons.
    rewrite (sum_ext bs _ (fun b => (if pm_to m =? b then pendmt t (pm_msg m) else 0) + list_sum (map (pendmt t) (outs b l)))).
    + rewrite sum_plus. pose proof (sum_one bs (pm_to m) (pendmt t (pm_msg m)) Hn). lia.
    + intros b _. unfold outs. cbn [filter]. destruct (pm_to m =? b); reflexivity.
Qed.

Lemma fetch_waiting s p o o' l : nodes s p = Some o -> In p (nds cc) -> take_outgoing_messages o [] = (o', l) ->
  waiting (mkSys (upd1 (nodes s) p (Some o')) (send_all (net s) p l)) <= waiting s.
Proof.
  intros Ho Hp Hf. unfold take_outgoing_messages, sp_take_outgoing in Hf. cbn [app] in Hf. injection Hf as <- <-.
  set (l := map MsgSP (s_out (o_sp o)) ++ map MsgBLE (e_out (o_ble o))).
  unfold waiting. destruct (atn_split s p Hp) as (r & Hr & Hr'). rewrite Hr, Hr'. clear Hr Hr'.
  assert (Hap : atn s p = pendt t (o_sp o)) by (unfold atn, osp; rewrite Ho; reflexivity). rewrite Hap. clear Hap.
  unfold links. destruct (sum_split all (row s) p all_nodup (all_in p Hp)) as [r2 Hr2].
  rewrite (Hr2 (row s)) by auto. rewrite Hr2.
  - set (s' := mkSys _ _). assert (Hrow : row s' p <= row s p + list_sum (map (fun m => pendmt t (pm_msg m)) (s_out (o_sp o)))).
    { unfold row. rewrite (sum_ext all (lk s' p) (fun b => lk s p b + list_sum (map (pendmt t) (outs b (s_out (o_sp o)))))).
      - rewrite sum_plus. pose proof (fetch_outs (s_out (o_sp o)) all all_nodup). lia.
      - intros b _. unfold lk, s'. cbn [net]. rewrite send_all_net, Nat.eqb_refl, pmsgs_app. unfold l. rewrite pmsgs_out, map_app, list_sum_app. reflexivity. }
    unfold pendt at 1. cbn [o_sp set_ble set_sp s_bprops s_out s_role s_is set_lam set_ls set_out map list_sum fold_right].
    unfold pendt. lia.
  - intros a Ha. unfold row. apply sum_ext. intros b _. unfold lk. cbn [net]. rewrite send_all_net. destruct (Nat.eqb_spec a p); [congruence|]. reflexivity.
Qed.

Theorem step_cnt B B' G s a s' : more B B' (weight s a) -> SysInv cc G s -> Cnt B G s -> h1h2 s a -> exec_action cc s a = Some s' ->
  exists G', gle G G' /\ SysInv cc G' s' /\ Cnt B' G' s' /\ forall p ev, a = ADo p ev -> glp p G G'.
Proof.
  intros Hm HS HC Hh He.
  assert (HC' : forall b l k, gM G b = Some l -> k <= waiting s -> bq B' t (ll_es l) k).
  { intros b l k Hl Hk. eapply bq_le; [|exact (Hm _ _ (HC b l Hl))]. lia. } destruct a as [p ev|p|src dst k|p ev j sc]; cbn [exec_action] in He.
  - destruct (nodes s p) as [o|] eqn:Ho; [|discriminate]. destruct (event_call s p ev) as [c|] eqn:Hc; [|discriminate].
    destruct (exec o c) as [[o' r]|] eqn:Hx; [|discriminate]. injection He as <-.
    pose proof (h1h2_h12 s p ev _ Hh eq_refl) as Hh'.
    assert (HD : callt t c <= weight s (ADo p ev) + match ev with EDeliver _ _ => callt t c | ECall _ => 0 end \/
                 (exists e x, c = CAppend e /\ r = RPropose (Some x))).
    { destruct ev as [c0|src k]; [|left; lia]. assert (c0 = c) by (destruct c0; cbn in Hc; congruence). subst c0.
      destruct c as [e| | | | | | | |]; cbn [callt]; try (left; lia); [|discriminate]. destruct (append_ret _ _ _ _ Hx) as [[x|] ->]; [right; eauto|]. left.
      unfold weight, takes. rewrite Ho, Hx, cft_one. lia. }
    destruct HD as [HD|(e & x & -> & Hrx)].
    + destruct (event_room B B' G s p ev o c _ Hm HS Ho Hc HC HD) as (B1 & R1 & R2).
      destruct (do_inv_r cc Hv H0 t B1 G s p ev o c o' r HS Ho Hc Hh' R1 Hx) as (G' & L & S' & R'). exists G'. split; [apply L|]. split; [auto|]. split; [auto|]. intros ? ? [= <- <-]. exact L.
    + pose proof (append_rejected _ _ _ _ _ Hx Hrx). subst o'.
      assert (Hosp : osp s p = Some (o_sp o)) by (unfold osp; rewrite Ho; reflexivity).
      pose proof (sctx_op cc Hv H0 G s p (eni s p ev) nothing (upto 0) HS _ Hosp (fun a _ => eni_sub s p ev a)
         (roomt_le _ _ _ _ _ (Nat.le_add_r _ _) (roomt_nothing G _ CTick))) as HO.
      pose proof (op_sctx cc Hv H0 G s p ev (event_net s p ev) nothing (upto 0) HS o G (start_call o) Ho (or_introl eq_refl) HO (y_ble _ _ _ HS p o Ho)) as S'.
      exists G. split; [apply gle_refl|]. split; [exact S'|]. split; [|intros; apply glp_refl].
      assert (Hev : event_net s p ev = net s) by (destruct ev as [c0|src k]; [reflexivity|]; cbn in Hc; destruct (nth_error _ _); discriminate).
      intros b l Hl. apply (HC' b l _ Hl). unfold waiting, links in *. rewrite Hev.
      destruct (atn_split s p (n_in _ _ _ _ (y_N _ _ _ HS p _ Hosp))) as (r0 & Hr & Hr'). rewrite Hr, Hr'.
      unfold atn. rewrite Hosp. change (pendt t (o_sp (start_call o))) with (pendt t (o_sp o)).
      change (row {| nodes := upd1 (nodes s) p (Some (start_call o)); net := net s |}) with (row s). lia.
  - destruct (nodes s p) as [o|] eqn:Ho; [|discriminate]. destruct (take_outgoing_messages o []) as [o' l] eqn:Ht. injection He as <-.
    assert (Hosp : osp s p = Some (o_sp o)) by (unfold osp; rewrite Ho; reflexivity).
    exists G. split; [apply gle_refl|]. split; [eapply fetch_inv; eauto|]. split; [|discriminate].
    intros b l1 Hl. apply (HC' b l1 _ Hl). pose proof (fetch_waiting s p o o' l Ho (n_in _ _ _ _ (y_N _ _ _ HS p _ Hosp)) Ht). lia.
  - injection He as <-. exists G. split; [apply gle_refl|]. split; [apply drop_inv; auto|]. split; [|discriminate].
    intros b l1 Hl. apply (HC' b l1 _ Hl). unfold waiting in *.
    set (s' := mkSys _ _). assert (Hle : links s' <= links s).
    { apply links_sub. intros a c. unfold s'. cbn [net]. unfold upd2. destruct (Nat.eqb_spec a src) as [->|], (Nat.eqb_spec c dst) as [->|]; cbn [andb]; auto using sub_refl, sub_remove. }
    change (atn s') with (atn s). lia.
  - destruct (nodes s p) as [o|] eqn:Ho; [|discriminate]. destruct (event_call s p ev) as [c|] eqn:Hc; [|discriminate].
    destruct (nth_error (crash_points o c) j) as [st|] eqn:Hst; [|discriminate]. apply nth_error_In in Hst.
    destruct (Nat.eqb_spec (sc_pid sc) p) as [Hsc|]; [|discriminate].
    destruct (build cc sc st) as [| |o'] eqn:Hb; try discriminate. injection He as <-.
    pose proof (h1h2_h12 s p ev _ Hh eq_refl) as Hh'.
    assert (HD : callt t c <= weight s (ACrash p ev j sc) + match ev with EDeliver _ _ => callt t c | ECall _ => 0 end).
    { destruct ev as [c0|src k]; [|lia]. assert (c0 = c) by (destruct c0; cbn in Hc; congruence). subst c0.
      destruct c as [e| | | | | | | |]; cbn [callt]; try lia; [|discriminate]. unfold weight, takes. rewrite cft_one. lia. }
    destruct (event_room B B' G s p ev o c _ Hm HS Ho Hc HC HD) as (B1 & R1 & R2).
    destruct (crash_inv_r cc Hv H0 t B1 G s p ev o c st sc o' HS Ho Hc Hh' R1 Hst Hsc Hb) as (G' & [L _] & S' & R'). exists G'. split; [exact L|]. split; [auto|]. split; [auto|]. discriminate.
Qed.

End Count.

Lemma taken_snoc t cc a l : forall s s1, run cc s l = Some s1 -> taken t cc s (l ++ [a]) = taken t cc s l + weight t s1 a.
Proof.
  induction l as [|x l IH]; intros s s1 R; cbn [app taken].
  - cbn in R. injection R as <-. unfold weight. destruct (exec_action cc s a); lia.
  - cbn in R. destruct (exec_action cc s x) as [s2|]; [|discriminate]. rewrite (IH s2 s1 R). lia.
Qed.

Lemma cnt_init t cc scs : Cnt cc t (upto 0) G00 (init_sys cc scs).
Proof.
  intros b l Hl. cbn in Hl. destruct (beq b bdef); [|discriminate]. injection Hl as <-. change (0 + waiting cc t (init_sys cc scs) <= 0).
  assert (H : waiting cc t (init_sys cc scs) = 0); [|lia]. unfold waiting, links.
  rewrite (sum_ext _ (row cc t (init_sys cc scs)) (fun _ => 0)), (sum_ext _ (atn t (init_sys cc scs)) (fun _ => 0)).
  - induction (all cc); cbn; auto.
  - intros a _. unfold atn, osp. cbn [nodes init_sys]. destruct (_ && _); auto. destruct (build cc (scs a) ms_default) as [| |o] eqn:Hb; auto.
    apply (build_pendt cc t _ _ _ Hb).
  - intros a _. unfold row, lk. cbn. induction (all cc); cbn; auto.
Qed.

(** One ghost history for all moments of a run, with the count. *)
Lemma chain_cnt t cc scs l : good_config cc scs -> all_steps h1h2 cc (init_sys cc scs) l -> forall s, reaches cc scs l s ->
  exists G, SysInv cc G s /\ Cnt cc t (upto (taken t cc (init_sys cc scs) l)) G s /\
    forall s0, moment cc scs l s0 -> exists G0, gle G0 G /\ SysInv cc G0 s0.
Proof.
  intros (Hv & H0 & _). induction l as [|a l IH] using rev_ind; intros Hh s R.
  - cbn in R. injection R as <-. exists G00. split; [apply init_inv|]. split; [apply cnt_init|]. intros s0 (l1 & l2 & Hl & R0). symmetry in Hl. apply app_eq_nil in Hl. destruct Hl as [-> ->].
    cbn in R0. injection R0 as <-. exists G00. split; [apply gle_refl|apply init_inv].
  - destruct (run_app cc l [a] _ _ R) as (s1 & R1 & R2). destruct (all_steps_app cc h1h2 l [a] _ _ Hh R1) as [A1 A2]. cbn in A2. destruct A2 as [Ha _].
    cbn in R2. destruct (exec_action cc s1 a) as [s2|] eqn:He; [|discriminate]. injection R2 as <-.
    destruct (IH A1 s1 R1) as (G & SG & CG & HG). destruct (step_cnt cc Hv H0 t _ _ G s1 a s2 (more_upto t _ _) SG CG Ha He) as (G' & L & S' & C' & _). exists G'. split; auto.
    split; [rewrite (taken_snoc t cc a l _ s1 R1); exact C'|].
    intros s0 (l1 & l2 & Hl & R0). destruct (exists_last_or_nil l2) as [->|(l3 & x & ->)].
    + rewrite app_nil_r in Hl. subst l1. unfold reaches in R, R0. assert (s0 = s2) by congruence. subst s0. exists G'. split; [apply gle_refl|auto].
    + rewrite app_assoc in Hl. apply app_inj_tail in Hl. destruct Hl as [-> ->]. destruct (HG s0) as (G0 & L0 & S0); [exists l1, l3; auto|]. exists G0. split; auto. eapply gle_trans; eauto.
Qed.

(** ** Counting in a list *)
Definition hits (t : T -> bool) (l : list T) (i : nat) : bool := match nth_error l i with Some e => t e | None => false end.
Lemma hits_length t l : forall k (P : nat -> bool), (forall i, P (k + i) = hits t l i) ->
  length (filter P (seq k (length l))) = cft t l.
Proof.
  unfold cft. induction l as [|e l IH]; intros k P HP; auto. cbn [length seq filter].
  pose proof (HP 0) as H. rewrite Nat.add_0_r in H. cbn in H. rewrite H.
  assert (IH' : length (filter P (seq (S k) (length l))) = length (filter t l)).
  { apply IH. intros i. replace (S k + i) with (k + S i) by lia. exact (HP (S i)). }
  destruct (t e); cbn [length]; rewrite IH'; reflexivity.
Qed.
Lemma hits_bound t l is : NoDup is -> (forall i, In i is -> exists e, t e = true /\ nth_error l i = Some e) -> length is <= cft t l.
Proof.
  intros Hn Hi. rewrite <- (hits_length t l 0 (hits t l)) by auto. apply NoDup_incl_length; auto.
  intros i Hin. destruct (Hi i Hin) as (e & Ht & He). apply filter_In. split.
  - apply in_seq. assert (i < length l) by (apply nth_error_Some; congruence). lia.
  - unfold hits. rewrite He. exact Ht.
Qed.
Lemma cft_part t b : forall a k, (forall j e, nth_error a j = Some e -> nth_error b (k + j) = Some e) -> cft t a <= cft t b.
Proof.
  assert (C : forall x r, cft t (x :: r) = (if t x then 1 else 0) + cft t r) by (intros x r; unfold cft; cbn; destruct (t x); reflexivity).
  induction b as [|x b IH]; intros a k H.
  - destruct a as [|e a]; auto. specialize (H 0 e eq_refl). destruct (k + 0); discriminate.
  - rewrite C. destruct k as [|k].
    + destruct a as [|e a]; [apply Nat.le_0_l|]. rewrite C. pose proof (H 0 e eq_refl) as H1. cbn in H1. injection H1 as ->.
      assert (cft t a <= cft t b) by (apply (IH a 0); intros j y Hy; exact (H (S j) y Hy)). lia.
    + assert (cft t a <= cft t b) by (apply (IH a k); intros j y Hy; exact (H j y Hy)). lia.
Qed.

Lemma at_ent (l : llog) i e : at_ l i = Some (Ent e) -> nth_error (ll_es l) i = Some e.
Proof.
  unfold at_. destruct (nth_error (ll_es l) i); [congruence|]. destruct (ll_ss l); [|discriminate]. discriminate.
Qed.

(** Finitely many decided entries are in the log of one ballot. *)
Lemma fixed_one cc (Hv : cluster_validate cc = true) (H0 : ~ In 0 (nds cc)) t G is : GInv cc G ->
  (forall i, In i is -> exists e, t e = true /\ fixed cc G i (Ent e)) ->
  is = [] \/ exists b l m, chosen cc G b m /\ gM G b = Some l /\ forall i, In i is -> i < m /\ exists e, t e = true /\ at_ l i = Some (Ent e).
Proof.
  intros HG. induction is as [|i is IH]; intros H; [auto|]. right.
  destruct (H i (or_introl eq_refl)) as (e & He & b & l & Hc & Hl & Hx).
  destruct IH as [->|(b' & l' & m & Hc' & Hl' & Hall)]; [intros j Hj; apply H; right; exact Hj| |].
  - exists b, l, (i + 1). split; auto. split; auto. intros j [<-|[]]. split; [lia|eauto].
  - destruct (le_lt_dec (i + 1) m) as [Hm|Hm].
    + exists b', l', m. split; auto. split; auto. intros j [<-|Hj]; [|auto]. split; [lia|]. exists e. split; auto.
      pose proof (chosen_chosen cc Hv H0 G b b' _ _ l l' HG Hc Hc' Hl Hl') as A. destruct (A i) as (z & Hz & Hz'); [lia|]. congruence.
    + exists b, l, (i + 1). split; auto. split; auto. intros j [<-|Hj]; [split; [lia|eauto]|]. destruct (Hall j Hj) as (Hjm & e' & He' & Hx').
      split; [lia|]. exists e'. split; auto.
      pose proof (chosen_chosen cc Hv H0 G b b' _ _ l l' HG Hc Hc' Hl Hl') as A. destruct (A j) as (z & Hz & Hz'); [lia|]. congruence.
Qed.

(** ** Theorems *)

(** C46.  H1 and H2; any loss, any crashes.  Take any test on entries, and any
    log indices at which servers have ever reported a decided entry that passes the test.  There are at
    most as many of these indices as there were [append] calls of such entries, where the calls that
    returned an error do not count: no entry is decided more often than it was appended. *)
Theorem C46_decided_at_most_as_often_as_appended :
  forall cc scs l s (t : T -> bool) is, good_config cc scs -> all_steps h1h2 cc (init_sys cc scs) l -> reaches cc scs l s ->
  NoDup is ->
  (forall i, In i is -> exists s0 p e, moment cc scs l s0 /\ server_reports s0 p i (LDecided e) /\ t e = true) ->
  length is <= taken t cc (init_sys cc scs) l.
Proof.
  intros cc scs l s t is Hg Hh R Hn Hi. destruct (chain_cnt t cc scs l Hg Hh s R) as (G & HS & HC & HM).
  destruct Hg as (Hv & H0 & _). pose proof (y_G _ _ _ HS) as HG.
  destruct (fixed_one cc Hv H0 t G is HG) as [->|(b & lg & m & Hc & Hl & Hall)]; [|apply Nat.le_0_l|].
  - intros i Hin. destruct (Hi i Hin) as (s0 & p & e & Hm & (o & Ho & Hr) & He). destruct (HM s0 Hm) as (G0 & L & S0).
    exists e. split; auto. eapply fixed_gle; [exact L|].
    eapply (reports_decided cc Hv H0 G0 p o i e); [apply (y_G _ _ _ S0)|apply (y_N _ _ _ S0); unfold osp; rewrite Ho; reflexivity|exact Hr].
  - pose proof (HC b lg Hl) as HB. change (cft t (ll_es lg) + waiting cc t s <= taken t cc (init_sys cc scs) l) in HB. assert (length is <= cft t (ll_es lg)); [|lia].
    apply hits_bound; auto. intros i Hin. destruct (Hall i Hin) as (_ & e & He & Hx). exists e. split; auto. apply at_ent; exact Hx.
Qed.

(** C46, for everything that is stored, decided or not. *)
Theorem C46_stored_at_most_as_often_as_appended :
  forall cc scs l s (t : T -> bool) p o, good_config cc scs -> all_steps h1h2 cc (init_sys cc scs) l -> reaches cc scs l s ->
  nodes s p = Some o ->
  length (filter t (ms_log (storage o))) <= taken t cc (init_sys cc scs) l.
Proof.
  intros cc scs l s t p o Hg Hh R Ho. destruct (chain_cnt t cc scs l Hg Hh s R) as (G & HS & HC & _).
  assert (HN : NodeInv cc G p (o_sp o)) by (apply (y_N _ _ _ HS); unfold osp; rewrite Ho; reflexivity).
  pose proof (n_st _ _ _ _ HN) as HSt. destruct (stinv_M cc G p _ (y_G _ _ _ HS) HSt) as [lg Hl]. pose proof (HC _ _ Hl) as HB. change (cft t (ll_es lg) + waiting cc t s <= taken t cc (init_sys cc scs) l) in HB.
  change (cft t (ms_log (storage o)) <= taken t cc (init_sys cc scs) l).
  assert (cft t (ms_log (storage o)) <= cft t (ll_es lg)); [|lia].
  apply (cft_part t (ll_es lg) _ (ms_trim (storage o))). intros j e He. apply at_ent. exact (st_log _ _ _ _ HSt lg j e Hl He).
Qed.

End WithEntry.

Print Assumptions C46_decided_at_most_as_often_as_appended.
Print Assumptions C46_stored_at_most_as_often_as_appended.

(** ** Concrete case: 7 is appended at server 1, forwarded from server 2, lost in a crash of server 3,
    and refused after the reconfiguration; it is decided twice. *)
Section Case.
Local Existing Instance plain.
Definition sch_dup : list cmd :=
  [ append 1 7; append 2 7; append 3 8; Do (ACrash 3 (ECall (CAppend (7 : @T plain))) 0 (scs 3)); Settle [1;2;3] 6;
    Call 1 (CReconfigure cc_next None); Settle [1;2;3] 4; append 1 7; Settle [1;2;3] 2 ].
Definition acts_dup := Eval vm_compute in acts_of cc3 sys_case1 sch_dup.
Definition sys_dup := match run cc3 sys_case1 acts_dup with Some s => s | None => ini end.
Example C46_case :
  good_config cc3 scs /\ all_steps h1h2 cc3 ini (acts_case1 ++ acts_dup) /\ reaches cc3 scs (acts_case1 ++ acts_dup) sys_dup /\
  server_reports sys_dup 3 2 (LDecided (7 : @T plain)) /\ server_reports sys_dup 1 3 (LDecided (7 : @T plain)) /\
  obs sys_dup 3 (fun o => (ms_log (storage o), ms_dec (storage o))) = Some ([11; 12; 7; 7], 5) /\
  taken (Nat.eqb 7) cc3 ini (acts_case1 ++ acts_dup) = 3 /\ taken (Nat.eqb 11) cc3 ini (acts_case1 ++ acts_dup) = 1.
Proof.
  split; [exact good3|]. split; [apply h1h2_run; vm_compute; reflexivity|].
  split; [eapply run_app_ok; [exact case_reach1|]; apply is_some_eta; vm_compute; reflexivity|].
  split; [apply shows_ok; vm_compute; reflexivity|]. split; [apply shows_ok; vm_compute; reflexivity|].
  split; [vm_compute; reflexivity|]. split; vm_compute; reflexivity.
Qed.
End Case.
