(** * The invariant of the whole cluster *)
From Coq Require Import List Arith Bool Lia.
Import ListNotations.
From Verif Require Import Types Config MemStore Internal LeaderState SeqPaxos Ble Omni System Basics Ghost GhostOps Inv
  StoreOps SyncOps Op FollowerOps RecvOps LeadLinks LeadSend LeadLoop LeadApp LeadRecv LeadMaj Spec.

(** ** One call of the API *)
Section WithCtx.
Context {E : EntryT} {X : octx}.
Notation cc := xcc.
Notation p := xp.
Notation oth := xoth.
Notation nin := xnin.
Notation nds := (nds cc).

Definition bleinv (c : cluster_config) (q : node_id) (b : bles) : Prop :=
  e_pid b = q /\ b_pid (e_ballot b) = q /\ b_cfg (e_ballot b) = cc_id c.

Lemma bleinv_timeout b st prom : bleinv cc p b -> wfb cc prom -> 0 <> p ->
  bleinv cc p (fst (hb_timeout b st prom)).
Proof.
  intros (H1 & H2 & H3) Hw Hp. unfold hb_timeout. cbn [fst].
  set (b1 := update_leader b).
  assert (HB1 : bleinv cc p b1).
  { unfold b1, update_leader. destruct (max_ballot _) as [m|]; [destruct (bgt m (e_leader b))|]; split; auto. }
  set (b2 := update_happiness b1 st).
  assert (HB2 : bleinv cc p b2) by exact HB1.
  set (b3 := check_takeover b2).
  assert (HB3 : bleinv cc p b3).
  { unfold b3, check_takeover. destruct (negb (e_happy b2)); auto.
    destruct (_ && _); auto. }
  set (b4 := new_hb_round b3).
  assert (HB4 : bleinv cc p b4) by exact HB3.
  clearbody b4. clear - HB4 Hw Hp. destruct (bgt prom (e_leader b4)); auto. destruct HB4 as (A & B & C).
  cbn [e_pid e_set_leader]. destruct (Nat.eqb_spec (b_pid prom) (e_pid b4)) as [Hq|Hq]; split; auto. cbn.
  destruct Hw as [->|[Hw1 Hw2]]; [exfalso; cbn in Hq; congruence|]. split; auto. congruence.
Qed.

Lemma hb_timeout_ret b st prom n : snd (hb_timeout b st prom) = Some n -> n = e_ballot (fst (hb_timeout b st prom)).
Proof.
  unfold hb_timeout. cbn [fst snd]. destruct (beq _ _); [|discriminate]. congruence.
Qed.

Definition goodo {A} (G : ghost) (r : res (omni * A)) : Prop :=
  match r with
  | Ok (o', _) => (exists G', glp p G G' /\ Op G' (o_sp o')) /\ bleinv cc p (o_ble o')
  | Panic tr => Forall Safe tr
  end.
Definition goodo1 (G : ghost) (r : res omni) : Prop :=
  match r with
  | Ok o' => (exists G', glp p G G' /\ Op G' (o_sp o')) /\ bleinv cc p (o_ble o')
  | Panic tr => Forall Safe tr
  end.

Lemma goodo_sp G o r : bleinv cc p (o_ble o) -> good G r -> goodo1 G (s <- r ;; Ok (set_sp o s)).
Proof. intros Hb Hg. destruct r; cbn in *; auto. Qed.
Lemma goodo_spr {A B} G o (r : res (sp * A)) (f : A -> B) : bleinv cc p (o_ble o) -> goodr G r ->
  goodo G ('(s, x) <- r ;; Ok (set_sp o s, f x)).
Proof. intros Hb Hg. unfold goodr in Hg. destruct r as [[s x]|tr]; cbn in *; auto. Qed.
Lemma goodo1_o G (r : res omni) (x : ret) : goodo1 G r -> goodo G (o <- r ;; Ok (o, x)).
Proof. destruct r; cbn; auto. Qed.
Lemma goodo1_bind G r f : goodo1 G r ->
  (forall o' G', glp p G G' -> Op G' (o_sp o') -> bleinv cc p (o_ble o') -> goodo1 G' (f o')) -> goodo1 G (o <- r ;; f o).
Proof.
  intros Hr Hf. destruct r as [o'|tr]; cbn in *; auto. destruct Hr as [(G' & L & O) HB].
  specialize (Hf o' G' L O HB). destruct (f o') as [o2|tr]; cbn in *; auto.
  destruct Hf as [(G2 & L2 & O2) HB2]. split; auto. exists G2. split; auto. eapply glp_trans; eauto.
Qed.

Lemma election_ok G o : Op G (o_sp o) -> bleinv cc p (o_ble o) -> goodo1 G (election_timeout o).
Proof.
  intros HO HB. unfold election_timeout. destruct (hb_timeout (o_ble o) _ _) as [b r] eqn:Hh.
  assert (Hp0 : 0 <> p) by (intros H; apply xH0; rewrite H; apply (n_in _ _ _ _ (ok_N _ _ _ HO))).
  assert (Hwp : wfb cc (sp_promise (o_sp o))).
  { unfold sp_promise. rewrite (op_prom_eq _ _ _ HO). apply (g_wP _ _ (ok_G _ _ _ HO)). }
  pose proof (bleinv_timeout (o_ble o) (s_role (o_sp o), s_phase (o_sp o)) _ HB Hwp Hp0) as HB'. rewrite Hh in HB'. cbn [fst] in HB'.
  destruct r as [n|].
  - assert (n = e_ballot b).
    { pose proof (hb_timeout_ret (o_ble o) (s_role (o_sp o), s_phase (o_sp o)) (sp_promise (o_sp o)) n) as H. rewrite Hh in H. apply H. reflexivity. }
    subst n. apply (goodo_sp G (set_ble o b)); auto. apply handle_leader_ok; auto; apply HB'.
  - cbn. split; auto. exists G. split; auto. apply glp_refl.
Qed.

Lemma resend_ok G s : Op G s -> good G (resend_message_timeout s).
Proof.
  intros HO. unfold resend_message_timeout. destruct (s_role s) eqn:Hr; [apply resend_follower_ok|apply resend_leader_ok]; auto.
Qed.
Lemma flush_ok G s : Op G s -> good G (flush_batch_timeout s).
Proof.
  intros HO. unfold flush_batch_timeout. destruct (s_role s) eqn:Hr, (s_phase s) eqn:Hp; try (apply good_ok; auto; fail);
    [apply flush_follower_ok|apply flush_batch_leader_ok]; auto.
Qed.

Lemma tick_ok G o : Op G (o_sp o) -> bleinv cc p (o_ble o) -> goodo1 G (tick o).
Proof.
  intros HO HB. unfold tick. destruct (clock_tick (o_eclk o)) as [ec f1].
  apply goodo1_bind.
  { destruct f1; [apply election_ok; auto|]. split; auto. exists G. split; auto. apply glp_refl. }
  clear o HO HB. intros o G1 _ HO HB. destruct (clock_tick (o_rclk o)) as [rc f2].
  apply goodo1_bind.
  { destruct f2; [apply goodo_sp; auto; apply resend_ok; auto|]. split; auto. exists G1. split; auto. apply glp_refl. }
  clear o HO HB. intros o G2 _ HO HB. destruct (clock_tick (o_fclk o)) as [fc f3].
  destruct f3; [apply goodo_sp; auto; apply flush_ok; auto|]. split; auto. exists G2. split; auto. apply glp_refl.
Qed.

Lemma handle_ok G s m : Op G s -> Hd G s (pm_from m) (pm_msg m) ->
  (forall pr x, pm_msg m = MPromise pr -> s_role s = Leader -> s_phase s = PhAccept -> vget (l_accmeta (s_ls s)) (pm_from m) <> Some (Some x)) ->
  room G s (pendm (pm_msg m)) ->
  good G (sp_handle s m).
Proof.
  intros HO HH Hx Hrm. unfold sp_handle. pose proof (hd_m _ _ _ _ HH) as Hm. pose proof (hd_in _ _ _ _ HH) as Hi. pose proof (hd_ne _ _ _ _ HH) as Hne.
  destruct (pm_msg m) eqn:Hpm.
  - apply preparereq_ok; auto.
  - apply prepare_ok; auto.
  - destruct (s_role s) eqn:Hr; [apply good_ok; auto|]. destruct (s_phase s) eqn:Hph; try (apply good_ok; auto; fail).
    + apply promise_prepare_ok; auto.
    + apply promise_accept_ok; eauto.
  - apply acceptsync_ok; auto.
  - eapply acceptdecide_ok; eauto.
  - apply accepted_ok; auto.
  - apply notaccepted_ok; auto.
  - eapply decide_ok; eauto.
  - apply forwarded_proposal_ok; auto.
  - eapply compaction_ok; eauto.
  - eapply accept_stopsign_ok; eauto.
  - apply forwarded_stopsign_ok; auto.
Qed.

(** The entries a call brings. *)
Definition callp (c : call) : nat :=
  match c with CAppend e => cf [e] | CHandle (MsgSP m) => pendm (pm_msg m) | _ => 0 end.
Definition callok (G : ghost) (s : sp) (c : call) : Prop := room G s (callp c) /\
  forall m, c = CHandle (MsgSP m) -> Hd G s (pm_from m) (pm_msg m) /\
    (forall pr x, pm_msg m = MPromise pr -> s_role s = Leader -> s_phase s = PhAccept -> vget (l_accmeta (s_ls s)) (pm_from m) <> Some (Some x)).

Lemma bleinv_handle b m : bleinv cc p b -> bleinv cc p (ble_handle b m).
Proof.
  intros H. unfold ble_handle. destruct (bm_msg m); auto. unfold handle_reply. destruct (_ && _); auto.
Qed.

Lemma call_ok G o c : Op G (o_sp o) -> bleinv cc p (o_ble o) -> callok G (o_sp o) c -> goodo G (exec_call o c).
Proof.
  intros HO HB [HR HC]. destruct c as [e|c meta| |i|i l|pid| |pr|m]; cbn [exec_call].
  - apply goodo_spr; auto. apply append_ok; auto.
  - unfold reconfigure. destruct (cluster_validate c); [apply goodo_spr; auto; apply reconfigure_ok; auto|].
    split; auto. exists G. split; auto. apply glp_refl.
  - apply goodo1_o, tick_ok; auto.
  - apply goodo_spr; auto. apply trim_ok; auto.
  - apply goodo_spr; auto. apply snapshot_ok; auto.
  - split; auto. destruct (op_reconnected G (o_sp o) pid HO) as (G1 & [L1 _] & O1). exists G1. auto.
  - apply goodo1_o. unfold try_become_leader. apply goodo_sp; auto. apply handle_leader_ok; auto; apply HB.
  - split; auto. exists G. split; auto. apply glp_refl.
  - apply goodo1_o. destruct m as [m|m]; cbn [handle_incoming].
    + apply goodo_sp; auto. destruct (HC m eq_refl). apply handle_ok; auto.
    + split; [exists G; split; [apply glp_refl|auto]|]. cbn. apply bleinv_handle; auto.
Qed.

End WithCtx.

(** ** Links *)
Section Links.
Context {E : EntryT}.
Context (cc : cluster_config).

Definition pmsgs (l : list message) : list pmsg :=
  flat_map (fun m => match m with MsgSP x => [pm_msg x] | MsgBLE _ => [] end) l.
Lemma pmsgs_app l l' : pmsgs (l ++ l') = pmsgs l ++ pmsgs l'.
Proof. unfold pmsgs. apply flat_map_app. Qed.
Lemma pmsgs_in l x : In x (pmsgs l) -> exists m, In (MsgSP m) l /\ pm_msg m = x.
Proof.
  unfold pmsgs. rewrite in_flat_map. intros (m & Hm & Hx). destruct m as [m|m]; [|contradiction].
  destruct Hx as [<-|[]]. eauto.
Qed.

(** A sublist. *)
Inductive sub {A} : list A -> list A -> Prop :=
| sub_nil : sub [] []
| sub_keep x l l' : sub l l' -> sub (x :: l) (x :: l')
| sub_skip x l l' : sub l l' -> sub l (x :: l').
Lemma sub_refl {A} (l : list A) : sub l l.
Proof. induction l; constructor; auto. Qed.
Lemma sub_in {A} (l l' : list A) x : sub l l' -> In x l -> In x l'.
Proof. induction 1; cbn; intuition. Qed.
Lemma sub_app {A} (a a' b b' : list A) : sub a a' -> sub b b' -> sub (a ++ b) (a' ++ b').
Proof. induction 1; cbn; intros; try constructor; auto. Qed.
Lemma sub_empty {A} (l : list A) : sub [] l.
Proof. induction l; constructor; auto. Qed.
Lemma sub_remove {A} (l : list A) k : sub (remove_nth l k) l.
Proof. revert k. induction l as [|x l IH]; intros [|k]; cbn; try constructor; auto using sub_refl. Qed.
Lemma sub_pmsgs l l' : sub l l' -> sub (pmsgs l) (pmsgs l').
Proof.
  induction 1 as [|x l l' H IH|x l l' H IH]; cbn; [constructor| |].
  - apply sub_app; auto. apply sub_refl.
  - destruct x; cbn; auto. constructor. auto.
Qed.

Lemma lcore_sub G a b vl vl' rb : sub vl' vl -> lcore cc G a b vl rb -> lcore cc G a b vl' rb.
Proof.
  intros Hs (A & B & C & D). split; [|split; [|split]].
  - rewrite Forall_forall in *. intros x Hx. apply A. eapply sub_in; eauto.
  - clear A C D. induction Hs as [|x l l' H IH|x l l' H IH]; auto; inversion B; subst; auto.
    constructor; auto. rewrite Forall_forall in *. intros y Hy. apply H2. eapply sub_in; eauto.
  - rewrite Forall_forall in *. intros x Hx. apply C. eapply sub_in; eauto.
  - intros rv Hrv. eapply rcvok_incl; [|eauto]. intros x Hx. eapply sub_in; eauto.
Qed.
Lemma linv_sub G a b sa vl vl' rb : sub vl' vl -> linv cc G a b sa vl rb -> linv cc G a b sa vl' rb.
Proof.
  intros Hs [A B]. split; [eapply lcore_sub; eauto|]. intros s Hs'. destruct (B s Hs') as [B1 B2]. split.
  - intros H1 H2 sq Hsq. destruct (B1 H1 H2 sq Hsq) as [C1 C2]. split; auto. intros m s' Hm. apply C1. eapply sub_in; eauto.
  - intros H1 H2 H3 sq Hsq. specialize (B2 H1 H2 H3 sq Hsq). cbn zeta in *. destruct B2 as (C1 & C2 & C3).
    split; auto. split; auto. intros Hss. destruct (C3 Hss) as [C4 C5]. split; auto. intros m Hm. apply C5. eapply sub_in; eauto.
Qed.

Definition osp (s : sys) (a : node_id) : option sp := option_map o_sp (nodes s a).
Definition nouts (s : sys) (a b : node_id) : list pmsg :=
  match osp s a with Some x => outs b (s_out x) | None => [] end.
(** The messages sent by [a] to [b] and not handled. *)
Definition vlink (s : sys) (a b : node_id) : list pmsg := pmsgs (net s a b) ++ nouts s a b.
Definition oview (s : sys) (a : node_id) : option rview := option_map view (osp s a).

Record SysInv (G : ghost) (s : sys) : Prop := {
  y_G : GInv cc G;
  y_N : forall a x, osp s a = Some x -> NodeInv cc G a x;
  y_am : forall a b x, osp s a = Some x -> a <> b -> amok G a b x Norm;
  y_ble : forall a o, nodes s a = Some o -> bleinv cc a (o_ble o);
  y_link : forall a b, a <> b -> linv cc G a b (osp s a) (vlink s a b) (oview s b);
  y_net : forall a b m, In (MsgSP m) (net s a b) -> pm_from m = a /\ a <> b /\ In a (nds cc)
}.

Context (Hv : cluster_validate cc = true) (H0 : ~ In 0 (nds cc)).

(** The entries that satisfy a test and that wait at a server or come with a call. *)
Definition cft (t : T -> bool) (l : list T) : nat := length (filter t l).
Definition pendmt (t : T -> bool) (m : pmsg) : nat := match m with MProposalForward es => cft t es | _ => 0 end.
Definition pendt (t : T -> bool) (x : sp) : nat :=
  cft t (s_bprops x) + list_sum (map (fun m => pendmt t (pm_msg m)) (s_out x)) +
  match s_role x with Leader => cft t (c_batch (i_ca (s_is x))) | Follower => 0 end.
Definition callt (t : T -> bool) (c : call) : nat :=
  match c with CAppend e => cft t [e] | CHandle (MsgSP m) => pendmt t (pm_msg m) | _ => 0 end.
(** With [k] more of them, every log has at most [B]. *)
Definition roomt (t : T -> bool) (B : budget) (G : ghost) (k : nat) : Prop :=
  forall b l, gM G b = Some l -> bq B t (ll_es l) k.
Lemma upto_le B t l k : bq (upto B) t l k = (cft t l + k <= B).
Proof. reflexivity. Qed.

Definition nothing : T -> bool := fun _ => false.
Lemma cft_nothing l : cft nothing l = 0.
Proof. unfold cft. induction l; auto. Qed.
Lemma pendmt_nothing m : pendmt nothing m = 0.
Proof. destruct m; auto. apply cft_nothing. Qed.
Lemma pendt_nothing x : pendt nothing x = 0.
Proof.
  unfold pendt. rewrite !cft_nothing. replace (list_sum _) with 0; [destruct (s_role x); auto|].
  induction (s_out x) as [|m l IH]; cbn; auto. rewrite pendmt_nothing. exact IH.
Qed.
Lemma callt_nothing c : callt nothing c = 0.
Proof. destruct c as [| | | | | | | |[m|m]]; auto. apply pendmt_nothing. Qed.
Lemma roomt_nothing G x c : roomt nothing (upto 0) G (pendt nothing x + callt nothing c).
Proof. intros b l _. rewrite upto_le, cft_nothing, pendt_nothing, callt_nothing. auto. Qed.

Definition sother (s : sys) (p : node_id) : node_id -> option sp := fun a => if a =? p then None else osp s a.

Lemma sother_lead G s p : SysInv G s -> forall a x, sother s p a = Some x -> lead_pid a x.
Proof.
  intros HS a x. unfold sother. destruct (a =? p); [discriminate|]. intros H. eapply nodeinv_lead. eapply y_N; eauto.
Qed.

(** The context of a step of [p]; [ni] are the messages left for it. *)
Definition sctx (G : ghost) (s : sys) (p : node_id) (ni : node_id -> list pmsg) (t : T -> bool) (B : budget) (HS : SysInv G s) : octx :=
  mkOctx E cc Hv H0 p (sother s p) ni (fun b => pmsgs (net s p b)) G (sother_lead G s p HS) t B.

Lemma sother_ne s p a : a <> p -> sother s p a = osp s a.
Proof. intros H. unfold sother. destruct (Nat.eqb_spec a p); congruence. Qed.

Definition trless (x : sp) : sp := set_is x (mkIS (i_st (s_is x)) (i_ca (s_is x)) []).
Lemma nodeinv_trless G p x : NodeInv cc G p x -> NodeInv cc G p (trless x).
Proof.
  intros []. constructor; auto.
  - destruct n_coh. constructor; auto.
  - cbn [trless s_role s_phase set_is s_is i_st]. destruct (s_role x), (s_phase x); auto; destruct n_role; constructor; auto.
Qed.

Lemma sctx_op G s p ni t B (HS : SysInv G s) x : osp s p = Some x ->
  (forall a, a <> p -> sub (ni a) (vlink s a p)) -> roomt t B G (pendt t x) ->
  @OpK E (sctx G s p ni t B HS) G (trless x) knorm.
Proof.
  intros Hx Hni Hrm. constructor.
  - apply glp_refl.
  - apply (y_G _ _ HS).
  - apply nodeinv_trless, (y_N _ _ HS); auto.
  - intros a Ha. cbn in Ha. cbn [xoth sctx xnin xp xcc]. rewrite sother_ne by auto.
    eapply linv_sub; [apply Hni; auto|]. pose proof (y_link _ _ HS a p Ha) as H. unfold oview in H. rewrite Hx in H. exact H.
  - intros b Hb. cbn in Hb. unfold vout, rb. cbn [xoth sctx xnout xp xcc]. rewrite sother_ne by auto.
    pose proof (y_link _ _ HS p b (not_eq_sym Hb)) as [H _]. unfold vlink, nouts in H. rewrite Hx in H. exact H.
  - intros b Hb. cbn in Hb. unfold vout, rb. cbn [xoth sctx xnout xp xcc]. rewrite sother_ne by auto.
    pose proof (y_link _ _ HS p b (not_eq_sym Hb)) as [_ H]. unfold vlink, nouts in H. rewrite Hx in H. apply (H x eq_refl).
  - intros b Hb. cbn in Hb. unfold vout, rb. cbn [xoth sctx xnout xp xcc].
    pose proof (y_link _ _ HS p b (not_eq_sym Hb)) as [_ H]. unfold vlink, nouts in H. rewrite Hx in H. apply (H x eq_refl).
  - intros b Hb. apply (y_am _ _ HS p b x Hx). intros ->. apply Hb. reflexivity.
  - constructor.
  - intros b l Hl. rewrite Nat.add_0_r. exact (Hrm b l Hl).
Qed.

Lemma osp_upd (f : node_id -> option omni) n p o a : osp (mkSys (upd1 f p (Some o)) n) a = if a =? p then Some (o_sp o) else option_map o_sp (f a).
Proof. unfold osp, upd1. cbn. destruct (a =? p); reflexivity. Qed.

(** Putting the server back. *)
Lemma sysinv_put G s p ni (HS : SysInv G s) G' o' n' :
  (exists x, nodes s p = Some x) ->
  glp p G G' -> GInv cc G' -> NodeInv cc G' p (o_sp o') -> bleinv cc p (o_ble o') ->
  (forall a, a <> p -> linv cc G' a p (osp s a) (ni a) (Some (view (o_sp o')))) ->
  (forall b, b <> p -> linv cc G' p b (Some (o_sp o')) (pmsgs (n' p b) ++ outs b (s_out (o_sp o'))) (oview s b)) ->
  (forall b, b <> p -> amok G' p b (o_sp o') Norm) ->
  (forall a, a <> p -> ni a = pmsgs (n' a p) ++ nouts s a p) ->
  (forall a b, b <> p -> a <> p -> n' a b = net s a b) ->
  (forall a b m, In (MsgSP m) (n' a b) -> pm_from m = a /\ a <> b /\ In a (nds cc)) ->
  SysInv G' (mkSys (upd1 (nodes s) p (Some o')) n').
Proof.
  intros Hex HL HG HN HB Hin Hout Ham Hni Hn' Hnet. constructor; auto.
  - intros a x. rewrite osp_upd. destruct (Nat.eqb_spec a p) as [->|Ha].
    + intros H. injection H as <-. auto.
    + intros H. eapply nodeinv_fr; [apply (y_G _ _ HS)|exact HL|exact Ha|apply (y_N _ _ HS); auto].
  - intros a b x. rewrite osp_upd. destruct (Nat.eqb_spec a p) as [->|Ha].
    + intros H Hb. injection H as <-. apply Ham. auto.
    + intros H Hb. eapply amok_fr; [exact HL|exact Ha|eapply nodeinv_lead; apply (y_N _ _ HS); exact H|apply (y_am _ _ HS); auto].
  - intros a o. cbn. unfold upd1. destruct (Nat.eqb_spec a p) as [->|Ha].
    + intros H. injection H as <-. auto.
    + apply (y_ble _ _ HS).
  - intros a b Hab. unfold vlink, nouts, oview. rewrite !osp_upd. cbn [net].
    destruct (Nat.eqb_spec a p) as [->|Ha], (Nat.eqb_spec b p) as [->|Hb]; try congruence.
    + apply (Hout b Hb).
    + pose proof (Hin a Ha) as H. rewrite (Hni a Ha) in H. exact H.
    + rewrite (Hn' a b) by auto. eapply linv_fr; [exact HL|exact Ha| |apply (y_link _ _ HS a b Hab)].
      intros s0 Hs0. eapply nodeinv_lead. apply (y_N _ _ HS); auto.
Qed.

(** ** Steps *)

Lemma remove_nth_mid {A} (l1 l2 : list A) x : remove_nth (l1 ++ x :: l2) (length l1) = l1 ++ l2.
Proof. induction l1 as [|y l1 IH]; cbn; [reflexivity|]. rewrite IH. reflexivity. Qed.
Lemma remove_sub2 s src p k a : sub (upd2 (net s) src p (remove_nth (net s src p) k) a p) (net s a p).
Proof.
  unfold upd2. destruct (Nat.eqb_spec a src) as [->|]; cbn; [|apply sub_refl].
  destruct (p =? p); [apply sub_remove|apply sub_refl].
Qed.
Lemma event_sub s p ev a b : sub (event_net s p ev a b) (net s a b).
Proof.
  destruct ev as [c|src k]; cbn; [apply sub_refl|]. unfold upd2.
  destruct (Nat.eqb_spec a src) as [->|]; cbn; [|apply sub_refl].
  destruct (Nat.eqb_spec b p) as [->|]; [apply sub_remove|apply sub_refl].
Qed.
Lemma event_other s p ev a b : b <> p -> event_net s p ev a b = net s a b.
Proof.
  intros Hb. destruct ev as [c|src k]; cbn; auto. unfold upd2.
  destruct (Nat.eqb_spec b p); [congruence|]. rewrite andb_false_r. reflexivity.
Qed.

Definition eni (s : sys) (p : node_id) (ev : event) : node_id -> list pmsg :=
  fun a => pmsgs (event_net s p ev a p) ++ nouts s a p.
Lemma eni_sub s p ev a : sub (eni s p ev a) (vlink s a p).
Proof. apply sub_app; [apply sub_pmsgs, event_sub|apply sub_refl]. Qed.

Definition h12 (s : sys) (p : node_id) (ev : event) : Prop :=
  match ev with
  | ECall _ => True
  | EDeliver src k =>
      (forall j m m' n, j < k -> nth_error (net s src p) j = Some m -> nth_error (net s src p) k = Some m' ->
         sync_ballot m = Some n -> sync_ballot m' <> Some n) /\
      forall o m, nodes s p = Some o -> nth_error (net s src p) k = Some m -> is_promise_msg m = true ->
        forall x, In x (s_out (o_sp o)) -> pm_to x = src -> is_acceptdecide x = false
  end.

(** The call of an event; [ni] are the messages left for the server afterwards.  All the
    others are left, and the delivered one may be left too if it is not an [AcceptSync]. *)
Lemma sctx_callok_ni G s p ev ni t B (HS : SysInv G s) o c : nodes s p = Some o -> event_call s p ev = Some c -> h12 s p ev ->
  (forall src k m l1 l2, ev = EDeliver src k -> net s src p = l1 ++ MsgSP m :: l2 -> length l1 = k ->
     forall m', In m' (ni src) -> In m' (pmsgs l1) \/ In m' (pmsgs l2 ++ nouts s src p) \/ (m' = pm_msg m /\ is_sync (pm_msg m) = false)) ->
  roomt t B G (pendt t (o_sp o) + callt t c) ->
  @callok E (sctx G s p ni t B HS) G (trless (o_sp o)) c.
Proof.
  intros Ho Hc Hh Hni Hrm. split; [exact Hrm|]. intros m ->. destruct ev as [c|src k]; cbn in Hc; [destruct c; discriminate|].
  destruct Hh as [Hf1 Hd2]. destruct (nth_error (net s src p) k) as [m0|] eqn:Hk; [|discriminate]. cbn in Hc. injection Hc as ->.
  destruct (nth_error_split _ _ Hk) as (l1 & l2 & Hnet & Hlen).
  destruct (y_net _ _ HS src p m) as (Hf & Hne & Hi); [apply nth_error_In in Hk; exact Hk|].
  assert (Hosp : osp s p = Some (o_sp o)) by (unfold osp; rewrite Ho; reflexivity).
  pose proof (y_link _ _ HS src p Hne) as HL. unfold vlink in HL. rewrite Hnet in HL. rewrite pmsgs_app in HL.
  change (pmsgs (MsgSP m :: l2)) with (pm_msg m :: pmsgs l2) in HL. rewrite <- app_assoc in HL. cbn [app] in HL.
  pose proof (Hni src k m l1 l2 eq_refl Hnet Hlen) as He.
  unfold oview in HL. rewrite Hosp in HL. cbn [option_map] in HL. destruct HL as [(L1 & L2 & L3 & L4) L5].
  assert (Hmin : In (pm_msg m) (pmsgs l1 ++ pm_msg m :: pmsgs l2 ++ nouts s src p)) by (apply in_app_iff; right; left; reflexivity).
  apply FOP_app in L2. destruct L2 as (_ & P2 & P3). inversion P2 as [|? ? P4 _]; subst. rewrite Forall_forall in P4.
  split.
  - constructor; cbn [xcc xp xnin xoth sctx].
    + exact Hi.
    + rewrite Forall_forall in L1. auto.
    + rewrite Forall_forall in L3. auto.
    + intros m' Hm'. destruct (He m' Hm') as [Hx'|[Hx'|Hx']]; [|right; left; auto|left; exact Hx'].
      right. right. split; [apply P3; [exact Hx'|left; reflexivity]|]. intros S1 S2 n sq sq' N1 N2.
      apply pmsgs_in in Hx'. destruct Hx' as (x & Hx & <-). apply In_nth_error in Hx. destruct Hx as [j Hj].
      assert (Hjl : j < length l1) by (apply nth_error_Some; congruence).
      apply (Hf1 j (MsgSP x) (MsgSP m) n Hjl); [rewrite Hnet, nth_error_app1 by lia; exact Hj|first [exact Hk|reflexivity]| |].
      * destruct x as [f f' pm]. cbn in *. destruct pm; try discriminate. cbn in N2. congruence.
      * destruct m as [f f' pm]. cbn in *. destruct pm; try discriminate. cbn in N1. congruence.
    + eapply rcvok_incl; [|apply (L4 _ eq_refl)]. intros x [<-|Hx]; [exact Hmin|].
      apply in_app_iff. destruct (He x Hx) as [Hx'|[Hx'|[-> _]]]; [left; auto|right; right; auto|right; left; auto].
    + intros s0 sq sq'. rewrite sother_ne by auto. intros Hs0 Hr Hph Hsq Hn. destruct (L5 s0 Hs0) as [L6 _].
      destruct (L6 Hr Hph sq Hsq) as [L7 _]. split; [eapply L7; [exact Hmin|exact Hn]|].
      intros [n0 i] Ha. destruct (y_am _ _ HS (pm_from m) p s0 Hs0 Hne Hr Hph n0 i Ha) as [-> (sq0 & d & es & Hx & _)].
      assert (Hin : In (MAcceptDecide (l_n (s_ls s0)) sq0 d es) (nouts s (pm_from m) p)).
      { unfold nouts. rewrite Hs0. apply nth_error_In in Hx. unfold outs. apply in_map_iff. eexists. split; [|apply filter_In; split; [exact Hx|]]; [reflexivity|]. cbn. apply Nat.eqb_refl. }
      pose proof (P4 _ (in_or_app _ _ _ (or_intror Hin))) as HP.
      assert (Hpid : b_pid (l_n (s_ls s0)) = pm_from m) by (eapply nodeinv_lead; [eapply (y_N _ _ HS); exact Hs0|exact Hr|exact Hph]).
      destruct (HP _ sq' sq0 Hpid Hn eq_refl) as (_ & [Q|(_ & Q & _)] & _); [|discriminate].
      assert (Q2 : sle sq0 sq) by (eapply L7; [apply in_or_app; right; right; apply in_or_app; right; exact Hin|reflexivity]).
      destruct Q2 as [Q2| ->]; [eapply slt_trans; eauto|exact Q].
  - intros pr [n i] Hpm Hr Hph Ha. destruct (y_am _ _ HS p (pm_from m) (o_sp o) Hosp (not_eq_sym Hne) Hr Hph n i Ha) as [_ (sq & d & es & Hx & _)].
    apply nth_error_In in Hx.
    assert (Hx2 : is_acceptdecide (mkPM p (pm_from m) (MAcceptDecide n sq d es)) = false).
    { eapply Hd2; [exact Ho|first [exact Hk|reflexivity]| |exact Hx|reflexivity]. destruct m as [f f' pm]. cbn in Hpm. subst pm. reflexivity. }
    discriminate.
Qed.

(** The network after an event: the delivered message is taken out, or it is left there if
    it is not an [AcceptSync]. *)
Definition netafter (s : sys) (p : node_id) (ev : event) (n' : node_id -> node_id -> list message) : Prop :=
  n' = event_net s p ev \/
  (n' = net s /\ forall src k m, ev = EDeliver src k -> nth_error (net s src p) k = Some m -> sync_ballot m = None).
Definition nni (s : sys) (p : node_id) (n' : node_id -> node_id -> list message) : node_id -> list pmsg :=
  fun a => pmsgs (n' a p) ++ nouts s a p.
Lemma netafter_sub s p ev n' a b : netafter s p ev n' -> sub (n' a b) (net s a b).
Proof. intros [->|[-> _]]; [apply event_sub|apply sub_refl]. Qed.
Lemma netafter_other s p ev n' a b : netafter s p ev n' -> b <> p -> n' a b = net s a b.
Proof. intros [->|[-> _]] Hb; [apply event_other; auto|reflexivity]. Qed.
Lemma nni_sub s p ev n' a : netafter s p ev n' -> sub (nni s p n' a) (vlink s a p).
Proof. intros Hn. apply sub_app; [eapply sub_pmsgs, netafter_sub; eauto|apply sub_refl]. Qed.

Lemma sctx_callok G s p ev n' t B (HS : SysInv G s) o c : nodes s p = Some o -> event_call s p ev = Some c -> h12 s p ev ->
  netafter s p ev n' -> roomt t B G (pendt t (o_sp o) + callt t c) ->
  @callok E (sctx G s p (nni s p n') t B HS) G (trless (o_sp o)) c.
Proof.
  intros Ho Hc Hh Hn Hrm. apply (sctx_callok_ni G s p ev); auto. intros src k m l1 l2 -> Hnet Hlen m' Hm'.
  unfold nni in Hm'. destruct Hn as [->|[-> Hk]].
  - unfold event_net, upd2 in Hm'. rewrite !Nat.eqb_refl, Hnet, <- Hlen in Hm'. cbn [andb] in Hm'. rewrite remove_nth_mid, pmsgs_app in Hm'.
    rewrite !in_app_iff in *. tauto.
  - rewrite Hnet, pmsgs_app in Hm'. change (pmsgs (MsgSP m :: l2)) with (pm_msg m :: pmsgs l2) in Hm'.
    rewrite !in_app_iff in *. cbn [In] in Hm'.
    assert (Hs : is_sync (pm_msg m) = false).
    { specialize (Hk src k (MsgSP m) eq_refl). rewrite Hnet, nth_error_app2 in Hk by lia. replace (k - length l1) with 0 in Hk by lia.
      specialize (Hk eq_refl). destruct m as [f f' pm]. destruct pm; cbn in *; congruence. }
    destruct Hm' as [[Hm'|[Hm'|Hm']]|Hm']; auto.
Qed.

Lemma op_sctx G s p ev n' t B (HS : SysInv G s) o G' o' : nodes s p = Some o -> netafter s p ev n' ->
  @OpK E (sctx G s p (nni s p n') t B HS) G' (o_sp o') knorm -> bleinv cc p (o_ble o') ->
  SysInv G' (mkSys (upd1 (nodes s) p (Some o')) n').
Proof.
  intros Ho Hn HO HB. destruct HO as [O1 O2 O3 O4 O5 O6 O7 O8 O9 _]. cbn [xcc xp xnin xoth sctx xG0] in *.
  eapply (sysinv_put G s p (nni s p n') HS G' o'); auto.
  - eauto.
  - intros a Ha. specialize (O4 a Ha). rewrite sother_ne in O4 by auto. exact O4.
  - intros b Hb. specialize (O5 b Hb). specialize (O6 b Hb). specialize (O7 b Hb).
    unfold vout, rb in *. cbn [xnout xoth sctx] in *. rewrite sother_ne in O5, O6 by auto. rewrite (netafter_other s p ev n') by auto.
    split; [exact O5|]. intros s0 Hs0. injection Hs0 as <-. split; auto.
  - intros a b Hb Ha. eapply netafter_other; eauto.
  - intros a b m Hm. apply (y_net _ _ HS a b m). eapply sub_in; [eapply netafter_sub; eauto|exact Hm].
Qed.

Lemma roomt_le t B G k k' : k' <= k -> roomt t B G k -> roomt t B G k'.
Proof. intros H R b l Hl. eapply bq_le; [exact H|exact (R b l Hl)]. Qed.

Lemma do_inv_n t B G s p ev n' o c o' r : SysInv G s -> nodes s p = Some o -> event_call s p ev = Some c -> h12 s p ev ->
  netafter s p ev n' -> roomt t B G (pendt t (o_sp o) + callt t c) ->
  exec o c = Ok (o', r) -> exists G', glp p G G' /\ SysInv G' (mkSys (upd1 (nodes s) p (Some o')) n') /\
    roomt t B G' (pendt t (o_sp o')).
Proof.
  intros HS Ho Hc Hh Hn Hrm He.
  assert (Hosp : osp s p = Some (o_sp o)) by (unfold osp; rewrite Ho; reflexivity).
  pose proof (sctx_op G s p (nni s p n') t B HS _ Hosp (fun a _ => nni_sub s p ev n' a Hn) (roomt_le _ _ _ _ _ (Nat.le_add_r _ _) Hrm)) as HO.
  pose proof (sctx_callok G s p ev n' t B HS o c Ho Hc Hh Hn Hrm) as HC.
  pose proof (@call_ok E (sctx G s p (nni s p n') t B HS) G (start_call o) c HO (y_ble _ _ HS p o Ho) HC) as HG.
  fold (exec o c) in HG. rewrite He in HG. destruct HG as [(G' & L & O') HB].
  exists G'. split; [exact L|]. split; [eapply op_sctx; eauto|].
  pose proof (ok_room _ _ _ O') as HR. intros b l Hl. specialize (HR b l Hl). rewrite Nat.add_0_r in HR. exact HR.
Qed.
Lemma do_inv_r t B G s p ev o c o' r : SysInv G s -> nodes s p = Some o -> event_call s p ev = Some c -> h12 s p ev ->
  roomt t B G (pendt t (o_sp o) + callt t c) ->
  exec o c = Ok (o', r) -> exists G', glp p G G' /\ SysInv G' (mkSys (upd1 (nodes s) p (Some o')) (event_net s p ev)) /\
    roomt t B G' (pendt t (o_sp o')).
Proof. intros HS Ho Hc Hh. apply (do_inv_n t B G s p ev); auto. left. reflexivity. Qed.
Lemma do_inv G s p ev o c o' r : SysInv G s -> nodes s p = Some o -> event_call s p ev = Some c -> h12 s p ev ->
  exec o c = Ok (o', r) -> exists G', glp p G G' /\ SysInv G' (mkSys (upd1 (nodes s) p (Some o')) (event_net s p ev)).
Proof.
  intros HS Ho Hc Hh He. destruct (do_inv_r nothing (upto 0) G s p ev o c o' r HS Ho Hc Hh (roomt_nothing G _ c) He) as (G' & L & S' & _). eauto.
Qed.

(** The storage states of a crash. *)
Lemma crash_safe_n t B G s p ev n' o c st (HS : SysInv G s) : nodes s p = Some o -> event_call s p ev = Some c -> h12 s p ev ->
  netafter s p ev n' -> roomt t B G (pendt t (o_sp o) + callt t c) ->
  In st (crash_points o c) -> @Safe E (sctx G s p (nni s p n') t B HS) st.
Proof.
  intros Ho Hc Hh Hn Hrm Hin.
  assert (Hosp : osp s p = Some (o_sp o)) by (unfold osp; rewrite Ho; reflexivity).
  pose proof (sctx_op G s p (nni s p n') t B HS _ Hosp (fun a _ => nni_sub s p ev n' a Hn) (roomt_le _ _ _ _ _ (Nat.le_add_r _ _) Hrm)) as HO.
  pose proof (sctx_callok G s p ev n' t B HS o c Ho Hc Hh Hn Hrm) as HC.
  pose proof (@call_ok E (sctx G s p (nni s p n') t B HS) G (start_call o) c HO (y_ble _ _ HS p o Ho) HC) as HG.
  fold (exec o c) in HG. destruct Hin as [<-|Hin].
  - eapply (@op_safe E (sctx G s p (nni s p n') t B HS)); [exact HO|apply gls_refl|apply (y_G _ _ HS)|apply (y_N _ _ HS p _ Hosp)| |].
    + pose proof (y_N _ _ HS p _ Hosp) as HN. split; [cbn; discriminate|]. intros _. unfold view, stview, i_prom, i_around, i_ss. cbn.
      rewrite (co_prom _ _ (n_coh _ _ _ _ HN)), (co_around _ _ (n_coh _ _ _ _ HN)), (co_ss _ _ (n_coh _ _ _ _ HN)).
      split; auto. split; auto. split; auto. right. lia.
    + exact (roomt_le _ _ _ _ _ (Nat.le_0_l _) Hrm).
  - destruct (exec o c) as [[o' r]|tr]; cbn in HG.
    + destruct HG as [(G' & L & O') HB]. pose proof (ok_tr _ _ _ O') as HT. rewrite Forall_forall in HT. auto.
    + rewrite Forall_forall in HG. auto.
Qed.

Lemma crash_safe G s p ev o c st (HS : SysInv G s) : nodes s p = Some o -> event_call s p ev = Some c -> h12 s p ev ->
  In st (crash_points o c) -> @Safe E (sctx G s p (eni s p ev) nothing (upto 0) HS) st.
Proof.
  intros Ho Hc Hh Hin.
  exact (crash_safe_n nothing (upto 0) G s p ev (event_net s p ev) o c st HS Ho Hc Hh (or_introl eq_refl) (roomt_nothing G _ c) Hin).
Qed.

(** Building a server from its storage. *)
Lemma max_fold l : forall a, a <= fold_left Nat.max l a /\ forall x, In x l -> x <= fold_left Nat.max l a.
Proof.
  induction l as [|y l IH]; intros a; cbn; [split; [lia|intros x []]|]. destruct (IH (Nat.max a y)) as [A B]. split; [lia|].
  intros x [<-|Hx]; [lia|auto].
Qed.

Lemma st_setprom G p st : StInv cc G p st -> StInv cc G p (ms_set_promise st (bal_or_default (ms_prom st))).
Proof. intros []. constructor; auto. Qed.

Lemma build_inv G p sc st o' : GInv cc G -> StInv cc G p st -> In p (nds cc) -> sc_pid sc = p -> build cc sc st = BOk o' ->
  NodeInv cc G p (o_sp o') /\ bleinv cc p (o_ble o') /\ s_role (o_sp o') = Follower /\
  vle (stview st) (view (o_sp o')) /\
  (s_out (o_sp o') = [] \/ exists b, s_out (o_sp o') = map (fun q => mkPM p q (MPrepareReq b)) (peers_of cc p)).
Proof.
  intros HG HS Hp Hsc HB. unfold build in HB. destruct (config_validate cc sc); [|discriminate]. rewrite Hsc in HB. unfold sp_with in HB.
  destruct (peers_of cc p) as [|q0 pr] eqn:Hpe; [discriminate|].
  set (bd := bal_or_default (ms_prom st)) in *.
  assert (Hx : exists ph out, ph <> PhAccept /\ ph <> PhPrepare /\
     (out = [] \/ exists b, out = map (fun q => mkPM p q (MPrepareReq b)) (q0 :: pr)) /\
     o_sp o' = mkSP (i_set_promise (istore_with st (sc_batch sc)) bd) p (q0 :: pr) Follower ph [] None out
                 (ls_with bd (Nat.max (fold_left Nat.max pr q0) p) (quorum_with (cc_flex cc) (length (q0 :: pr) + 1))) None seq0 None /\
     o_ble o' = ble_with (cc_id cc) p (q0 :: pr) (sc_prio sc) (cc_flex cc) (ms_prom st)).
  { unfold bd. destruct (ms_prom st) as [b|]; injection HB as <-.
    - exists PhRecover, (map (fun q => mkPM p q (MPrepareReq b)) (q0 :: pr)). repeat split; try discriminate. right. eauto.
    - exists PhNone, (@nil pmessage). repeat split; try discriminate. left. reflexivity. }
  destruct Hx as (ph & out & Hph1 & Hph2 & Hout & Hsp & Hble).
  assert (Hne : forall q, In q (q0 :: pr) -> q <> p).
  { intros q. rewrite <- Hpe. unfold peers_of. rewrite filter_In. intros [_ Hq]. apply negb_true_iff, Nat.eqb_neq in Hq. auto. }
  split; [|split; [|split; [|split]]].
  - rewrite Hsp. constructor; cbn [s_pid s_peers s_is s_ls s_role s_phase s_lam s_cprom s_out].
    + reflexivity.
    + congruence.
    + exact Hp.
    + cbn. apply st_setprom. exact HS.
    + destruct HS. constructor; cbn; auto.
      destruct (ms_ss st) as [ss|] eqn:Hss.
      * intros l Hl. unfold ms_log_len. specialize (st_ss l ss (cnt st) Hl eq_refl (le_n _)). apply at_stop in st_ss.
        unfold cnt in *. rewrite st_comp. cbn in *. lia.
      * unfold cnt, ms_log_len. cbn. lia.
    + unfold quorum_of. rewrite Hpe. reflexivity.
    + intros q Hq. cbn [ls_with l_maxpid]. destruct (Nat.eq_dec q p) as [->|Hqp]; [lia|].
      assert (Hin : In q (q0 :: pr)). { rewrite <- Hpe. apply filter_In. split; auto. apply negb_true_iff, Nat.eqb_neq. auto. }
      destruct (max_fold pr q0) as [M1 M2]. destruct Hin as [<-|Hin]; [lia|]. specialize (M2 q Hin). lia.
    + cbn. rewrite repeat_length. reflexivity.
    + reflexivity.
    + cbn. congruence.
    + reflexivity.
    + cbn. intros _ l j e _. destruct j; discriminate.
    + destruct ph; auto; congruence.
    + discriminate.
    + discriminate.
    + destruct Hout as [->|[b ->]]; [constructor|]. rewrite Forall_forall. intros m Hm. apply in_map_iff in Hm.
      destruct Hm as (q & <- & Hq). cbn. split; auto.
  - rewrite Hble. unfold ble_with. destruct (ms_prom st) as [b|]; [destruct (negb (beq b bdef))|]; repeat split.
  - rewrite Hsp. reflexivity.
  - rewrite Hsp. split; cbn.
    + intros ->. congruence.
    + intros _. repeat (split; [reflexivity|]). right. unfold cnt. cbn. lia.
  - rewrite Hsp. exact Hout.
Qed.

Lemma build_pendt t sc st o' : build cc sc st = BOk o' -> pendt t (o_sp o') = 0.
Proof.
  unfold build. destruct (config_validate cc sc); [|discriminate]. unfold sp_with.
  destruct (peers_of cc (sc_pid sc)) as [|q0 pr]; [discriminate|]. destruct (ms_prom st) as [b|]; intros H; injection H as <-; [|reflexivity].
  unfold pendt. cbn [o_sp s_bprops s_out s_role]. rewrite !Nat.add_0_r. change (cft t []) with 0. cbn [Nat.add].
  cbn. clear q0. induction pr as [|q l IH]; cbn; auto.
Qed.

Lemma lcore_snocs G a b vl rb l : Forall (fun m => numb m = None /\ minv cc G a b m) l -> lcore cc G a b vl rb -> lcore cc G a b (vl ++ l) rb.
Proof.
  revert vl. induction l as [|m l IH]; intros vl Hl Hc; [rewrite app_nil_r; auto|]. inversion Hl as [|? ? [H1 H2] H3]; subst.
  replace (vl ++ m :: l) with ((vl ++ [m]) ++ l) by (rewrite <- app_assoc; reflexivity).
  apply IH; auto. apply lcore_snoc; auto.
Qed.

Lemma crash_inv_n t B G s p ev n' o c st sc o' : SysInv G s -> nodes s p = Some o -> event_call s p ev = Some c -> h12 s p ev ->
  netafter s p ev n' -> roomt t B G (pendt t (o_sp o) + callt t c) ->
  In st (crash_points o c) -> sc_pid sc = p -> build cc sc st = BOk o' ->
  exists G', glp p G G' /\ SysInv G' (mkSys (upd1 (nodes s) p (Some o')) n') /\ roomt t B G' (pendt t (o_sp o')).
Proof.
  intros HS Ho Hc Hh Hn Hrm Hin Hsc HB.
  assert (Hosp : osp s p = Some (o_sp o)) by (unfold osp; rewrite Ho; reflexivity).
  destruct (crash_safe_n t B G s p ev n' o c st HS Ho Hc Hh Hn Hrm Hin) as (G1 & L1 & HG1 & HS1 & Hi & Hout & HR).
  cbn [xcc xp xnin xoth sctx xG0] in *.
  destruct (build_inv G1 p sc st o' HG1 HS1 (n_in _ _ _ _ (y_N _ _ HS p _ Hosp)) Hsc HB) as (HN & HBl & Hr & HV & Ho').
  exists G1. split; auto. split; [|rewrite (build_pendt t sc st o' HB); exact HR].
  eapply (sysinv_put G s p (nni s p n') HS G1 o'); auto.
  - eauto.
  - intros a Ha. specialize (Hi a Ha). rewrite sother_ne in Hi by auto. eapply linv_vle; eauto.
  - intros b Hb. specialize (Hout b Hb). unfold rb in Hout. cbn [xnout xoth sctx] in Hout. rewrite sother_ne in Hout by auto.
    rewrite (netafter_other s p ev n') by auto. split.
    + apply lcore_snocs; auto. destruct Ho' as [->|[bl ->]]; [constructor|]. rewrite Forall_forall. intros m Hm.
      unfold outs in Hm. apply in_map_iff in Hm. destruct Hm as (x & <- & Hm). apply filter_In in Hm. destruct Hm as [Hm _].
      apply in_map_iff in Hm. destruct Hm as (q & <- & _). split; [reflexivity|]. split; [auto|exact I].
    + intros s0 Hs0. injection Hs0 as <-. split; intros Hr'; congruence.
  - intros b Hb Hr'. congruence.
  - intros a b Hb Ha. eapply netafter_other; eauto.
  - intros a b m Hm. apply (y_net _ _ HS a b m). eapply sub_in; [eapply netafter_sub; eauto|exact Hm].
Qed.

Lemma crash_inv_r t B G s p ev o c st sc o' : SysInv G s -> nodes s p = Some o -> event_call s p ev = Some c -> h12 s p ev ->
  roomt t B G (pendt t (o_sp o) + callt t c) ->
  In st (crash_points o c) -> sc_pid sc = p -> build cc sc st = BOk o' ->
  exists G', glp p G G' /\ SysInv G' (mkSys (upd1 (nodes s) p (Some o')) (event_net s p ev)) /\ roomt t B G' (pendt t (o_sp o')).
Proof. intros HS Ho Hc Hh. apply (crash_inv_n t B G s p ev); auto. left. reflexivity. Qed.

Lemma crash_inv G s p ev o c st sc o' : SysInv G s -> nodes s p = Some o -> event_call s p ev = Some c -> h12 s p ev ->
  In st (crash_points o c) -> sc_pid sc = p -> build cc sc st = BOk o' ->
  exists G', glp p G G' /\ SysInv G' (mkSys (upd1 (nodes s) p (Some o')) (event_net s p ev)).
Proof.
  intros HS Ho Hc Hh Hin Hsc HB.
  destruct (crash_inv_r nothing (upto 0) G s p ev o c st sc o' HS Ho Hc Hh (roomt_nothing G _ c) Hin Hsc HB) as (G' & L & S' & _). eauto.
Qed.

(** Lost messages. *)
Lemma drop_inv G s src dst k : SysInv G s -> SysInv G (mkSys (nodes s) (upd2 (net s) src dst (remove_nth (net s src dst) k))).
Proof.
  intros HS.
  assert (Hsub : forall a b, sub (upd2 (net s) src dst (remove_nth (net s src dst) k) a b) (net s a b)).
  { intros a b. unfold upd2. destruct (Nat.eqb_spec a src) as [->|], (Nat.eqb_spec b dst) as [->|]; cbn; auto using sub_refl, sub_remove. }
  destruct HS as [A1 A2 A3 A4 A5 A6]. constructor; auto.
  - intros a b Hab. eapply linv_sub; [|apply (A5 a b Hab)]. unfold vlink. apply sub_app; [apply sub_pmsgs, Hsub|apply sub_refl].
  - intros a b m Hm. apply (A6 a b m). eapply sub_in; [apply Hsub|exact Hm].
Qed.

(** Messages handed to the network. *)
Lemma send_all_net l : forall n p a b, send_all n p l a b = if a =? p then n a b ++ filter (fun m => msg_to m =? b) l else n a b.
Proof.
  unfold send_all. induction l as [|m l IH]; intros n p a b; cbn [fold_left filter].
  - destruct (a =? p); rewrite ?app_nil_r; reflexivity.
  - rewrite IH. unfold send_one, upd2. destruct (Nat.eqb_spec a p) as [->|]; cbn; auto.
    rewrite (Nat.eqb_sym b (msg_to m)). destruct (Nat.eqb_spec (msg_to m) b) as [<-|]; auto. rewrite <- app_assoc. reflexivity.
Qed.
Lemma pmsgs_out b l l' : pmsgs (filter (fun m => msg_to m =? b) (map MsgSP l ++ map MsgBLE l')) = outs b l.
Proof.
  rewrite filter_app, pmsgs_app. replace (pmsgs (filter _ (map MsgBLE l'))) with (@nil pmsg).
  - rewrite app_nil_r. unfold outs. induction l as [|m l IH]; cbn; auto. destruct (pm_to m =? b); cbn; [f_equal|]; exact IH.
  - induction l' as [|m l' IH]; cbn; auto. destruct (bm_to m =? b); cbn; auto.
Qed.

Definition fetched (x : sp) : sp := set_lam (set_ls (set_out x []) (reset_latest_accept_meta (s_ls x))) None.

Lemma vget_repeat {A} (x : A) n q y : vget (repeat x n) q = Some y -> y = x.
Proof.
  unfold vget. destruct (pid_to_idx q); [|discriminate]. intros H. apply nth_error_In, repeat_spec in H. auto.
Qed.

Lemma nodeinv_fetched G p x : NodeInv cc G p x -> NodeInv cc G p (fetched x).
Proof.
  intros []. constructor; auto.
  - cbn [fetched set_lam set_ls set_out s_role s_phase s_is]. destruct (s_role x), (s_phase x); auto; destruct n_role; constructor; auto.
    cbn. intros q y Hy. eapply vget_repeat; eauto.
  - discriminate.
  - constructor.
Qed.

Lemma fetch_inv G s p o o' l : SysInv G s -> nodes s p = Some o -> take_outgoing_messages o [] = (o', l) ->
  SysInv G (mkSys (upd1 (nodes s) p (Some o')) (send_all (net s) p l)).
Proof.
  intros HS Ho Hf.
  assert (Hosp : osp s p = Some (o_sp o)) by (unfold osp; rewrite Ho; reflexivity).
  pose proof (y_N _ _ HS p _ Hosp) as HN.
  unfold take_outgoing_messages, sp_take_outgoing in Hf. cbn [app] in Hf. injection Hf as <- <-.
  change (set_lam (set_ls (set_out (o_sp o) []) (reset_latest_accept_meta (s_ls (set_out (o_sp o) [])))) None) with (fetched (o_sp o)).
  set (o' := set_ble (set_sp o (fetched (o_sp o))) (e_set_out (o_ble o) [])).
  set (l := map MsgSP (s_out (o_sp o)) ++ map MsgBLE (e_out (o_ble o))).
  assert (Hnp : forall b, pmsgs (send_all (net s) p l p b) = pmsgs (net s p b) ++ outs b (s_out (o_sp o))).
  { intros b. rewrite send_all_net, Nat.eqb_refl, pmsgs_app. unfold l. rewrite pmsgs_out. reflexivity. }
  eapply (sysinv_put G s p (fun a => vlink s a p) HS G o').
  - eauto.
  - apply glp_refl.
  - apply (y_G _ _ HS).
  - apply nodeinv_fetched; auto.
  - apply (y_ble _ _ HS p o Ho).
  - intros a Ha. pose proof (y_link _ _ HS a p Ha) as H. unfold oview in H. rewrite Hosp in H. exact H.
  - intros b Hb. rewrite Hnp. cbn [o' o_sp set_ble set_sp fetched set_lam set_ls set_out s_out]. cbn [outs filter map]. rewrite app_nil_r.
    pose proof (y_link _ _ HS p b (not_eq_sym Hb)) as [H1 H2]. unfold vlink, nouts in H1, H2. rewrite Hosp in H1, H2.
    split; [exact H1|]. intros s0 Hs0. injection Hs0 as <-. destruct (H2 _ eq_refl) as [H3 H4]. split; [|exact H4].
    intros Hr Hph sq Hsq. destruct (H3 Hr Hph sq Hsq) as [H5 H6]. split; [exact H5|]. intros rv Hrv Hpr Hpa. split; [apply (H6 rv Hrv Hpr Hpa)|].
    intros x Hx. exfalso. cbn in Hx. apply vget_repeat in Hx. discriminate.
  - intros b Hb Hr Hph n i Hi. exfalso. cbn in Hi. apply vget_repeat in Hi. discriminate.
  - intros a Ha. unfold vlink. rewrite send_all_net. destruct (Nat.eqb_spec a p); [congruence|]. reflexivity.
  - intros a b Hb Ha. rewrite send_all_net. destruct (Nat.eqb_spec a p); [congruence|]. reflexivity.
  - intros a b m. rewrite send_all_net. destruct (Nat.eqb_spec a p) as [->|Ha]; [|apply (y_net _ _ HS)].
    rewrite in_app_iff. intros [Hm|Hm]; [apply (y_net _ _ HS); auto|]. apply filter_In in Hm. destruct Hm as [Hm Hto].
    apply Nat.eqb_eq in Hto. cbn in Hto. unfold l in Hm. rewrite in_app_iff in Hm. destruct Hm as [Hm|Hm]; apply in_map_iff in Hm; destruct Hm as (x & Hx & Hm); [|discriminate].
    injection Hx as ->. pose proof (n_out _ _ _ _ HN) as Hn. rewrite Forall_forall in Hn. destruct (Hn m Hm) as [E1 E2].
    split; auto. split; [congruence|]. apply (n_in _ _ _ _ HN).
Qed.

(** ** Executions *)
Theorem step_inv G s a s' : SysInv G s -> h1h2 s a -> exec_action cc s a = Some s' -> exists G', gle G G' /\ SysInv G' s'.
Proof.
  intros HS [Hf Hd] He. destruct a as [p ev|p|src dst k|p ev j sc]; cbn in He.
  - destruct (nodes s p) as [o|] eqn:Ho; [|discriminate]. destruct (event_call s p ev) as [c|] eqn:Hc; [|discriminate].
    destruct (exec o c) as [[o' r]|] eqn:Hx; [|discriminate]. injection He as <-.
    destruct (do_inv G s p ev o c o' r HS Ho Hc) as (G' & [L _] & S'); auto; [|eauto].
    destruct ev as [c0|src k]; cbn; auto. cbn in Hf. split; auto. intros o0 m Ho0 Hm. cbn in Hd. rewrite Ho0, Hm in Hd. exact Hd.
  - destruct (nodes s p) as [o|] eqn:Ho; [|discriminate]. destruct (take_outgoing_messages o []) as [o' l] eqn:Ht. injection He as <-.
    exists G. split; [apply gle_refl|]. eapply fetch_inv; eauto.
  - injection He as <-. exists G. split; [apply gle_refl|]. apply drop_inv; auto.
  - destruct (nodes s p) as [o|] eqn:Ho; [|discriminate]. destruct (event_call s p ev) as [c|] eqn:Hc; [|discriminate].
    destruct (nth_error (crash_points o c) j) as [st|] eqn:Hst; [|discriminate]. apply nth_error_In in Hst.
    destruct (Nat.eqb_spec (sc_pid sc) p) as [Hsc|]; [|discriminate].
    destruct (build cc sc st) as [| |o'] eqn:Hb; try discriminate. injection He as <-.
    destruct (crash_inv G s p ev o c st sc o' HS Ho Hc) as (G' & [L _] & S'); auto; [|eauto].
    destruct ev as [c0|src k]; cbn; auto. cbn in Hf. split; auto. intros o0 m Ho0 Hm. cbn in Hd. rewrite Ho0, Hm in Hd. exact Hd.
Qed.

Theorem run_inv l : forall G s s', SysInv G s -> all_steps h1h2 cc s l -> run cc s l = Some s' -> exists G', gle G G' /\ SysInv G' s'.
Proof.
  induction l as [|a l IH]; intros G s s' HS Hl Hr; cbn in *.
  - injection Hr as <-. exists G. split; [apply gle_refl|auto].
  - destruct Hl as [Ha Hl]. destruct (exec_action cc s a) as [s1|] eqn:He; [|discriminate].
    destruct (step_inv G s a s1 HS Ha He) as (G1 & L1 & S1). destruct (IH G1 s1 s' S1 Hl Hr) as (G2 & L2 & S2).
    exists G2. split; auto. eapply gle_trans; eauto.
Qed.

(** ** The initial state *)
Definition G00 : ghost :=
  mkG (fun b => if beq b bdef then Some ll0 else None) (fun _ => ll0) (fun _ => None) (fun _ => bdef)
      (fun _ b => if beq b bdef then Some (0, false) else None) (fun _ _ _ => 0).

Lemma beq_bdef b : beq b bdef = true -> b = bdef.
Proof. apply beq_spec. Qed.

Lemma ginv_init : GInv cc G00.
Proof.
  constructor; cbn; auto; try congruence.
  - intros b H. left. destruct (beq b bdef) eqn:Hb; [apply beq_bdef; auto|congruence].
  - intros p b H. left. destruct (beq b bdef) eqn:Hb; [apply beq_bdef; auto|congruence].
  - intros p. left. reflexivity.
  - intros p b c ss. destruct (beq b bdef) eqn:Hb; [|discriminate]. intros H. injection H as <- <-. apply beq_bdef in Hb. subst.
    split; [apply ble_refl_|]. exists ll0. split; auto.
  - intros p b k H Hk. unfold acov. cbn. destruct (beq b bdef) eqn:Hb; [|congruence]. destruct Hk as [Hk|Hk]; cbn in Hk; [left; auto|congruence].
  - intros b H Hb. exfalso. destruct (beq b bdef) eqn:Hbb; [apply beq_bdef in Hbb; auto|congruence].
  - intros b l. destruct (beq b bdef); [|discriminate]. intros H. injection H as <-. apply lle_refl.
Qed.

Lemma stinv_init p : StInv cc G00 p ms_default.
Proof.
  constructor; cbn; auto.
  - exists 0. split; auto.
  - intros b H. right. destruct (beq b bdef) eqn:Hb; [apply beq_bdef; auto|congruence].
  - intros l j e _. destruct j; discriminate.
  - discriminate.
  - left. reflexivity.
  - intros _. left. reflexivity.
Qed.

Lemma init_inv scs : SysInv G00 (init_sys cc scs).
Proof.
  assert (HB : forall p o, nodes (init_sys cc scs) p = Some o ->
     NodeInv cc G00 p (o_sp o) /\ bleinv cc p (o_ble o) /\ s_role (o_sp o) = Follower /\ s_phase (o_sp o) = PhNone /\ s_out (o_sp o) = [] /\
     view (o_sp o) = mkRV bdef bdef PhNone seq0 0 false).
  { intros p o. cbn. destruct (existsb (Nat.eqb p) (cc_nodes cc) && (sc_pid (scs p) =? p)) eqn:Hx; [|discriminate].
    apply andb_true_iff in Hx. destruct Hx as [Hx Hsc]. apply Nat.eqb_eq in Hsc. apply existsb_exists in Hx.
    destruct Hx as (q & Hq & Hpq). apply Nat.eqb_eq in Hpq. subst q.
    destruct (build cc (scs p) ms_default) as [| |o1] eqn:Hb; try discriminate. intros H. injection H as ->.
    destruct (build_inv G00 p (scs p) ms_default o ginv_init (stinv_init p) Hq Hsc Hb) as (HN & HBl & Hr & _ & _).
    split; auto. split; auto. split; auto. unfold build in Hb. destruct (config_validate cc (scs p)); [|discriminate].
    unfold sp_with in Hb. destruct (peers_of cc (sc_pid (scs p))); [discriminate|]. cbn in Hb. injection Hb as <-. auto. }
  constructor.
  - apply ginv_init.
  - intros a x. unfold osp. destruct (nodes (init_sys cc scs) a) as [o|] eqn:Ho; [|discriminate]. intros H. injection H as <-. apply (HB a o Ho).
  - intros a b x. unfold osp. destruct (nodes (init_sys cc scs) a) as [o|] eqn:Ho; [|discriminate]. intros H _. injection H as <-.
    intros Hr. destruct (HB a o Ho) as (_ & _ & Hr' & _). congruence.
  - intros a o Ho. apply (HB a o Ho).
  - intros a b Hab. assert (Hvl : vlink (init_sys cc scs) a b = []).
    { unfold vlink, nouts, osp. cbn [net init_sys pmsgs flat_map app]. destruct (nodes (init_sys cc scs) a) as [o|] eqn:Ho; cbn [option_map]; auto.
      destruct (HB a o Ho) as (_ & _ & _ & _ & -> & _). reflexivity. }
    rewrite Hvl. split.
    + split; [constructor|]. split; [constructor|]. split; [constructor|]. intros rv. unfold oview, osp.
      destruct (nodes (init_sys cc scs) b) as [o|] eqn:Ho; [|discriminate]. cbn [option_map]. intros H. injection H as <-.
      destruct (HB b o Ho) as (_ & _ & _ & _ & _ & ->). intros n Hn Hpr. cbn in *. subst n. split; [discriminate|]. intros _. split; [lia|].
      intros sq m [].
    + intros s0. unfold osp. destruct (nodes (init_sys cc scs) a) as [o|] eqn:Ho; [|discriminate]. intros H. injection H as <-.
      destruct (HB a o Ho) as (_ & _ & Hr' & _). split; intros Hr; congruence.
  - intros a b m [].
Qed.

End Links.
