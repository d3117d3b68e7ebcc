(** * C73: what a leader stores after another entry is decided only after it *)
From Coq Require Import List Arith Bool Lia.
Import ListNotations.
From Verif Require Import Types Config MemStore Internal LeaderState SeqPaxos Ble Omni System Basics Ghost GhostOps Inv
  Op SysInv Spec Reads Agree Scen Refute PropAgreement PropLocal PropAccepted PropNoDup.

Section WithEntry.
Context {E : EntryT}.

(** Server [p] is [o] and leads in ballot [n], in the accept phase. *)
Definition leads (s : sys) (p : node_id) (n : ballot) (o : omni) : Prop :=
  nodes s p = Some o /\ role_of o = (Leader, PhAccept) /\ l_n (s_ls (o_sp o)) = n.

(** ** Logs in which the only entry that passes the test is [b] at [j], with [a] at [i] *)
Definition placed (t : T -> bool) (i j : nat) (a b : T) (l : list T) : Prop :=
  forall x e, nth_error l x = Some e -> t e = true -> x = j /\ e = b /\ nth_error l i = Some a.
Lemma filter_0 (t : T -> bool) es x e : length (filter t es) = 0 -> nth_error es x = Some e -> t e = true -> False.
Proof.
  intros H Hx Ht. apply nth_error_In in Hx. assert (X : In e (filter t es)) by (apply filter_In; auto).
  destruct (filter t es); [destruct X|discriminate].
Qed.
Definition order_budget (i j : nat) (a b : T) (Hij : i < j) : budget.
Proof.
  refine (mkBudget E (fun t l k => k = 0 /\ placed t i j a b l) _ _ _); intros t l.
  - intros k k' H [-> HP]. split; [lia|exact HP].
  - intros es k [Hk HP]. split; [lia|]. intros x e Hx Ht. destruct (le_lt_dec (length l) x) as [Hl|Hl].
    + rewrite nth_error_app2 in Hx by exact Hl. exfalso. apply (filter_0 t es _ _ (proj2 (proj1 (Nat.eq_add_0 _ _) Hk)) Hx Ht).
    + rewrite nth_error_app1 in Hx by exact Hl. destruct (HP x e Hx Ht) as (-> & -> & Ha). split; auto. split; auto. rewrite nth_error_app1 by lia. exact Ha.
  - intros c k [-> HP]. split; auto. intros x e Hx Ht.
    assert (Hf : forall y, y < c -> nth_error (firstn c l) y = nth_error l y).
    { intros y Hy. clear -Hy. revert l y Hy. induction c as [|c IH]; intros l y Hy; [lia|]. destruct l as [|z l]; [destruct y; reflexivity|]. destruct y as [|y]; [reflexivity|]. cbn. apply IH. lia. }
    assert (Hc : x < c). { assert (x < length (firstn c l)) by (apply nth_error_Some; congruence). rewrite firstn_length in *. lia. }
    rewrite Hf in Hx by exact Hc. destruct (HP x e Hx Ht) as (-> & -> & Ha). split; auto. split; auto. rewrite Hf by lia. exact Ha.
Defined.

Section Run.
Context (cc : cluster_config) (Hv : cluster_validate cc = true) (H0 : ~ In 0 (nds cc)) (t : T -> bool).

(** From a moment on at which no such entry waits, and none is appended later. *)
Lemma chain_order B l2 : forall G1 s1 s, SysInv cc G1 s1 -> Cnt cc t B G1 s1 -> all_steps h1h2 cc s1 l2 -> run cc s1 l2 = Some s -> taken t cc s1 l2 = 0 ->
  exists G, gle G1 G /\ SysInv cc G s /\ Cnt cc t B G s /\ forall x y s', l2 = x ++ y -> run cc s1 x = Some s' -> exists G', gle G' G /\ SysInv cc G' s'.
Proof.
  induction l2 as [|a l2 IH]; intros G1 s1 s HS HC Hh R Ht; cbn in R, Hh, Ht.
  - injection R as <-. exists G1. split; [apply gle_refl|]. split; [exact HS|]. split; [exact HC|]. intros x y s' Hl R'. symmetry in Hl. apply app_eq_nil in Hl. destruct Hl as [-> _].
    cbn in R'. injection R' as <-. exists G1. split; [apply gle_refl|exact HS].
  - destruct (exec_action cc s1 a) as [s2|] eqn:He; [|discriminate]. destruct Hh as [Ha Hh].
    assert (Hw : weight t s1 a = 0) by (unfold weight; lia).
    destruct (step_cnt cc Hv H0 t B B G1 s1 a s2) as (G2 & L & S2 & C2 & _); auto; [rewrite Hw; apply more_0|].
    destruct (IH G2 s2 s S2 C2 Hh R) as (G & L' & S' & C' & HM); [lia|]. exists G. split; [eapply gle_trans; eauto|]. split; [exact S'|]. split; [exact C'|].
    intros x y s' Hl R'. destruct x as [|x0 x].
    + cbn in R'. injection R' as <-. exists G1. split; [eapply gle_trans; eauto|exact HS].
    + cbn in Hl. injection Hl as <- Hl. cbn in R'. rewrite He in R'. eapply HM; eauto.
Qed.

Lemma taken_app x y : forall s s1, run cc s x = Some s1 -> taken t cc s (x ++ y) = taken t cc s x + taken t cc s1 y.
Proof.
  induction x as [|a x IH]; intros s s1 R; cbn [app taken].
  - cbn in R. injection R as <-. reflexivity.
  - cbn in R. destruct (exec_action cc s a) as [s2|]; [|discriminate]. rewrite (IH s2 s1 R). lia.
Qed.

(** What a leader stores is in the log of its ballot. *)
Lemma leads_at G s p n o i e : SysInv cc G s -> leads s p n o -> stored (storage o) i e ->
  exists l, gM G n = Some l /\ nth_error (ll_es l) i = Some e.
Proof.
  intros HS (Ho & Hr & Hn) Hs. assert (HN : NodeInv cc G p (o_sp o)) by (apply (y_N _ _ _ HS); unfold osp; rewrite Ho; reflexivity).
  pose proof (n_role _ _ _ _ HN) as HR. unfold role_of in Hr. injection Hr as E1 E2. rewrite E1, E2 in HR.
  destruct (stored_at cc G p _ i e (y_G _ _ _ HS) (n_st _ _ _ _ HN) Hs) as (l & Hl & Hx). exists l. split; [|apply at_ent; exact Hx].
  rewrite <- Hn, <- (la_arnd _ _ _ _ HR). unfold i_around. rewrite (co_around _ _ (n_coh _ _ _ _ HN)). exact Hl.
Qed.
Lemma leads_n G s p n o : SysInv cc G s -> leads s p n o -> gP G p = n /\ b_pid n = p.
Proof.
  intros HS (Ho & Hr & Hn). assert (HN : NodeInv cc G p (o_sp o)) by (apply (y_N _ _ _ HS); unfold osp; rewrite Ho; reflexivity).
  pose proof (n_role _ _ _ _ HN) as HR. unfold role_of in Hr. injection Hr as E1 E2. rewrite E1, E2 in HR. rewrite <- Hn. split; [symmetry; apply (la_n _ _ _ _ HR)|apply (la_pid _ _ _ _ HR)].
Qed.
Lemma waiting_batch G s p o b : SysInv cc G s -> nodes s p = Some o -> s_role (o_sp o) = Leader -> In b (c_batch (i_ca (s_is (o_sp o)))) -> t b = true -> 1 <= waiting cc t s.
Proof.
  intros HS Ho Hr Hb Ht. assert (HN : NodeInv cc G p (o_sp o)) by (apply (y_N _ _ _ HS); unfold osp; rewrite Ho; reflexivity).
  destruct (atn_split cc t s p (n_in _ _ _ _ HN)) as (r & Hr' & _). unfold waiting. rewrite Hr'. assert (X0 : atn t s p = pendt t (o_sp o)) by (unfold atn, osp; rewrite Ho; reflexivity). rewrite X0. unfold pendt. rewrite Hr.
  assert (1 <= cft t (c_batch (i_ca (s_is (o_sp o))))); [|lia]. unfold cft. assert (X : In b (filter t (c_batch (i_ca (s_is (o_sp o)))))) by (apply filter_In; auto).
  destruct (filter t _); [destruct X|cbn; lia].
Qed.
Lemma cft_0 l x e : cft t l = 0 -> nth_error l x = Some e -> t e = true -> False.
Proof. exact (filter_0 t l x e). Qed.
Lemma cft_one_at l x y e f : cft t l <= 1 -> nth_error l x = Some e -> nth_error l y = Some f -> t e = true -> t f = true -> x = y.
Proof.
  intros Hc Hx Hy Te Tf. destruct (Nat.eq_dec x y) as [|Hne]; auto. exfalso.
  assert (2 <= cft t l); [|lia]. apply (hits_bound t l [x; y]).
  - constructor; [intros [->|[]]; auto|]. constructor; [intros []|constructor].
  - intros z [<-|[<-|[]]]; eauto.
Qed.

(** The step in which a leader stores [b]. *)
Lemma order_step G0 G1 B0 s0 s1 p n o0 o1 a b i j : SysInv cc G0 s0 -> SysInv cc G1 s1 -> glp p G0 G1 -> Cnt cc t (upto B0) G0 s0 -> Cnt cc t (upto 1) G1 s1 ->
  leads s0 p n o0 -> leads s1 p n o1 -> t b = true -> (B0 = 0 \/ B0 = 1 /\ 1 <= waiting cc t s0) ->
  stored (storage o1) j b -> (exists l, gM G1 n = Some l /\ nth_error (ll_es l) i = Some a) -> forall Hij : i < j,
  Cnt cc t (order_budget i j a b Hij) G1 s1.
Proof.
  intros S0 S1 [L FR] C0 C1 LD0 LD1 Tb HB Hb (l & Hl & Ha) Hij.
  assert (N0 : forall r lr, gM G0 r = Some lr -> cft t (ll_es lr) = 0).
  { intros r lr Hr. specialize (C0 r lr Hr). rewrite upto_le in C0. lia. }
  destruct (leads_n _ _ _ _ _ S0 LD0) as [P0 Hp]. destruct (leads_n _ _ _ _ _ S1 LD1) as [P1 _].
  destruct (leads_at _ _ _ _ _ _ _ S1 LD1 Hb) as (l' & Hl' & Hj). rewrite Hl in Hl'. injection Hl' as <-.
  pose proof (C1 n l Hl) as X. rewrite upto_le in X.
  assert (1 <= cft t (ll_es l)). { apply (hits_bound t (ll_es l) [j]); [constructor; [intros []|constructor]|]. intros z [<-|[]]. eauto. }
  intros r lr Hr. split; [lia|].
  destruct (beq_dec r n) as [->|Hne].
  - assert (lr = l) by congruence. subst lr. intros x e Hx Te. assert (x = j) by (apply (cft_one_at (ll_es l) x j e b); auto; lia). subst x. split; [reflexivity|]. split; [congruence|exact Ha].
  - assert (HM : gM G1 r = gM G0 r).
    { destruct (Nat.eq_dec (b_pid r) p) as [Hrp|Hrp]; [|apply (fr_M _ _ _ FR); exact Hrp].
      apply (fr_O _ _ _ FR). rewrite P0.
      assert (Hnb : r <> bdef).
      { intros ->. cbn in Hrp. apply H0. rewrite Hrp. destruct LD0 as (Ho & _). apply (n_in cc G0 p (o_sp o0)). apply (y_N _ _ _ S0). unfold osp. rewrite Ho. reflexivity. }
      destruct (g_est _ _ (y_G _ _ _ S1) r) as [_ HC]; [congruence|exact Hnb|].
      destruct (gC G1 r) as [[[na ac] d]|] eqn:Hc; [|congruence]. destruct (g_cand _ _ (y_G _ _ _ S1) _ _ _ _ Hc) as ((Hle & _) & _).
      rewrite Hrp, P1 in Hle. destruct Hle as [Hle|Hle]; [exact Hle|congruence]. }
    rewrite HM in Hr. intros x e Hx Te. exfalso. exact (cft_0 _ _ _ (N0 r lr Hr) Hx Te).
Qed.
End Run.

(** ** Theorem *)

(** C73.  H1 and H2; any loss, any crashes.  Entry [b] is appended once in the run ([t] is a test that only its call
    passes).  Server [p] leads in ballot [n] in [s0]; in its next step it takes the append of [b], or [b] is in its batch; after
    the step it still leads in [n] and stores [b] at [j].  Entry [a] was stored by [p] at [i] at an earlier moment at
    which [p] led in [n], or is stored after the step below [b].  Then [i] is below [j], and whoever reports, at any moment, that [b] is decided reports it
    at [j], has decided [i] too and holds [a] there unless compacted, and nobody ever reports anything but [a] as decided at [i]. *)
Theorem C73_leader_order :
  forall cc scs l1 ev l2 s0 s1 s p n o0 o1 (t : T -> bool) a b i j,
  good_config cc scs -> all_steps h1h2 cc (init_sys cc scs) (l1 ++ ADo p ev :: l2) ->
  reaches cc scs l1 s0 -> exec_action cc s0 (ADo p ev) = Some s1 -> run cc s1 l2 = Some s ->
  taken t cc (init_sys cc scs) (l1 ++ ADo p ev :: l2) = 1 -> t b = true ->
  leads s0 p n o0 -> leads s1 p n o1 ->
  takes t s0 (ADo p ev) = true \/ In b (c_batch (i_ca (s_is (o_sp o0)))) ->
  stored (storage o1) j b ->
  (exists la lb sa oa, l1 = la ++ lb /\ reaches cc scs la sa /\ leads sa p n oa /\ stored (storage oa) i a) \/ (stored (storage o1) i a /\ i < j) ->
  i < j /\
  forall s' q oq k b', moment cc scs (l1 ++ ADo p ev :: l2) s' -> nodes s' q = Some oq -> reports oq k (LDecided b') -> t b' = true ->
    k = j /\ b' = b /\ i < ms_dec (storage oq) /\ (stored (storage oq) i a \/ i < ms_trim (storage oq)) /\
    forall s'' q' x, moment cc scs (l1 ++ ADo p ev :: l2) s'' -> server_reports s'' q' i (LDecided x) -> x = a.
Proof.
  intros cc scs l1 ev l2 s0 s1 s p n o0 o1 t a b i j Hg Hh R0 He R1 Htk Tb LD0 LD1 Hin Hb Ha.
  destruct (all_steps_app cc h1h2 l1 _ _ _ Hh R0) as [Hh0 Hh1]. cbn [all_steps] in Hh1. destruct Hh1 as [Hhs Hh1]. rewrite He in Hh1.
  destruct (chain_cnt t cc scs l1 Hg Hh0 s0 R0) as (G0 & S0 & C0 & M0). pose proof Hg as (Hv & H0 & _).
  rewrite (taken_app cc t l1 _ _ _ R0) in Htk. cbn [taken] in Htk. rewrite He in Htk. fold (weight t s0 (ADo p ev)) in Htk.
  destruct (step_cnt cc Hv H0 t _ _ G0 s0 (ADo p ev) s1 (more_upto t _ _) S0 C0 Hhs He) as (G1 & L1 & S1 & C1 & HL). specialize (HL p ev eq_refl).
  assert (HB : (taken t cc (init_sys cc scs) l1 = 0 \/ taken t cc (init_sys cc scs) l1 = 1 /\ 1 <= waiting cc t s0) /\
     taken t cc (init_sys cc scs) l1 + weight t s0 (ADo p ev) = 1 /\ taken t cc s1 l2 = 0).
  { destruct Hin as [Hin|Hin].
    - unfold weight in *. rewrite Hin in *. lia.
    - pose proof (waiting_batch cc t G0 s0 p o0 b S0) as X. destruct LD0 as (Ho & Hr & _). unfold role_of in Hr. injection Hr as Hr _. specialize (X Ho Hr Hin Tb).
      assert (HN : NodeInv cc G0 p (o_sp o0)) by (apply (y_N _ _ _ S0); unfold osp; rewrite Ho; reflexivity).
      destruct (stinv_M cc G0 p _ (y_G _ _ _ S0) (n_st _ _ _ _ HN)) as [lg Hl]. specialize (C0 _ _ Hl). rewrite upto_le in C0. lia. }
  destruct HB as (HB & HB1 & HB2). rewrite HB1 in C1.
  (* the place of [a] *)
  assert (Hal : i < j /\ exists l, gM G1 n = Some l /\ nth_error (ll_es l) i = Some a).
  { destruct Ha as [(la & lb & sa & oa & -> & Ra & LDa & Sa)|[Sa Hij]]; [|split; [exact Hij|exact (leads_at cc G1 s1 p n o1 i a S1 LD1 Sa)]].
    destruct (M0 sa) as (Ga & La & SSa); [exists la, lb; auto|]. destruct (leads_at cc Ga sa p n oa i a SSa LDa Sa) as (lg & Hl & Hi).
    destruct (le_M _ _ La _ _ Hl) as (lg0 & Hl0 & X0). destruct (le_M _ _ L1 _ _ Hl0) as (lg1 & Hl1 & X1).
    assert (A0 : at_ lg i = Some (Ent a)) by (unfold at_; rewrite Hi; reflexivity). apply (lle_at _ _ _ _ X0) in A0.
    pose proof (lle_at _ _ _ _ X1 A0) as A1. apply at_ent in A0, A1. split; [|eauto].
    destruct (leads_at cc G1 s1 p n o1 j b S1 LD1 Hb) as (l' & Hl' & Hj). assert (l' = lg1) by congruence. subst l'.
    assert (Hlen : i < length (ll_es lg0)) by (apply nth_error_Some; congruence).
    destruct (le_lt_dec (length (ll_es lg0)) j) as [Hle|Hlt]; [lia|]. exfalso.
    destruct (nth_error (ll_es lg0) j) as [e|] eqn:Ej; [|apply nth_error_None in Ej; lia].
    assert (Aj : at_ lg0 j = Some (Ent e)) by (unfold at_; rewrite Ej; reflexivity). apply (lle_at _ _ _ _ X1), at_ent in Aj.
    assert (e = b) by congruence. subst e. specialize (C0 _ _ Hl0). rewrite upto_le in C0. assert (X : cft t (ll_es lg0) = 0) by lia. exact (cft_0 t _ j b X Ej Tb). }
  destruct Hal as [Hij Hal]. split; [exact Hij|].
  pose proof (order_step cc H0 t G0 G1 _ s0 s1 p n o0 o1 a b i j S0 S1 HL C0 C1 LD0 LD1 Tb HB Hb Hal Hij) as CQ.
  destruct (chain_order cc Hv H0 t _ l2 G1 s1 s S1 CQ Hh1 R1 HB2) as (G & LG & SG & CG & MG).
  assert (MM : forall s', moment cc scs (l1 ++ ADo p ev :: l2) s' -> exists G', gle G' G /\ SysInv cc G' s').
  { intros s' (x & y & Hxy & Rx). assert (Hc : (exists y', l1 = x ++ y') \/ exists x', x = l1 ++ ADo p ev :: x' /\ l2 = x' ++ y).
    { clear -Hxy. revert x Hxy. induction l1 as [|z l1 IH]; intros x Hxy.
      - destruct x as [|x0 x]; [left; exists []; reflexivity|]. cbn in Hxy. injection Hxy as <- ->. right. exists x. auto.
      - destruct x as [|x0 x]; [left; exists (z :: l1); reflexivity|]. cbn in Hxy. injection Hxy as <- Hxy. destruct (IH x Hxy) as [[y' ->]|(x' & -> & Hl)]; [left; exists y'; reflexivity|right; exists x'; auto]. }
    destruct Hc as [[y' ->]|(x' & -> & ->)].
    - destruct (M0 s') as (G' & LG' & SG'); [exists x, y'; auto|]. exists G'. split; [|exact SG']. eapply gle_trans; [exact LG'|]. eapply gle_trans; eauto.
    - destruct (run_app cc l1 _ _ _ Rx) as (s0' & R0' & Rx'). unfold reaches in R0. assert (s0' = s0) by congruence. subst s0'. cbn [run] in Rx'. rewrite He in Rx'. eapply MG; eauto. }
  intros s' q oq k b' Hm Ho Hr Tb'. destruct (MM s' Hm) as (G' & LG' & SG').
  assert (HN : NodeInv cc G' q (o_sp oq)) by (apply (y_N _ _ _ SG'); unfold osp; rewrite Ho; reflexivity).
  destruct (reports_decided cc Hv H0 G' q oq k b' (y_G _ _ _ SG') HN Hr) as (Hs & Hd & F). pose proof (fixed_gle cc _ _ _ _ LG' F) as FG.
  pose proof FG as (c & lc & Hch & Hlc & Hat). destruct (CG c lc Hlc) as [_ HP]. apply at_ent in Hat. destruct (HP k b' Hat Tb') as (-> & -> & Hai).
  split; [reflexivity|]. split; [reflexivity|]. change (i_st (s_is (o_sp oq))) with (storage oq) in *. assert (Hid : i < ms_dec (storage oq)) by lia. split; [exact Hid|].
  assert (FA : fixed cc G i (Ent a)).
  { exists c, lc. split; [|split; [exact Hlc|unfold at_; rewrite Hai; reflexivity]]. eapply chosen_le; [|exact Hch]. lia. }
  split.
  - destruct (le_lt_dec (ms_trim (storage oq)) i) as [Ht|Ht]; [left|right; exact Ht].
    assert (Hex : exists e, stored (storage oq) i e).
    { destruct Hs as [Hs1 Hs2]. assert (j - ms_trim (storage oq) < length (ms_log (storage oq))) by (apply nth_error_Some; congruence).
      destruct (nth_error (ms_log (storage oq)) (i - ms_trim (storage oq))) as [e|] eqn:He'; [exists e; split; auto|]. apply nth_error_None in He'. lia. }
    destruct Hex as [e Hse]. destruct (stored_at cc G' q _ i e (y_G _ _ _ SG') (n_st _ _ _ _ HN) Hse) as (lq & Hlq & Hxq).
    destruct (dec_fixed cc Hv H0 G' _ _ i lq _ (y_G _ _ _ SG') (st_dec _ _ _ _ (n_st _ _ _ _ HN)) Hid Hlq Hxq) as (_ & _ & _ & F').
    pose proof (fixed_agree cc Hv H0 G i _ _ (y_G _ _ _ SG) (fixed_gle cc _ _ _ _ LG' F') FA) as X. injection X as ->. exact Hse.
  - intros s'' q' x Hm' (o' & Ho' & Hr'). destruct (MM s'' Hm') as (G'' & LG'' & SG'').
    assert (HN' : NodeInv cc G'' q' (o_sp o')) by (apply (y_N _ _ _ SG''); unfold osp; rewrite Ho'; reflexivity).
    destruct (reports_decided cc Hv H0 G'' q' o' i x (y_G _ _ _ SG'') HN' Hr') as (_ & _ & F').
    pose proof (fixed_agree cc Hv H0 G i _ _ (y_G _ _ _ SG) (fixed_gle cc _ _ _ _ LG'' F') FA) as X. injection X as ->. reflexivity.
Qed.

End WithEntry.

Print Assumptions C73_leader_order.

(** ** Concrete cases *)
Section Case.
Local Existing Instance plain.

Definition leadsb (n : ballot) (o : omni) : bool := match role_of o with (Leader, PhAccept) => beq (l_n (s_ls (o_sp o))) n | _ => false end.
Definition storedb (i v : nat) (o : omni) : bool := (ms_trim (storage o) <=? i) && match nth_error (ms_log (storage o)) (i - ms_trim (storage o)) with Some x => x =? v | None => false end.
Lemma leads_ok s p n f : on s p (fun o => leadsb n o && f o) = true -> exists o, leads s p n o /\ f o = true.
Proof.
  unfold on. destruct (nodes s p) as [o|] eqn:Ho; [|discriminate]. intros H. apply andb_true_iff in H. destruct H as [H Hf]. exists o. split; auto.
  unfold leadsb in H. destruct (role_of o) as [[|] []] eqn:Hr; try discriminate. apply beq_spec in H. repeat split; auto.
Qed.
Lemma storedb_ok i v o : storedb i v o = true -> stored (storage o) i (v : @T plain).
Proof.
  unfold storedb. intros H. apply andb_true_iff in H. destruct H as [H1 H2]. apply Nat.leb_le in H1. split; auto.
  destruct (nth_error _ _) as [x|]; [|discriminate]. apply Nat.eqb_eq in H2. congruence.
Qed.

(** Server 1 leads and appends 21, then 22.  Server 2 takes over and everything is decided; server 1 becomes leader again
    and appends 23. *)
Definition acts_o1 := Eval vm_compute in acts_of cc3 sys_case1 [append 1 21].
Definition sys_o1 := match run cc3 sys_case1 acts_o1 with Some s => s | None => ini end.
Definition b_o : action := ADo 1 (ECall (CAppend (22 : @T plain))).
Definition sys_o2 := match exec_action cc3 sys_o1 b_o with Some s => s | None => ini end.
Definition acts_o3 := Eval vm_compute in acts_of cc3 sys_o2
  [ Fetch [1]; Deliver 1 2; Call 2 CTryLeader; Settle [2;3] 4; Settle [1;2;3] 3; Call 1 CTryLeader; Settle [1;2;3] 4; append 1 23; Settle [1;2;3] 4 ].
Definition sys_o3 := match run cc3 sys_o2 acts_o3 with Some s => s | None => ini end.
Definition acts_o4 := Eval vm_compute in acts_of cc3 sys_o3 [ Call 1 (CTrim (Some 4)); Settle [1;2;3] 2 ].
Definition sys_o4 := match run cc3 sys_o3 acts_o4 with Some s => s | None => ini end.
Definition n_o := mkB 1 1 0 1.
Lemma o1_reach : reaches cc3 scs (acts_case1 ++ acts_o1) sys_o1.
Proof. eapply run_app_ok; [exact case_reach1|]. apply is_some_eta. vm_compute. reflexivity. Qed.
Lemma o2_step : exec_action cc3 sys_o1 b_o = Some sys_o2.
Proof. apply is_some_eta. vm_compute. reflexivity. Qed.
Lemma o3_run : run cc3 sys_o2 acts_o3 = Some sys_o3.
Proof. apply is_some_eta. vm_compute. reflexivity. Qed.
Example C73_case :
  good_config cc3 scs /\ all_steps h1h2 cc3 ini ((acts_case1 ++ acts_o1) ++ b_o :: acts_o3 ++ acts_o4) /\
  reaches cc3 scs (acts_case1 ++ acts_o1) sys_o1 /\ exec_action cc3 sys_o1 b_o = Some sys_o2 /\ run cc3 sys_o2 (acts_o3 ++ acts_o4) = Some sys_o4 /\
  taken (Nat.eqb 22) cc3 ini ((acts_case1 ++ acts_o1) ++ b_o :: acts_o3 ++ acts_o4) = 1 /\
  takes (Nat.eqb 22) sys_o1 b_o = true /\
  (exists o, leads sys_o1 1 n_o o /\ stored (storage o) 2 (21 : @T plain)) /\
  (exists o, leads sys_o2 1 n_o o /\ stored (storage o) 3 (22 : @T plain)) /\
  obs sys_o2 2 (fun o => ms_log (storage o)) = Some [11; 12] /\
  moment cc3 scs ((acts_case1 ++ acts_o1) ++ b_o :: acts_o3 ++ acts_o4) sys_o3 /\ server_reports sys_o3 3 3 (LDecided (22 : @T plain)) /\
  obs sys_o4 1 (fun o => (role_of o, b_n (l_n (s_ls (o_sp o))), ms_trim (storage o), ms_log (storage o), ms_dec (storage o))) = Some (Leader, PhAccept, 3, 4, [23], 5).
Proof.
  split; [exact good3|]. split; [apply h1h2_run; vm_compute; reflexivity|]. split; [exact o1_reach|]. split; [exact o2_step|].
  split; [eapply run_app_ok; [exact o3_run|]; apply is_some_eta; vm_compute; reflexivity|].
  split; [vm_compute; reflexivity|]. split; [vm_compute; reflexivity|].
  split. { destruct (leads_ok sys_o1 1 n_o (storedb 2 21)) as (o & H1 & H2); [vm_compute; reflexivity|]. exists o. split; [exact H1|apply storedb_ok; exact H2]. }
  split. { destruct (leads_ok sys_o2 1 n_o (storedb 3 22)) as (o & H1 & H2); [vm_compute; reflexivity|]. exists o. split; [exact H1|apply storedb_ok; exact H2]. }
  split; [vm_compute; reflexivity|]. split.
  { exists ((acts_case1 ++ acts_o1) ++ b_o :: acts_o3), acts_o4. split; [rewrite <- app_assoc; reflexivity|].
    eapply run_app_ok; [exact o1_reach|]. cbn [run]. rewrite o2_step. exact o3_run. }
  split; [apply shows_ok; vm_compute; reflexivity|]. vm_compute. reflexivity.
Qed.

(** With a batch of three: 14 and 15 wait in the batch of the leader, and are stored in one step with 16. *)
Definition scs_b (p : nat) := mkSC p 50 50 10 3 5 0.
Definition ini_b := init_sys cc3 scs_b.
Definition acts_b := Eval vm_compute in acts_of cc3 ini_b [ Settle [1;2;3] 2; Call 1 CTryLeader; Settle [1;2;3] 3; append 1 11; append 1 12; append 1 13; append 1 14; append 1 15 ].
Definition sys_b := match run cc3 ini_b acts_b with Some s => s | None => ini_b end.
Definition c_o : action := ADo 1 (ECall (CAppend (16 : @T plain))).
Definition sys_b1 := match exec_action cc3 sys_b c_o with Some s => s | None => ini_b end.
Definition acts_b2 := Eval vm_compute in acts_of cc3 sys_b1 [ Settle [1;2;3] 4 ].
Definition sys_b2 := match run cc3 sys_b1 acts_b2 with Some s => s | None => ini_b end.
Example C73_batch_case :
  all_steps h1h2 cc3 ini_b (acts_b ++ c_o :: acts_b2) /\ taken (Nat.eqb 15) cc3 ini_b (acts_b ++ c_o :: acts_b2) = 1 /\
  (exists o, leads sys_b 1 n_o o /\ In 15 (c_batch (i_ca (s_is (o_sp o)))) /\ ms_log (storage o) = [11; 12; 13]) /\
  (exists o, leads sys_b1 1 n_o o /\ stored (storage o) 4 (15 : @T plain) /\ stored (storage o) 3 (14 : @T plain)) /\
  server_reports sys_b2 2 4 (LDecided (15 : @T plain)).
Proof.
  split; [apply h1h2_run; vm_compute; reflexivity|]. split; [vm_compute; reflexivity|].
  split. { destruct (leads_ok sys_b 1 n_o (fun o => existsb (Nat.eqb 15) (c_batch (i_ca (s_is (o_sp o)))) && if list_eq_dec Nat.eq_dec (ms_log (storage o)) [11; 12; 13] then true else false)) as (o & H1 & H2); [vm_compute; reflexivity|].
    exists o. split; [exact H1|]. apply andb_true_iff in H2. destruct H2 as [H2 H3]. apply existsb_exists in H2. destruct H2 as (x & Hx & H2). apply Nat.eqb_eq in H2. subst x.
    split; [exact Hx|]. destruct (list_eq_dec _ _ _); [assumption|discriminate]. }
  split. { destruct (leads_ok sys_b1 1 n_o (fun o => storedb 4 15 o && storedb 3 14 o)) as (o & H1 & H2); [vm_compute; reflexivity|]. apply andb_true_iff in H2. exists o. split; [exact H1|]. split; apply storedb_ok; apply H2. }
  apply shows_ok; vm_compute; reflexivity.
Qed.

(** ** The ballot matters *)

(** A run from the start, and the state after it. *)
Definition after_ (l : list action) : sys := match run cc3 ini l with Some s => s | None => ini end.
Lemma after_ok l : match run cc3 ini l with Some _ => true | None => false end = true -> reaches cc3 scs l (after_ l).
Proof. apply is_some_eta. Qed.
Definition lossless (l : list action) : bool := forallb (fun a => match a with ADrop _ _ _ | ACrash _ _ _ _ => false | _ => true end) l.
Definition app_at (p v : nat) : action := ADo p (ECall (CAppend (v : @T plain))).

(** Server 3 appends 21 and then 22.  The forwarded 21 is on its way to server 1 while server 2 becomes leader; 22 goes to
    server 2 directly, and is decided before 21. *)
Definition acts_f1 := Eval vm_compute in acts_of cc3 (after_ (acts_case1 ++ [app_at 3 21])) [ Fetch [3]; Call 2 CTryLeader; Settle [2;3] 4 ].
Definition acts_f2 := Eval vm_compute in acts_of cc3 (after_ (acts_case1 ++ app_at 3 21 :: acts_f1 ++ [app_at 3 22])) [ Settle [2;3] 4; Settle [1;2;3] 6 ].
(** C73, for any server: refuted.  All links are FIFO, nothing is lost and no server stops; both calls return no error; the entries are decided in
    the other order. *)
Theorem C73_program_order_of_any_server_refuted :
  exists cc scs la lb lc s p (a b : @T plain) i j,
  good_config cc scs /\ all_steps h1h2 cc (init_sys cc scs) (la ++ app_at p a :: lb ++ app_at p b :: lc) /\ lossless (la ++ app_at p a :: lb ++ app_at p b :: lc) = true /\
  reaches cc scs (la ++ app_at p a :: lb ++ app_at p b :: lc) s /\
  taken (Nat.eqb a) cc (init_sys cc scs) (la ++ app_at p a :: lb ++ app_at p b :: lc) = 1 /\ taken (Nat.eqb b) cc (init_sys cc scs) (la ++ app_at p a :: lb ++ app_at p b :: lc) = 1 /\
  server_reports s p i (LDecided a) /\ server_reports s p j (LDecided b) /\ j < i.
Proof.
  exists cc3, scs, acts_case1, acts_f1, acts_f2, (after_ (acts_case1 ++ app_at 3 21 :: acts_f1 ++ app_at 3 22 :: acts_f2)), 3, 21, 22, 3, 2.
  split; [exact good3|]. split; [apply h1h2_run; vm_compute; reflexivity|]. split; [vm_compute; reflexivity|]. split; [apply after_ok; vm_compute; reflexivity|].
  split; [vm_compute; reflexivity|]. split; [vm_compute; reflexivity|]. split; [apply shows_ok; vm_compute; reflexivity|]. split; [apply shows_ok; vm_compute; reflexivity|]. auto.
Qed.

(** Server 1 leads and stores 21, is replaced by server 2 before it sent 21, leads again in a higher ballot, and stores 22. *)
Definition acts_g1 := Eval vm_compute in acts_of cc3 (after_ (acts_case1 ++ [app_at 1 21]))
  [ Call 2 CTryLeader; Settle [2;3] 4; append 2 24; Settle [2;3] 4; Settle [1;2;3] 3; Call 1 CTryLeader; Settle [1;2;3] 4 ].
Definition acts_g2 := Eval vm_compute in acts_of cc3 (after_ (acts_case1 ++ app_at 1 21 :: acts_g1 ++ [app_at 1 22])) [ Settle [1;2;3] 4 ].
(** C73, for a server that leads in two ballots: refuted.  It stores [a] and later [b] at a higher index, each time as leader in the accept phase; [b] is
    decided there, and something else than [a] at the index of [a]. *)
Theorem C73_order_across_ballots_refuted :
  exists cc scs la lb lc s1 s2 s p n1 n2 (a b c : @T plain) i j,
  good_config cc scs /\ all_steps h1h2 cc (init_sys cc scs) (la ++ app_at p a :: lb ++ app_at p b :: lc) /\ lossless (la ++ app_at p a :: lb ++ app_at p b :: lc) = true /\
  reaches cc scs (la ++ [app_at p a]) s1 /\ reaches cc scs (la ++ app_at p a :: lb ++ [app_at p b]) s2 /\ reaches cc scs (la ++ app_at p a :: lb ++ app_at p b :: lc) s /\
  (exists o, leads s1 p n1 o /\ stored (storage o) i a) /\ (exists o, leads s2 p n2 o /\ stored (storage o) j b) /\ i < j /\ n1 <> n2 /\
  server_reports s p j (LDecided b) /\ server_reports s p i (LDecided c) /\ c <> a.
Proof.
  exists cc3, scs, acts_case1, acts_g1, acts_g2, (after_ (acts_case1 ++ [app_at 1 21])), (after_ (acts_case1 ++ app_at 1 21 :: acts_g1 ++ [app_at 1 22])),
    (after_ (acts_case1 ++ app_at 1 21 :: acts_g1 ++ app_at 1 22 :: acts_g2)), 1, n_o, (mkB 1 3 0 1), 21, 22, 24, 2, 3.
  split; [exact good3|]. split; [apply h1h2_run; vm_compute; reflexivity|]. split; [vm_compute; reflexivity|].
  split; [apply after_ok; vm_compute; reflexivity|]. split; [apply after_ok; vm_compute; reflexivity|]. split; [apply after_ok; vm_compute; reflexivity|].
  split. { destruct (leads_ok (after_ (acts_case1 ++ [app_at 1 21])) 1 n_o (storedb 2 21)) as (o & H1 & H2); [vm_compute; reflexivity|]. exists o. split; [exact H1|apply storedb_ok; exact H2]. }
  split. { destruct (leads_ok (after_ (acts_case1 ++ app_at 1 21 :: acts_g1 ++ [app_at 1 22])) 1 (mkB 1 3 0 1) (storedb 3 22)) as (o & H1 & H2); [vm_compute; reflexivity|]. exists o. split; [exact H1|apply storedb_ok; exact H2]. }
  split; [auto|]. split; [discriminate|]. split; [apply shows_ok; vm_compute; reflexivity|]. split; [apply shows_ok; vm_compute; reflexivity|]. discriminate.
Qed.
End Case.

Print Assumptions C73_program_order_of_any_server_refuted.
Print Assumptions C73_order_across_ballots_refuted.
