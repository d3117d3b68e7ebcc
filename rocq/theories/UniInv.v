(** * UniCache: the caches of a ballot stay in step

    For batch sizes 0 and 1.  The history that the invariant speaks about: [V n k] is the cache
    of the leader of [n] after the first [k] entries of its log, [Cm n k e] says that the leader
    of [n] encoded the entry [e] for position [k].  A follower that has accepted [k] entries in
    the ballot [n] has a cache that is in step with [V n k].

    The position of an entry in an AcceptDecide is only known to the ghost history of Ghost.v.
    Entries are found in it by their numbers: no number occurs twice in a log, which is the
    counting argument of C46. *)
From Coq Require Import List Arith Bool Lia.
Import ListNotations.
From Verif Require Import Types Config MemStore Internal LeaderState SeqPaxos Ble Omni System Basics Spec Ghost GhostOps Inv
  Op SysInv Reads Agree Dup UniSys UniSweep.

(** ** Replacing a message without number *)
Section Repl.
Context {E : EntryT}.
Context (cc : cluster_config).
Lemma linv_repl G a b sa l1 l2 x x' rb : numb x = None -> numb x' = None -> minv cc G a b x' ->
  linv cc G a b sa (l1 ++ x :: l2) rb -> linv cc G a b sa (l1 ++ x' :: l2) rb.
Proof.
  intros Hx Hx' Hm [(A & B & C & D) F].
  assert (HI : forall m y, In m (l1 ++ x' :: l2) -> numb m = Some y -> In m (l1 ++ x :: l2)).
  { intros m y Hi Hy. rewrite in_app_iff in *. cbn in *. destruct Hi as [|[<-|]]; auto. congruence. }
  split; [split; [|split; [|split]]|].
  - rewrite Forall_app in *. destruct A as [A1 A2]. inversion A2; subst. auto.
  - apply FOP_app in B. destruct B as (B1 & B2 & B3). inversion B2; subst. apply FOP_app. split; [exact B1|]. split.
    + constructor; auto. rewrite Forall_forall. intros y _ n s1 s2 _ X. congruence.
    + intros u v Hu [<-|Hv]; [intros n s1 s2 _ _ X; congruence|apply B3; cbn; auto].
  - rewrite Forall_app in *. destruct C as [C1 C2]. inversion C2; subst. split; auto. constructor; auto. intros n sq _ X. congruence.
  - intros rv Hrv n Hn Hp. destruct (D rv Hrv n Hn Hp) as [D1 D2]. split.
    + intros Hph. destruct (D1 Hph) as (E1 & E2 & E3 & E4). split; [exact E1|]. split; [exact E2|]. split; [|exact E4]. intros m sq Hi Hq. exact (E3 m sq (HI _ _ Hi Hq) Hq).
    + intros Ha. destruct (D2 Ha) as [E1 E2]. split; [exact E1|]. intros sq m Hi Hq. exact (E2 sq m (HI _ _ Hi Hq) Hq).
  - intros s Hs. destruct (F s Hs) as [F1 F2]. split.
    + intros H1 H2 sq Hsq. destruct (F1 H1 H2 sq Hsq) as [X1 X2]. split; auto. intros m s' Hi Hq. exact (X1 m s' (HI _ _ Hi Hq) Hq).
    + intros H1 H2 H3 sq Hsq. specialize (F2 H1 H2 H3 sq Hsq). cbn zeta in *. destruct F2 as (C1 & C2 & C3). split; auto. split; auto. intros Hss. destruct (C3 Hss) as [C4 C5]. split; auto. intros m Hi Hq. exact (C5 m (HI _ _ Hi Hq) Hq).
Qed.

Definition set_nth {A} (l : list A) (k : nat) (x : A) : list A := firstn k l ++ x :: skipn (S k) l.
Lemma set_nth_at {A} (l : list A) k x : k < length l -> nth_error (set_nth l k x) k = Some x.
Proof.
  intros H. unfold set_nth. rewrite nth_error_app2; rewrite firstn_length_le by lia; [|lia]. rewrite Nat.sub_diag. reflexivity.
Qed.
Lemma set_nth_remove {A} (l : list A) k x : k < length l -> remove_nth (set_nth l k x) k = remove_nth l k.
Proof.
  intros H. unfold set_nth. destruct (nth_error l k) as [y|] eqn:Hy; [|apply nth_error_None in Hy; lia].
  destruct (nth_error_split _ _ Hy) as (l1 & l2 & -> & <-). rewrite firstn_app, Nat.sub_diag, firstn_all. cbn [firstn]. rewrite app_nil_r.
  replace (skipn (S (length l1)) (l1 ++ y :: l2)) with l2. 2:{ rewrite skipn_app. replace (S (length l1) - length l1) with 1 by lia. rewrite skipn_all2 by lia. reflexivity. }
  rewrite !remove_nth_mid. reflexivity.
Qed.
Lemma fold_osp s n a : osp (mkSys (nodes s) n) a = osp s a.
Proof. reflexivity. Qed.

(** The proposals in a ProposalForward under way do not matter. *)
Lemma repl_inv G s src p k m es es' : SysInv cc G s -> nth_error (net s src p) k = Some (MsgSP m) -> pm_msg m = MProposalForward es ->
  SysInv cc G (mkSys (nodes s) (upd2 (net s) src p (set_nth (net s src p) k (MsgSP (mkPM (pm_from m) (pm_to m) (MProposalForward es')))))).
Proof.
  intros [A1 A2 A3 A4 A5 A6] Hk Hm. destruct (nth_error_split _ _ Hk) as (l1 & l2 & Hl & Hlen).
  assert (Hset : set_nth (net s src p) k (MsgSP (mkPM (pm_from m) (pm_to m) (MProposalForward es'))) = l1 ++ MsgSP (mkPM (pm_from m) (pm_to m) (MProposalForward es')) :: l2).
  { unfold set_nth. rewrite Hl, <- Hlen, firstn_app, Nat.sub_diag, firstn_all. cbn [firstn]. rewrite app_nil_r. f_equal. f_equal.
    rewrite skipn_app. replace (S (length l1) - length l1) with 1 by lia. rewrite skipn_all2 by lia. reflexivity. }
  constructor; auto.
  - intros a b Hab. unfold vlink. cbn [net]. unfold upd2. destruct (Nat.eqb_spec a src) as [->|]; [|apply (A5 a b Hab)]. destruct (Nat.eqb_spec b p) as [->|]; [|apply (A5 src b Hab)]. cbn [andb]. rewrite Hset.
    pose proof (A5 src p Hab) as H. unfold vlink in H. rewrite Hl in H. rewrite pmsgs_app in *. cbn [pmsgs flat_map app] in *. fold (pmsgs l2) in *. rewrite <- app_assoc in *. cbn [app] in *.
    eapply linv_repl; [| | |exact H]; [rewrite Hm; reflexivity|reflexivity|]. split; [exact Hab|exact I].
  - intros a b m0. cbn [net]. unfold upd2. destruct (Nat.eqb_spec a src) as [->|]; [|apply A6]. destruct (Nat.eqb_spec b p) as [->|]; [|apply A6]. cbn [andb]. rewrite Hset. intros Hi.
    rewrite in_app_iff in Hi. cbn in Hi. destruct Hi as [Hi|[Hi|Hi]]; [|injection Hi as <-; cbn [pm_from]|]; apply A6; rewrite Hl, in_app_iff; cbn; auto.
Qed.
Lemma inv_ext G s n' : SysInv cc G s -> (forall a b, n' a b = net s a b) -> SysInv cc G (mkSys (nodes s) n').
Proof.
  intros [A1 A2 A3 A4 A5 A6] Hn. constructor; auto.
  - intros a b Hab. unfold vlink. cbn [net]. rewrite Hn. apply (A5 a b Hab).
  - intros a b m. cbn [net]. rewrite Hn. apply A6.
Qed.

(** A follower in the accept phase, and the messages to it. *)
Lemma fol_cnt G s p o : SysInv cc G s -> nodes s p = Some o -> s_role (o_sp o) = Follower -> s_phase (o_sp o) = PhAccept ->
  i_ss (s_is (o_sp o)) = None -> c_batch (i_ca (s_is (o_sp o))) = [] ->
  b_pid (i_prom (s_is (o_sp o))) <> p /\ 1 <= sq_ctr (s_cseq (o_sp o)) /\ gM G (i_prom (s_is (o_sp o))) <> None /\
  cnt (i_st (s_is (o_sp o))) = gN G (i_prom (s_is (o_sp o))) p (s_cseq (o_sp o)).
Proof.
  intros HS Ho Hr Hp Hs Hb. assert (Hosp : osp s p = Some (o_sp o)) by (unfold osp; rewrite Ho; reflexivity).
  pose proof (y_N _ _ _ HS p _ Hosp) as HN. pose proof (n_role _ _ _ _ HN) as HR. rewrite Hr, Hp in HR. destruct HR as [_ HR].
  assert (HP : i_prom (s_is (o_sp o)) = gP G p) by (unfold i_prom; rewrite (co_prom _ _ (n_coh _ _ _ _ HN)); apply (st_prom _ _ _ _ (n_st _ _ _ _ HN))).
  rewrite HP. split; [exact HR|]. pose proof (y_link _ _ _ HS (b_pid (gP G p)) p HR) as [(_ & _ & _ & HL) _].
  unfold oview in HL. rewrite Hosp in HL. specialize (HL _ eq_refl (gP G p) eq_refl HP). destruct HL as [HL _]. specialize (HL Hp). destruct HL as (L1 & L2 & _ & L3).
  cbn [view rv_cseq rv_ss rv_cnt] in *. rewrite Hs, Hb in L3. cbn in L3. split; [exact L1|]. split; [exact L2|]. lia.
Qed.
Lemma net_vlink s a b m : In (MsgSP m) (net s a b) -> In (pm_msg m) (vlink s a b).
Proof.
  intros H. unfold vlink. rewrite in_app_iff. left. unfold pmsgs. rewrite in_flat_map. exists (MsgSP m). split; [exact H|]. left. reflexivity.
Qed.
Lemma net_ok G s a b m : SysInv cc G s -> In (MsgSP m) (net s a b) -> minv cc G a b (pm_msg m) /\ posok G a b (pm_msg m) /\ a <> b.
Proof.
  intros HS Hm. destruct (y_net _ _ _ HS a b m Hm) as (_ & Hab & _). pose proof (y_link _ _ _ HS a b Hab) as [(L1 & _ & L2 & _) _].
  rewrite Forall_forall in L1, L2. split; [|split; [|exact Hab]]; [apply L1|apply L2]; apply net_vlink; exact Hm.
Qed.
Lemma out_ok G s a o m : SysInv cc G s -> nodes s a = Some o -> In m (s_out (o_sp o)) ->
  pm_to m <> a /\ In (pm_msg m) (outs (pm_to m) (s_out (o_sp o))) /\ minv cc G a (pm_to m) (pm_msg m) /\ posok G a (pm_to m) (pm_msg m).
Proof.
  intros HS Ho Hm. assert (Hosp : osp s a = Some (o_sp o)) by (unfold osp; rewrite Ho; reflexivity).
  pose proof (n_out _ _ _ _ (y_N _ _ _ HS a _ Hosp)) as HN. rewrite Forall_forall in HN. destruct (HN m Hm) as [N1 N2].
  assert (Hi : In (pm_msg m) (outs (pm_to m) (s_out (o_sp o)))). { unfold outs. apply in_map, filter_In. split; [exact Hm|]. apply Nat.eqb_refl. }
  split; [exact N2|]. split; [exact Hi|]. pose proof (y_link _ _ _ HS a (pm_to m) (not_eq_sym N2)) as [(L1 & _ & L2 & _) _]. rewrite Forall_forall in L1, L2.
  assert (Hv : In (pm_msg m) (vlink s a (pm_to m))) by (unfold vlink, nouts; rewrite Hosp, in_app_iff; right; exact Hi). split; auto.
Qed.
(** No two AcceptSyncs of a server have ballot, destination and number in common. *)
Lemma outs_pair G a b l i j x y : ForallOrdPairs (pairok G a b) (outs b l) -> i < j -> nth_error l i = Some x -> nth_error l j = Some y ->
  pm_to x = b -> pm_to y = b -> pairok G a b (pm_msg x) (pm_msg y).
Proof.
  intros HF Hij Hi Hj Hx Hy. destruct (nth_error_split _ _ Hi) as (l1 & l2 & -> & <-). rewrite nth_error_app2 in Hj by lia.
  destruct (j - length l1) as [|k] eqn:Hk; [lia|]. cbn in Hj. apply nth_error_In in Hj.
  change (l1 ++ x :: l2) with (l1 ++ [x] ++ l2) in HF. rewrite !outs_app in HF. apply FOP_app in HF. destruct HF as (_ & HF & _). apply FOP_app in HF. destruct HF as (_ & _ & HF).
  apply HF; unfold outs; apply in_map, filter_In; (split; [cbn; auto|]); apply Nat.eqb_eq; assumption.
Qed.
Lemma pair_no G a b n sq x y d1 d2 s1 s2 : b_pid n = a -> x = MAcceptSync n sq d1 s1 -> y = MAcceptSync n sq d2 s2 -> pairok G a b x y -> False.
Proof.
  intros Hn -> -> H. destruct (H n sq sq Hn eq_refl eq_refl) as (_ & [X|(_ & X & _)] & _); [exact (slt_irrefl _ X)|discriminate].
Qed.

Context (Hv : cluster_validate cc = true) (H0 : ~ In 0 (nds cc)).
(** Calls that differ only in what is proposed. *)
Inductive like : call -> call -> Prop :=
| like_same c : like c c
| like_append e e' : like (CAppend e) (CAppend e')
| like_forward f t es es' : like (CHandle (MsgSP (mkPM f t (MProposalForward es)))) (CHandle (MsgSP (mkPM f t (MProposalForward es')))).

Lemma sim s p ev c c' : like c c' -> event_call s p ev = Some c -> h12 s p ev ->
  exists s2 ev', event_call s2 p ev' = Some c' /\ h12 s2 p ev' /\ nodes s2 = nodes s /\
    (forall G, SysInv cc G s -> SysInv cc G s2) /\ (forall a b, event_net s2 p ev' a b = event_net s p ev a b).
Proof.
  intros HL Hc Hh. destruct HL as [c|e e'|f t es es'].
  - exists s, ev. split; [exact Hc|]. split; [exact Hh|]. split; [reflexivity|]. split; auto.
  - destruct ev as [c0|src k]; cbn in Hc; [|destruct (nth_error _ _); discriminate]. exists s, (ECall (CAppend e')). split; [reflexivity|]. split; [exact I|]. split; [reflexivity|]. split; auto.
  - destruct ev as [c0|src k]; cbn in Hc; [destruct c0; discriminate|]. destruct (nth_error (net s src p) k) as [m|] eqn:Hk; [|discriminate]. cbn in Hc. injection Hc as ->.
    set (x := MsgSP (mkPM f t (MProposalForward es'))). assert (Hlt : k < length (net s src p)) by (apply nth_error_Some; congruence).
    exists (mkSys (nodes s) (upd2 (net s) src p (set_nth (net s src p) k x))), (EDeliver src k).
    assert (Hn : nth_error (net (mkSys (nodes s) (upd2 (net s) src p (set_nth (net s src p) k x))) src p) k = Some x).
    { cbn [net]. unfold upd2. rewrite !Nat.eqb_refl. apply set_nth_at, Hlt. }
    split; [cbn [event_call]; rewrite Hn; reflexivity|]. split; [|split; [reflexivity|split]].
    + split.
      * intros j m m' n _ _ Hm' _. rewrite Hn in Hm'. injection Hm' as <-. discriminate.
      * intros o m _ Hm. rewrite Hn in Hm. injection Hm as <-. discriminate.
    + intros G HS. exact (repl_inv G s src p k (mkPM f t (MProposalForward es)) es es' HS Hk eq_refl).
    + intros a b. cbn [event_net net]. unfold upd2. rewrite !Nat.eqb_refl. cbn [andb]. destruct ((a =? src) && (b =? p)); auto. apply set_nth_remove, Hlt.
Qed.
Lemma sim_do t B G s p ev o c c' o' r : like c c' -> SysInv cc G s -> nodes s p = Some o -> event_call s p ev = Some c -> h12 s p ev ->
  roomt t B G (pendt t (o_sp o) + callt t c') -> exec o c' = Ok (o', r) ->
  exists G', glp p G G' /\ SysInv cc G' (mkSys (upd1 (nodes s) p (Some o')) (event_net s p ev)) /\ roomt t B G' (pendt t (o_sp o')).
Proof.
  intros HL HS Ho Hc Hh HR He. destruct (sim s p ev c c' HL Hc Hh) as (s2 & ev' & C2 & H2 & N2 & I2 & E2).
  destruct (do_inv_r cc Hv H0 t B G s2 p ev' o c' o' r (I2 G HS)) as (G' & L & S' & R'); auto; [congruence|]. exists G'. split; [exact L|]. split; [|exact R'].
  rewrite N2 in S'. apply (inv_ext G' _ (event_net s p ev) S'). intros a b. symmetry. apply E2.
Qed.
Lemma sim_crash t B G s p ev o c c' st sc o' : like c c' -> SysInv cc G s -> nodes s p = Some o -> event_call s p ev = Some c -> h12 s p ev ->
  roomt t B G (pendt t (o_sp o) + callt t c') -> In st (crash_points o c') -> sc_pid sc = p -> build cc sc st = BOk o' ->
  exists G', glp p G G' /\ SysInv cc G' (mkSys (upd1 (nodes s) p (Some o')) (event_net s p ev)) /\ roomt t B G' (pendt t (o_sp o')).
Proof.
  intros HL HS Ho Hc Hh HR Hin Hsc Hb. destruct (sim s p ev c c' HL Hc Hh) as (s2 & ev' & C2 & H2 & N2 & I2 & E2).
  destruct (crash_inv_r cc Hv H0 t B G s2 p ev' o c' st sc o' (I2 G HS)) as (G' & L & S' & R'); auto; [congruence|]. exists G'. split; [exact L|]. split; [|exact R'].
  rewrite N2 in S'. apply (inv_ext G' _ (event_net s p ev) S'). intros a b. symmetry. apply E2.
Qed.
End Repl.

(** ** Sequences of encodings *)
Section Caches.
Context {U : UniT}.
Local Existing Instance uentry.
Lemma enc_all_len vs : forall c i c' es, enc_all c i vs = Some (c', es) -> length es = length vs.
Proof.
  induction vs as [|v vs IH]; cbn; intros c i c' es H; [injection H as <- <-; reflexivity|]. destruct (u_encode c v) as [[c1 x]|]; [|discriminate].
  destruct (enc_all c1 (S i) vs) as [[c2 es2]|] eqn:He; [|discriminate]. injection H as <- <-. cbn. f_equal. eauto.
Qed.
(** The cache after the first [j]. *)
Fixpoint enc_st (c : UCache) (vs : list UA) (j : nat) : UCache :=
  match j, vs with
  | S j, v :: r => match u_encode c v with Some (c1, _) => enc_st c1 r j | None => c end
  | _, _ => c
  end.
Lemma enc_st_last vs : forall c i c' es, enc_all c i vs = Some (c', es) -> enc_st c vs (length es) = c'.
Proof.
  induction vs as [|v vs IH]; cbn [enc_all]; intros c i c' es H; [injection H as <- <-; reflexivity|]. destruct (u_encode c v) as [[c1 x]|] eqn:Hc; [|discriminate].
  destruct (enc_all c1 (S i) vs) as [[c2 es2]|] eqn:He; [|discriminate]. injection H as <- <-. cbn. rewrite Hc. eauto.
Qed.
Lemma enc_st_0 c vs : enc_st c vs 0 = c.
Proof. destruct vs; reflexivity. Qed.
Lemma enc_nth vs : forall c i c' es j e, enc_all c i vs = Some (c', es) -> nth_error es j = Some e ->
  exists v x, e = (v, Some (x, i + j)) /\ u_encode (enc_st c vs j) v = Some (enc_st c vs (S j), x).
Proof.
  induction vs as [|v vs IH]; cbn [enc_all]; intros c i c' es j e H He; [injection H as <- <-; destruct j; discriminate|].
  destruct (u_encode c v) as [[c1 x]|] eqn:Hc; [|discriminate]. destruct (enc_all c1 (S i) vs) as [[c2 es2]|] eqn:Hr; [|discriminate]. injection H as <- <-.
  destruct j as [|j]; cbn in He.
  - injection He as <-. exists v, x. cbn. rewrite Hc, Nat.add_0_r, enc_st_0. auto.
  - destruct (IH c1 (S i) c2 es2 j e Hr He) as (v' & x' & -> & E'). exists v', x'. split; [rewrite Nat.add_succ_r; reflexivity|]. cbn [enc_st]. rewrite Hc. exact E'.
Qed.
Lemma enc_total (fine : UCache -> Prop) (L3 : forall c v, fine c -> exists c' x, u_encode c v = Some (c', x) /\ fine c') vs :
  forall c i, fine c -> exists c' es, enc_all c i vs = Some (c', es).
Proof.
  induction vs as [|v vs IH]; cbn; intros c i H; eauto. destruct (L3 c v H) as (c1 & x & -> & H1). destruct (IH c1 (S i) H1) as (c2 & es & ->). eauto.
Qed.

(** Unencoded entries, and the entry with number [i]. *)
Definition Un (e : T) : Prop := snd e = None.
Definition stamp (i : nat) (e : T) : bool := match snd e with Some (_, j) => j =? i | None => false end.
Lemma cft_un i es : Forall Un es -> cft (stamp i) es = 0.
Proof. unfold cft. induction 1 as [|e es H1 H2 IH]; cbn; auto. unfold stamp at 1. rewrite H1. exact IH. Qed.
Lemma cft_enc vs : forall c i c' es k, enc_all c i vs = Some (c', es) ->
  cft (stamp k) es = if (i <=? k) && (k <? i + length es) then 1 else 0.
Proof.
  unfold cft. induction vs as [|v vs IH]; cbn [enc_all]; intros c i c' es k H.
  - injection H as <- <-. cbn [filter length]. destruct (Nat.leb_spec i k), (Nat.ltb_spec k (i + 0)); cbn; auto; lia.
  - destruct (u_encode c v) as [[c1 x]|]; [|discriminate]. destruct (enc_all c1 (S i) vs) as [[c2 es2]|] eqn:Hr; [|discriminate]. injection H as <- <-.
    specialize (IH c1 (S i) c2 es2 k Hr). cbn [filter length stamp snd]. destruct (Nat.eqb_spec i k) as [->|Hk]; cbn [length]; rewrite IH.
    + destruct (Nat.leb_spec (S k) k), (Nat.leb_spec k k), (Nat.ltb_spec k (k + S (length es2))); cbn [andb]; lia.
    + destruct (Nat.leb_spec (S i) k), (Nat.leb_spec i k), (Nat.ltb_spec k (S i + length es2)), (Nat.ltb_spec k (i + S (length es2))); cbn [andb]; lia.
Qed.
Lemma un_bare es : Forall Un (map bare es).
Proof. rewrite Forall_forall. intros e He. apply in_map_iff in He. destruct He as (x & <- & _). reflexivity. Qed.
(** An entry that occurs at most once. *)
Lemma filter_once {A} (t : A -> bool) l : forall a b x y, nth_error l a = Some x -> nth_error l b = Some y -> t x = true -> t y = true -> length (filter t l) <= 1 -> a = b.
Proof.
  assert (Hpos : forall (l : list A) b y, nth_error l b = Some y -> t y = true -> 1 <= length (filter t l)).
  { induction l0 as [|z l0 IH]; intros [|b0] y0; cbn; try discriminate; intros H Ht.
    - injection H as ->. rewrite Ht. cbn. lia.
    - specialize (IH b0 y0 H Ht). destruct (t z); cbn; lia. }
  induction l as [|z l IH]; intros [|a] [|b] x y; cbn; try discriminate; auto; intros Ha Hb Hx Hy Hc.
  - injection Ha as ->. rewrite Hx in Hc. cbn in Hc. specialize (Hpos l b y Hb Hy). lia.
  - injection Hb as ->. rewrite Hy in Hc. cbn in Hc. specialize (Hpos l a x Ha Hx). lia.
  - f_equal. apply (IH a b x y); auto. destruct (t z); cbn in Hc; lia.
Qed.
Lemma cft_once t (l : list T) a b x y : nth_error l a = Some x -> nth_error l b = Some y -> t x = true -> t y = true -> cft t l <= 1 -> a = b.
Proof. apply filter_once. Qed.

(** ** The invariant *)
Context (cc : cluster_config) (Hv : cluster_validate cc = true) (H0 : ~ In 0 (nds cc)).
Context (R : UCache -> UCache -> Prop) (fine : UCache -> Prop).
Context (L1 : forall c w v c' x, R c w -> u_encode c v = Some (c', x) -> exists w', u_decode w x = Some (w', v) /\ R c' w').
Context (L2 : forall c, fine c -> exists w, u_send c = Some w /\ R c w).
Context (L3 : forall c v, fine c -> exists c' x, u_encode c v = Some (c', x) /\ fine c').
Implicit Types (V : ballot -> nat -> option UCache) (Cm : ballot -> nat -> T -> Prop) (G : ghost).

Definition synok (tb : ballot -> node_id -> seqnum -> option UCache) V (m : pmessage) : Prop :=
  match pm_msg m with
  | MAcceptSync n sq _ sy => exists w, tb n (pm_to m) sq = Some w /\
      (sy_ss sy = None -> exists c, V n (sy_idx sy + length (sy_suffix sy)) = Some c /\ R c w)
  | _ => True
  end.
Definition gcl V Cm G : Prop :=
  (forall n k c, V n k = Some c -> exists l, gM G n = Some l /\ k <= len l) /\
  (forall n k e, Cm n k e -> exists l, gM G n = Some l /\ at_ l k = Some (Ent e)).
Definition sent Cm (n : ballot) (e : T) : Prop := exists k, Cm n k e.
Definition cmok V Cm (nx : nat) : Prop := forall n k e, Cm n k e ->
  exists c c' v x i, V n k = Some c /\ V n (S k) = Some c' /\ e = (v, Some (x, i)) /\ u_encode c v = Some (c', x) /\ i < nx.
Definition instep V (cache : UCache) (x : sp) : Prop :=
  s_role x = Follower -> s_phase x = PhAccept -> i_ss (s_is x) = None ->
  exists c, V (i_prom (s_is x)) (cnt (i_st (s_is x))) = Some c /\ R c cache.
Record UInv (u : usys) V Cm : Prop := {
  v_cm : cmok V Cm (u_next u);
  v_G : forall i, exists G, SysInv cc G (u_s u) /\ roomt (stamp i) (upto (if i <? u_next u then 1 else 0)) G 0 /\ gcl V Cm G;
  v_node : forall p o, nodes (u_s u) p = Some o ->
    K Un (sent Cm) [] (synok (u_t u) V) (fun n k => V n k = Some (u_c u p)) (fun _ _ => True) (o_sp o) /\ instep V (u_c u p) (o_sp o);
  v_net : forall a b m, In (MsgSP m) (net (u_s u) a b) -> pm_to m = b /\ okm Un (sent Cm) (synok (u_t u) V) m
}.
Lemma gcl_gle V Cm G G' : gle G G' -> gcl V Cm G -> gcl V Cm G'.
Proof.
  intros L [A B]. split.
  - intros n k c H. destruct (A n k c H) as (l & Hl & Hk). destruct (le_M _ _ L _ _ Hl) as (l' & Hl' & X). exists l'. split; auto. pose proof (lle_len _ _ X). lia.
  - intros n k e H. destruct (B n k e H) as (l & Hl & Hk). destruct (le_M _ _ L _ _ Hl) as (l' & Hl' & X). exists l'. split; auto. eapply lle_at; eauto.
Qed.
(** The pending entries of a server carry no numbers. *)
Lemma pend_un Q O0 Sy WL WF i x : K Un Q O0 Sy WL WF x -> pendt (stamp i) x = 0.
Proof.
  intros [_ H2 H3 [H4 _] _ _]. unfold pendt. rewrite (cft_un i _ H3), H2. replace (list_sum _) with 0; [destruct (s_role x); reflexivity|].
  induction H4 as [|m l Hm Hl IH]; [reflexivity|]. cbn [map].
  match goal with |- 0 = list_sum (?x :: ?y) => change (list_sum (x :: y)) with (x + list_sum y) end. rewrite <- IH. unfold okm in Hm. unfold pendmt. destruct (pm_msg m); auto. rewrite (cft_un i _ Hm). reflexivity.
Qed.
(** The entries of a log of a ballot are where the history says. *)
Lemma at_pos u V Cm n k e l G i v x : UInv u V Cm -> Cm n k e -> e = (v, Some (x, i)) -> roomt (stamp i) (upto (if i <? u_next u then 1 else 0)) G 0 -> gcl V Cm G ->
  gM G n = Some l -> forall j, at_ l j = Some (Ent e) -> j = k.
Proof.
  intros HU Hc -> HR [_ HC] Hl j Hj. destruct (HC n k _ Hc) as (l' & Hl' & Hk). rewrite Hl in Hl'. injection Hl' as <-.
  specialize (HR n l Hl). rewrite upto_le in HR. unfold at_ in Hj, Hk. destruct (nth_error (ll_es l) j) eqn:Ej; [|destruct (ll_ss l); discriminate]. destruct (nth_error (ll_es l) k) eqn:Ek; [|destruct (ll_ss l); discriminate].
  injection Hj as ->. injection Hk as ->. eapply (cft_once (stamp i)); [exact Ej|exact Ek| | |]; [unfold stamp; cbn; apply Nat.eqb_refl|unfold stamp; cbn; apply Nat.eqb_refl|]. destruct (i <? u_next u); lia.
Qed.
(** Decoding entries that were encoded from a cache in step. *)
Lemma dec_sent V Cm nx n : cmok V Cm nx -> forall es k0 c w, (forall j e, nth_error es j = Some e -> Cm n (k0 + j) e) -> V n k0 = Some c -> R c w ->
  exists w' c', dec_all w es = Some (w', es) /\ V n (k0 + length es) = Some c' /\ R c' w'.
Proof.
  intros HC. induction es as [|e es IH]; intros k0 c w He Hk HR.
  - exists w, c. cbn. rewrite Nat.add_0_r. auto.
  - pose proof (He 0 e eq_refl) as H. rewrite Nat.add_0_r in H. destruct (HC _ _ _ H) as (c1 & c2 & v & x & i & V1 & V2 & -> & Eq & _).
    rewrite Hk in V1. injection V1 as <-. destruct (L1 c w v c2 x HR Eq) as (w1 & D1 & R1).
    destruct (IH (S k0) c2 w1) as (w' & c' & D2 & V3 & R3); auto.
    { intros j e Hj. specialize (He (S j) e Hj). rewrite Nat.add_succ_r in He. exact He. }
    exists w', c'. cbn [dec_all]. rewrite D1, D2. split; [reflexivity|]. cbn [length]. rewrite Nat.add_succ_r. auto.
Qed.

(** ** Messages that a follower takes *)
Lemma taken_prom G s p o src m n sq x : SysInv cc G s -> nodes s p = Some o -> In (MsgSP m) (net s src p) -> numb (pm_msg m) = Some (n, sq) ->
  bcmp (i_prom (s_is (o_sp o))) n = Eq -> x = n -> i_prom (s_is (o_sp o)) = x /\ b_pid x = src /\ src <> p /\ gM G x <> None /\ posok G src p (pm_msg m).
Proof.
  intros HS Ho Hm Hn Hb ->. destruct (net_ok cc G s src p m HS Hm) as (M1 & M2 & M3).
  assert (Hpid : b_pid n = src) by (destruct M1 as [_ M1]; destruct (pm_msg m); cbn in Hn; try discriminate; injection Hn as <- _; apply M1).
  destruct (M2 n sq Hpid Hn) as (P1 & _). assert (Hosp : osp s p = Some (o_sp o)) by (unfold osp; rewrite Ho; reflexivity).
  assert (HP : i_prom (s_is (o_sp o)) = gP G p) by (pose proof (y_N _ _ _ HS p _ Hosp) as HN; unfold i_prom; rewrite (co_prom _ _ (n_coh _ _ _ _ HN)); apply (st_prom _ _ _ _ (n_st _ _ _ _ HN))).
  split; [|auto]. pose proof (bcmp_spec (i_prom (s_is (o_sp o))) n) as B. rewrite Hb in B. apply (wfb_eq cc); auto.
  - rewrite HP. apply (g_wP _ _ (y_G _ _ _ HS)).
  - apply (g_wM _ _ (y_G _ _ _ HS)). exact P1.
Qed.
Lemma takes_inv x n sq : takes_accdec x n sq = true -> bcmp (i_prom (s_is x)) n = Eq /\ s_role x = Follower /\ s_phase x = PhAccept /\ spred sq = s_cseq x /\ sq_ctr sq = sq_ctr (s_cseq x) + 1.
Proof.
  unfold takes_accdec. destruct (bcmp _ _); try discriminate. destruct (check_msg_status _ _) eqn:Hc; try discriminate. intros H. apply andb_true_iff in H. destruct H as [H1 H2].
  split; [reflexivity|]. split; [destruct (s_role x); (reflexivity || discriminate)|]. split; [destruct (s_phase x); (reflexivity || discriminate)|]. revert Hc. unfold check_msg_status. destruct (_ && _) eqn:Hx; [|destruct (seq_le _ _); discriminate].
  intros _. apply andb_true_iff in Hx. destruct Hx as [X1 X2]. apply Nat.eqb_eq in X1, X2. split; [|exact X2]. unfold spred. destruct (s_cseq x), sq. cbn in *. f_equal; lia.
Qed.
(** A follower that had accepted a stop sign has one while it follows the same ballot. *)
Lemma ss_kept G G' s p o o' n' : SysInv cc G s -> SysInv cc G' (mkSys (upd1 (nodes s) p (Some o')) n') -> gle G G' -> nodes s p = Some o ->
  s_role (o_sp o) = Follower -> s_phase (o_sp o) = PhAccept -> s_role (o_sp o') = Follower -> s_phase (o_sp o') = PhAccept ->
  i_prom (s_is (o_sp o')) = i_prom (s_is (o_sp o)) -> i_ss (s_is (o_sp o')) = None -> i_ss (s_is (o_sp o)) = None.
Proof.
  intros HS HS' L Ho R1 P1 R2 P2 Hp Hs.
  assert (A1 : osp s p = Some (o_sp o)) by (unfold osp; rewrite Ho; reflexivity).
  assert (A2 : osp (mkSys (upd1 (nodes s) p (Some o')) n') p = Some (o_sp o')) by (rewrite osp_upd, Nat.eqb_refl; reflexivity).
  pose proof (y_N _ _ _ HS p _ A1) as N1. pose proof (y_N _ _ _ HS' p _ A2) as N2.
  pose proof (n_role _ _ _ _ N1) as X1. pose proof (n_role _ _ _ _ N2) as X2. rewrite R1, P1 in X1. rewrite R2, P2 in X2. destruct X1 as [X1 _], X2 as [X2 _].
  destruct (st_arnd _ _ _ _ (n_st _ _ _ _ N1)) as (c1 & C1 & _). destruct (st_arnd _ _ _ _ (n_st _ _ _ _ N2)) as (c2 & C2 & _).
  assert (HP : gP G' p = gP G p).
  { rewrite <- (st_prom _ _ _ _ (n_st _ _ _ _ N1)), <- (st_prom _ _ _ _ (n_st _ _ _ _ N2)), <- (co_prom _ _ (n_coh _ _ _ _ N1)), <- (co_prom _ _ (n_coh _ _ _ _ N2)). exact Hp. }
  rewrite X2, HP in C2. rewrite X1 in C1. destruct (le_A _ _ L _ _ _ C1) as (a & A & Hle). rewrite C2 in A. injection A as <-.
  unfold i_ss in *. rewrite (co_ss _ _ (n_coh _ _ _ _ N1)). rewrite (co_ss _ _ (n_coh _ _ _ _ N2)) in Hs. rewrite Hs in Hle. destruct Hle as [X|[X _]]; [discriminate|].
  cbn in X. destruct (ms_ss (i_st (s_is (o_sp o)))); [discriminate|reflexivity].
Qed.
(** The position of a follower after a call. *)
Lemma fol_after G' s p o' n' : SysInv cc G' (mkSys (upd1 (nodes s) p (Some o')) n') -> s_role (o_sp o') = Follower -> s_phase (o_sp o') = PhAccept ->
  i_ss (s_is (o_sp o')) = None -> c_batch (i_ca (s_is (o_sp o'))) = [] -> cnt (i_st (s_is (o_sp o'))) = gN G' (i_prom (s_is (o_sp o'))) p (s_cseq (o_sp o')).
Proof.
  intros HS. apply (fol_cnt cc G' _ p o' HS). cbn [nodes]. unfold upd1. rewrite Nat.eqb_refl. reflexivity.
Qed.
Lemma taken_accdec u V Cm p o src m n sq d es : UInv u V Cm -> nodes (u_s u) p = Some o -> In (MsgSP m) (net (u_s u) src p) -> pm_msg m = MAcceptDecide n sq d es ->
  takes_accdec (o_sp o) n sq = true ->
  exists w, dec_all (u_c u p) es = Some (w, es) /\ (i_ss (s_is (o_sp o)) = None -> exists c, V n (cnt (i_st (s_is (o_sp o))) + length es) = Some c /\ R c w).
Proof.
  intros HU Ho Hm Hmm Ht. destruct (takes_inv _ _ _ Ht) as (B & Hr & Hp & S1 & S2). destruct (v_node _ _ _ HU p o Ho) as [HK HI].
  destruct (i_ss (s_is (o_sp o))) as [ss|] eqn:Hss.
  - exists (u_c u p). split; [|discriminate]. destruct es as [|e es]; [reflexivity|]. exfalso. destruct (v_G _ _ _ HU 0) as (G & HS & _ & _).
    destruct (taken_prom G _ p o src m n sq n HS Ho Hm) as (T1 & T2 & T3 & T4 & T5); auto; [rewrite Hmm; reflexivity|].
    destruct (T5 n sq T2) as (_ & P1 & P2); [rewrite Hmm; reflexivity|]. rewrite Hmm in P2. destruct P2 as (_ & P2 & _).
    pose proof (y_link _ _ _ HS src p T3) as [(_ & _ & _ & HL) _]. unfold oview, osp in HL. rewrite Ho in HL. specialize (HL _ eq_refl n T2 T1). destruct HL as [HL _]. specialize (HL Hp). destruct HL as (_ & _ & _ & HL).
    cbn [view rv_cseq rv_ss rv_cnt] in HL. rewrite Hss in HL. cbn [issome] in HL. destruct HL as [HL _]. rewrite S1 in P2. cbn [length] in P2. lia.
  - assert (Hpos : forall j e, nth_error es j = Some e -> Cm n (cnt (i_st (s_is (o_sp o))) + j) e).
    { intros j e He. destruct (v_net _ _ _ HU src p m Hm) as [_ Hok]. unfold okm in Hok. rewrite Hmm in Hok. rewrite Forall_forall in Hok. destruct (Hok e (nth_error_In _ _ He)) as [k Hk].
      destruct (v_cm _ _ _ HU n k e Hk) as (c & c' & v & x & i & _ & _ & Ee & _ & Hi). destruct (v_G _ _ _ HU i) as (G & HS & HR & HC).
      destruct (taken_prom G _ p o src m n sq n HS Ho Hm) as (T1 & T2 & T3 & T4 & T5); auto; [rewrite Hmm; reflexivity|].
      destruct (T5 n sq T2) as (_ & P1 & P2); [rewrite Hmm; reflexivity|]. rewrite Hmm in P2. destruct P2 as (_ & _ & P2).
      destruct (fol_cnt cc G _ p o HS Ho Hr Hp Hss (k_bat _ _ _ _ _ _ _ HK)) as (_ & _ & _ & F). rewrite T1 in F. destruct (gM G n) as [l|] eqn:Hl; [|congruence].
      specialize (P2 l eq_refl j e He). rewrite S1, <- F in P2. rewrite (at_pos u V Cm n k e l G i v x HU Hk Ee HR HC Hl _ P2). exact Hk. }
    destruct (HI Hr Hp Hss) as (c & Vc & Rc).
    assert (Hn : i_prom (s_is (o_sp o)) = n). { destruct (v_G _ _ _ HU 0) as (G & HS & _ & _). eapply (taken_prom G _ p o src m n sq n HS Ho Hm); auto. rewrite Hmm. reflexivity. }
    rewrite Hn in Vc. destruct (dec_sent V Cm _ n (v_cm _ _ _ HU) es _ c (u_c u p) Hpos Vc Rc) as (w & c' & D1 & D2 & D3). exists w. split; [exact D1|]. intros _. eauto.
Qed.

(** ** What the feature does before a call *)
Definition okhere (u : usys) (p : node_id) (o : omni) : Prop := s_role (o_sp o) = Leader -> fine (u_c u p).
Lemma lead_pid_ok G s p o : SysInv cc G s -> nodes s p = Some o -> encodes (o_sp o) = true ->
  s_role (o_sp o) = Leader /\ s_phase (o_sp o) = PhAccept /\ i_ss (s_is (o_sp o)) = None /\ (b_pid (i_prom (s_is (o_sp o))) =? s_pid (o_sp o)) = true.
Proof.
  intros HS Ho He. destruct (takes_props_on (o_sp o) He) as (T1 & T2 & T3). split; [exact T2|]. split; [exact T3|]. split; [exact T1|].
  assert (A1 : osp s p = Some (o_sp o)) by (unfold osp; rewrite Ho; reflexivity). pose proof (y_N _ _ _ HS p _ A1) as HN. pose proof (n_role _ _ _ _ HN) as X. rewrite T2, T3 in X.
  apply Nat.eqb_eq. rewrite (n_pid _ _ _ _ HN). unfold i_prom. rewrite (co_prom _ _ (n_coh _ _ _ _ HN)), (st_prom _ _ _ _ (n_st _ _ _ _ HN)), <- (la_n _ _ _ _ X). apply (la_pid _ _ _ _ X).
Qed.
(** The five ways in which a call is prepared. *)
Inductive prepared (u : usys) V (p : node_id) (o : omni) : call -> call -> UCache -> nat -> Prop :=
| p_append e e' cache : encodes (o_sp o) = true -> enc_all (u_c u p) (u_next u) [fst e] = Some (cache, [e']) ->
    prepared u V p o (CAppend e) (CAppend e') cache (u_next u + 1)
| p_bare e : encodes (o_sp o) = false -> prepared u V p o (CAppend e) (CAppend (bare e)) (u_c u p) (u_next u)
| p_forward f t es es' cache : encodes (o_sp o) = true -> enc_all (u_c u p) (u_next u) (map fst es) = Some (cache, es') ->
    prepared u V p o (CHandle (MsgSP (mkPM f t (MProposalForward es)))) (CHandle (MsgSP (mkPM f t (MProposalForward es')))) cache (u_next u + length es')
| p_bares f t es : encodes (o_sp o) = false ->
    prepared u V p o (CHandle (MsgSP (mkPM f t (MProposalForward es)))) (CHandle (MsgSP (mkPM f t (MProposalForward (map bare es))))) (u_c u p) (u_next u)
| p_accdec f t n sq d es w : takes_accdec (o_sp o) n sq = true -> dec_all (u_c u p) es = Some (w, es) ->
    (i_ss (s_is (o_sp o)) = None -> exists c, V n (cnt (i_st (s_is (o_sp o))) + length es) = Some c /\ R c w) ->
    prepared u V p o (CHandle (MsgSP (mkPM f t (MAcceptDecide n sq d es)))) (CHandle (MsgSP (mkPM f t (MAcceptDecide n sq d es)))) w (u_next u)
| p_accsync f t n sq d sy w : takes_accsync (o_sp o) n = true ->
    (sy_ss sy = None -> exists c, V n (sy_idx sy + length (sy_suffix sy)) = Some c /\ R c w) ->
    prepared u V p o (CHandle (MsgSP (mkPM f t (MAcceptSync n sq d sy)))) (CHandle (MsgSP (mkPM f t (MAcceptSync n sq d sy)))) w (u_next u)
| p_other c : (forall e, c <> CAppend e) -> (forall f t es, c <> CHandle (MsgSP (mkPM f t (MProposalForward es)))) ->
    (forall f t n sq d es, c = CHandle (MsgSP (mkPM f t (MAcceptDecide n sq d es))) -> takes_accdec (o_sp o) n sq = false) ->
    (forall f t n sq d sy, c = CHandle (MsgSP (mkPM f t (MAcceptSync n sq d sy))) -> takes_accsync (o_sp o) n = false) ->
    prepared u V p o c c (u_c u p) (u_next u).
Lemma prepares u V Cm p o ev c : UInv u V Cm -> nodes (u_s u) p = Some o -> event_call (u_s u) p ev = Some c -> okhere u p o ->
  exists c' cache nx, uprep u p o c = Some (c', cache, nx) /\ prepared u V p o c c' cache nx.
Proof.
  intros HU Ho Hc Hf. destruct (v_G _ _ _ HU 0) as (G & HS & _ & _).
  assert (Hen : encodes (o_sp o) = true -> forall vs, exists cache es, enc_all (u_c u p) (u_next u) vs = Some (cache, es)).
  { intros He vs. apply (enc_total fine L3). apply Hf. apply (lead_pid_ok G _ p o HS Ho He). }
  assert (Hnet : forall m, c = CHandle (MsgSP m) -> exists src, In (MsgSP m) (net (u_s u) src p)).
  { intros m ->. destruct ev as [c0|src k]; cbn in Hc; [destruct c0; discriminate|]. destruct (nth_error _ _) as [x|] eqn:Hk; [|discriminate]. cbn in Hc. injection Hc as ->. exists src. eapply nth_error_In; eauto. }
  destruct c as [e|cc0 meta| |i|i l|q| |q|[m|m]];
    try (do 3 eexists; split; [reflexivity|]; apply p_other; intros; discriminate).
  - unfold uprep. destruct (encodes (o_sp o)) eqn:He.
    + destruct (Hen eq_refl [fst e]) as (cache & es & Hx). rewrite Hx. pose proof (enc_all_len _ _ _ _ _ Hx) as Hl. destruct es as [|e' [|? ?]]; try discriminate.
      do 3 eexists. split; [reflexivity|]. rewrite <- Nat.add_1_r. apply p_append; auto.
    + do 3 eexists. split; [reflexivity|]. apply p_bare. exact He.
  - destruct (Hnet m eq_refl) as [src Hin]. destruct m as [f t pm]. cbn [uprep pm_msg pm_from pm_to].
    destruct pm as [n|n d na ac|pr|n sq d sy|n sq d es|n a|n|n sq d|es|cp|n sq ss|ss]; try (do 3 eexists; split; [reflexivity|]; apply p_other; intros; discriminate).
    + destruct (takes_accsync (o_sp o) n) eqn:Ht.
      * destruct (v_net _ _ _ HU src p _ Hin) as [Hto Hok]. cbn in Hto. subst t. unfold okm, synok in Hok. cbn [pm_msg pm_to] in Hok. destruct Hok as (w & -> & Hw).
        do 3 eexists. split; [reflexivity|]. apply p_accsync; auto.
      * do 3 eexists. split; [reflexivity|]. apply p_other; intros; try discriminate. congruence.
    + destruct (takes_accdec (o_sp o) n sq) eqn:Ht.
      * destruct (taken_accdec u V Cm p o src _ n sq d es HU Ho Hin eq_refl Ht) as (w & Hd & Hw). rewrite Hd. do 3 eexists. split; [reflexivity|]. apply p_accdec; auto.
      * do 3 eexists. split; [reflexivity|]. apply p_other; intros; try discriminate. congruence.
    + destruct (encodes (o_sp o)) eqn:He.
      * rewrite (proj2 (proj2 (proj2 (lead_pid_ok G _ p o HS Ho He)))). cbn [andb]. destruct (Hen eq_refl (map fst es)) as (cache & es' & Hx). rewrite Hx.
        do 3 eexists. split; [reflexivity|]. replace (length es) with (length es'). { apply p_forward; auto. } rewrite (enc_all_len _ _ _ _ _ Hx). apply map_length.
      * do 3 eexists. split; [reflexivity|]. apply p_bares. exact He.
Qed.
Lemma prepared_like u V p o c c' cache nx : prepared u V p o c c' cache nx -> like c c'.
Proof. destruct 1; constructor. Qed.
Lemma prepared_room u V Cm p o ev c c' cache nx : UInv u V Cm -> event_call (u_s u) p ev = Some c -> prepared u V p o c c' cache nx ->
  u_next u <= nx /\ forall i, callt (stamp i) c' + (if i <? u_next u then 1 else 0) <= (if i <? nx then 1 else 0).
Proof.
  intros HU Hc HP. destruct HP as [e e' cache He Hx|e He|f t es es' cache He Hx|f t es He|f t n sq d es w _ _ _|f t n sq d sy w _ _|c H1 H2 H3 H4]; cbn [callt pm_msg pendmt].
  - split; [lia|]. intros i. pose proof (cft_enc _ _ _ _ _ i Hx) as Y. cbn [length] in Y. rewrite Y.
    destruct (Nat.leb_spec (u_next u) i), (Nat.ltb_spec i (u_next u + 1)), (Nat.ltb_spec i (u_next u)); cbn [andb]; lia.
  - split; [lia|]. intros i. rewrite cft_un; [lia|]. constructor; constructor.
  - split; [lia|]. intros i. rewrite (cft_enc _ _ _ _ _ i Hx).
    destruct (Nat.leb_spec (u_next u) i), (Nat.ltb_spec i (u_next u + length es')), (Nat.ltb_spec i (u_next u)); cbn [andb]; lia.
  - split; [lia|]. intros i. rewrite cft_un; [lia|]. apply un_bare.
  - split; [lia|]. intros i. lia.
  - split; [lia|]. intros i. lia.
  - split; [lia|]. intros i. destruct c as [e| | | | | | | |[m|m]]; cbn [callt]; try lia; [exfalso; apply (H1 e); reflexivity|]. destruct m as [f t pm]. cbn [pm_msg]. destruct pm; cbn [pendmt]; try lia. exfalso. eapply H2. reflexivity.
Qed.

(** ** A call *)
Lemma K_mono (Un0 : T -> Prop) (Q Q' : ballot -> T -> Prop) O0 O0' (Sy Sy' : pmessage -> Prop) (WL WL' : ballot -> nat -> Prop) (WF WF' : ballot -> seqnum -> Prop) x :
  (forall n e, Q n e -> Q' n e) -> pre O0' (s_out x) -> (forall m, In m (s_out x) -> is_sync (pm_msg m) = true -> Sy m -> Sy' m) ->
  (s_phase x = PhAccept -> i_ss (s_is x) = None -> match s_role x with Leader => WL (l_n (s_ls x)) (i_acc (s_is x)) -> WL' (l_n (s_ls x)) (i_acc (s_is x)) | Follower => WF (i_prom (s_is x)) (s_cseq x) -> WF' (i_prom (s_is x)) (s_cseq x) end) ->
  K Un0 Q O0 Sy WL WF x -> K Un0 Q' O0' Sy' WL' WF' x.
Proof.
  intros HQ HP HS HW [H1 H2 H3 [H4 _] H5 H6]. constructor; auto.
  - split; [|exact HP]. rewrite Forall_forall in *. intros m Hm. specialize (H4 m Hm). specialize (HS m Hm). unfold okm in *. destruct (pm_msg m); auto. eapply Forall_impl; [|exact H4]. intros e. apply HQ.
  - intros Hp Hs. specialize (HW Hp Hs). specialize (H6 Hp Hs). destruct (s_role x); auto.
Qed.
(** A follower that has not moved. *)
Definition stay (x : sp) (b : ballot) (q : seqnum) : Prop :=
  s_role x = Follower /\ s_phase x = PhAccept /\ i_ss (s_is x) = None /\ b = i_prom (s_is x) /\ q = s_cseq x.
Lemma K_begin (Q Q' : ballot -> T -> Prop) O0 (Sy : pmessage -> Prop) (WL : ballot -> nat -> Prop) (WF : ballot -> seqnum -> Prop) x : (forall n e, Q n e -> Q' n e) -> K Un Q O0 Sy WL WF x ->
  K Un Q' (s_out x) (fun m => In m (s_out x)) WL (stay x) x.
Proof.
  intros HQ H. destruct H as [H1 H2 H3 [H4 _] H5 H6]. constructor; auto.
  - split; [|intros i m Hi _; exact Hi]. rewrite Forall_forall in *. intros m Hm. specialize (H4 m Hm). unfold okm in *. destruct (pm_msg m); auto. eapply Forall_impl; [|exact H4]. intros e. apply HQ.
  - intros Hp Hs. specialize (H6 Hp Hs). destruct (s_role x) eqn:Hr; auto. split; auto.
Qed.
Lemma has_sync_in l n b sq : has_sync l n b sq = true <-> exists m d sy, In m l /\ pm_to m = b /\ pm_msg m = MAcceptSync n sq d sy.
Proof.
  unfold has_sync. rewrite existsb_exists. split.
  - intros (m & Hm & Hx). exists m. destruct (pm_msg m) as [| | |n' sq' d sy| | | | | | | |]; try discriminate. apply andb_true_iff in Hx. destruct Hx as [Hx X3]. apply andb_true_iff in Hx. destruct Hx as [X1 X2].
    apply beq_spec in X1. apply Nat.eqb_eq in X2. unfold seq_eqb in X3. apply andb_true_iff in X3. destruct X3 as [X3 X4]. apply Nat.eqb_eq in X3, X4. exists d, sy. subst n'. destruct sq, sq'. cbn in *. subst. auto.
  - intros (m & d & sy & Hm & <- & Hx). exists m. split; [exact Hm|]. rewrite Hx. unfold seq_eqb. rewrite !Nat.eqb_refl, (proj2 (beq_spec n n) eq_refl). reflexivity.
Qed.

Section Assemble.
Context (u : usys) (V : ballot -> nat -> option UCache) (Cm : ballot -> nat -> T -> Prop) (HU : UInv u V Cm).
Context (p : node_id) (o o' : omni) (ev : event) (c c' : call) (cache : UCache) (nx : nat) (r : ret).
Context (Ho : nodes (u_s u) p = Some o) (Hc : event_call (u_s u) p ev = Some c) (Hh : h12 (u_s u) p ev) (He : exec o c' = Ok (o', r)).
Context (Hl : like c c') (Hnx : u_next u <= nx).
Context (Hroom : forall i, callt (stamp i) c' + (if i <? u_next u then 1 else 0) <= (if i <? nx then 1 else 0)).
Let s' := mkSys (upd1 (nodes (u_s u)) p (Some o')) (event_net (u_s u) p ev).
Let tb' := put_syncs u cache (s_out (o_sp o)) (s_out (o_sp o')).
Let u' := mkUSys s' (upd_cache (u_c u) p cache) tb' nx.
Definition newsync (m : pmessage) : Prop :=
  In m (s_out (o_sp o)) \/ (fine cache /\ s_role (o_sp o') = Leader /\ s_phase (o_sp o') = PhAccept /\ made (l_n (s_ls (o_sp o'))) (s_is (o_sp o')) m).
Context (V' : ballot -> nat -> option UCache) (Cm' : ballot -> nat -> T -> Prop).
Context (HV : forall n k w, V n k = Some w -> V' n k = Some w) (HCm : forall n k e, Cm n k e -> Cm' n k e) (Hcm : cmok V' Cm' nx).
Context (Hg : forall G G', SysInv cc G (u_s u) -> SysInv cc G' s' -> glp p G G' -> gcl V Cm G -> gcl V' Cm' G').
Context (HK : K Un (sent Cm') (s_out (o_sp o)) newsync (fun n k => V' n k = Some cache) (fun _ _ => True) (o_sp o')).
Context (HI : forall G G', SysInv cc G (u_s u) -> SysInv cc G' s' -> glp p G G' -> instep V' cache (o_sp o')).

Lemma step_G i : exists G G', SysInv cc G (u_s u) /\ SysInv cc G' s' /\ glp p G G' /\ gcl V Cm G /\ roomt (stamp i) (upto (if i <? nx then 1 else 0)) G' 0.
Proof.
  destruct (v_G _ _ _ HU i) as (G & HS & HR & HC). destruct (v_node _ _ _ HU p o Ho) as [Ko _].
  destruct (sim_do cc Hv H0 (stamp i) (upto (if i <? nx then 1 else 0)) G (u_s u) p ev o c c' o' r Hl HS Ho Hc Hh) as (G' & L & S' & R'); [|exact He|].
  - intros b l Hgl. specialize (HR b l Hgl). specialize (Hroom i). rewrite upto_le in *. rewrite (pend_un _ _ _ _ _ i _ Ko). lia.
  - exists G, G'. split; [exact HS|]. split; [exact S'|]. split; [exact L|]. split; [exact HC|]. eapply roomt_le; [|exact R']. lia.
Qed.
Lemma node' : nodes s' p = Some o'.
Proof. cbn. unfold upd1. rewrite Nat.eqb_refl. reflexivity. Qed.
Lemma tb_old n b sq : has_sync (s_out (o_sp o')) n b sq = false \/ has_sync (s_out (o_sp o)) n b sq = true -> tb' n b sq = u_t u n b sq.
Proof. intros H. unfold tb', put_syncs. destruct H as [-> | ->]; [reflexivity|]. rewrite andb_false_r. reflexivity. Qed.
(** The AcceptSyncs of other servers. *)
Lemma tb_other n b sq G' : SysInv cc G' s' -> b_pid n <> p -> tb' n b sq = u_t u n b sq.
Proof.
  intros HS Hn. apply tb_old. left. destruct (has_sync (s_out (o_sp o')) n b sq) eqn:Hx; [|reflexivity]. exfalso. apply has_sync_in in Hx. destruct Hx as (m & d & sy & Hm & _ & Hmm).
  destruct (out_ok cc G' s' p o' m HS node' Hm) as (_ & _ & [_ X] & _). rewrite Hmm in X. apply Hn, X.
Qed.
Lemma synok_up m : synok (u_t u) V m -> (forall n sq d sy, pm_msg m = MAcceptSync n sq d sy -> tb' n (pm_to m) sq = u_t u n (pm_to m) sq) -> synok tb' V' m.
Proof.
  unfold synok. destruct (pm_msg m) as [| | |n sq d sy| | | | | | | |]; auto. intros (w & Hw & HX) Ht. exists w. rewrite (Ht n sq d sy eq_refl). split; [exact Hw|]. intros Hs. destruct (HX Hs) as (x & X1 & X2). eauto.
Qed.
Lemma newsync_ok m : In m (s_out (o_sp o')) -> is_sync (pm_msg m) = true -> newsync m -> synok tb' V' m.
Proof.
  intros Hm Hs Hn. destruct (v_node _ _ _ HU p o Ho) as [Ko _].
  assert (Hold : In m (s_out (o_sp o)) -> synok tb' V' m).
  { intros Hi. apply synok_up.
    - pose proof (proj1 (k_out _ _ _ _ _ _ _ Ko)) as F. rewrite Forall_forall in F. specialize (F m Hi). unfold okm in F. destruct (pm_msg m); try discriminate. exact F.
    - intros n sq d sy Hmm. apply tb_old. right. apply has_sync_in. exists m, d, sy. auto. }
  destruct Hn as [Hi|(Hf & Hr & Hp & Hmade)]; [auto|]. destruct (pm_msg m) as [| | |n sq d sy| | | | | | | |] eqn:Hmm; try discriminate.
  destruct (step_G 0) as (G & G' & HS & HS' & L & _ & _).
  destruct (has_sync (s_out (o_sp o)) n (pm_to m) sq) eqn:Ho1.
  - apply Hold. apply has_sync_in in Ho1. destruct Ho1 as (m0 & d0 & sy0 & Hi0 & Ht0 & Hm0). apply In_nth_error in Hi0. destruct Hi0 as [i Hi0].
    pose proof (proj2 (k_out _ _ _ _ _ _ _ HK) i m0 Hi0) as Hi1. rewrite Hm0 in Hi1. specialize (Hi1 eq_refl). apply In_nth_error in Hm. destruct Hm as [j Hj].
    destruct (Nat.eq_dec i j) as [->|Hij]; [rewrite Hj in Hi1; injection Hi1 as ->; eapply nth_error_In; exact Hi0|]. exfalso.
    destruct (out_ok cc G' s' p o' m HS' node' (nth_error_In _ _ Hj)) as (N1 & _ & [_ N2] & _). rewrite Hmm in N2. destruct N2 as [N2 _].
    pose proof (y_link _ _ _ HS' p (pm_to m) (not_eq_sym N1)) as [(_ & HF & _) _]. unfold vlink, nouts, osp in HF. rewrite node' in HF. cbn [option_map] in HF. apply FOP_app in HF. destruct HF as (_ & HF & _).
    destruct (Nat.lt_total i j) as [Hlt|[|Hlt]]; [|congruence|].
    + eapply (pair_no G' p (pm_to m) n sq); [exact N2|exact Hm0|exact Hmm|]. eapply outs_pair; eauto.
    + eapply (pair_no G' p (pm_to m) n sq); [exact N2|exact Hmm|exact Hm0|]. eapply outs_pair; eauto.
  - destruct (L2 cache Hf) as (w & Hw & HR). unfold synok. rewrite Hmm. exists w. split.
    + unfold tb', put_syncs. rewrite Ho1. assert (Hx : has_sync (s_out (o_sp o')) n (pm_to m) sq = true) by (apply has_sync_in; exists m, d, sy; auto). rewrite Hx. exact Hw.
    + intros Hss. exists cache. split; [|exact HR]. unfold made in Hmade. rewrite Hmm in Hmade. destruct Hmade as (-> & M2 & M3). rewrite Hss in M2. symmetry in M2. specialize (M3 M2).
      pose proof (k_S _ _ _ _ _ _ _ HK Hp M2) as HW. rewrite Hr in HW.
      assert (A1 : osp s' p = Some (o_sp o')) by (unfold osp; rewrite node'; reflexivity). pose proof (y_N _ _ _ HS' p _ A1) as HN. pose proof (n_role _ _ _ _ HN) as X. rewrite Hr, Hp in X.
      destruct (out_ok cc G' s' p o' m HS' node' Hm) as (_ & _ & [_ N2] & N3). rewrite Hmm in N2, N3. destruct N2 as [N2 _]. destruct (N3 _ _ N2 eq_refl) as (_ & P1 & _ & P2). rewrite Hss in P2.
      destruct (la_M _ _ _ _ X) as (l & Hgl & _ & Hlen). unfold i_ss in M2. rewrite (co_ss _ _ (n_coh _ _ _ _ HN)) in M2. specialize (Hlen M2). unfold mlen in P1. rewrite Hgl in P1.
      pose proof (co_acc _ _ (n_coh _ _ _ _ HN)) as Ha. rewrite M2 in Ha. unfold i_acc in HW. rewrite Ha in HW. replace (sy_idx sy + length (sy_suffix sy)) with (cnt (i_st (s_is (o_sp o')))); [exact HW|]. lia.
Qed.
Lemma assemble : UInv u' V' Cm'.
Proof.
  destruct (step_G 0) as (G & G' & HS & HS' & L & _ & _). constructor.
  - exact Hcm.
  - intros i. destruct (step_G i) as (G1 & G1' & A1 & A2 & A3 & A4 & A5). exists G1'. split; [exact A2|]. split; [exact A5|]. exact (Hg G1 G1' A1 A2 A3 A4).
  - intros q oq. cbn [u' u_s s' nodes u_c u_t]. unfold upd1, upd_cache. destruct (Nat.eqb_spec q p) as [->|Hq].
    + intros X. injection X as <-. split; [|exact (HI G G' HS HS' L)]. refine (K_mono _ _ _ _ _ _ _ _ _ _ _ _ _ _ _ _ HK); auto.
      * intros i m Hi. destruct i; discriminate.
      * exact newsync_ok.
      * intros _ _. destruct (s_role (o_sp o')); auto.
    + intros Hoq. destruct (v_node _ _ _ HU q oq Hoq) as [Kq Iq]. split.
      * refine (K_mono _ _ _ _ _ _ _ _ _ _ _ _ _ _ _ _ Kq).
        -- intros n e [k Hk]. exists k. auto.
        -- intros i m Hi. destruct i; discriminate.
        -- intros m Hm _ Hx. apply synok_up; [exact Hx|]. intros n sq d sy Hmm. apply (tb_other n _ sq G' HS').
           destruct (out_ok cc G (u_s u) q oq m HS Hoq Hm) as (_ & _ & [_ X] & _). rewrite Hmm in X. destruct X as [-> _]. exact Hq.
        -- intros _ _. destruct (s_role (o_sp oq)); auto.
      * intros A B D. destruct (Iq A B D) as (x & X1 & X2). eauto.
  - intros a b m Hm. cbn [u' u_s s' net] in Hm. pose proof (sub_in _ _ _ (event_sub (u_s u) p ev a b) Hm) as Hm0. destruct (v_net _ _ _ HU a b m Hm0) as [Hto Hok]. split; [exact Hto|].
    unfold okm in *. destruct (pm_msg m) as [| | |n sq d sy|n sq d es| | | | | | |] eqn:Hmm; auto; [|eapply Forall_impl; [|exact Hok]; intros e [k Hk]; exists k; auto].
    apply synok_up; [exact Hok|]. intros n0 sq0 d0 sy0 X. rewrite Hmm in X. injection X as <- <- <- <-.
    destruct (net_ok cc G' s' a b m HS' Hm) as ([_ N1] & _ & Hab). rewrite Hmm in N1. destruct N1 as [N1 _].
    destruct (Nat.eq_dec a p) as [->|Ha]; [|apply (tb_other n _ sq G' HS'); congruence].
    apply tb_old. left. destruct (has_sync (s_out (o_sp o')) n (pm_to m) sq) eqn:Hx; [|reflexivity]. exfalso. apply has_sync_in in Hx. destruct Hx as (m1 & d1 & sy1 & Hm1 & Ht1 & Hmm1).
    pose proof (y_link _ _ _ HS' p b Hab) as [(_ & HF & _) _]. unfold vlink, nouts, osp in HF. rewrite node' in HF. cbn [option_map] in HF. apply FOP_app in HF. destruct HF as (_ & _ & HF).
    eapply (pair_no G' p b n sq); [exact N1|exact Hmm|exact Hmm1|]. apply HF.
    + unfold pmsgs. rewrite in_flat_map. exists (MsgSP m). split; [exact Hm|]. left. reflexivity.
    + unfold outs. apply in_map, filter_In. split; [exact Hm1|]. apply Nat.eqb_eq. congruence.
Qed.
End Assemble.

Section Step.
Context (u : usys) (V : ballot -> nat -> option UCache) (Cm : ballot -> nat -> T -> Prop) (HU : UInv u V Cm).
Context (p : node_id) (o o' : omni) (ev : event) (c c' : call) (cache : UCache) (nx : nat) (r : ret).
Context (Ho : nodes (u_s u) p = Some o) (Hc : event_call (u_s u) p ev = Some c) (Hh : h12 (u_s u) p ev) (He : exec o c' = Ok (o', r)).
Context (HP : prepared u V p o c c' cache nx) (Hf : okhere u p o).
Let s' := mkSys (upd1 (nodes (u_s u)) p (Some o')) (event_net (u_s u) p ev).
Let u' := mkUSys s' (upd_cache (u_c u) p cache) (put_syncs u cache (s_out (o_sp o)) (s_out (o_sp o'))) nx.

Lemma together V' Cm' : (forall n k w, V n k = Some w -> V' n k = Some w) -> (forall n k e, Cm n k e -> Cm' n k e) -> cmok V' Cm' nx ->
  (forall G G', SysInv cc G (u_s u) -> SysInv cc G' s' -> glp p G G' -> gcl V Cm G -> gcl V' Cm' G') ->
  K Un (sent Cm') (s_out (o_sp o)) (newsync o o' cache) (fun n k => V' n k = Some cache) (fun _ _ => True) (o_sp o') ->
  (forall G G', SysInv cc G (u_s u) -> SysInv cc G' s' -> glp p G G' -> instep V' cache (o_sp o')) -> UInv u' V' Cm'.
Proof.
  destruct (prepared_room u V Cm p o ev c c' cache nx HU Hc HP) as [Hnx Hroom].
  exact (assemble u V Cm HU p o o' ev c c' cache nx r Ho Hc Hh He (prepared_like _ _ _ _ _ _ _ _ HP) Hnx Hroom V' Cm').
Qed.
(** Calls that leave the history as it is. *)
Lemma together_same (Sy : pmessage -> Prop) (WF : ballot -> seqnum -> Prop) : (forall m, Sy m -> newsync o o' cache m) ->
  K Un (sent Cm) (s_out (o_sp o)) Sy (fun n k => V n k = Some cache) WF (o_sp o') ->
  (forall G G', SysInv cc G (u_s u) -> SysInv cc G' s' -> glp p G G' -> instep V cache (o_sp o')) -> UInv u' V Cm.
Proof.
  intros HS HK HI. destruct (prepared_room u V Cm p o ev c c' cache nx HU Hc HP) as [Hnx _]. apply together; auto.
  - intros n k e H. destruct (v_cm _ _ _ HU n k e H) as (a & b & v & x & i & A1 & A2 & A3 & A4 & A5). exists a, b, v, x, i. repeat (split; [assumption|]). lia.
  - intros G G' _ _ [L _] HC. eapply gcl_gle; eauto.
  - refine (K_weaken _ _ _ _ _ _ _ _ _ _ HS _ HK). intros A B. pose proof (k_S _ _ _ _ _ _ _ HK A B) as X. destruct (s_role (o_sp o')); auto.
Qed.
Lemma K0 Cm' : (forall n k e, Cm n k e -> Cm' n k e) ->
  K Un (sent Cm') (s_out (o_sp o)) (fun m => In m (s_out (o_sp o))) (fun n k => V n k = Some (u_c u p)) (stay (o_sp o)) (o_sp o).
Proof.
  intros H. destruct (v_node _ _ _ HU p o Ho) as [Ko _]. eapply K_begin; [|exact Ko]. intros n e [k Hk]. exists k. auto.
Qed.
Lemma K0s Cm' : (forall n k e, Cm n k e -> Cm' n k e) ->
  K Un (sent Cm') (s_out (o_sp o)) (fun m => In m (s_out (o_sp o))) (fun n k => V n k = Some (u_c u p)) (stay (o_sp o)) (o_sp (start_call o)).
Proof. intros H. exact (proj1 (K_start _ _ _ _ _ _ o) (K0 Cm' H)). Qed.
(** The position of a follower, from its number. *)
Lemma moved G G' Q (Sy : pmessage -> Prop) (WL : ballot -> nat -> Prop) (WF : ballot -> seqnum -> Prop) : SysInv cc G (u_s u) -> SysInv cc G' s' -> glp p G G' -> K Un Q (s_out (o_sp o)) Sy WL WF (o_sp o') ->
  s_role (o_sp o') = Follower -> s_phase (o_sp o') = PhAccept -> i_ss (s_is (o_sp o')) = None ->
  WF (i_prom (s_is (o_sp o'))) (s_cseq (o_sp o')) /\ cnt (i_st (s_is (o_sp o'))) = gN G (i_prom (s_is (o_sp o'))) p (s_cseq (o_sp o')).
Proof.
  intros HS HS' [_ L] HK Hr Hp Hs. pose proof (k_S _ _ _ _ _ _ _ HK Hp Hs) as X. rewrite Hr in X. split; [exact X|].
  destruct (fol_cnt cc G' s' p o' HS') as (F1 & _ & _ & F2); auto; [apply node'|apply HK|]. rewrite F2. rewrite (fr_N _ _ _ L _ F1). reflexivity.
Qed.
Lemma stay_instep G G' Q (Sy : pmessage -> Prop) (WL : ballot -> nat -> Prop) : SysInv cc G (u_s u) -> SysInv cc G' s' -> glp p G G' -> K Un Q (s_out (o_sp o)) Sy WL (stay (o_sp o)) (o_sp o') ->
  instep V (u_c u p) (o_sp o').
Proof.
  intros HS HS' L HK Hr Hp Hs. destruct (moved G G' _ _ _ _ HS HS' L HK Hr Hp Hs) as [(X1 & X2 & X3 & X4 & X5) X6]. destruct (v_node _ _ _ HU p o Ho) as [Ko Io].
  destruct (fol_cnt cc G (u_s u) p o HS Ho X1 X2 X3 (k_bat _ _ _ _ _ _ _ Ko)) as (_ & _ & _ & F). rewrite X4, X5 in X6. rewrite X6, X4, <- F. exact (Io X1 X2 X3).
Qed.
(** A follower that takes a numbered message of its ballot. *)
Lemma taken_instep G G' Q (Sy : pmessage -> Prop) (WL : ballot -> nat -> Prop) n sq k w : SysInv cc G (u_s u) -> SysInv cc G' s' -> glp p G G' ->
  K Un Q (s_out (o_sp o)) Sy WL (fun b q => b = i_prom (s_is (o_sp o)) /\ q = sq) (o_sp o') -> takes_accdec (o_sp o) n sq = true -> i_prom (s_is (o_sp o)) = n ->
  gN G n p (spred sq) + k = gN G n p sq -> (i_ss (s_is (o_sp o)) = None -> exists x, V n (cnt (i_st (s_is (o_sp o))) + k) = Some x /\ R x w) -> instep V w (o_sp o').
Proof.
  intros HS HS' L HK Ht Hn Hk Hw Hr Hp Hs. destruct (moved G G' _ _ _ _ HS HS' L HK Hr Hp Hs) as [(X1 & X2) X3]. destruct (takes_inv _ _ _ Ht) as (_ & T1 & T2 & T3 & T4).
  pose proof (ss_kept G G' (u_s u) p o o' _ HS HS' (proj1 L) Ho T1 T2 Hr Hp X1 Hs) as Hs0. destruct (v_node _ _ _ HU p o Ho) as [Ko _].
  destruct (fol_cnt cc G (u_s u) p o HS Ho T1 T2 Hs0 (k_bat _ _ _ _ _ _ _ Ko)) as (_ & _ & _ & F). rewrite X3, X1, X2, Hn, <- Hk, T3. rewrite Hn in F. rewrite <- F. exact (Hw Hs0).
Qed.

(** The state of a leader in the accept phase without stop sign. *)
Lemma lead_len G s q oq : SysInv cc G s -> nodes s q = Some oq -> s_role (o_sp oq) = Leader -> s_phase (o_sp oq) = PhAccept -> i_ss (s_is (o_sp oq)) = None ->
  exists l, gM G (l_n (s_ls (o_sp oq))) = Some l /\ len l = i_acc (s_is (o_sp oq)) /\ cnt (i_st (s_is (o_sp oq))) = i_acc (s_is (o_sp oq)) /\ arnd (i_st (s_is (o_sp oq))) = l_n (s_ls (o_sp oq)).
Proof.
  intros HS Hq Hr Hp Hs. assert (A1 : osp s q = Some (o_sp oq)) by (unfold osp; rewrite Hq; reflexivity). pose proof (y_N _ _ _ HS q _ A1) as HN. pose proof (n_role _ _ _ _ HN) as X. rewrite Hr, Hp in X.
  destruct (la_M _ _ _ _ X) as (l & Hl & _ & Hlen). unfold i_ss in Hs. rewrite (co_ss _ _ (n_coh _ _ _ _ HN)) in Hs. specialize (Hlen Hs). pose proof (co_acc _ _ (n_coh _ _ _ _ HN)) as Ha. rewrite Hs in Ha.
  exists l. split; [exact Hl|]. unfold i_acc. rewrite Ha. split; [exact Hlen|]. split; [reflexivity|]. rewrite <- (la_arnd _ _ _ _ X). unfold i_around. rewrite (co_around _ _ (n_coh _ _ _ _ HN)). reflexivity.
Qed.
Lemma encode_step vs es' : encodes (o_sp o) = true -> enc_all (u_c u p) (u_next u) vs = Some (cache, es') -> nx = u_next u + length es' ->
  (forall Q' (WL' : ballot -> nat -> Prop), K Un Q' (s_out (o_sp o)) (fun m => In m (s_out (o_sp o))) (fun n k => V n k = Some (u_c u p)) (stay (o_sp o)) (o_sp (start_call o)) ->
     Forall (Q' (l_n (s_ls (o_sp o)))) es' -> WL' (l_n (s_ls (o_sp o))) (i_acc (s_is (o_sp o)) + length es') ->
     K Un Q' (s_out (o_sp o)) (fun m => In m (s_out (o_sp o))) WL' (stay (o_sp o)) (o_sp o') /\ appended (o_sp (start_call o)) (o_sp o') es') ->
  exists V' Cm', UInv u' V' Cm'.
Proof.
  intros Hen Hx Hn HKp. destruct (takes_props_on (o_sp o) Hen) as (T1 & T2 & T3). set (n0 := l_n (s_ls (o_sp o))) in *. set (acc := i_acc (s_is (o_sp o))) in *.
  destruct (v_node _ _ _ HU p o Ho) as [Ko _]. assert (Hacc : V n0 acc = Some (u_c u p)) by (pose proof (k_S _ _ _ _ _ _ _ Ko T3 T1) as X; rewrite T2 in X; exact X).
  set (V' := fun n k => if beq n n0 && ((acc <? k) && (k <=? acc + length es')) then Some (enc_st (u_c u p) vs (k - acc)) else V n k).
  set (Cm' := fun n k e => Cm n k e \/ (n = n0 /\ acc <= k /\ nth_error es' (k - acc) = Some e)).
  assert (HVn : forall j, j <= length es' -> V' n0 (acc + j) = Some (enc_st (u_c u p) vs j)).
  { intros j Hj. unfold V'. rewrite (proj2 (beq_spec n0 n0) eq_refl). destruct (Nat.ltb_spec acc (acc + j)) as [X|X]; cbn [andb].
    - destruct (Nat.leb_spec (acc + j) (acc + length es')) as [Y|Y]; [|lia]. f_equal. f_equal. lia.
    - assert (j = 0) by lia. subst j. rewrite Nat.add_0_r, enc_st_0. exact Hacc. }
  assert (HVo : forall n k w, V n k = Some w -> V' n k = Some w).
  { intros n k w Hw. unfold V'. destruct (beq n n0) eqn:Hb; [|exact Hw]. apply beq_spec in Hb. subst n. destruct (Nat.ltb_spec acc k) as [X|X]; [|exact Hw]. exfalso.
    destruct (v_G _ _ _ HU 0) as (G & HS & _ & [HC _]). destruct (HC n0 k w Hw) as (l & Hl & Hk). destruct (lead_len G _ p o HS Ho T2 T3 T1) as (l' & Hl' & Hlen & _). fold n0 in Hl'. rewrite Hl in Hl'. injection Hl' as <-. fold acc in Hlen. lia. }
  assert (HQ : Forall (sent Cm' n0) es').
  { rewrite Forall_forall. intros e Hi. apply In_nth_error in Hi. destruct Hi as [j Hj]. exists (acc + j). right. split; [reflexivity|]. split; [lia|]. replace (acc + j - acc) with j by lia. exact Hj. }
  destruct (HKp (sent Cm') (fun n k => V' n k = Some cache)) as [HK HA]; [apply K0s; left; assumption|exact HQ|rewrite (HVn _ (le_n _)); f_equal; eapply enc_st_last; exact Hx|].
  exists V', Cm'. destruct HA as (A1 & A2 & A3 & A4 & A5 & A6). change (l_n (s_ls (o_sp (start_call o)))) with n0 in A4. change (i_acc (s_is (o_sp (start_call o)))) with acc in A5. change (i_ss (s_is (o_sp (start_call o)))) with (i_ss (s_is (o_sp o))) in A6. rewrite T1 in A6.
  change (i_st (s_is (o_sp (start_call o)))) with (i_st (s_is (o_sp o))) in A1.
  apply together; auto.
  - left. assumption.
  - intros n k e [H|(-> & Hk & Hj)].
    + destruct (v_cm _ _ _ HU n k e H) as (a & b & v & x & i & B1 & B2 & B3 & B4 & B5). exists a, b, v, x, i. split; [auto|]. split; [auto|]. split; [auto|]. split; [auto|]. lia.
    + destruct (enc_nth _ _ _ _ _ _ _ Hx Hj) as (v & x & -> & E1). assert (Hlt : k - acc < length es') by (apply nth_error_Some; congruence).
      exists (enc_st (u_c u p) vs (k - acc)), (enc_st (u_c u p) vs (S (k - acc))), v, x, (u_next u + (k - acc)).
      split; [rewrite <- (HVn (k - acc)) by lia; f_equal; lia|]. split; [rewrite <- (HVn (S (k - acc))) by lia; f_equal; lia|]. split; [reflexivity|]. split; [exact E1|]. lia.
  - intros G G' HS HS' L HC. destruct (gcl_gle V Cm G G' (proj1 L) HC) as [C1 C2]. destruct (lead_len G' s' p o' HS' (node' _ _ _ _)) as (l & Hl & Hlen & Hcnt & Har); auto. rewrite A4, A5 in *.
    destruct (lead_len G (u_s u) p o HS Ho T2 T3 T1) as (l0 & _ & _ & Hcnt0 & _). fold acc in Hcnt0. split.
    + intros n k w. unfold V'. destruct (beq n n0) eqn:Hb; [|apply C1]. apply beq_spec in Hb. subst n. destruct (Nat.ltb_spec acc k) as [X|X]; [|apply C1]. destruct (Nat.leb_spec k (acc + length es')) as [Y|Y]; [|apply C1]. intros _. exists l. split; [exact Hl|]. lia.
    + intros n k e [H|(-> & Hk & Hj)]; [apply C2; exact H|]. exists l. split; [exact Hl|]. destruct A1 as [A1|[_ ->]]; [|destruct (k - acc); discriminate].
      assert (A0 : osp s' p = Some (o_sp o')) by (unfold osp, s'; cbn [nodes]; unfold upd1; rewrite Nat.eqb_refl; reflexivity). pose proof (n_st _ _ _ _ (y_N _ _ _ HS' p _ A0)) as HSt.
      rewrite <- Har in Hl. pose proof (st_log _ _ _ _ HSt l (length (ms_log (i_st (s_is (o_sp o)))) + (k - acc)) e Hl) as Y. pose proof (f_equal ms_log A1) as A1l. pose proof (f_equal ms_trim A1) as A1t. cbn [ms_append_entries ms_log ms_trim] in A1l, A1t. rewrite A1l, A1t in Y.
      unfold cnt in Hcnt0. replace k with (ms_trim (i_st (s_is (o_sp o))) + (length (ms_log (i_st (s_is (o_sp o)))) + (k - acc))) by lia. apply Y.
      rewrite nth_error_app2 by apply Nat.le_add_r. rewrite <- Hj. f_equal. lia.
  - refine (K_weaken _ _ _ _ _ _ _ _ _ _ _ _ HK); [intros m Hm; left; exact Hm|]. intros B1 B2. rewrite A2. pose proof (k_S _ _ _ _ _ _ _ HK B1 B2) as X. rewrite A2 in X. exact X.
  - intros G G' _ _ _ B1. congruence.
Qed.
(** The leader gets its majority: its cache starts the history of its ballot. *)
Lemma takeover_step : cache = u_c u p -> nx = u_next u ->
  s_role (o_sp o) = Leader -> s_phase (o_sp o) = PhPrepare -> s_role (o_sp o') = Leader -> s_phase (o_sp o') = PhAccept -> l_n (s_ls (o_sp o')) = l_n (s_ls (o_sp o)) ->
  (forall (WL' : ballot -> nat -> Prop) (WF' : ballot -> seqnum -> Prop), WL' (l_n (s_ls (o_sp o'))) (i_acc (s_is (o_sp o'))) ->
     K Un (sent Cm) (s_out (o_sp o)) (synced (fun m => In m (s_out (o_sp o))) (o_sp o')) WL' WF' (o_sp o')) ->
  exists V' Cm', UInv u' V' Cm'.
Proof.
  intros Hca Hn R1 P1 R2 P2 Hln HK. set (n0 := l_n (s_ls (o_sp o))) in *. set (acc := i_acc (s_is (o_sp o'))) in *.
  assert (Hfi : fine cache) by (rewrite Hca; apply Hf, R1).
  assert (HSy : forall m, synced (fun m => In m (s_out (o_sp o))) (o_sp o') m -> newsync o o' cache m).
  { intros m [H|(A & B & D)]; [left; exact H|right]. auto. }
  destruct (i_ss (s_is (o_sp o'))) as [ss|] eqn:Hss.
  - exists V, Cm. apply (together_same _ (fun _ _ => True) HSy); [|intros G G' _ _ _ B1; congruence].
    refine (K_weaken _ _ _ _ _ _ _ _ _ _ _ _ (HK (fun _ _ => True) (fun _ _ => True) I)); auto. intros _ B. congruence.
  - assert (HNo : forall G, SysInv cc G (u_s u) -> gM G n0 = None).
    { intros G HS. assert (A1 : osp (u_s u) p = Some (o_sp o)) by (unfold osp; rewrite Ho; reflexivity). pose proof (n_role _ _ _ _ (y_N _ _ _ HS p _ A1)) as X. rewrite R1, P1 in X. apply (lp_M _ _ _ _ X). }
    assert (HVn : forall k w, V n0 k = Some w -> False).
    { intros k w Hw. destruct (v_G _ _ _ HU 0) as (G & HS & _ & [HC _]). destruct (HC _ _ _ Hw) as (l & Hl & _). rewrite (HNo G HS) in Hl. discriminate. }
    set (V' := fun n k => if beq n n0 && (k =? acc) then Some cache else V n k).
    assert (HVo : forall n k w, V n k = Some w -> V' n k = Some w).
    { intros n k w Hw. unfold V'. destruct (beq n n0) eqn:Hb; [|exact Hw]. apply beq_spec in Hb. subst n. destruct (HVn k w Hw). }
    exists V', Cm. apply together; auto.
    + intros n k e H. destruct (v_cm _ _ _ HU n k e H) as (a & b & v & x & i & B1 & B2 & B3 & B4 & B5). exists a, b, v, x, i. rewrite Hn. auto 10.
    + intros G G' HS HS' L HC. destruct (gcl_gle V Cm G G' (proj1 L) HC) as [C1 C2]. split; [|exact C2]. intros n k w. unfold V'. destruct (beq n n0) eqn:Hb; [|apply C1]. destruct (Nat.eqb_spec k acc) as [->|]; [|apply C1]. intros _.
      apply beq_spec in Hb. subst n. destruct (lead_len G' s' p o' HS' (node' _ _ _ _)) as (l & Hl & Hlen & _); auto. rewrite Hln in Hl. exists l. split; [exact Hl|]. fold acc in Hlen. lia.
    + refine (K_weaken _ _ _ _ _ _ _ _ _ _ HSy _ (HK (fun n k => V' n k = Some cache) (fun _ _ => True) _)).
      * intros _ _. rewrite R2, Hln. unfold V'. fold acc. rewrite (proj2 (beq_spec n0 n0) eq_refl), Nat.eqb_refl. reflexivity.
      * rewrite Hln. unfold V'. fold acc. rewrite (proj2 (beq_spec n0 n0) eq_refl), Nat.eqb_refl. reflexivity.
    + intros G G' _ _ _ B1. congruence.
Qed.

(** A call after which a follower has what it had. *)
Lemma stay_step : cache = u_c u p -> K Un (sent Cm) (s_out (o_sp o)) (fun m => In m (s_out (o_sp o))) (fun n k => V n k = Some cache) (stay (o_sp o)) (o_sp o') -> UInv u' V Cm.
Proof.
  intros Hca HK. apply (together_same (fun m => In m (s_out (o_sp o))) (stay (o_sp o))); [intros m Hm; left; exact Hm|exact HK|]. intros G G' HS HS' L. pose proof (stay_instep G G' _ _ _ HS HS' L HK) as X. rewrite Hca. exact X.
Qed.
(** A numbered message of the follower's ballot is taken. *)
Lemma taken_step src m n sq k : In (MsgSP m) (net (u_s u) src p) -> numb (pm_msg m) = Some (n, sq) -> takes_accdec (o_sp o) n sq = true ->
  (forall G, SysInv cc G (u_s u) -> posok G src p (pm_msg m) -> b_pid n = src -> 2 <= sq_ctr sq -> gN G n p (spred sq) + k = gN G n p sq) ->
  (i_ss (s_is (o_sp o)) = None -> exists x, V n (cnt (i_st (s_is (o_sp o))) + k) = Some x /\ R x cache) ->
  K Un (sent Cm) (s_out (o_sp o)) (fun m => In m (s_out (o_sp o))) (fun n k => V n k = Some cache) (fun b q => b = i_prom (s_is (o_sp o)) /\ q = sq) (o_sp o') -> UInv u' V Cm.
Proof.
  intros Hm Hn Ht Hg Hw HK. apply (together_same (fun m => In m (s_out (o_sp o))) (fun b q => b = i_prom (s_is (o_sp o)) /\ q = sq)); [intros x Hx; left; exact Hx|exact HK|].
  intros G G' HS HS' L Hr' Hp' Hs'. destruct (takes_inv _ _ _ Ht) as (B & Hr & Hp & S1 & S2). destruct (taken_prom G _ p o src m n sq n HS Ho Hm Hn B eq_refl) as (T1 & T2 & T3 & T4 & T5).
  refine (taken_instep G G' _ _ _ n sq k cache HS HS' L HK Ht T1 _ Hw Hr' Hp' Hs'). apply Hg; auto.
  destruct (moved G G' _ _ _ _ HS HS' L HK Hr' Hp' Hs') as [(X1 & _) _]. pose proof (ss_kept G G' (u_s u) p o o' _ HS HS' (proj1 L) Ho Hr Hp Hr' Hp' X1 Hs') as Hs0. destruct (v_node _ _ _ HU p o Ho) as [Ko _].
  destruct (fol_cnt cc G (u_s u) p o HS Ho Hr Hp Hs0 (k_bat _ _ _ _ _ _ _ Ko)) as (_ & F & _). rewrite S2. lia.
Qed.
(** An AcceptSync is taken. *)
Lemma sync_step src m n sq d sy : In (MsgSP m) (net (u_s u) src p) -> pm_msg m = MAcceptSync n sq d sy -> takes_accsync (o_sp o) n = true ->
  (sy_ss sy = None -> exists x, V n (sy_idx sy + length (sy_suffix sy)) = Some x /\ R x cache) ->
  K Un (sent Cm) (s_out (o_sp o)) (fun m => In m (s_out (o_sp o))) (fun n k => V n k = Some cache) (fun b q => b = i_prom (s_is (o_sp o)) /\ q = sq /\ sy_ss sy = None) (o_sp o') -> UInv u' V Cm.
Proof.
  intros Hm Hn Ht Hw HK. apply (together_same (fun m => In m (s_out (o_sp o))) (fun b q => b = i_prom (s_is (o_sp o)) /\ q = sq /\ sy_ss sy = None)); [intros x Hx; left; exact Hx|exact HK|].
  intros G G' HS HS' L Hr' Hp' Hs'. destruct (moved G G' _ _ _ _ HS HS' L HK Hr' Hp' Hs') as [(X1 & X2 & X3) X4].
  assert (B : bcmp (i_prom (s_is (o_sp o))) n = Eq). { unfold takes_accsync in Ht. destruct (bcmp _ _); congruence. }
  destruct (taken_prom G _ p o src m n sq n HS Ho Hm) as (T1 & T2 & T3 & T4 & T5); auto; [rewrite Hn; reflexivity|].
  destruct (T5 n sq T2) as (_ & _ & P); [rewrite Hn; reflexivity|]. rewrite Hn in P. destruct P as [_ P]. rewrite X3 in P. rewrite X4, X1, X2, T1, P. exact (Hw X3).
Qed.
End Step.

Lemma handle_eq o m o' r : exec o (CHandle (MsgSP m)) = Ok (o', r) -> sp_handle (o_sp (start_call o)) m = Ok (o_sp o').
Proof. unfold exec. cbn [exec_call handle_incoming]. destruct (sp_handle _ _) as [x|]; cbn [bind]; [|discriminate]. intros H. injection H as <- _. reflexivity. Qed.
Lemma append_eq o e o' r : exec o (CAppend e) = Ok (o', r) -> exists x, sp_append (o_sp (start_call o)) e = Ok (o_sp o', x).
Proof. unfold exec. cbn [exec_call]. destruct (sp_append _ _) as [[x y]|]; cbn [bind]; [|discriminate]. intros H. injection H as <- _. eauto. Qed.
Lemma from_net s p ev m : event_call s p ev = Some (CHandle (MsgSP m)) -> exists src, In (MsgSP m) (net s src p).
Proof.
  destruct ev as [c0|src k]; cbn; [destruct c0; discriminate|]. destruct (nth_error _ _) as [x|] eqn:Hk; [|discriminate]. cbn. intros H. injection H as ->. exists src. eapply nth_error_In; eauto.
Qed.
Lemma hb_pid b st prom : e_pid b = b_pid (e_ballot b) -> b_pid (e_ballot (fst (hb_timeout b st prom))) = b_pid (e_ballot b).
Proof.
  intros H. unfold hb_timeout. cbn [fst]. set (b1 := new_hb_round (check_takeover (update_happiness (update_leader b) st))).
  assert (A : e_pid b1 = e_pid b /\ b_pid (e_ballot b1) = b_pid (e_ballot b)).
  { unfold b1, check_takeover, update_happiness, update_leader.
    destruct (max_ballot (map hr_ballot (e_replies b))) as [m|]; repeat match goal with |- context [if ?x then _ else _] => destruct x end; split; reflexivity. }
  destruct A as [A1 A2]. clearbody b1. destruct (bgt _ _); [|exact A2]. cbn. destruct (Nat.eqb_spec (b_pid prom) (e_pid b1)) as [X|X]; cbn; [|exact A2]. rewrite X, A1. exact H.
Qed.
Lemma do_ok u V Cm p o o' ev c c' cache nx r : UInv u V Cm -> nodes (u_s u) p = Some o -> event_call (u_s u) p ev = Some c -> h12 (u_s u) p ev -> exec o c' = Ok (o', r) ->
  prepared u V p o c c' cache nx -> okhere u p o ->
  exists V' Cm', UInv (mkUSys (mkSys (upd1 (nodes (u_s u)) p (Some o')) (event_net (u_s u) p ev)) (upd_cache (u_c u) p cache) (put_syncs u cache (s_out (o_sp o)) (s_out (o_sp o'))) nx) V' Cm'.
Proof.
  intros HU Ho Hc Hh He HP Hf. pose proof (K0s u V Cm HU p o Ho Cm (fun _ _ _ H => H)) as HK.
  inversion HP as [e e' cache0 Hen Hx|e Hen|f t es es' cache0 Hen Hx|f t es Hen|f t n sq d es w Ht Hd Hw|f t n sq d sy w Ht Hw|c0 N1 N2 N3 N4]; subst.
  - refine (encode_step u V Cm HU p o o' ev _ _ cache _ r Ho Hc Hh He HP [fst e] [e'] Hen Hx eq_refl _).
    intros Q' WL' K1 F1 W1. destruct (append_eq _ _ _ _ He) as [x Hx']. pose proof (propose_k Un Q' _ _ _ _ WL' (stay (o_sp o)) _ e' K1) as X. rewrite Hx' in X.
    destruct X as [X1 X2]; [intros _; inversion F1; auto|intros Y; exfalso; change (takes_props (o_sp (start_call o))) with (encodes (o_sp o)) in Y; congruence|]. split; [exact X1|apply X2, Hen].
  - exists V, Cm. refine (stay_step u V Cm HU p o o' ev _ _ _ _ r Ho Hc Hh He HP eq_refl _).
    destruct (append_eq _ _ _ _ He) as [x Hx']. pose proof (propose_k Un (sent Cm) _ _ _ _ (fun n k => V n k = Some (u_c u p)) (stay (o_sp o)) _ (bare e) HK) as X. rewrite Hx' in X.
    apply X; [intros Y; exfalso; change (takes_props (o_sp (start_call o))) with (encodes (o_sp o)) in Y; congruence|]. intros _. split; [reflexivity|]. auto.
  - refine (encode_step u V Cm HU p o o' ev _ _ cache _ r Ho Hc Hh He HP (map fst es) es' Hen Hx eq_refl _).
    intros Q' WL' K1 F1 W1. pose proof (handle_eq _ _ _ _ He) as Hx'. cbn [sp_handle pm_msg] in Hx'. pose proof (proposals_k Un Q' _ _ _ _ WL' (stay (o_sp o)) _ es' K1) as X.
    change (sp_handle (o_sp (start_call o)) (mkPM f t (MProposalForward es'))) with (handle_forwarded_proposal (o_sp (start_call o)) es') in Hx'. rewrite Hx' in X.
    destruct X as [X1 X2]; [intros _; auto|intros Y; exfalso; change (takes_props (o_sp (start_call o))) with (encodes (o_sp o)) in Y; congruence|]. split; [exact X1|apply X2, Hen].
  - exists V, Cm. refine (stay_step u V Cm HU p o o' ev _ _ _ _ r Ho Hc Hh He HP eq_refl _).
    pose proof (handle_eq _ _ _ _ He) as Hx'. pose proof (proposals_k Un (sent Cm) _ _ _ _ (fun n k => V n k = Some (u_c u p)) (stay (o_sp o)) _ (map bare es) HK) as X.
    change (sp_handle (o_sp (start_call o)) (mkPM f t (MProposalForward (map bare es)))) with (handle_forwarded_proposal (o_sp (start_call o)) (map bare es)) in Hx'. rewrite Hx' in X.
    apply X; [intros Y; exfalso; change (takes_props (o_sp (start_call o))) with (encodes (o_sp o)) in Y; congruence|]. intros _. split; [apply un_bare|]. auto.
  - exists V, Cm. destruct (from_net _ _ _ _ Hc) as [src Hin]. pose proof (handle_eq _ _ _ _ He) as Hx'.
    refine (taken_step u V Cm HU p o o' ev _ _ _ _ r Ho Hc Hh He HP src _ n sq (length es) Hin eq_refl Ht _ Hw _).
    + intros G HS Hpo Hb H2. destruct (Hpo n sq Hb eq_refl) as (_ & _ & P). cbn [pm_msg] in P. apply P.
    + change (sp_handle (o_sp (start_call o)) (mkPM f t (MAcceptDecide n sq d es))) with (handle_acceptdecide (o_sp (start_call o)) n sq d es) in Hx'.
      pose proof (acceptdecide_k Un (sent Cm) _ _ _ _ (fun n k => V n k = Some cache) (fun b q => b = i_prom (s_is (o_sp o)) /\ q = sq) _ n sq HK) as X. rewrite Hx' in X || (specialize (X (fun _ => conj eq_refl eq_refl))).
      specialize (X ltac:(intros Y; exfalso; change (takes (o_sp (start_call o)) n sq) with (takes_accdec (o_sp o) n sq) in Y; congruence) d es). rewrite Hx' in X. exact X.
  - exists V, Cm. destruct (from_net _ _ _ _ Hc) as [src Hin]. pose proof (handle_eq _ _ _ _ He) as Hx'.
    refine (sync_step u V Cm HU p o o' ev _ _ _ _ r Ho Hc Hh He HP src _ n sq d sy Hin eq_refl Ht Hw _).
    change (sp_handle (o_sp (start_call o)) (mkPM f t (MAcceptSync n sq d sy))) with (handle_acceptsync (o_sp (start_call o)) n sq d sy f) in Hx'.
    pose proof (acceptsync_k Un (sent Cm) _ _ _ _ (fun n k => V n k = Some cache) (fun b q => b = i_prom (s_is (o_sp o)) /\ q = sq /\ sy_ss sy = None) _ n sq d sy f HK (fun _ Y => conj eq_refl (conj eq_refl Y))) as X.
    specialize (X ltac:(intros Y; exfalso; change (takes_sync (o_sp (start_call o)) n) with (takes_accsync (o_sp o) n) in Y; congruence)). rewrite Hx' in X. exact X.
  - assert (Hst : K Un (sent Cm) (s_out (o_sp o)) (fun m => In m (s_out (o_sp o))) (fun n k => V n k = Some (u_c u p)) (stay (o_sp o)) (o_sp o') ->
      exists V' Cm', UInv (mkUSys (mkSys (upd1 (nodes (u_s u)) p (Some o')) (event_net (u_s u) p ev)) (upd_cache (u_c u) p (u_c u p)) (put_syncs u (u_c u p) (s_out (o_sp o)) (s_out (o_sp o'))) (u_next u)) V' Cm').
    { intros X. exists V, Cm. exact (stay_step u V Cm HU p o o' ev _ _ _ _ r Ho Hc Hh He HP eq_refl X). }
    assert (Hor : ordinary o c' -> exists V' Cm', UInv (mkUSys (mkSys (upd1 (nodes (u_s u)) p (Some o')) (event_net (u_s u) p ev)) (upd_cache (u_c u) p (u_c u p)) (put_syncs u (u_c u p) (s_out (o_sp o)) (s_out (o_sp o'))) (u_next u)) V' Cm').
    { intros X. apply Hst. refine (exec_k Un (sent Cm) _ _ _ _ o c' o' r _ X He). apply K_start. exact HK. }
    assert (Hb : e_pid (o_ble o) = p /\ b_pid (e_ballot (o_ble o)) = p /\ s_pid (o_sp o) = p).
    { destruct (v_G _ _ _ HU 0) as (G & HS & _ & _). destruct (y_ble _ _ _ HS p o Ho) as (B1 & B2 & _). assert (A1 : osp (u_s u) p = Some (o_sp o)) by (unfold osp; rewrite Ho; reflexivity).
      pose proof (n_pid _ _ _ _ (y_N _ _ _ HS p _ A1)). auto. }
    destruct Hb as (B1 & B2 & B3).
    destruct c' as [e|cc0 meta| |i|i l|q| |q|[m|m]]; try (apply Hor; exact I).
    + exfalso. apply (N1 e). reflexivity.
    + apply Hor. intros n Hn. rewrite (hb_timeout_ret _ _ _ _ Hn), B3. rewrite hb_pid; congruence.
    + apply Hor. cbn. congruence.
    + destruct m as [f t pm]. destruct (from_net _ _ _ _ Hc) as [src Hin]. pose proof (handle_eq _ _ _ _ He) as Hx'.
      assert (Hnt : forall n sq, takes_accdec (o_sp o) n sq = true -> i_ss (s_is (o_sp o)) = None -> i_prom (s_is (o_sp o)) = n -> exists x, V n (cnt (i_st (s_is (o_sp o))) + 0) = Some x /\ R x (u_c u p)).
      { intros n sq Ht Hs Hn. destruct (takes_inv _ _ _ Ht) as (B & Hr & Hp & S1 & S2). destruct (v_node _ _ _ HU p o Ho) as [_ Io]. rewrite Nat.add_0_r, <- Hn. exact (Io Hr Hp Hs). }
      assert (Hpn : forall n sq, numb pm = Some (n, sq) -> takes_accdec (o_sp o) n sq = true -> i_prom (s_is (o_sp o)) = n).
      { intros n sq Hn Ht. destruct (takes_inv _ _ _ Ht) as (B & _). destruct (v_G _ _ _ HU 0) as (G & HS & _ & _). exact (proj1 (taken_prom G _ p o src _ n sq n HS Ho Hin Hn B eq_refl)). }
      destruct pm as [n|n d na ac|pr|n sq d sy|n sq d es|n a|n|n sq d|es|cp|n sq ss|ss]; try (apply Hor; exact I).
      * (* Promise *)
        pose proof (promise_k Un (sent Cm) _ _ _ _ _ (mkPM f t (MPromise pr)) pr (o_sp o') eq_refl HK Hx') as X. destruct X as [X|(R1 & P1 & R2 & P2 & Hln & X)].
        -- destruct (s_role (o_sp o)) eqn:Hr.
           { apply Hst. revert Hx'. unfold sp_handle. cbn [pm_msg]. change (s_role (o_sp (start_call o))) with (s_role (o_sp o)). rewrite Hr. intros Y. injection Y as Y. rewrite <- Y. exact HK. }
           exists V, Cm. refine (together_same u V Cm HU p o o' ev _ _ _ _ r Ho Hc Hh He HP _ _ _ X _).
           ++ intros m [Hm|(A & B & D)]; [left; exact Hm|right]. split; [apply Hf, Hr|]. auto.
           ++ intros G G' HS HS' L Hr' Hp' Hs'. exact (stay_instep u V Cm HU p o o' ev Ho G G' _ _ _ HS HS' L X Hr' Hp' Hs').
        -- exact (takeover_step u V Cm HU p o o' ev _ _ _ _ r Ho Hc Hh He HP Hf eq_refl eq_refl R1 P1 R2 P2 Hln X).
      * apply Hst. change (sp_handle (o_sp (start_call o)) (mkPM f t (MAcceptSync n sq d sy))) with (handle_acceptsync (o_sp (start_call o)) n sq d sy f) in Hx'. specialize (N4 _ _ _ _ _ _ eq_refl).
        pose proof (acceptsync_k Un (sent Cm) _ _ _ _ (fun n k => V n k = Some (u_c u p)) (stay (o_sp o)) _ n sq d sy f HK) as X. rewrite Hx' in X. apply X; [intros Y; exfalso; change (takes_sync (o_sp (start_call o)) n) with (takes_accsync (o_sp o) n) in Y; congruence|auto].
      * apply Hst. change (sp_handle (o_sp (start_call o)) (mkPM f t (MAcceptDecide n sq d es))) with (handle_acceptdecide (o_sp (start_call o)) n sq d es) in Hx'. specialize (N3 _ _ _ _ _ _ eq_refl).
        pose proof (fun A B => acceptdecide_k Un (sent Cm) _ _ _ _ (fun n k => V n k = Some (u_c u p)) (stay (o_sp o)) _ n sq HK A B d es) as X. rewrite Hx' in X. apply X; [intros Y; exfalso; change (takes (o_sp (start_call o)) n sq) with (takes_accdec (o_sp o) n sq) in Y; congruence|auto].
      * change (sp_handle (o_sp (start_call o)) (mkPM f t (MDecide n sq d))) with (handle_decide (o_sp (start_call o)) n sq d) in Hx'. destruct (takes_accdec (o_sp o) n sq) eqn:Ht.
        -- exists V, Cm. refine (taken_step u V Cm HU p o o' ev _ _ _ _ r Ho Hc Hh He HP src _ n sq 0 Hin eq_refl Ht _ (fun Y => Hnt n sq Ht Y (Hpn n sq eq_refl Ht)) _).
           ++ intros G HS Hpo Hb H2. destruct (Hpo n sq Hb eq_refl) as (_ & _ & P). cbn [pm_msg] in P. lia.
           ++ pose proof (fun A B => decide_k Un (sent Cm) _ _ _ _ (fun n k => V n k = Some (u_c u p)) (fun b q => b = i_prom (s_is (o_sp o)) /\ q = sq) _ n sq HK A B d) as X. rewrite Hx' in X. apply X; [auto|]. intros Y; exfalso; change (takes (o_sp (start_call o)) n sq) with (takes_accdec (o_sp o) n sq) in Y; congruence.
        -- apply Hst. pose proof (fun A B => decide_k Un (sent Cm) _ _ _ _ (fun n k => V n k = Some (u_c u p)) (stay (o_sp o)) _ n sq HK A B d) as X. rewrite Hx' in X. apply X; [|auto]. intros Y; exfalso; change (takes (o_sp (start_call o)) n sq) with (takes_accdec (o_sp o) n sq) in Y; congruence.
      * exfalso. eapply N2. reflexivity.
      * change (sp_handle (o_sp (start_call o)) (mkPM f t (MAcceptStopSign n sq ss))) with (handle_accept_stopsign (o_sp (start_call o)) n sq ss) in Hx'. destruct (takes_accdec (o_sp o) n sq) eqn:Ht.
        -- exists V, Cm. refine (taken_step u V Cm HU p o o' ev _ _ _ _ r Ho Hc Hh He HP src _ n sq 0 Hin eq_refl Ht _ (fun Y => Hnt n sq Ht Y (Hpn n sq eq_refl Ht)) _).
           ++ intros G HS Hpo Hb H2. destruct (Hpo n sq Hb eq_refl) as (_ & _ & P). cbn [pm_msg] in P. destruct P as (_ & _ & P). lia.
           ++ pose proof (fun A B => stopsign_k Un (sent Cm) _ _ _ _ (fun n k => V n k = Some (u_c u p)) (fun b q => b = i_prom (s_is (o_sp o)) /\ q = sq) _ n sq HK A B ss) as X. rewrite Hx' in X. apply X; [auto|]. intros Y; exfalso; change (takes (o_sp (start_call o)) n sq) with (takes_accdec (o_sp o) n sq) in Y; congruence.
        -- apply Hst. pose proof (fun A B => stopsign_k Un (sent Cm) _ _ _ _ (fun n k => V n k = Some (u_c u p)) (stay (o_sp o)) _ n sq HK A B ss) as X. rewrite Hx' in X. apply X; [|auto]. intros Y; exfalso; change (takes (o_sp (start_call o)) n sq) with (takes_accdec (o_sp o) n sq) in Y; congruence.
Qed.

(** ** Restarts *)
Lemma built_k sc st o' Q (Sy : pmessage -> Prop) (WL : ballot -> nat -> Prop) (WF : ballot -> seqnum -> Prop) : build cc sc st = BOk o' -> sc_batch sc <= 1 ->
  K Un Q [] Sy WL WF (o_sp o') /\ s_phase (o_sp o') <> PhAccept /\ (forall m, In m (s_out (o_sp o')) -> is_sync (pm_msg m) = false).
Proof.
  unfold build. destruct (config_validate cc sc); [|discriminate]. unfold sp_with. destruct (peers_of cc (sc_pid sc)) as [|q0 pr]; [discriminate|]. intros Hb Hs.
  destruct (ms_prom st) as [b|]; injection Hb as <-; cbn [o_sp s_out s_phase].
  - split; [|split; [discriminate|]].
    + constructor; cbn [s_is s_bprops s_out s_role s_phase]; try discriminate; [exact Hs|reflexivity|constructor|].
      split; [|intros i m Hi; destruct i; discriminate]. rewrite Forall_forall. intros m [<-|Hm]; [exact I|]. apply in_map_iff in Hm. destruct Hm as (x & <- & _). exact I.
    + intros m [<-|Hm]; [reflexivity|]. apply in_map_iff in Hm. destruct Hm as (x & <- & _). reflexivity.
  - split; [|split; [discriminate|intros m []]].
    constructor; cbn [s_is s_bprops s_out s_role s_phase]; try discriminate; [exact Hs|reflexivity|constructor|]. split; [constructor|intros i m Hi; destruct i; discriminate].
Qed.
Lemma crash_ok u V Cm p o o' ev c c' cache nx st sc : UInv u V Cm -> nodes (u_s u) p = Some o -> event_call (u_s u) p ev = Some c -> h12 (u_s u) p ev ->
  prepared u V p o c c' cache nx -> In st (crash_points o c') -> sc_pid sc = p -> sc_batch sc <= 1 -> build cc sc st = BOk o' ->
  UInv (mkUSys (mkSys (upd1 (nodes (u_s u)) p (Some o')) (event_net (u_s u) p ev)) (upd_cache (u_c u) p u_new) (u_t u) nx) V Cm.
Proof.
  intros HU Ho Hc Hh HP Hin Hsc Hbs Hb. destruct (prepared_room u V Cm p o ev c c' cache nx HU Hc HP) as [Hnx Hroom]. constructor.
  - intros n k e H. destruct (v_cm _ _ _ HU n k e H) as (a & b & v & x & i & A1 & A2 & A3 & A4 & A5). exists a, b, v, x, i. cbn [u_next]. repeat (split; [assumption|]). lia.
  - intros i. destruct (v_G _ _ _ HU i) as (G & HS & HR & HC). destruct (v_node _ _ _ HU p o Ho) as [Ko _].
    destruct (sim_crash cc Hv H0 (stamp i) (upto (if i <? nx then 1 else 0)) G (u_s u) p ev o c c' st sc o' (prepared_like _ _ _ _ _ _ _ _ HP) HS Ho Hc Hh) as (G' & L & S' & R'); auto.
    + intros b l Hgl. specialize (HR b l Hgl). specialize (Hroom i). rewrite upto_le in *. rewrite (pend_un _ _ _ _ _ i _ Ko). lia.
    + exists G'. split; [exact S'|]. split; [eapply roomt_le; [|exact R']; lia|]. eapply gcl_gle; [apply L|exact HC].
  - intros q oq. cbn [u_s nodes u_c u_t]. unfold upd1, upd_cache. destruct (Nat.eqb_spec q p) as [->|Hq].
    + intros X. injection X as <-. destruct (built_k sc st o' (sent Cm) (synok (u_t u) V) (fun n k => V n k = Some u_new) (fun _ _ => True) Hb Hbs) as (A1 & A2 & _). split; [exact A1|]. intros _ B. congruence.
    + intros Hoq. exact (v_node _ _ _ HU q oq Hoq).
  - intros a b m Hm. cbn [u_s net] in Hm. exact (v_net _ _ _ HU a b m (sub_in _ _ _ (event_sub (u_s u) p ev a b) Hm)).
Qed.
(** ** The network *)
Lemma fetch_ok u V Cm p o : UInv u V Cm -> nodes (u_s u) p = Some o ->
  UInv (mkUSys (mkSys (upd1 (nodes (u_s u)) p (Some (fst (take_outgoing_messages o [])))) (send_all (net (u_s u)) p (snd (take_outgoing_messages o [])))) (u_c u) (u_t u) (u_next u)) V Cm.
Proof.
  intros HU Ho. destruct (v_node _ _ _ HU p o Ho) as [Ko Io]. constructor.
  - exact (v_cm _ _ _ HU).
  - intros i. destruct (v_G _ _ _ HU i) as (G & HS & HR & HC). exists G. split; [|auto]. cbn [u_s]. eapply fetch_inv; eauto.
  - intros q oq. cbn [u_s nodes u_c u_t]. unfold upd1. destruct (Nat.eqb_spec q p) as [->|Hq]; [|apply (v_node _ _ _ HU)]. intros X. injection X as <-.
    change (o_sp (fst (take_outgoing_messages o []))) with (fetched (o_sp o)). split; [|exact Io].
    destruct Ko as [K1 K2 K3 K4 K5 K6]. constructor; auto.
    + split; [constructor|intros i m Hi; destruct i; discriminate].
    + intros _ b i Hb. cbn [fetched set_lam set_ls s_ls reset_latest_accept_meta l_accmeta] in Hb. apply vget_repeat in Hb. discriminate.
  - intros a b m Hm. cbn [u_s net u_t] in Hm. rewrite send_all_net in Hm. destruct (Nat.eqb_spec a p) as [->|Ha]; [|exact (v_net _ _ _ HU a b m Hm)].
    apply in_app_or in Hm. destruct Hm as [Hm|Hm]; [exact (v_net _ _ _ HU p b m Hm)|]. apply filter_In in Hm. destruct Hm as [Hm Ht]. apply Nat.eqb_eq in Ht. cbn in Ht. split; [exact Ht|].
    destruct (k_out _ _ _ _ _ _ _ Ko) as [F _]. rewrite Forall_forall in F. apply F. unfold take_outgoing_messages in Hm. cbn in Hm. apply in_app_or in Hm.
    destruct Hm as [Hm|Hm]; apply in_map_iff in Hm; destruct Hm as (x & Hx & Hi); congruence.
Qed.
Lemma drop_ok u V Cm src dst k : UInv u V Cm -> UInv (mkUSys (mkSys (nodes (u_s u)) (upd2 (net (u_s u)) src dst (remove_nth (net (u_s u) src dst) k))) (u_c u) (u_t u) (u_next u)) V Cm.
Proof.
  intros HU. constructor.
  - exact (v_cm _ _ _ HU).
  - intros i. destruct (v_G _ _ _ HU i) as (G & HS & HR & HC). exists G. split; [|auto]. apply drop_inv, HS.
  - exact (v_node _ _ _ HU).
  - intros a b m. cbn [u_s net u_t]. unfold upd2. destruct ((a =? src) && (b =? dst)) eqn:E; [|apply (v_net _ _ _ HU)]. apply andb_prop in E. destruct E as [E1 E2]. apply Nat.eqb_eq in E1, E2. subst.
    intros Hm. exact (v_net _ _ _ HU src dst m (sub_in _ _ _ (sub_remove (net (u_s u) src dst) k) Hm)).
Qed.
(** ** Executions *)
Definition fits (u : usys) (a : action) : Prop :=
  h1h2 (u_s u) a /\ (match a with ACrash _ _ _ sc => sc_batch sc <= 1 | _ => True end) /\
  forall p o, nodes (u_s u) p = Some o -> s_role (o_sp o) = Leader -> fine (u_c u p).
Lemma ustep_ok u V Cm a u' : UInv u V Cm -> fits u a -> exec_uaction cc u a = Some u' -> exists V' Cm', UInv u' V' Cm'.
Proof.
  intros HU (Hh & Hbs & Hf) He. destruct a as [p ev|p|src dst k|p ev j sc]; cbn [exec_uaction] in He.
  - destruct (nodes (u_s u) p) as [o|] eqn:Ho; [|discriminate]. destruct (event_call (u_s u) p ev) as [c|] eqn:Hc; [|discriminate].
    destruct (prepares u V Cm p o ev c HU Ho Hc (Hf p o Ho)) as (c' & cache & nx & Hp & HP). rewrite Hp in He. destruct (exec o c') as [[o' r]|] eqn:Hx; [|discriminate].
    destruct (_ && _); [discriminate|]. injection He as <-. eapply do_ok; eauto. apply Dup.h12_of, Hh. exact (Hf p o Ho).
  - cbn [exec_action] in He. destruct (nodes (u_s u) p) as [o|] eqn:Ho; [|discriminate]. destruct (take_outgoing_messages o []) as [o' l] eqn:Ht. injection He as <-. exists V, Cm.
    pose proof (fetch_ok u V Cm p o HU Ho) as X. rewrite Ht in X. exact X.
  - cbn [exec_action] in He. injection He as <-. exists V, Cm. apply drop_ok, HU.
  - destruct (nodes (u_s u) p) as [o|] eqn:Ho; [|discriminate]. destruct (event_call (u_s u) p ev) as [c|] eqn:Hc; [|discriminate].
    destruct (prepares u V Cm p o ev c HU Ho Hc (Hf p o Ho)) as (c' & cache & nx & Hp & HP). rewrite Hp in He. destruct (nth_error _ j) as [st|] eqn:Hj; [|discriminate].
    destruct (Nat.eqb_spec (sc_pid sc) p) as [Hsc|]; [|discriminate]. destruct (build cc sc st) as [| |o'] eqn:Hb; try discriminate. injection He as <-. exists V, Cm.
    eapply crash_ok; eauto; [eapply Dup.h12_of_crash; eauto|eapply nth_error_In; eauto].
Qed.
Lemma init_ok scs : (forall p, sc_batch (scs p) <= 1) -> UInv (init_usys cc scs) (fun _ _ => None) (fun _ _ _ => False).
Proof.
  intros Hbs. constructor.
  - intros n k e [].
  - intros i. exists G00. split; [apply init_inv; auto|]. split; [|split; [discriminate|intros n k e []]]. intros b l Hl. unfold G00 in Hl. cbn [gM] in Hl. destruct (beq b bdef); [|discriminate]. injection Hl as <-. apply Nat.le_0_l.
  - intros p o. cbn. destruct (_ && _); [|discriminate]. destruct (build cc (scs p) ms_default) as [| |o'] eqn:Hb; try discriminate. intros X. injection X as <-.
    destruct (built_k (scs p) _ o' (sent (fun _ _ _ => False)) (synok (fun _ _ _ => None) (fun _ _ => None)) (fun n k => None = Some u_new) (fun _ _ => True) Hb (Hbs p)) as (A1 & A2 & _). split; [exact A1|]. intros _ B. congruence.
  - intros a b m [].
Qed.
Lemma urun_ok l : forall u V Cm u', UInv u V Cm -> all_usteps fits cc u l -> urun cc u l = Some u' -> exists V' Cm', UInv u' V' Cm'.
Proof.
  induction l as [|a l IH]; intros u V Cm u' HU Hs Hr; cbn in *; [injection Hr as <-; eauto|]. destruct Hs as [Ha Hs]. destruct (exec_uaction cc u a) as [u1|] eqn:He; [|discriminate].
  destruct (ustep_ok u V Cm a u1 HU Ha He) as (V1 & Cm1 & H1). eapply IH; eauto.
Qed.

(** ** Two moments *)
Lemma later_step u V Cm a u' G : UInv u V Cm -> fits u a -> exec_uaction cc u a = Some u' -> SysInv cc G (u_s u) -> exists G', gle G G' /\ SysInv cc G' (u_s u').
Proof.
  intros HU (Hh & Hbs & Hf) He HS. destruct a as [p ev|p|src dst k|p ev j sc]; cbn [exec_uaction] in He.
  - destruct (nodes (u_s u) p) as [o|] eqn:Ho; [|discriminate]. destruct (event_call (u_s u) p ev) as [c|] eqn:Hc; [|discriminate].
    destruct (prepares u V Cm p o ev c HU Ho Hc (Hf p o Ho)) as (c' & cache & nx & Hp & HP). rewrite Hp in He. destruct (exec o c') as [[o' r]|] eqn:Hx; [|discriminate].
    destruct (_ && _); [discriminate|]. injection He as <-. cbn [u_s].
    destruct (sim_do cc Hv H0 nothing (upto 0) G (u_s u) p ev o c c' o' r (prepared_like _ _ _ _ _ _ _ _ HP) HS Ho Hc (Dup.h12_of _ _ _ Hh)) as (G' & [L _] & S' & _); auto; [|eauto].
    intros b l _. rewrite upto_le, cft_nothing, pendt_nothing. destruct c' as [| | | | | | | |[[? ? []]|]]; cbn; rewrite ?cft_nothing; auto.
  - cbn [exec_action] in He. destruct (nodes (u_s u) p) as [o|] eqn:Ho; [|discriminate]. destruct (take_outgoing_messages o []) as [o' l] eqn:Ht. injection He as <-. exists G. split; [apply gle_refl|]. eapply fetch_inv; eauto.
  - cbn [exec_action] in He. injection He as <-. exists G. split; [apply gle_refl|]. apply drop_inv, HS.
  - destruct (nodes (u_s u) p) as [o|] eqn:Ho; [|discriminate]. destruct (event_call (u_s u) p ev) as [c|] eqn:Hc; [|discriminate].
    destruct (prepares u V Cm p o ev c HU Ho Hc (Hf p o Ho)) as (c' & cache & nx & Hp & HP). rewrite Hp in He. destruct (nth_error _ j) as [st|] eqn:Hj; [|discriminate].
    destruct (Nat.eqb_spec (sc_pid sc) p) as [Hsc|]; [|discriminate]. destruct (build cc sc st) as [| |o'] eqn:Hb; try discriminate. injection He as <-. cbn [u_s].
    destruct (sim_crash cc Hv H0 nothing (upto 0) G (u_s u) p ev o c c' st sc o' (prepared_like _ _ _ _ _ _ _ _ HP) HS Ho Hc (Dup.h12_of_crash _ _ _ _ _ Hh)) as (G' & [L _] & S' & _); auto; [|eapply nth_error_In; eauto|eauto].
    intros b l _. rewrite upto_le, cft_nothing, pendt_nothing. destruct c' as [| | | | | | | |[[? ? []]|]]; cbn; rewrite ?cft_nothing; auto.
Qed.
Lemma later l : forall u V Cm u' G, UInv u V Cm -> all_usteps fits cc u l -> urun cc u l = Some u' -> SysInv cc G (u_s u) -> exists G', gle G G' /\ SysInv cc G' (u_s u').
Proof.
  induction l as [|a l IH]; intros u V Cm u' G HU Hs Hr HS; cbn in *; [injection Hr as <-; exists G; split; [apply gle_refl|exact HS]|]. destruct Hs as [Ha Hs]. destruct (exec_uaction cc u a) as [u1|] eqn:He; [|discriminate].
  destruct (ustep_ok u V Cm a u1 HU Ha He) as (V1 & Cm1 & H1). destruct (later_step u V Cm a u1 G HU Ha He HS) as (G1 & L1' & S1). destruct (IH u1 V1 Cm1 u' G1 H1 Hs Hr S1) as (G2 & L2' & S2).
  exists G2. split; [eapply gle_trans; eauto|exact S2].
Qed.
Lemma urun_app l1 : forall u l2 u', urun cc u (l1 ++ l2) = Some u' -> exists u1, urun cc u l1 = Some u1 /\ urun cc u1 l2 = Some u'.
Proof. induction l1 as [|a l1 IH]; intros u l2 u' H; cbn in *; [eauto|]. destruct (exec_uaction cc u a); [|discriminate]. auto. Qed.
Lemma all_usteps_app (P : usys -> action -> Prop) l1 : forall u l2 u1, all_usteps P cc u (l1 ++ l2) -> urun cc u l1 = Some u1 -> all_usteps P cc u l1 /\ all_usteps P cc u1 l2.
Proof.
  induction l1 as [|a l1 IH]; intros u l2 u1 H Hr; cbn in *; [injection Hr as <-; auto|]. destruct H as [Ha H]. destruct (exec_uaction cc u a) as [v|]; [|discriminate]. destruct (IH v l2 u1 H Hr). auto.
Qed.
Lemma umoments_ordered scs (P : usys -> action -> Prop) l u1 u2 : all_usteps P cc (init_usys cc scs) l -> umoment cc scs l u1 -> umoment cc scs l u2 ->
  exists l1 l2, all_usteps P cc (init_usys cc scs) (l1 ++ l2) /\
    ((ureaches cc scs l1 u1 /\ ureaches cc scs (l1 ++ l2) u2) \/ (ureaches cc scs l1 u2 /\ ureaches cc scs (l1 ++ l2) u1)).
Proof.
  intros Hh (a1 & b1 & E1 & R1) (a2 & b2 & E2 & R2).
  assert (Hp : forall a b s, l = a ++ b -> ureaches cc scs a s -> all_usteps P cc (init_usys cc scs) a).
  { intros a b s -> R0. destruct (all_usteps_app P a _ b _ Hh R0). auto. }
  assert (Hx : forall (a b a' b' : list action), l = a ++ b -> l = a' ++ b' -> length a <= length a' -> a ++ skipn (length a) a' = a').
  { intros a b a' b' F1 F2 Hle.
    assert (Hf : firstn (length a) l = firstn (length a) a') by (rewrite F2, firstn_app; replace (length a - length a') with 0 by lia; cbn; apply app_nil_r).
    rewrite F1, firstn_app, Nat.sub_diag, firstn_all in Hf. cbn in Hf. rewrite app_nil_r in Hf. rewrite Hf at 1. apply firstn_skipn. }
  destruct (le_lt_dec (length a1) (length a2)) as [Hle|Hlt].
  - exists a1, (skipn (length a1) a2). rewrite (Hx a1 b1 a2 b2); auto. split; eauto.
  - exists a2, (skipn (length a2) a1). rewrite (Hx a2 b2 a1 b1); auto with arith. split; eauto.
Qed.
(** ** Conclusions *)
Lemma u_agree scs l u1 u2 p q i v1 v2 : (forall x, sc_batch (scs x) <= 1) -> all_usteps fits cc (init_usys cc scs) l -> umoment cc scs l u1 -> umoment cc scs l u2 ->
  ureports u1 p i v1 -> ureports u2 q i v2 -> v1 = v2.
Proof.
  intros Hbs Hh M1 M2.
  assert (Main : forall l1 l2 u1 u2, all_usteps fits cc (init_usys cc scs) (l1 ++ l2) -> ureaches cc scs l1 u1 -> ureaches cc scs (l1 ++ l2) u2 ->
    forall p q i v1 v2, ureports u1 p i v1 -> ureports u2 q i v2 -> v1 = v2).
  { clear - Hv H0 L1 L2 L3 Hbs. intros l1 l2 u1 u2 Hh R1 R2 p q i v1 v2 (a1 & o1 & N1 & P1) (a2 & o2 & N2 & P2).
    destruct (urun_app _ _ _ _ R2) as (u1' & R1' & R12). unfold ureaches in R1. rewrite R1 in R1'. injection R1' as <-. destruct (all_usteps_app _ _ _ _ _ Hh R1) as [Hh1 Hh2].
    destruct (urun_ok l1 _ _ _ u1 (init_ok scs Hbs) Hh1 R1) as (V & Cm & HU). destruct (v_G _ _ _ HU 0) as (G1 & S1 & _ & _). destruct (later l2 u1 V Cm u2 G1 HU Hh2 R12 S1) as (G2 & L & S2).
    destruct (reports_decided cc Hv H0 G1 p o1 i _ (y_G _ _ _ S1) (y_N _ _ _ S1 p (o_sp o1) (f_equal (option_map o_sp) N1)) P1) as (_ & _ & F1).
    destruct (reports_decided cc Hv H0 G2 q o2 i _ (y_G _ _ _ S2) (y_N _ _ _ S2 q (o_sp o2) (f_equal (option_map o_sp) N2)) P2) as (_ & _ & F2).
    pose proof (fixed_agree cc Hv H0 G2 i _ _ (y_G _ _ _ S2) (fixed_gle cc _ _ _ _ L F1) F2). congruence. }
  destruct (umoments_ordered _ _ _ _ _ Hh M1 M2) as (l1 & l2 & Hh' & [[R1 R2]|[R1 R2]]); intros A B.
  - eapply Main; eauto.
  - symmetry. eapply Main; eauto.
Qed.
Lemma u_works scs l u p ev o c : (forall x, sc_batch (scs x) <= 1) -> all_usteps fits cc (init_usys cc scs) l -> ureaches cc scs l u -> fits u (ADo p ev) ->
  nodes (u_s u) p = Some o -> event_call (u_s u) p ev = Some c ->
  exists c' cache nx, uprep u p o c = Some (c', cache, nx) /\ forall o' r, exec o c' = Ok (o', r) -> exists u', exec_uaction cc u (ADo p ev) = Some u'.
Proof.
  intros Hbs Hh Hr (Ha & _ & Hf) Ho Hc. destruct (urun_ok l _ _ _ u (init_ok scs Hbs) Hh Hr) as (V & Cm & HU).
  destruct (prepares u V Cm p o ev c HU Ho Hc (Hf p o Ho)) as (c' & cache & nx & Hp & HP). exists c', cache, nx. split; [exact Hp|]. intros o' r He.
  cbn [exec_uaction]. rewrite Ho, Hc, Hp, He.
  destruct (do_ok u V Cm p o o' ev c c' cache nx r HU Ho Hc (Dup.h12_of _ _ _ Ha) He HP (Hf p o Ho)) as (V' & Cm' & HU').
  destruct (new_sync (s_out (o_sp o)) (s_out (o_sp o'))) eqn:Hn; [|cbn [andb]; eauto]. destruct (u_send cache) eqn:Hs; [cbn [andb]; eauto|]. exfalso.
  unfold new_sync in Hn. apply existsb_exists in Hn. destruct Hn as (m & Hm & Hx). destruct (pm_msg m) as [| | |n sq d sy| | | | | | | |] eqn:Hmm; try discriminate.
  assert (Hno : nodes (mkSys (upd1 (nodes (u_s u)) p (Some o')) (event_net (u_s u) p ev)) p = Some o') by (cbn; unfold upd1; rewrite Nat.eqb_refl; reflexivity).
  destruct (v_node _ _ _ HU' p o' Hno) as [Ko' _]. destruct (k_out _ _ _ _ _ _ _ Ko') as [F _]. rewrite Forall_forall in F. specialize (F m Hm). unfold okm, synok in F. rewrite Hmm in F. cbn [u_t] in F. destruct F as (w & Hw & _).
  unfold put_syncs in Hw. rewrite Hx, Hs in Hw. assert (Hy : has_sync (s_out (o_sp o')) n (pm_to m) sq = true); [|rewrite Hy in Hw; discriminate].
  unfold has_sync. apply existsb_exists. exists m. split; [exact Hm|]. rewrite Hmm. rewrite (proj2 (beq_spec n n) eq_refl), Nat.eqb_refl. unfold seq_eqb. rewrite !Nat.eqb_refl. reflexivity.
Qed.
Lemma u_decodes scs l u p o src m n sq d es : (forall x, sc_batch (scs x) <= 1) -> all_usteps fits cc (init_usys cc scs) l -> ureaches cc scs l u ->
  nodes (u_s u) p = Some o -> In (MsgSP m) (net (u_s u) src p) -> pm_msg m = MAcceptDecide n sq d es -> takes_accdec (o_sp o) n sq = true ->
  exists w, dec_all (u_c u p) es = Some (w, es).
Proof.
  intros Hbs Hh Hr Ho Hm Hmm Ht. destruct (urun_ok l _ _ _ u (init_ok scs Hbs) Hh Hr) as (V & Cm & HU). destruct (taken_accdec u V Cm p o src m n sq d es HU Ho Hm Hmm Ht) as (w & Hw & _). eauto.
Qed.
End Caches.
