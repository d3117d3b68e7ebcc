(** * One server between two of its steps *)
From Coq Require Import List Arith Bool Lia.
Import ListNotations.
From Verif Require Import Types Config MemStore Internal LeaderState SeqPaxos Basics Ghost GhostOps Inv StoreOps SyncOps.

Section WithEntry.
Context {E : EntryT}.
Context (cc : cluster_config).
Notation nds := (nds cc).

(** ** Views *)
Definition vle (v v' : rview) : Prop :=
  (rv_phase v' = PhAccept -> rv_prom v' = rv_prom v /\ rv_phase v = PhAccept /\ rv_cseq v' = rv_cseq v /\
     rv_ss v' = rv_ss v /\ (rv_ss v = true \/ rv_cnt v' = rv_cnt v)) /\
  (rv_arnd v' = rv_prom v' -> rv_prom v' = rv_prom v /\ rv_arnd v' = rv_arnd v /\
     rv_ss v' = rv_ss v /\ (rv_ss v = true \/ rv_cnt v' <= rv_cnt v)).

Lemma vle_refl v : vle v v.
Proof. unfold vle. repeat split; auto. Qed.

Lemma rcvok_vle G a b vl v v' : vle v v' -> rcvok G a b vl v -> rcvok G a b vl v'.
Proof.
  intros [V1 V2] HR n Hp Hpr. split.
  - intros Hph. destruct (V1 Hph) as (E1 & E2 & E3 & E4 & E5). rewrite E1 in Hpr. destruct (HR n Hp Hpr) as [A _].
    rewrite E3, E4. destruct (A E2) as (A1 & A2 & A3 & A4). repeat (split; auto).
    destruct (rv_ss v); auto. destruct E5; [discriminate|congruence].
  - intros Har. destruct (V2 (eq_trans Har (eq_sym Hpr))) as (E1 & E2 & E4 & E5).
    rewrite E1 in Hpr. rewrite E2 in Har. destruct (HR n Hp Hpr) as [_ B]. destruct (B Har) as [B1 B2]. rewrite E4. split.
    + destruct (rv_ss v); auto. destruct E5; [discriminate|lia].
    + intros sq m Hi Hm Hs. destruct (B2 sq m Hi Hm Hs) as [B3 B4]. split; auto. destruct E5; [congruence|lia].
Qed.

Lemma linv_vle G a b sa vl v v' : vle v v' -> linv cc G a b sa vl (Some v) -> linv cc G a b sa vl (Some v').
Proof.
  intros HV [(A1 & A2 & A3 & A4) B]. split.
  - split; [exact A1|]. split; [exact A2|]. split; [exact A3|]. intros rv Hrv. injection Hrv as <-. eapply rcvok_vle; eauto.
  - intros s Hs. destruct (B s Hs) as [B1 B2]. split; auto. intros H1 H2 sq Hsq. destruct (B1 H1 H2 sq Hsq) as [C1 C2].
    split; auto. intros rv Hrv Hpr Hph. injection Hrv as <-. destruct HV as [V1 _]. destruct (V1 Hph) as (E1 & E2 & E3 & _).
    rewrite E3. apply C2; auto. congruence.
Qed.

(** Fewer messages. *)
Lemma FOP_app {A} (P : A -> A -> Prop) l l' :
  ForallOrdPairs P (l ++ l') <-> ForallOrdPairs P l /\ ForallOrdPairs P l' /\ forall x y, In x l -> In y l' -> P x y.
Proof.
  induction l as [|x l IH]; cbn.
  - split; [intros H; split; [constructor|split; [auto|intros x y []]]|intros (_ & H & _); auto].
  - split.
    + intros H. inversion H as [|? ? H1 H2]; subst. apply IH in H2. destruct H2 as (H2 & H3 & H4).
      rewrite Forall_app in H1. destruct H1 as [H1 H1']. split; [constructor; auto|]. split; auto.
      intros a b [->|Ha] Hb; auto. rewrite Forall_forall in H1'. auto.
    + intros (H1 & H2 & H3). inversion H1 as [|? ? H4 H5]; subst. constructor.
      * rewrite Forall_app. split; auto. rewrite Forall_forall. intros b Hb. auto.
      * apply IH. repeat (split; auto).
Qed.

Lemma rcvok_incl G a b vl vl' rv : incl vl' vl -> rcvok G a b vl rv -> rcvok G a b vl' rv.
Proof.
  intros Hi HR n Hp Hpr. destruct (HR n Hp Hpr) as [A B]. split.
  - intros Hph. destruct (A Hph) as (A1 & A2 & A3 & A4). split; [auto|]. split; [auto|]. split; [|auto].
    intros m sq Hm. apply A3; auto.
  - intros Har. destruct (B Har) as [B1 B2]. split; auto. intros sq m Hm. apply B2; auto.
Qed.

Lemma lcore_prefix G a b vl vl' rb : lcore cc G a b (vl ++ vl') rb -> lcore cc G a b vl rb.
Proof.
  intros (A & B & C & D). rewrite Forall_app in A, C. apply FOP_app in B. split; [tauto|]. split; [tauto|]. split; [tauto|].
  intros rv Hrv. eapply rcvok_incl; [|eauto]. intros x Hx. apply in_app_iff. auto.
Qed.

(** Messages without number. *)
Lemma lcore_snoc G a b vl rb m : numb m = None -> minv cc G a b m -> lcore cc G a b vl rb -> lcore cc G a b (vl ++ [m]) rb.
Proof.
  intros Hn Hm (A & B & C & D). split; [|split; [|split]].
  - rewrite Forall_app. auto.
  - apply FOP_app. split; auto. split; [constructor; constructor|]. intros x y Hx [<-|[]] n s1 s2 _ _ H2. congruence.
  - rewrite Forall_app. split; auto. constructor; auto. intros n sq _ H2. congruence.
  - intros rv Hrv n Hp Hpr. destruct (D rv Hrv n Hp Hpr) as [D1 D2]. split.
    + intros Hph. destruct (D1 Hph) as (A1 & A2 & A3 & A4). split; [exact A1|]. split; [exact A2|]. split; [|exact A4].
      intros m0 sq Hin Hm0. apply in_app_iff in Hin. destruct Hin as [Hin|[<-|[]]]; [eauto|congruence].
    + intros Har. destruct (D2 Har) as [B1 B2]. split; auto. intros sq m0 Hin Hm0. apply in_app_iff in Hin.
      destruct Hin as [Hin|[<-|[]]]; [eauto|congruence].
Qed.

Lemma snd12_snoc b s vl rb m : numb m = None -> snd12 b s vl rb -> snd12 b s (vl ++ [m]) rb.
Proof.
  intros Hn A H1 H2 sq Hsq. destruct (A H1 H2 sq Hsq) as [B C]. split; auto. intros m0 s' Hin Hm.
  apply in_app_iff in Hin. destruct Hin as [Hin|[<-|[]]]; [eauto|congruence].
Qed.
Lemma sndm_snoc G b s vl md m : numb m = None -> sndm G b s vl md -> sndm G b s (vl ++ [m]) md.
Proof.
  intros Hn A H1 H2 H3 sq Hsq. specialize (A H1 H2 H3 sq Hsq). cbn zeta in *. destruct md; auto.
  destruct A as (A1 & A2 & A3). split; auto. split; auto. intros Hs. destruct (A3 Hs) as [A4 A5]. split; auto.
  intros m0 Hin Hm. apply in_app_iff in Hin. destruct Hin as [Hin|[<-|[]]]; [eauto|congruence].
Qed.

Lemma outs_app b l l' : outs b (l ++ l') = outs b l ++ outs b l'.
Proof. unfold outs. rewrite filter_app, map_app. reflexivity. Qed.
Lemma outs_one b from to m : outs b [mkPM from to m] = if to =? b then [m] else [].
Proof. unfold outs. cbn. destruct (to =? b); reflexivity. Qed.

End WithEntry.

(** ** The context of a step *)

(** A condition on the log of a ballot and on the number of entries, of those that satisfy a test,
    that may still be added to it: fewer may always be added; adding some uses them up; a log cut
    off satisfies it too. *)
Record budget {E : EntryT} := mkBudget {
  bq : (T -> bool) -> list T -> nat -> Prop;
  bq_le : forall t l k k', k' <= k -> bq t l k -> bq t l k';
  bq_app : forall t l es k, bq t l (k + length (filter t es)) -> bq t (l ++ es) k;
  bq_cut : forall t l c k, bq t l k -> bq t (firstn c l) k
}.

Section Budgets.
Context {E : EntryT}.
Lemma filter_firstn (t : T -> bool) c l : length (filter t (firstn c l)) <= length (filter t l).
Proof. rewrite <- (firstn_skipn c l) at 2. rewrite filter_app, app_length. apply Nat.le_add_r. Qed.
(** At most [B] of them in all. *)
Definition upto (B : nat) : budget.
Proof.
  refine (mkBudget E (fun t l k => length (filter t l) + k <= B) _ _ _); intros t l.
  - intros. lia.
  - intros es k. rewrite filter_app, app_length. lia.
  - intros c k. pose proof (filter_firstn t c l). lia.
Defined.
(** [q] of them are set aside. *)
Definition aside (q : nat) (B : budget) : budget.
Proof.
  refine (mkBudget E (fun t l k => bq B t l (k + q)) _ _ _); intros t l.
  - intros k k' H. apply bq_le. lia.
  - intros es k H. apply bq_app. eapply bq_le; [|exact H]. lia.
  - intros c k. apply bq_cut.
Defined.
End Budgets.

(** The server [xp] makes a step; the other servers are [xoth]; the messages sent to it
    and not handled are [xnin], those it sent before the step [xnout].  Of the entries that
    satisfy the test [xt], those in the log of a ballot and those waiting at [xp] are within [xB]. *)
Class octx {E : EntryT} := mkOctx {
  xcc : cluster_config;
  xHv : cluster_validate xcc = true;
  xH0 : ~ In 0 (nds xcc);
  xp : node_id;
  xoth : node_id -> option sp;
  xnin : node_id -> list pmsg;
  xnout : node_id -> list pmsg;
  xG0 : ghost;
  xHoth : forall a s, xoth a = Some s -> lead_pid a s;
  xt : T -> bool;
  xB : budget
}.

Section WithCtx.
Context {E : EntryT} {X : octx}.
Notation cc := xcc.
Notation p := xp.
Notation oth := xoth.
Notation nin := xnin.
Notation nout := xnout.
Notation G0 := xG0.
Notation Hoth := xHoth.
Notation nds := (nds cc).

Definition rb (b : node_id) : option rview := option_map view (oth b).
Definition vout (s : sp) (b : node_id) : list pmsg := nout b ++ outs b (s_out s).

(** The entries that satisfy the test; those that wait at a server: buffered, in forwarded
    proposals not yet fetched, or in the batch of a leader. *)
Definition cf (l : list T) : nat := length (filter xt l).
Definition pendm (m : pmsg) : nat := match m with MProposalForward es => cf es | _ => 0 end.
Definition fwd (l : list pmessage) : nat := list_sum (map (fun m => pendm (pm_msg m)) l).
Definition lbatch (s : sp) : nat := match s_role s with Leader => cf (c_batch (i_ca (s_is s))) | Follower => 0 end.
Definition pend (s : sp) : nat := cf (s_bprops s) + fwd (s_out s) + lbatch s.
Arguments cf : simpl never.
Arguments fwd : simpl never.

(** There is room for [k] more of them. *)
Definition roomg (G : ghost) (k : nat) : Prop := forall b l, gM G b = Some l -> bq xB xt (ll_es l) k.
Definition room (G : ghost) (s : sp) (k : nat) : Prop := roomg G (pend s + k).

Lemma pendm_numb m x : numb m = Some x -> pendm m = 0.
Proof. destruct m; cbn; congruence. Qed.
Lemma cf_app a b : cf (a ++ b) = cf a + cf b.
Proof. unfold cf. rewrite filter_app, app_length. reflexivity. Qed.
Lemma fwd_app a b : fwd (a ++ b) = fwd a + fwd b.
Proof. unfold fwd. rewrite map_app, list_sum_app. reflexivity. Qed.
Lemma roomg_le G k k' : k' <= k -> roomg G k -> roomg G k'.
Proof. intros H R b l Hl. eapply bq_le; [exact H|exact (R b l Hl)]. Qed.
Lemma roomg_M G G' k : gM G' = gM G -> roomg G k -> roomg G' k.
Proof. intros H R b l. rewrite H. apply R. Qed.
Lemma room_eq G G' s s' k : gM G' = gM G -> s_bprops s' = s_bprops s -> s_out s' = s_out s -> s_role s' = s_role s ->
  c_batch (i_ca (s_is s')) = c_batch (i_ca (s_is s)) -> room G s k -> room G' s' k.
Proof. intros H H1 H2 H3 H4. unfold room, pend, lbatch. rewrite H1, H2, H3, H4. apply roomg_M; exact H. Qed.
Lemma room_le G G' s s' k : gM G' = gM G -> pend s' <= pend s -> room G s k -> room G' s' k.
Proof. intros H H1 R. unfold room. eapply roomg_M; [exact H|]. eapply roomg_le; [|exact R]. lia. Qed.
Lemma room_fol G G' s s' k : gM G' = gM G -> s_bprops s' = s_bprops s -> s_out s' = s_out s -> s_role s' = Follower ->
  room G s k -> room G' s' k.
Proof. intros H H1 H2 H3. apply room_le; auto. unfold pend, lbatch. rewrite H1, H2, H3. lia. Qed.
Lemma room_g G s k : room G s k -> roomg G 0.
Proof. apply roomg_le. lia. Qed.

(** The server may crash with this storage. *)
Definition Safe (st : mstore) : Prop := exists G1,
  glp p G0 G1 /\ GInv cc G1 /\ StInv cc G1 p st /\
  (forall a, a <> p -> linv cc G1 a p (oth a) (nin a) (Some (stview st))) /\
  (forall b, b <> p -> lcore cc G1 p b (nout b) (rb b)) /\
  roomg G1 0.

Record OpK (G : ghost) (s : sp) (K : node_id -> mode) : Prop := {
  ok_glp : glp p G0 G;
  ok_G : GInv cc G;
  ok_N : NodeInv cc G p s;
  ok_in : forall a, a <> p -> linv cc G a p (oth a) (nin a) (Some (view s));
  ok_out : forall b, b <> p -> lcore cc G p b (vout s b) (rb b);
  ok_s12 : forall b, b <> p -> snd12 b s (vout s b) (rb b);
  ok_snd : forall b, b <> p -> sndm G b s (vout s b) (K b);
  ok_am : forall b, b <> p -> amok G p b s (K b);
  ok_tr : Forall Safe (i_tr (s_is s));
  ok_room : room G s 0
}.
Definition knorm : node_id -> mode := fun _ => Norm.
Notation Op G s := (OpK G s knorm).

Lemma op_safe G s K G1 st : OpK G s K -> gls p G G1 -> GInv cc G1 -> StInv cc G1 p st -> vle (view s) (stview st) -> roomg G1 0 -> Safe st.
Proof.
  intros HO [HL HN] HG1 HS HV HR. exists G1. split; [eapply glp_trans; [apply (ok_glp _ _ _ HO)|exact HL]|].
  split; auto. split; auto. split; [|split; [|exact HR]].
  - intros a Ha. eapply linv_vle; [exact HV|]. eapply linv_fr; [exact HL|exact Ha|apply Hoth|]. apply (ok_in _ _ _ HO); auto.
  - intros b Hb. destruct HL as [HL _]. eapply lcore_gle; [exact HL|intros n Hn; rewrite HN; reflexivity|].
    eapply lcore_prefix. apply (ok_out _ _ _ HO); auto.
Qed.

Definition modeok (G G1 : ghost) (n : ballot) (k k' : mode) : Prop :=
  (k' = k /\ gM G1 n = gM G n) \/ (k = Norm /\ k' = Old (mlen G n) /\ ~ ssset G n) \/ (k = Fresh /\ k' = Fresh).

(** Steps that send nothing. *)
Lemma op_upd G s K G1 s1 K1 : OpK G s K -> gls p G G1 -> GInv cc G1 -> NodeInv cc G1 p s1 -> vle (view s) (view s1) ->
  s_out s1 = s_out s ->
  (s_role s1 = Leader -> s_phase s1 = PhAccept ->
     s_role s = Leader /\ s_phase s = PhAccept /\ l_n (s_ls s1) = l_n (s_ls s) /\ l_seqs (s_ls s1) = l_seqs (s_ls s) /\
     forall b, b <> p -> modeok G G1 (l_n (s_ls s)) (K b) (K1 b) /\ (promd s1 b -> promd s b) /\
       (forall x, vget (l_accmeta (s_ls s1)) b = Some (Some x) -> vget (l_accmeta (s_ls s)) b = Some (Some x))) ->
  Forall Safe (i_tr (s_is s1)) -> room G1 s1 0 ->
  OpK G1 s1 K1.
Proof.
  intros HO [HL HN] HG1 HNI HV Hout Hld Htr Hrm. destruct HO as [O1 O2 O3 O4 O5 O6 O7 O8 O9 O10].
  assert (Hvo : forall b, vout s1 b = vout s b) by (intros b; unfold vout; rewrite Hout; reflexivity).
  constructor; auto.
  - eapply glp_trans; eauto.
  - intros a Ha. eapply linv_vle; [exact HV|]. eapply linv_fr; [exact HL|exact Ha|apply Hoth|auto].
  - intros b Hb. rewrite Hvo. destruct HL as [HL _]. eapply lcore_gle; [exact HL|intros n Hn; rewrite HN; reflexivity|auto].
  - intros b Hb. rewrite Hvo. intros H1 H2. destruct (Hld H1 H2) as (E1 & E2 & E3 & E4 & E5). rewrite E3, E4. intros sq Hsq.
    destruct (O6 b Hb E1 E2 sq Hsq) as [C1 C2]. split; [exact C1|]. intros rv Hrv Hpr Hph. destruct (C2 rv Hrv Hpr Hph) as [C3 C4].
    split; [exact C3|]. intros x Hx. destruct (E5 b Hb) as (_ & _ & P'). exact (C4 x (P' x Hx)).
  - intros b Hb. rewrite Hvo. intros H1 H2 H3. destruct (Hld H1 H2) as (E1 & E2 & E3 & E4 & E5). rewrite E3, E4.
    destruct (E5 b Hb) as (M & P & _). intros sq Hsq. pose proof (O7 b Hb E1 E2 (P H3) sq Hsq) as A. cbn zeta in *.
    rewrite HN. destruct M as [[-> M]|[(M1 & -> & M3)|[M1 ->]]]; auto.
    + unfold ssset, mlen in *. rewrite M. exact A.
    + rewrite M1 in A. tauto.
  - intros b Hb H1 H2 n i Hi. destruct (Hld H1 H2) as (E1 & E2 & E3 & E4 & E5).
    destruct (E5 b Hb) as (M & P & P'). destruct (O8 b Hb E1 E2 n i (P' _ Hi)) as [-> (sq & d & es & B1 & B2)].
    rewrite E3, E4, Hout. split; auto. exists sq, d, es. split; auto. intros H3. specialize (B2 (P H3)).
    destruct M as [[-> M]|[(M1 & -> & M3)|[M1 ->]]]; auto.
    + unfold ssset in *. rewrite M. exact B2.
    + rewrite M1 in B2. auto.
    + rewrite M1 in B2. auto.
Qed.

Lemma op_mode G s K K1 : OpK G s K ->
  (forall b, b <> p -> s_role s = Leader -> s_phase s = PhAccept -> promd s b -> K1 b = K b \/ 
     (K b = Old (mlen G (l_n (s_ls s))) /\ K1 b = Norm /\ ~ ssset G (l_n (s_ls s)))) ->
  OpK G s K1.
Proof.
  intros HO HK. destruct HO as [O1 O2 O3 O4 O5 O6 O7 O8 O9 O10]. constructor; auto.
  - intros b Hb H1 H2 H3. destruct (HK b Hb H1 H2 H3) as [->|(E1 & -> & E3)]; [apply O7; auto|].
    intros sq Hsq. specialize (O7 b Hb H1 H2 H3 sq Hsq). cbn zeta in *. rewrite E1 in O7. destruct O7. split; auto. split; auto. tauto.
  - intros b Hb H1 H2 n i Hi. destruct (O8 b Hb H1 H2 n i Hi) as [-> (sq & d & es & B1 & B2)]. split; auto.
    exists sq, d, es. split; auto. intros H3. specialize (B2 H3). destruct (HK b Hb H1 H2 H3) as [->|(E1 & -> & E3)]; auto.
    rewrite E1 in B2. auto.
Qed.

Lemma leadprep_eq G s s' : s_ls s' = s_ls s -> s_is s' = s_is s -> LeadPrep cc G p s -> LeadPrep cc G p s'.
Proof. intros E1 E2 []. constructor; rewrite ?E1, ?E2; auto. Qed.
Lemma leadacc_eq G s s' : s_ls s' = s_ls s -> s_is s' = s_is s -> LeadAcc cc G p s -> LeadAcc cc G p s'.
Proof. intros E1 E2 []. constructor; rewrite ?E1, ?E2; auto. Qed.
Lemma nodeinv_eq G s s' : NodeInv cc G p s -> s_ls s' = s_ls s -> s_is s' = s_is s ->
  s_pid s' = s_pid s -> s_peers s' = s_peers s -> s_role s' = s_role s -> s_phase s' = s_phase s ->
  (forall b i, s_lam s' = Some (b, i) -> exists k, nth_error (s_out s') i = Some (mkPM p (b_pid b) (MAccepted b k))) ->
  (forall pr, s_cprom s' = Some pr -> minv cc G p (b_pid (pr_n pr)) (MPromise pr)) ->
  Forall (fun m => pm_from m = p /\ pm_to m <> p) (s_out s') ->
  NodeInv cc G p s'.
Proof.
  intros [] E1 E2 E3 E4 E5 E6 H1 H2 H3. constructor; rewrite ?E1, ?E2, ?E3, ?E4, ?E5, ?E6; auto.
  destruct (s_role s), (s_phase s); auto; [eapply leadprep_eq; eauto|eapply leadacc_eq; eauto].
Qed.

(** Sending a message without number. *)
Lemma pend_push s b m : pend (push s b m) = pend s + pendm m.
Proof. unfold pend, lbatch, push. cbn [s_out set_out s_bprops s_role s_is]. rewrite fwd_app. unfold fwd at 2. cbn. lia. Qed.
Lemma op_pushr G s K b m : OpK G s K -> numb m = None -> minv cc G p b m -> room G s (pendm m) -> OpK G (push s b m) K.
Proof.
  intros HO Hn Hm Hrm. assert (Hbp : p <> b) by apply Hm. destruct HO as [O1 O2 O3 O4 O5 O6 O7 O8 O9 O10].
  assert (Hvo : forall c, vout (push s b m) c = if b =? c then vout s c ++ [m] else vout s c).
  { intros c. unfold vout, push. cbn [s_out set_out]. rewrite outs_app, outs_one. destruct (b =? c); rewrite ?app_nil_r, ?app_assoc; reflexivity. }
  constructor; auto.
  - eapply nodeinv_eq; eauto; destruct O3; auto.
    + intros b0 i Hi. destruct (n_lam b0 i Hi) as [k Hk]. exists k. cbn. rewrite nth_error_app1; auto.
      apply nth_error_Some. congruence.
    + cbn. rewrite Forall_app. split; [assumption|]. constructor; [|constructor]. cbn. auto.
  - intros c Hc. rewrite Hvo. destruct (Nat.eqb_spec b c) as [->|]; auto. apply lcore_snoc; auto.
  - intros c Hc. rewrite Hvo. destruct (Nat.eqb_spec b c) as [->|]; [|exact (O6 c Hc)]. apply snd12_snoc; auto. exact (O6 c Hc).
  - intros c Hc. rewrite Hvo. destruct (Nat.eqb_spec b c) as [->|]; [|exact (O7 c Hc)]. apply sndm_snoc; auto. exact (O7 c Hc).
  - intros c Hc H1 H2 n i Hi. destruct (O8 c Hc H1 H2 n i Hi) as [-> (sq & d & es & B1 & B2)]. split; auto.
    exists sq, d, es. split; auto. cbn. rewrite nth_error_app1; auto. apply nth_error_Some. congruence.
  - unfold room. rewrite pend_push. eapply roomg_le; [|exact Hrm]. lia.
Qed.
Lemma op_push G s K b m : OpK G s K -> numb m = None -> minv cc G p b m -> pendm m = 0 -> OpK G (push s b m) K.
Proof. intros HO Hn Hm H. apply op_pushr; auto. rewrite H. apply (ok_room _ _ _ HO). Qed.

Lemma op_push_all G l : forall s K m, OpK G s K -> numb m = None -> (forall b, In b l -> minv cc G p b m) -> pendm m = 0 -> OpK G (push_all s l m) K.
Proof.
  unfold push_all. induction l as [|b l IH]; intros s K m HO Hn Hm Hz; cbn; auto. apply IH; auto; [|intros; apply Hm; right; auto].
  apply op_push; auto. apply Hm. left. reflexivity.
Qed.

(** Changes of fields that do not matter. *)
Lemma op_bprops G s K x : OpK G s K -> room G (set_bprops s x) 0 -> OpK G (set_bprops s x) K.
Proof. intros [] Hrm. constructor; auto. eapply nodeinv_eq; eauto; apply ok_N0. Qed.
Lemma op_bss G s K x : OpK G s K -> OpK G (set_bss s x) K.
Proof. intros []. constructor; auto. eapply nodeinv_eq; eauto; apply ok_N0. Qed.
Lemma op_cprom_none G s K : OpK G s K -> OpK G (set_cprom s None) K.
Proof. intros []. constructor; auto. eapply nodeinv_eq; eauto; try apply ok_N0. cbn. discriminate. Qed.

Lemma op_panic {A} G s K : OpK G s K -> forall tr, @spanic E A s = Panic tr -> Forall Safe tr.
Proof. intros HO tr H. injection H as <-. apply (ok_tr _ _ _ HO). Qed.

End WithCtx.
Arguments cf {_ _} _ : simpl never.
Arguments fwd {_ _} _ : simpl never.


Notation Op G s := (OpK G s knorm).

(** The result of a step: a good state, or a panic after writes that may be followed by a crash. *)
Definition good {E : EntryT} {X : octx} (G : ghost) (r : res sp) : Prop :=
  match r with
  | Ok s' => exists G', glp xp G G' /\ Op G' s'
  | Panic tr => Forall Safe tr
  end.

Lemma good_trans {E : EntryT} {X : octx} G G1 r : glp xp G G1 -> good G1 r -> good G r.
Proof.
  unfold good. destruct r; auto. intros H (G' & H1 & H2). exists G'. split; auto. eapply glp_trans; eauto.
Qed.
Lemma good_ok {E : EntryT} {X : octx} G s : Op G s -> good G (Ok s).
Proof. intros H. exists G. split; auto. apply glp_refl. Qed.
Lemma good_panic {E : EntryT} {X : octx} G s K G' : OpK G s K -> good G' (spanic s).
Proof. intros H. apply (ok_tr _ _ _ H). Qed.
Ltac rm_fol G s HO := apply (room_fol G _ s); [first [reflexivity|assumption|idtac]|reflexivity|reflexivity|first [reflexivity|assumption|idtac]|exact (ok_room _ _ _ HO)].
Ltac rm_eq G s HO := apply (room_eq G _ s); [first [reflexivity|assumption|idtac]|reflexivity|reflexivity|first [reflexivity|idtac]|first [reflexivity|idtac]|exact (ok_room _ _ _ HO)].
Ltac rm_g G s HO := apply (room_g _ s 0); rm_eq G s HO.
