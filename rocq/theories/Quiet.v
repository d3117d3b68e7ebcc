(** A leader and one follower that stay together: what is under way between them.  The part of
    the leader. *)
From Coq Require Import List Arith Lia Bool.
From Verif Require Import Types Basics MemStore Internal LeaderState SeqPaxos Ble Config Omni Inv.
From Verif Require Op LeadLinks LeadSend Takeover Chosen PropElect PropAnswer.
Import ListNotations.

Section WithEntry.
Context {E : EntryT}.

(** ** Messages under way *)
Definition lmsg (n : ballot) (m : pmsg) : Prop :=
  match m with MAcceptSync _ _ _ _ | MAcceptStopSign _ _ _ => False | MAcceptDecide b _ _ _ | MDecide b _ _ => b = n | _ => True end.
Definition qmsg (n : ballot) (m : pmsg) : Prop :=
  match m with MPrepareReq _ | MPromise _ => False | MNotAccepted b | MAccepted b _ => b = n | _ => True end.
Definition nums (l : list pmsg) : list seqnum := flat_map (fun m => match numb m with Some (_, sq) => [sq] | None => [] end) l.
Definition snext (s : seqnum) : seqnum := mkSeq (sq_sess s) (sq_ctr s + 1).
Fixpoint chain (a : seqnum) (l : list seqnum) (b : seqnum) : Prop :=
  match l with [] => a = b | x :: r => x = snext a /\ chain x r b end.
Definition decof (m : pmsg) : option nat := match m with MAcceptDecide _ _ d _ | MDecide _ _ d => Some d | _ => None end.
Definition accof (m : pmsg) : option nat := match m with MAccepted _ k => Some k | _ => None end.
Definition lastof (f : pmsg -> option nat) (l : list pmsg) : option nat := fold_left (fun a m => match f m with Some d => Some d | None => a end) l None.

Lemma last_acc f l : forall a, fold_left (fun a m => match f m with Some d => Some d | None => a end) l a = match lastof f l with Some x => Some x | None => a end.
Proof.
  unfold lastof. induction l as [|m l IH]; intros a; cbn [fold_left]; auto. rewrite IH. rewrite (IH (match f m with Some d => Some d | None => None end)).
  destruct (fold_left _ l None); auto. destruct (f m); auto.
Qed.
Lemma last_app f a b : lastof f (a ++ b) = match lastof f b with Some x => Some x | None => lastof f a end.
Proof. unfold lastof at 1. rewrite fold_left_app. fold (lastof f a). apply last_acc. Qed.
Lemma last_cons f m l : lastof f (m :: l) = match lastof f l with Some x => Some x | None => f m end.
Proof. change (m :: l) with ([m] ++ l). rewrite last_app. unfold lastof at 2. cbn. destruct (f m); reflexivity. Qed.
Lemma last_none f l : Forall (fun m => f m = None) l -> lastof f l = None.
Proof. induction 1 as [|m l H _ IH]; auto. rewrite last_cons, IH. exact H. Qed.
Lemma nums_app a b : nums (a ++ b) = nums a ++ nums b.
Proof. unfold nums. apply flat_map_app. Qed.
Lemma chain_app l1 : forall a l2 c, chain a (l1 ++ l2) c <-> exists b, chain a l1 b /\ chain b l2 c.
Proof.
  induction l1 as [|x l1 IH]; cbn; intros a l2 c.
  - split; [eauto|intros (b & -> & H); exact H].
  - rewrite IH. split; [intros (H & b & H1 & H2); exists b; auto|intros (b & (H & H1) & H2); eauto].
Qed.
Lemma chain_snoc a l b : chain a l b -> chain a (l ++ [snext b]) (snext b).
Proof. intros H. apply chain_app. exists b. cbn. auto. Qed.
Lemma numb_none m : numb m = None -> decof m = None.
Proof. destruct m; cbn; auto; discriminate. Qed.
Lemma numb_lm n m : numb m = None -> lmsg n m.
Proof. destruct m; cbn; auto; discriminate. Qed.

(** Lists of outgoing messages. *)
Definition quiet (q : nat) (l : list pmessage) : Prop := Forall (fun x => pm_to x = q -> numb (pm_msg x) = None) l.
Lemma quiet_outs q l : quiet q l -> Forall (fun m => numb m = None) (outs q l).
Proof.
  unfold quiet, outs. induction 1 as [|x l H _ IH]; cbn; auto. destruct (Nat.eqb_spec (pm_to x) q); cbn; auto.
Qed.
Lemma nn_nums l : Forall (fun m => numb m = None) l -> nums l = [].
Proof. induction 1 as [|m l H _ IH]; cbn; auto. rewrite H. exact IH. Qed.
Lemma nn_dec l : Forall (fun m => numb m = None) l -> lastof decof l = None.
Proof. intros H. apply last_none. eapply Forall_impl; [|exact H]. intros m. apply numb_none. Qed.
Lemma outs_cons q x l : outs q (x :: l) = (if pm_to x =? q then [pm_msg x] else []) ++ outs q l.
Proof. unfold outs. cbn. destruct (pm_to x =? q); reflexivity. Qed.
Lemma upd_split (l : list pmessage) i x y : nth_error l i = Some x -> exists A B, l = A ++ x :: B /\ length A = i /\ upd l i y = A ++ y :: B.
Proof.
  intros H. apply nth_error_split in H. destruct H as (A & B & -> & <-). exists A, B. repeat split. apply LeadSend.upd_mid_eq.
Qed.
Lemma outs_other q l i a p m m' : nth_error l i = Some (mkPM a p m) -> p <> q -> outs q (upd l i (mkPM a p m')) = outs q l.
Proof.
  intros H Hp. destruct (upd_split l i _ (mkPM a p m') H) as (A & B & -> & _ & ->). rewrite !Op.outs_app, !outs_cons. cbn [pm_to]. apply Nat.eqb_neq in Hp. rewrite Hp. reflexivity.
Qed.
Lemma outs_at q l i a m : nth_error l i = Some (mkPM a q m) -> (forall j x, i < j -> nth_error l j = Some x -> pm_to x = q -> numb (pm_msg x) = None) ->
  exists X Y, outs q l = X ++ m :: Y /\ Forall (fun m => numb m = None) Y /\ forall m', outs q (upd l i (mkPM a q m')) = X ++ m' :: Y.
Proof.
  intros H Hq. pose proof (upd_split l i _ (mkPM a q m) H) as (A & B & E1 & E2 & _). exists (outs q A), (outs q B). subst l. rewrite Op.outs_app, outs_cons. cbn [pm_to pm_msg]. rewrite Nat.eqb_refl. split; [reflexivity|]. split.
  - apply quiet_outs. unfold quiet. rewrite Forall_forall. intros x Hx. apply In_nth_error in Hx. destruct Hx as (j & Hj). apply (Hq (S (i + j)) x); [lia|]. rewrite nth_error_app2 by lia. replace (S (i + j) - length A) with (S j) by lia. exact Hj.
  - intros m'. rewrite <- E2, LeadSend.upd_mid_eq, Op.outs_app, outs_cons. cbn [pm_to pm_msg]. rewrite Nat.eqb_refl. reflexivity.
Qed.

(** ** The leader *)
Section Lead.
Context (P q : nat) (n : ballot) (Hpq : q <> P) (HnP : b_pid n = P).
Context (pre : list pmsg) (cs : seqnum) (cb dq : nat).

Record LI0 (a : nat) (s : sp) : Prop := {
  li_r : s_role s = Leader;
  li_p : s_phase s = PhAccept;
  li_n : l_n (s_ls s) = n;
  li_pid : s_pid s = P;
  li_ss : i_ss (s_is s) = None;
  li_prom : exists m, vget (l_proms (s_ls s)) q = Some (Promised m);
  li_am : forall p b i, vget (l_accmeta (s_ls s)) p = Some (Some (b, i)) -> b = n /\ exists m, nth_error (s_out s) i = Some (mkPM P p m) /\ is_accdec m = true;
  li_aq : forall b i, vget (l_accmeta (s_ls s)) q = Some (Some (b, i)) -> forall j x, i < j -> nth_error (s_out s) j = Some x -> pm_to x = q -> numb (pm_msg x) = None;
  li_lm : Forall (lmsg n) (outs q (s_out s));
  li_ch : exists sq, vget (l_seqs (s_ls s)) q = Some sq /\ chain cs (nums (pre ++ outs q (s_out s))) sq;
  li_a : vget (l_accs (s_ls s)) q = Some a
}.
Definition LD (s : sp) : Prop :=
  match lastof decof (pre ++ outs q (s_out s)) with Some d => d = i_dec (s_is s) | None => Nat.min (i_dec (s_is s)) cb <= dq end.
Definition LI (a : nat) (s : sp) : Prop := LI0 a s /\ LD s.

(** Steps that do not matter. *)
Record ntl (s s' : sp) : Prop := {
  nt_r : s_role s' = s_role s;
  nt_p : s_phase s' = s_phase s;
  nt_n : l_n (s_ls s') = l_n (s_ls s);
  nt_pid : s_pid s' = s_pid s;
  nt_ss : i_ss (s_is s') = i_ss (s_is s);
  nt_dec : i_dec (s_is s') = i_dec (s_is s);
  nt_prom : vget (l_proms (s_ls s')) q = vget (l_proms (s_ls s)) q;
  nt_am : forall p x, vget (l_accmeta (s_ls s')) p = Some (Some x) -> vget (l_accmeta (s_ls s)) p = Some (Some x);
  nt_seq : vget (l_seqs (s_ls s')) q = vget (l_seqs (s_ls s)) q;
  nt_acc : vget (l_accs (s_ls s')) q = vget (l_accs (s_ls s)) q;
  nt_out : exists l, s_out s' = s_out s ++ l /\ quiet q l
}.
Lemma ntl_refl s : ntl s s.
Proof. constructor; auto. exists []. rewrite app_nil_r. split; auto. constructor. Qed.
Lemma ntl_trans a b c : ntl a b -> ntl b c -> ntl a c.
Proof.
  intros [A1 A2 A3 A4 A5 A6 A7 A8 A9 A10 (l & A11 & A12)] [B1 B2 B3 B4 B5 B6 B7 B8 B9 B10 (l' & B11 & B12)]. constructor; try congruence; auto.
  exists (l ++ l'). rewrite B11, A11, app_assoc. split; auto. apply Forall_app. auto.
Qed.
Lemma outs_grow s s' l : s_out s' = s_out s ++ l -> quiet q l -> exists Y, outs q (s_out s') = outs q (s_out s) ++ Y /\ Forall (fun m => numb m = None) Y.
Proof. intros -> H. rewrite Op.outs_app. eexists. split; [reflexivity|]. apply quiet_outs; auto. Qed.
Lemma nth_grow {A} (l l' : list A) i x : nth_error l i = Some x -> nth_error (l ++ l') i = Some x.
Proof. intros H. rewrite nth_error_app1; auto. apply nth_error_Some. congruence. Qed.
Lemma li0_ntl a s s' : LI0 a s -> ntl s s' -> LI0 a s'.
Proof.
  intros [H1 H2 H3 H4 H5 H6 H7 H8 H9 (sq & H10 & H10') H11] [N1 N2 N3 N4 N5 N6 N7 N8 N9 N10 (l & N11 & N12)]. destruct (outs_grow s s' l N11 N12) as (Y & Y1 & Y2). constructor; try congruence.
  - rewrite N7. exact H6.
  - intros p b i Hm. apply N8 in Hm. destruct (H7 _ _ _ Hm) as (-> & m & Hm1 & Hm2). split; auto. exists m. split; auto. rewrite N11. apply nth_grow; auto.
  - intros b i Hm j x Hj Hx Hto. apply N8 in Hm. destruct (H7 _ _ _ Hm) as (_ & m & Hm1 & _). rewrite N11 in Hx. destruct (Nat.lt_ge_cases j (length (s_out s))) as [Hl|Hl].
    + rewrite nth_error_app1 in Hx by auto. eapply H8; eauto.
    + rewrite nth_error_app2 in Hx by auto. apply nth_error_In in Hx. unfold quiet in N12. rewrite Forall_forall in N12. auto.
  - rewrite Y1. apply Forall_app. split; auto. eapply Forall_impl; [|exact Y2]. intros m. apply numb_lm.
  - exists sq. rewrite N9. split; auto. rewrite Y1, app_assoc, nums_app, (nn_nums Y Y2), app_nil_r. exact H10'.
Qed.
Lemma ld_ntl s s' : LD s -> ntl s s' -> LD s'.
Proof.
  unfold LD. intros H N. destruct (nt_out _ _ N) as (l & N11 & N12). destruct (outs_grow s s' l N11 N12) as (Y & Y1 & Y2). rewrite Y1, app_assoc, last_app, (nn_dec Y Y2), (nt_dec _ _ N). exact H.
Qed.
Lemma li_ntl a s s' : LI a s -> ntl s s' -> LI a s'.
Proof. intros [H K] N. split; [eapply li0_ntl; eauto|eapply ld_ntl; eauto]. Qed.

(** The two kinds of numbered messages. *)
Lemma latest_li a s p r : LI0 a s -> get_latest_accdec s p = Some r ->
  match r with
  | Some i => vget (l_accmeta (s_ls s)) p = Some (Some (n, i)) /\ exists m, nth_error (s_out s) i = Some (mkPM P p m) /\ is_accdec m = true
  | None => vget (l_accmeta (s_ls s)) p = Some None
  end.
Proof.
  intros H. unfold get_latest_accdec, get_latest_accept_meta. destruct (vget (l_accmeta (s_ls s)) p) as [[[b i]|]|] eqn:Hv; [|intros X; injection X as <-; reflexivity|discriminate].
  destruct (li_am _ _ H _ _ _ Hv) as (-> & m & Hm1 & Hm2). rewrite (li_n _ _ H). assert (B : beq n n = true) by (apply beq_spec; reflexivity). rewrite B, Hm1. cbn [pm_msg].
  destruct m; try discriminate. intros X. injection X as <-. eauto.
Qed.
Definition redo (f : pmsg -> pmsg) (d : nat) : Prop :=
  forall b sq d0 es, exists es', f (MAcceptDecide b sq d0 es) = MAcceptDecide b sq d es'.
Lemma mod_li a s p i m f d : LI0 a s -> redo f d -> vget (l_accmeta (s_ls s)) p = Some (Some (n, i)) -> nth_error (s_out s) i = Some (mkPM P p m) -> is_accdec m = true ->
  LI0 a (mod_accdec s i f) /\ i_dec (s_is (mod_accdec s i f)) = i_dec (s_is s) /\ (p = q -> d = i_dec (s_is s) -> LD (mod_accdec s i f)) /\ (p <> q -> LD s -> LD (mod_accdec s i f)) /\ l_proms (s_ls (mod_accdec s i f)) = l_proms (s_ls s).
Proof.
  intros H Hf Hv Hm Ha. unfold mod_accdec. rewrite Hm. cbn [pm_from pm_to pm_msg]. destruct m as [| | | |b sq d0 es| | | | | | |]; try discriminate. destruct (Hf b sq d0 es) as (es' & Hf'). rewrite Hf'.
  destruct H as [H1 H2 H3 H4 H5 H6 H7 H8 H9 (sq0 & H10 & H10') H11].
  assert (Hl : i < length (s_out s)) by (apply nth_error_Some; congruence).
  assert (Hn : forall j x, nth_error (upd (s_out s) i (mkPM P p (MAcceptDecide b sq d es'))) j = Some x -> exists x0, nth_error (s_out s) j = Some x0 /\ pm_to x0 = pm_to x /\ (numb (pm_msg x0) = None -> numb (pm_msg x) = None)).
  { intros j x. rewrite LeadLinks.upd_nth by auto. destruct (Nat.eqb_spec j i) as [->|]; intros Hx; [injection Hx as <-; exists (mkPM P p (MAcceptDecide b sq d0 es)); cbn; auto|eauto]. }
  assert (Ho : p <> q -> outs q (upd (s_out s) i (mkPM P p (MAcceptDecide b sq d es'))) = outs q (s_out s)) by (intros; eapply outs_other; eauto).
  assert (Hs : p = q -> exists X Y, outs q (s_out s) = X ++ MAcceptDecide b sq d0 es :: Y /\ Forall (fun m => numb m = None) Y /\ outs q (upd (s_out s) i (mkPM P p (MAcceptDecide b sq d es'))) = X ++ MAcceptDecide b sq d es' :: Y).
  { intros ->. destruct (outs_at q (s_out s) i P _ Hm (H8 _ _ Hv)) as (X & Y & A & B & C). exists X, Y. auto. }
  split; [|split; [reflexivity|split; [|split; [|reflexivity]]]].
  - constructor; cbn [s_role s_phase s_ls s_pid s_is s_out set_out]; auto.
    + intros p' b' i' Hm'. destruct (H7 _ _ _ Hm') as (-> & m' & A & B). split; auto. rewrite LeadLinks.upd_nth by auto. destruct (Nat.eqb_spec i' i) as [->|]; [|eauto].
      rewrite Hm in A. injection A as -> <-. exists (MAcceptDecide b sq d es'). auto.
    + intros b' i' Hm' j x Hj Hx Hto. destruct (Hn j x Hx) as (x0 & A & B & C). apply C. eapply H8; eauto. congruence.
    + destruct (Nat.eq_dec p q) as [Hp|Hp]; [|rewrite (Ho Hp); exact H9]. destruct (Hs Hp) as (X & Y & A & B & C). rewrite C. rewrite A in H9. apply Forall_app in H9. destruct H9 as [H9 H9']. inversion H9' as [|? ? K1 K2]. subst. apply Forall_app. split; auto.
    + exists sq0. split; auto. destruct (Nat.eq_dec p q) as [Hp|Hp]; [|rewrite (Ho Hp); exact H10']. destruct (Hs Hp) as (X & Y & A & B & C). rewrite C. rewrite A in H10'. rewrite !nums_app in *. exact H10'.
  - intros Hp Hd. unfold LD. cbn [s_out set_out s_is]. destruct (Hs Hp) as (X & Y & A & B & C). rewrite C. rewrite app_assoc, last_app, last_cons, (nn_dec Y B). cbn [decof]. exact Hd.
  - intros Hp HD. unfold LD in *. cbn [s_out set_out s_is]. rewrite (Ho Hp). exact HD.
Qed.
Lemma push_li a s p l1 l2 sq m d : LI0 a s -> vget (l_accmeta (s_ls s)) p = Some None ->
  l_proms l1 = l_proms (s_ls s) -> l_seqs l1 = l_seqs (s_ls s) -> l_n l1 = l_n (s_ls s) -> l_accs l1 = l_accs (s_ls s) ->
  (l_accmeta l1 = l_accmeta (s_ls s) \/ (is_accdec m = true /\ vset (l_accmeta (s_ls s)) p (Some (n, length (s_out s))) = Some (l_accmeta l1))) ->
  next_seq_num l1 p = Some (l2, sq) -> numb m = Some (n, sq) -> decof m = Some d -> lmsg n m ->
  let s' := push (set_ls s l2) p m in
  LI0 a s' /\ i_dec (s_is s') = i_dec (s_is s) /\ (p = q -> d = i_dec (s_is s) -> LD s') /\ (p <> q -> LD s -> LD s') /\ l_proms (s_ls s') = l_proms (s_ls s).
Proof.
  intros H Hv E1 E2 E3 E5 E4 Hn Hm Hd Hl. unfold next_seq_num in Hn. destruct (vget (l_seqs l1) p) as [s0|] eqn:Hg; [|discriminate]. destruct (vset (l_seqs l1) p _) as [v|] eqn:Hs; [|discriminate]. cbn in Hn. injection Hn as <- <-.
  destruct H as [H1 H2 H3 H4 H5 H6 H7 H8 H9 (sq0 & H10 & H10') H11]. set (sq := mkSeq (sq_sess s0) (sq_ctr s0 + 1)) in *.
  assert (Ho : outs q (s_out s ++ [mkPM P p m]) = outs q (s_out s) ++ (if p =? q then [m] else [])) by (rewrite Op.outs_app, Op.outs_one; reflexivity).
  cbn zeta. unfold push. cbn [s_pid set_ls]. rewrite H4.
  split; [|split; [reflexivity|split; [|split; [|cbn; congruence]]]].
  - constructor; cbn [s_role s_phase s_ls s_pid s_is s_out set_out set_ls l_n l_set_seqs l_proms l_accmeta l_seqs l_accs]; auto; try congruence.
    + rewrite E1. exact H6.
    + intros p' b i Hm'. destruct E4 as [E4|[E4 E4']]; [rewrite E4 in Hm'; destruct (H7 _ _ _ Hm') as (-> & m' & A & B); split; auto; exists m'; split; auto; apply nth_grow; auto|].
      rewrite (LeadLinks.vget_vset _ _ _ _ p' E4') in Hm'. destruct (Nat.eqb_spec p' p) as [->|Hne]; [|destruct (H7 _ _ _ Hm') as (-> & m' & A & B); split; auto; exists m'; split; auto; apply nth_grow; auto].
      injection Hm' as <- <-. split; auto. exists m. split; auto. rewrite nth_error_app2, Nat.sub_diag by lia. reflexivity.
    + intros b i Hm' j x Hj Hx Hto. destruct (Nat.eq_dec p q) as [Hp|Hp].
      * destruct E4 as [E4|[E4 E4']]; [rewrite E4 in Hm'; congruence|]. rewrite Hp in E4'. rewrite (LeadLinks.vget_vset _ _ _ _ q E4'), Nat.eqb_refl in Hm'. injection Hm' as <- <-.
        exfalso. assert (j < length (s_out s ++ [mkPM P p m])) by (apply nth_error_Some; congruence). rewrite app_length in H. cbn in H. lia.
      * assert (Hmq : vget (l_accmeta (s_ls s)) q = Some (Some (b, i))). { destruct E4 as [E4|[E4 E4']]; [rewrite E4 in Hm'; exact Hm'|]. rewrite (LeadLinks.vget_vset _ _ _ _ q E4') in Hm'. destruct (Nat.eqb_spec q p); [congruence|exact Hm']. }
        destruct (Nat.lt_ge_cases j (length (s_out s))) as [Hjl|Hjl]; [rewrite nth_error_app1 in Hx by auto; eapply H8; eauto|]. rewrite nth_error_app2 in Hx by auto. apply nth_error_In in Hx. destruct Hx as [<-|[]]. cbn in Hto. congruence.
    + rewrite Ho. apply Forall_app. split; auto. destruct (p =? q); auto.
    + rewrite Ho, (LeadLinks.vget_vset _ _ _ _ q Hs), E2. destruct (Nat.eqb_spec q p) as [Hp|Hp].
      * exists sq. split; auto. rewrite <- Hp, Nat.eqb_refl, app_assoc, nums_app. cbn [nums flat_map]. rewrite Hm. cbn [app]. rewrite E2, <- Hp, H10 in Hg. injection Hg as <-. apply chain_snoc. exact H10'.
      * exists sq0. split; auto. destruct (Nat.eqb_spec p q); [congruence|]. rewrite app_nil_r. exact H10'.
  - intros Hp HD. unfold LD. cbn [s_out set_out s_is set_ls]. rewrite Ho, Hp, Nat.eqb_refl, app_assoc, last_app, last_cons. unfold lastof at 1 2. cbn [fold_left]. rewrite Hd. exact HD.
  - intros Hp HD. unfold LD in *. cbn [s_out set_out s_is set_ls]. rewrite Ho. apply Nat.eqb_neq in Hp. rewrite Hp, app_nil_r. exact HD.
Qed.
Lemma nsn_n l p l' sq : next_seq_num l p = Some (l', sq) -> l_n l' = l_n l.
Proof. unfold next_seq_num. destruct (vget (l_seqs l) p); [|discriminate]. destruct (vset _ _ _); [|discriminate]. intros X. injection X as <- _. reflexivity. Qed.
Definition step_ok (a d p : nat) (s s' : sp) : Prop :=
  LI0 a s' /\ i_dec (s_is s') = i_dec (s_is s) /\ (p = q -> d = i_dec (s_is s) -> LD s') /\ (p <> q -> LD s -> LD s') /\ l_proms (s_ls s') = l_proms (s_ls s).
Lemma send_ad_to_li a d es s p s' : LI0 a s -> send_acceptdecide_to d es s p = Ok s' -> step_ok a d p s s'.
Proof.
  intros H. unfold send_acceptdecide_to. intros He. apply Takeover.lift_bind in He. destruct He as (r & Hr & He). pose proof (latest_li _ _ _ _ H Hr) as X. destruct r as [i|].
  - injection He as <-. destruct X as (X1 & m & X2 & X3). eapply mod_li; eauto. intros b sq d0 es0. cbn. eauto.
  - apply Takeover.lift_bind in He. destruct He as (l1 & H1 & He). apply Takeover.lift_bind in He. destruct He as ([l2 sq] & H2 & He). injection He as <-.
    unfold set_latest_accept_meta in H1. destruct (vset _ _ _) as [v|] eqn:Hs; [|discriminate]. cbn in H1, Hs. injection H1 as <-. rewrite (li_n _ _ H) in Hs.
    assert (Hn2 : l_n l2 = n) by (rewrite (nsn_n _ _ _ _ H2); exact (li_n _ _ H)).
    rewrite Hn2. eapply (push_li a s p _ l2 sq (MAcceptDecide n sq d es) d H X); [..|exact H2|reflexivity|reflexivity|reflexivity]; try reflexivity. right. split; [reflexivity|exact Hs].
Qed.
Lemma acc_to_li a d s p s' : LI0 a s -> handle_accepted_to d s p = Ok s' -> step_ok a d p s s'.
Proof.
  intros H. unfold handle_accepted_to. intros He. apply Takeover.lift_bind in He. destruct He as (r & Hr & He). pose proof (latest_li _ _ _ _ H Hr) as X. destruct r as [i|].
  - injection He as <-. destruct X as (X1 & m & X2 & X3). eapply mod_li; eauto. intros b sq d0 es0. cbn. eauto.
  - unfold send_decide in He. apply Takeover.lift_bind in He. destruct He as ([l2 sq] & H2 & He). injection He as <-.
    assert (Hn2 : l_n l2 = n) by (rewrite (nsn_n _ _ _ _ H2); exact (li_n _ _ H)).
    rewrite Hn2. eapply (push_li a s p (s_ls s) l2 sq (MDecide n sq d) d H X); [..|exact H2|reflexivity|reflexivity|reflexivity]; auto.
Qed.
Lemma for_each_li a d f : (forall s p s', LI0 a s -> f s p = Ok s' -> step_ok a d p s s') ->
  forall l s s', LI0 a s -> i_dec (s_is s) = d -> (LD s \/ In q l) -> for_each s l f = Ok s' -> LI a s' /\ l_proms (s_ls s') = l_proms (s_ls s).
Proof.
  intros Hf. induction l as [|p l IH]; cbn [for_each]; intros s s' H Hd HD He.
  - injection He as <-. split; [split; auto; destruct HD as [HD|[]]; exact HD|reflexivity].
  - apply Takeover.bind_inv in He. destruct He as (s1 & H1 & He). destruct (Hf _ _ _ H H1) as (K1 & K2 & K3 & K4 & K5). destruct (IH s1 s' K1) as [L1 L2]; auto; [congruence| |split; auto; congruence].
    destruct (Nat.eq_dec p q) as [Hp|Hp]; [left; apply K3; auto|]. destruct HD as [HD|[HD|HD]]; [left; apply K4; auto|congruence|right; exact HD].
Qed.
Lemma promised_q a s ps : LI0 a s -> get_promised_followers (s_ls s) = Some ps -> In q ps.
Proof. intros H Hp. apply LeadLinks.gpf_spec in Hp. apply Hp. rewrite (li_n _ _ H), HnP. split; auto. exact (li_prom _ _ H). Qed.
Lemma send_ad_li a s es s' : LI a s -> send_acceptdecide s es = Ok s' -> LI a s'.
Proof.
  intros [H HD]. unfold send_acceptdecide. intros He. apply Takeover.lift_bind in He. destruct He as (ps & Hps & He). eapply for_each_li in He; eauto; [exact (proj1 He)|]. intros s1 p s2 H1 H2. eapply send_ad_to_li; eauto.
Qed.

(** ** Steps without numbered messages to the follower *)
Lemma ntl_outl s l : quiet q l -> ntl s (set_out s (s_out s ++ l)).
Proof. intros H. constructor; auto. exists l. auto. Qed.
Lemma ntl_push s p m : (p = q -> numb m = None) -> ntl s (push s p m).
Proof. intros H. apply ntl_outl. constructor; [exact H|constructor]. Qed.
Lemma ntl_push_all s l m : numb m = None -> ntl s (push_all s l m).
Proof. intros H. rewrite Takeover.push_all_f. apply ntl_outl. unfold quiet. rewrite Forall_map. apply Forall_forall. intros x _ _. exact H. Qed.
Lemma ntl_is s is : i_dec is = i_dec (s_is s) -> i_ss is = i_ss (s_is s) -> ntl s (set_is s is).
Proof. intros H1 H2. constructor; auto. exists []. rewrite app_nil_r. split; auto. constructor. Qed.
Lemma ntl_ls s l : l_n l = l_n (s_ls s) -> vget (l_proms l) q = vget (l_proms (s_ls s)) q -> (forall p x, vget (l_accmeta l) p = Some (Some x) -> vget (l_accmeta (s_ls s)) p = Some (Some x)) ->
  vget (l_seqs l) q = vget (l_seqs (s_ls s)) q -> vget (l_accs l) q = vget (l_accs (s_ls s)) q -> ntl s (set_ls s l).
Proof. intros. constructor; auto. exists []. rewrite app_nil_r. split; auto. constructor. Qed.
Lemma vset_other {A} (l : list A) p x v : vset l p x = Some v -> p <> q -> vget v q = vget l q.
Proof. intros H Hp. rewrite (LeadLinks.vget_vset _ _ _ _ q H). destruct (Nat.eqb_spec q p); congruence. Qed.

Definition Gone (s : sp) : Prop := s_role s = Follower \/ l_n (s_ls s) <> n \/ i_ss (s_is s) <> None.
Definition gl (s s' : sp) : Prop := Gone s' \/ ntl s s'.
Lemma gl_refl s : gl s s. Proof. right. apply ntl_refl. Qed.
Lemma li_gl a s s' : LI a s -> gl s s' -> LI a s' \/ Gone s'.
Proof. intros H [K|K]; auto. left. eapply li_ntl; eauto. Qed.

Lemma accsync_n s p s' : p <> q -> send_accsync s p = Ok s' -> ntl s s'.
Proof.
  intros Hp. unfold send_accsync. intros H. apply Takeover.lift_bind in H. destruct H as (m & _ & H). apply Takeover.lift_bind in H. destruct H as (fd & _ & H). cbn zeta in H. apply Takeover.lift_bind in H. destruct H as (sy & _ & H).
  apply Takeover.lift_bind in H. destruct H as (l1 & H1 & H). apply Takeover.lift_bind in H. destruct H as ([l2 sq] & H2 & H). injection H as <-.
  unfold increment_seq_num_session in H1. destruct (vget (l_seqs (s_ls s)) p) as [x|]; [|discriminate]. destruct (vset (l_seqs (s_ls s)) p _) as [v|] eqn:V1; [|discriminate]. injection H1 as <-.
  unfold next_seq_num in H2. cbn [l_seqs l_set_seqs] in H2. destruct (vget v p) as [y|]; [|discriminate]. destruct (vset v p _) as [v2|] eqn:V2; [|discriminate]. injection H2 as <- <-.
  eapply ntl_trans; [|apply ntl_push; intros; congruence]. apply ntl_ls; auto. cbn. rewrite (vset_other _ _ _ _ V2 Hp). apply (vset_other _ _ _ _ V1 Hp).
Qed.
Lemma promise_n s p from s' : from <> q -> handle_promise_accept s p from = Ok s' -> ntl s s'.
Proof.
  intros Hp. unfold handle_promise_accept. destruct (beq _ _); [|intros H; injection H as <-; apply ntl_refl]. intros H. apply Takeover.lift_bind in H. destruct H as ([l m] & H1 & H).
  apply (accsync_n _ _ _ Hp) in H. eapply ntl_trans; [|exact H]. unfold ls_set_promise in H1. cbn [andb] in H1. destruct (vset _ _ _) as [v|] eqn:V; [|discriminate]. injection H1 as <- _. apply ntl_ls; auto. cbn. apply (vset_other _ _ _ _ V Hp).
Qed.
Lemma preparereq_n s b from s' : from <> q -> handle_preparereq s b from = Ok s' -> ntl s s'.
Proof.
  intros Hp. unfold handle_preparereq. destruct (role_eqb _ _ && _); [|intros H; injection H as <-; apply ntl_refl]. intros H. apply Takeover.lift_bind in H. destruct H as (l1 & H1 & H). apply Takeover.lift_bind in H. destruct H as (l2 & H2 & H). injection H as <-.
  unfold reset_promise in H1. destruct (vset (l_proms (s_ls s)) from NotPromised) as [v|] eqn:V; [|discriminate]. injection H1 as <-.
  unfold set_latest_accept_meta in H2. destruct (vset (l_accmeta _) _ _) as [w|] eqn:W; [|discriminate]. injection H2 as <-. cbn in W.
  unfold send_prepare. eapply ntl_trans; [|apply ntl_push; auto]. apply ntl_ls; auto; cbn; [apply (vset_other _ _ _ _ V Hp)|]. intros p x. rewrite (LeadLinks.vget_vset _ _ _ _ p W). destruct (p =? from); [discriminate|auto].
Qed.
Lemma blt_irr (b : ballot) : blt b b = false.
Proof. unfold blt, bcmp. rewrite !Nat.compare_refl. reflexivity. Qed.
Lemma notaccepted_n a s b from s' : LI0 a s -> (from = q -> b = n) -> handle_notaccepted s b from = Ok s' -> ntl s s'.
Proof.
  intros L Hb. unfold handle_notaccepted. destruct (role_eqb _ _ && _) eqn:C; [|intros H; injection H as <-; apply ntl_refl]. intros H. apply Takeover.lift_bind in H. destruct H as (l1 & H1 & H). injection H as <-.
  destruct (Nat.eq_dec from q) as [Hq|Hq].
  - exfalso. rewrite (Hb Hq), (li_n _ _ L), blt_irr, andb_false_r in C. discriminate.
  - unfold lost_promise in H1. destruct (vset (l_proms (s_ls s)) from PromisedHigher) as [v|] eqn:V; [|discriminate]. injection H1 as <-. apply ntl_ls; auto. cbn. apply (vset_other _ _ _ _ V Hq).
Qed.
Lemma reconnected_g s p : gl s (reconnected s p).
Proof.
  unfold reconnected. destruct (p =? s_pid s); [apply gl_refl|]. destruct (p =? sp_leader s); [left; left; reflexivity|]. right. apply ntl_push. auto.
Qed.
Lemma prepare_g s b d na k from s' : handle_prepare s b d na k from = Ok s' -> gl s s'.
Proof.
  unfold handle_prepare. destruct (_ || _); [|intros H; injection H as <-; apply gl_refl]. cbn zeta. intros H. apply Takeover.bind_inv in H. destruct H as (sy & _ & H). injection H as <-. left. left. reflexivity.
Qed.
Lemma check_g s b s1 v : check_valid_ballot s b = (s1, v) -> if v then s1 = s /\ bcmp (i_prom (s_is s)) b = Eq else gl s s1.
Proof.
  unfold check_valid_ballot. destruct (bcmp _ _) eqn:C; intros H; injection H as <- <-; auto; [apply reconnected_g|]. right. apply ntl_push. auto.
Qed.
Lemma acceptsync_g a s b sq d sy from s' : LI0 a s -> handle_acceptsync s b sq d sy from = Ok s' -> gl s s'.
Proof.
  intros L. unfold handle_acceptsync. destruct (check_valid_ballot s b) as [s1 v] eqn:C. apply check_g in C. destruct v; cbn [andb]; [|intros H; injection H as <-; exact C]. destruct C as [-> _]. rewrite (li_r _ _ L). cbn. intros H. injection H as <-. apply gl_refl.
Qed.
Lemma acceptdecide_g a s b sq d es s' : LI0 a s -> handle_acceptdecide s b sq d es = Ok s' -> gl s s'.
Proof.
  intros L. unfold handle_acceptdecide. destruct (check_valid_ballot s b) as [s1 v] eqn:C. apply check_g in C. destruct v; cbn [andb]; [|intros H; injection H as <-; exact C]. destruct C as [-> _]. rewrite (li_r _ _ L). cbn. intros H. injection H as <-. apply gl_refl.
Qed.
Lemma acceptss_g a s b sq ss s' : LI0 a s -> handle_accept_stopsign s b sq ss = Ok s' -> gl s s'.
Proof.
  intros L. unfold handle_accept_stopsign. destruct (check_valid_ballot s b) as [s1 v] eqn:C. apply check_g in C. destruct v; cbn [andb]; [|intros H; injection H as <-; exact C]. destruct C as [-> _]. rewrite (li_r _ _ L). cbn. intros H. injection H as <-. apply gl_refl.
Qed.
Lemma decide_g a s b sq d s' : LI0 a s -> Chosen.nodecide s b -> handle_decide s b sq d = Ok s' -> gl s s'.
Proof.
  intros L N. unfold handle_decide. destruct (check_valid_ballot s b) as [s1 v] eqn:C. apply check_g in C. destruct v; cbn [andb]; [|intros H; injection H as <-; exact C]. destruct C as [-> C]. exfalso. exact (N (li_r _ _ L) C).
Qed.
Lemma ntl_ieq s is : Chosen.ieq (s_is s) is -> ntl s (set_is s is).
Proof. intros (A & _ & C & _). apply ntl_is; auto. Qed.
Lemma trim_g s i s' r : sp_trim s i = Ok (s', r) -> gl s s'.
Proof.
  unfold sp_trim. destruct (s_role s); [intros H; injection H as <- _; apply gl_refl|]. destruct (get_min_all_accepted_idx _) as [mn|]; cbn [lift bind]; [|discriminate].
  assert (Main : forall k, ('(is, r) <- try_trim (s_is s) k ;;
        let s := set_is s is in
        match r with
        | None => Ok (push_all s (s_peers s) (MCompaction (CmpTrim k)), None)
        | Some e => Ok (s, Some e)
        end) = Ok (s', r) -> gl s s').
  { intros k. destruct (try_trim _ _) as [[is r0]|tr] eqn:Ht; [|discriminate]. apply Chosen.trim_i in Ht. cbn [bind]. right. destruct r0; injection H as <- _; [apply ntl_ieq; auto|]. eapply ntl_trans; [apply ntl_ieq; exact Ht|apply ntl_push_all; reflexivity]. }
  cbn zeta. destruct i as [i|]; [|apply Main]. destruct (i <=? mn); [apply Main|intros H; injection H as <- _; apply gl_refl].
Qed.
Lemma snapshot_g s i l s' r : sp_snapshot s i l = Ok (s', r) -> gl s s'.
Proof.
  unfold sp_snapshot. destruct (try_snapshot _ _) as [[is r0]|tr] eqn:Ht; [|discriminate]. apply Chosen.snapshot_i in Ht. cbn [bind]. right. destruct r0; injection H as <- _; [apply ntl_ieq; auto|].
  destruct l; [apply ntl_ieq; auto|]. eapply ntl_trans; [apply ntl_ieq; exact Ht|apply ntl_push_all; reflexivity].
Qed.
Lemma compaction_g s c s' : handle_compaction s c = Ok s' -> gl s s'.
Proof.
  unfold handle_compaction. destruct c as [i|i].
  - destruct (try_trim _ _) as [[is r]|tr] eqn:Ht; [|discriminate]. apply Chosen.trim_i in Ht. cbn. intros H. injection H as <-. right. apply ntl_ieq; auto.
  - destruct (sp_snapshot s i true) as [[s1 r]|tr] eqn:Ht; [|discriminate]. cbn. intros H. injection H as <-. eapply snapshot_g; eauto.
Qed.

(** ** The leader's log grows *)
Lemma ntl_setacc s i l : s_pid s = P -> set_accepted_idx (s_ls s) (s_pid s) i = Some l -> ntl s (set_ls s l).
Proof. intros Hp H. apply ntl_ls; unfold set_accepted_idx in H; destruct (vset _ _ _) as [v|] eqn:V; try discriminate; injection H as <-; auto. cbn. apply (vset_other _ _ _ _ V). congruence. Qed.
Lemma meta_li a s is (r : option (nat * list T)) s' : LI a s -> i_dec is = i_dec (s_is s) -> i_ss is = i_ss (s_is s) ->
  match r with Some (acc, es) => ls <- lift (set_is s is) (set_accepted_idx (s_ls (set_is s is)) (s_pid (set_is s is)) acc) ;; send_acceptdecide (set_ls (set_is s is) ls) es | None => Ok (set_is s is) end = Ok s' -> LI a s'.
Proof.
  intros L H1 H2. pose proof (li_ntl _ _ _ L (ntl_is _ _ H1 H2)) as L1. destruct r as [[acc es]|]; [|intros H; injection H as <-; exact L1]. intros H. apply Takeover.lift_bind in H. destruct H as (l & Hl & H).
  eapply send_ad_li; [|exact H]. eapply li_ntl; [exact L1|]. eapply ntl_setacc; [|exact Hl]. exact (li_pid _ _ (proj1 L)).
Qed.
Lemma accept_entry_li a s e s' : LI a s -> accept_entry_leader s e = Ok s' -> LI a s'.
Proof.
  intros L. unfold accept_entry_leader, append_entry_with_batching, cache_append_entry. pose proof (Chosen.full_x (c_set_batch (i_ca (s_is s)) (c_batch (i_ca (s_is s)) ++ [e]))) as X.
  destruct (take_entries_if_batch_is_full _) as [c r]. pose proof (Chosen.fifb_x (set_ca (s_is s) c) r) as Y. destruct (flush_if_full_batch _ _) as [is m]. destruct X as (X1 & X2 & X3), Y as (Y1 & Y2 & Y3 & Y4 & Y5).
  apply meta_li; auto; unfold i_dec, i_ss in *; cbn in *; congruence.
Qed.
Lemma accept_entries_li a s es s' : LI a s -> accept_entries_leader s es = Ok s' -> LI a s'.
Proof.
  intros L. unfold accept_entries_leader, append_entries_with_batching, cache_append_entries. pose proof (Chosen.full_x (c_set_batch (i_ca (s_is s)) (c_batch (i_ca (s_is s)) ++ es))) as X.
  destruct (take_entries_if_batch_is_full _) as [c r]. pose proof (Chosen.fifb_x (set_ca (s_is s) c) r) as Y. destruct (flush_if_full_batch _ _) as [is m]. destruct X as (X1 & X2 & X3), Y as (Y1 & Y2 & Y3 & Y4 & Y5).
  apply meta_li; auto; unfold i_dec, i_ss in *; cbn in *; congruence.
Qed.
Lemma flush_leader_li a s s' : LI a s -> flush_batch_leader s = Ok s' -> LI a s'.
Proof.
  intros L. unfold flush_batch_leader, flush_batch_and_get_entries. destruct (c_batch (i_ca (s_is s))) as [|e es] eqn:Hb.
  - cbn. intros H. injection H as <-. eapply li_ntl; [exact L|]. apply ntl_is; auto.
  - destruct (take_batched_entries (i_ca (s_is s))) as [c l] eqn:Ht. injection Ht as <- _.
    pose proof (Chosen.fifb_x (set_ca (s_is s) (c_set_batch (i_ca (s_is s)) [])) (Some l)) as Y. destruct (flush_if_full_batch _ _) as [is m]. destruct Y as (Y1 & Y2 & Y3 & Y4 & Y5).
    apply meta_li; auto.
Qed.
Lemma push_ss_x ss b s to s' : send_accept_stopsign ss b s to = Ok s' -> i_ss (s_is s') = i_ss (s_is s).
Proof. unfold send_accept_stopsign. intros H. apply Takeover.lift_bind in H. destruct H as ([l sq] & _ & H). injection H as <-. reflexivity. Qed.
Lemma send_ad_to_x d es s p s' : send_acceptdecide_to d es s p = Ok s' -> i_ss (s_is s') = i_ss (s_is s).
Proof.
  unfold send_acceptdecide_to. intros H. apply Takeover.lift_bind in H. destruct H as ([i|] & _ & H); [injection H as <-; unfold mod_accdec; destruct (nth_error _ _); reflexivity|].
  apply Takeover.lift_bind in H. destruct H as (l1 & _ & H). apply Takeover.lift_bind in H. destruct H as ([l2 sq] & _ & H). injection H as <-. reflexivity.
Qed.
Lemma for_each_x f : (forall s p s', f s p = Ok s' -> i_ss (s_is s') = i_ss (s_is s)) -> forall l s s', for_each s l f = Ok s' -> i_ss (s_is s') = i_ss (s_is s).
Proof.
  intros Hf. induction l as [|p l IH]; cbn; intros s s' H; [injection H as <-; auto|]. apply Takeover.bind_inv in H. destruct H as (s1 & H1 & H). rewrite (IH _ _ H). eapply Hf; eauto.
Qed.
Lemma append_ss_some (s : istore) ss is m : i_append_stopsign s ss = (is, m) -> i_ss is <> None.
Proof. unfold i_append_stopsign, cache_append_stopsign. cbn [c_set_ss c_batch]. destruct (c_batch (i_ca s)); cbn; intros H; injection H as <- _; cbn; discriminate. Qed.
Lemma accept_ss_gone s ss s' : accept_stopsign_leader s ss = Ok s' -> Gone s'.
Proof.
  unfold accept_stopsign_leader. destruct (i_append_stopsign (s_is s) ss) as [is r] eqn:Ha. apply append_ss_some in Ha. intros H. apply Takeover.bind_inv in H. destruct H as (s1 & H1 & H).
  assert (X : i_ss (s_is s1) = i_ss is).
  { destruct r as [[acc es]|]; [|injection H1 as <-; reflexivity]. unfold send_acceptdecide in H1. apply Takeover.lift_bind in H1. destruct H1 as (ps & _ & H1). apply for_each_x in H1; [exact H1|]. intros; eapply send_ad_to_x; eauto. }
  apply Takeover.lift_bind in H. destruct H as (l & _ & H). apply Takeover.lift_bind in H. destruct H as (ps & _ & H). apply for_each_x in H; [|intros; eapply push_ss_x; eauto]. right. right. rewrite H. cbn. congruence.
Qed.
Lemma no_reconf a s : LI0 a s -> accepted_reconfiguration s = false.
Proof. intros L. unfold accepted_reconfiguration. rewrite (li_ss _ _ L). reflexivity. Qed.
Lemma accepted_li a s b k from s' : LI a s -> (from = q -> b = n) -> handle_accepted s b k from = Ok s' -> LI (if from =? q then k else a) s'.
Proof.
  intros [L D] Hb. unfold handle_accepted. rewrite (li_r _ _ L), (li_p _ _ L). cbn [role_eqb phase_eqb andb]. rewrite andb_true_r. destruct (beq b (l_n (s_ls s))) eqn:Hn.
  2:{ intros H. injection H as <-. destruct (Nat.eqb_spec from q) as [Hq|]; [|split; auto]. exfalso. rewrite (Hb Hq), (li_n _ _ L) in Hn. assert (X : beq n n = true) by (apply beq_spec; reflexivity). congruence. }
  intros H. apply Takeover.lift_bind in H. destruct H as (l & Hl & H).
  assert (L1 : LI (if from =? q then k else a) (set_ls s l)).
  { pose proof (Chosen.setacc_v _ _ _ _ Hl q) as V. unfold set_accepted_idx in Hl. destruct (vset _ _ _) as [v|]; [|discriminate]. injection Hl as <-. cbn in V. rewrite (Nat.eqb_sym q from) in V. destruct L as [H1 H2 H3 H4 H5 H6 H7 H8 H9 H10 H11].
    split; [|exact D]. constructor; auto. cbn. rewrite V. destruct (from =? q); auto. }
  cbn [s_is set_ls s_ls] in H. destruct (_ && _); [|injection H as <-; exact L1]. apply Takeover.lift_bind in H. destruct H as (ps & Hps & H).
  assert (L2 : LI0 (if from =? q then k else a) (set_is (set_ls s l) (i_set_decided (s_is s) k))).
  { destruct L1 as [[H1 H2 H3 H4 H5 H6 H7 H8 H9 H10 H11] _]. constructor; auto. }
  eapply (for_each_li _ k) in H; [exact (proj1 H)|intros; eapply acc_to_li; eauto|exact L2|reflexivity|]. right. eapply (promised_q _ _ _ L2). exact Hps.
Qed.

(** ** Calls of the leader *)
Definition lapt (s : sp) (c : call) : Prop :=
  match c with
  | CHandle (MsgSP m) => (pm_from m = q -> qmsg n (pm_msg m)) /\ match pm_msg m with MDecide b _ _ => Chosen.nodecide s b | _ => True end
  | _ => True
  end.
Definition acc_after (a : nat) (c : call) : nat :=
  match c with CHandle (MsgSP m) => match pm_msg m with MAccepted _ k => if pm_from m =? q then k else a | _ => a end | _ => a end.
Lemma handle_li a s m s' : LI a s -> lapt s (CHandle (MsgSP m)) -> sp_handle s m = Ok s' -> LI (acc_after a (CHandle (MsgSP m))) s' \/ Gone s'.
Proof.
  intros L [Hq Hd]. pose proof (proj1 L) as L0. unfold sp_handle. cbn [acc_after]. destruct (pm_msg m) as [b|b d na k|p|b sq d sy|b sq d es|b k|b|b sq d|es|c|b sq ss|ss]; cbn in Hq.
  - intros H. left. eapply li_ntl; [exact L|]. eapply preparereq_n; [|exact H]. intros X. exact (Hq X).
  - intros H. eapply li_gl; [exact L|]. eapply prepare_g; eauto.
  - rewrite (li_r _ _ L0), (li_p _ _ L0). intros H. left. eapply li_ntl; [exact L|]. eapply promise_n; [|exact H]. intros X. exact (Hq X).
  - intros H. eapply li_gl; [exact L|]. eapply acceptsync_g; eauto.
  - intros H. eapply li_gl; [exact L|]. eapply acceptdecide_g; eauto.
  - intros H. left. eapply accepted_li; eauto.
  - intros H. left. eapply li_ntl; [exact L|]. eapply notaccepted_n; eauto.
  - intros H. eapply li_gl; [exact L|]. eapply decide_g; eauto.
  - unfold handle_forwarded_proposal. rewrite (no_reconf _ _ L0), (li_r _ _ L0), (li_p _ _ L0). intros H. left. eapply accept_entries_li; eauto.
  - intros H. eapply li_gl; [exact L|]. eapply compaction_g; eauto.
  - intros H. eapply li_gl; [exact L|]. eapply acceptss_g; eauto.
  - unfold handle_forwarded_stopsign. rewrite (no_reconf _ _ L0), (li_r _ _ L0), (li_p _ _ L0). intros H. right. eapply accept_ss_gone; eauto.
Qed.
(** What [handle_leader] does to a leader that has taken over. *)
Definition restarted (s : sp) : Prop := s_role s = Follower \/ (s_phase s = PhPrepare /\ s_role s = Leader /\ l_n (s_ls s) <> n).
Lemma restarted_gone s : restarted s -> Gone s.
Proof. intros [H|(_ & _ & H)]; [left|right; left]; auto. Qed.
Lemma ble_refl (b : ballot) : ble b b = true.
Proof. unfold ble, bcmp. rewrite !Nat.compare_refl. reflexivity. Qed.
Lemma handle_leader_li a s b s' : LI a s -> handle_leader s b = Ok s' -> s' = s \/ restarted s'.
Proof.
  intros [L _]. unfold handle_leader. destruct (ble b (l_n (s_ls s)) || _) eqn:C; [intros H; injection H as <-; auto|]. apply orb_false_iff in C. destruct C as [C _]. destruct (s_pid s =? b_pid b).
  - intros H. apply Takeover.lift_bind in H. destruct H as ([l m] & Hl & H). cbn zeta in H. injection H as <-. right. right. rewrite Takeover.push_all_f. cbn. split; auto. split; auto.
    assert (X : l_n l = b). { unfold ls_set_promise in Hl. cbn in Hl. destruct (meta_gt _ _); destruct (vset _ _ _); try discriminate; injection Hl as <- _; reflexivity. }
    rewrite X. intros ->. rewrite (li_n _ _ L), ble_refl in C. discriminate.
  - intros H. injection H as <-. right. left. reflexivity.
Qed.
Lemma resend_li a s s' : LI a s -> resend_message_timeout s = Ok s' -> LI a s'.
Proof.
  intros L. pose proof (proj1 L) as L0. unfold resend_message_timeout, resend_messages_leader. rewrite (li_r _ _ L0), (li_p _ _ L0), (li_ss _ _ L0). cbn [bind]. intros H. apply Takeover.lift_bind in H. destruct H as (ps & _ & H). injection H as <-.
  eapply li_ntl; [exact L|]. rewrite PropAnswer.send_prepare_f. apply ntl_outl. unfold quiet. rewrite Forall_map. apply Forall_forall. auto.
Qed.
Lemma resend_restarted s s' : restarted s -> resend_message_timeout s = Ok s' -> restarted s'.
Proof.
  intros [H|(H1 & H2 & H3)]; unfold resend_message_timeout.
  - rewrite H. intros X. injection X as <-. left. unfold resend_messages_follower, send_preparereq_to_all_peers. destruct (s_phase s); auto; [destruct (s_cprom s); auto; rewrite Takeover.push_all_f; auto|rewrite Takeover.push_all_f; auto].
  - rewrite H2. unfold resend_messages_leader. rewrite H1. intros X. apply Takeover.lift_bind in X. destruct X as (ps & _ & X). injection X as <-. rewrite PropAnswer.send_prepare_f. right. auto.
Qed.
Lemma flush_restarted s s' : restarted s -> flush_batch_timeout s = Ok s' -> restarted s'.
Proof.
  intros H X. apply PropAnswer.flush_kept in X. destruct X as (_ & _ & _ & _ & _ & A & _ & B & C & _). unfold restarted in *. rewrite A, B, C. exact H.
Qed.
Lemma flush_li a s s' : LI a s -> flush_batch_timeout s = Ok s' -> LI a s'.
Proof. intros L. unfold flush_batch_timeout. rewrite (li_r _ _ (proj1 L)), (li_p _ _ (proj1 L)). apply flush_leader_li; auto. Qed.
Lemma tick_li a o o' : LI a (o_sp o) -> tick o = Ok o' -> LI a (o_sp o') \/ Gone (o_sp o').
Proof.
  intros L H. apply PropAnswer.tick3 in H. destruct H as (s1 & s2 & H1 & H2 & H3).
  assert (X : LI a s1 \/ restarted s1).
  { destruct (PropElect.due (o_eclk o)); [|destruct H1 as [_ ->]; auto]. destruct (hb_timeout _ _ _) as [b [r|]]; destruct H1 as [_ H1]; [|subst; auto]. destruct (handle_leader_li _ _ _ _ L H1) as [->|X]; auto. }
  assert (Y : LI a s2 \/ restarted s2). { destruct (PropElect.due (o_rclk o)); [|subst; auto]. destruct X as [X|X]; [left; eapply resend_li; eauto|right; eapply resend_restarted; eauto]. }
  destruct (PropElect.due (o_fclk o)); [|subst; destruct Y as [Y|Y]; auto using restarted_gone]. destruct Y as [Y|Y]; [left; eapply flush_li; eauto|right; apply restarted_gone; eapply flush_restarted; eauto].
Qed.
Lemma exec_li a o c o' r : LI a (o_sp o) -> lapt (o_sp o) c -> exec o c = Ok (o', r) -> LI (acc_after a c) (o_sp o') \/ Gone (o_sp o').
Proof.
  intros H0 Ha0. unfold exec. assert (L : LI a (o_sp (start_call o))). { eapply li_ntl; [exact H0|]. apply ntl_is; reflexivity. }
  assert (Ha : lapt (o_sp (start_call o)) c). { destruct c as [| | | | | | | |[m|m]]; auto. }
  clear H0 Ha0. set (o1 := start_call o) in *. clearbody o1. pose proof (proj1 L) as L0. destruct c as [e|cc0 meta| |i|i l|p| |p|m]; cbn [exec_call].
  - unfold sp_append, propose_entry. rewrite (no_reconf _ _ L0), (li_r _ _ L0), (li_p _ _ L0). destruct (accept_entry_leader _ _) as [s1|] eqn:H1; [|discriminate]. cbn. intros H. injection H as <- _. left. eapply accept_entry_li; eauto.
  - unfold reconfigure. destruct (cluster_validate cc0); [|intros H; injection H as <- _; auto]. unfold sp_reconfigure. rewrite (no_reconf _ _ L0), (li_r _ _ L0), (li_p _ _ L0). destruct (accept_stopsign_leader _ _) as [s1|] eqn:H1; [|discriminate]. cbn. intros H. injection H as <- _. right. eapply accept_ss_gone; eauto.
  - destruct (tick o1) as [o2|] eqn:H1; [|discriminate]. cbn. intros H. injection H as <- _. eapply tick_li; eauto.
  - destruct (sp_trim _ _) as [[s1 r1]|] eqn:H1; [|discriminate]. cbn. intros H. injection H as <- _. eapply li_gl; [exact L|]. eapply trim_g; eauto.
  - destruct (sp_snapshot _ _ _) as [[s1 r1]|] eqn:H1; [|discriminate]. cbn. intros H. injection H as <- _. eapply li_gl; [exact L|]. eapply snapshot_g; eauto.
  - cbn. intros H. injection H as <- _. eapply li_gl; [exact L|]. apply reconnected_g.
  - unfold try_become_leader. destruct (handle_leader _ _) as [s1|] eqn:H1; [|discriminate]. cbn. intros H. injection H as <- _. destruct (handle_leader_li _ _ _ _ L H1) as [X|X]; [left; cbn; rewrite X; exact L|right; apply restarted_gone; exact X].
  - intros H. injection H as <- _. auto.
  - unfold handle_incoming. destruct m as [m|m]; [|cbn; intros H; injection H as <- _; auto]. destruct (sp_handle _ _) as [s1|] eqn:H1; [|discriminate]. cbn [bind]. intros H. injection H as <- _. eapply handle_li; eauto.
Qed.
End Lead.

(** ** The follower *)
Section Foll.
Context (P q : nat) (n : ballot) (Hpq : q <> P) (HnP : b_pid n = P).
Context (pre : list pmsg) (ar : nat).

Definition held (s : sp) : nat := i_acc (s_is s) + length (c_batch (i_ca (s_is s))).
Record QI (s : sp) : Prop := {
  qi_r : s_role s = Follower;
  qi_p : s_phase s = PhAccept;
  qi_n : i_prom (s_is s) = n;
  qi_pid : s_pid s = q;
  qi_qm : Forall (qmsg n) (outs P (s_out s));
  qi_lam : forall i, s_lam s = Some (n, i) -> exists k, nth_error (s_out s) i = Some (mkPM q P (MAccepted n k));
  qi_lq : forall i, s_lam s = Some (n, i) -> forall j x, i < j -> nth_error (s_out s) j = Some x -> pm_to x = P -> accof (pm_msg x) = None;
  qi_last : match lastof accof (pre ++ outs P (s_out s)) with Some k => k = i_acc (s_is s) | None => ar = i_acc (s_is s) end
}.
Definition tame (l : list pmessage) : Prop := Forall (fun x => pm_to x = P -> qmsg n (pm_msg x) /\ accof (pm_msg x) = None) l.
(** The same state, but for entries that went from the batch to the log. *)
Record ntq (s s' : sp) : Prop := {
  nq_r : s_role s' = s_role s;
  nq_p : s_phase s' = s_phase s;
  nq_n : i_prom (s_is s') = i_prom (s_is s);
  nq_pid : s_pid s' = s_pid s;
  nq_lam : s_lam s' = s_lam s;
  nq_acc : i_acc (s_is s') = i_acc (s_is s);
  nq_held : held s' = held s;
  nq_dec : i_dec (s_is s') = i_dec (s_is s);
  nq_cseq : s_cseq s' = s_cseq s;
  nq_out : exists l, s_out s' = s_out s ++ l /\ tame l
}.
Lemma tame_outs l : tame l -> Forall (qmsg n) (outs P l) /\ Forall (fun m => accof m = None) (outs P l).
Proof.
  unfold tame, outs. induction 1 as [|x l H _ IH]; cbn; auto. destruct (Nat.eqb_spec (pm_to x) P) as [e|]; cbn; auto. destruct (H e), IH. auto.
Qed.
Lemma ntq_refl s : ntq s s.
Proof. constructor; auto. exists []. rewrite app_nil_r. split; auto. constructor. Qed.
Lemma ntq_trans a b c : ntq a b -> ntq b c -> ntq a c.
Proof.
  intros [A1 A2 A3 A4 A5 A6 A7 A8 A9 (l & A11 & A12)] [B1 B2 B3 B4 B5 B6 B7 B8 B9 (l' & B11 & B12)]. constructor; try congruence.
  exists (l ++ l'). rewrite B11, A11, app_assoc. split; auto. apply Forall_app. auto.
Qed.
Lemma qi_ntq s s' : QI s -> ntq s s' -> QI s'.
Proof.
  intros [H1 H2 H3 H4 H5 H6 H7 H8] [N1 N2 N3 N4 N5 N6 N7 N8 N9 (l & N10 & N11)]. destruct (tame_outs l N11) as [T1 T2]. constructor; try congruence.
  - rewrite N10, Op.outs_app. apply Forall_app. auto.
  - intros i Hi. rewrite N5 in Hi. destruct (H6 i Hi) as (k & Hk). exists k. rewrite N10. rewrite nth_error_app1; auto. apply nth_error_Some. congruence.
  - intros i Hi j x Hj Hx Hto. rewrite N5 in Hi. rewrite N10 in Hx. destruct (Nat.lt_ge_cases j (length (s_out s))) as [Hl|Hl].
    + rewrite nth_error_app1 in Hx by auto. eapply H7; eauto.
    + rewrite nth_error_app2 in Hx by auto. apply nth_error_In in Hx. unfold tame in N11. rewrite Forall_forall in N11. apply (N11 x Hx Hto).
  - rewrite N10, Op.outs_app, app_assoc, last_app, (last_none _ _ T2), N6. exact H8.
Qed.
Lemma ntq_outl s l : tame l -> ntq s (set_out s (s_out s ++ l)).
Proof. intros H. constructor; auto. exists l. auto. Qed.
Lemma ntq_push s p m : (p = P -> qmsg n m /\ accof m = None) -> ntq s (push s p m).
Proof. intros H. apply ntq_outl. constructor; [exact H|constructor]. Qed.
Lemma ntq_push_all s l m : qmsg n m -> accof m = None -> ntq s (push_all s l m).
Proof. intros H1 H2. rewrite Takeover.push_all_f. apply ntq_outl. unfold tame. rewrite Forall_map. apply Forall_forall. auto. Qed.

(** Entries are written and acknowledged. *)
Lemma nth_upd_same (l : list pmessage) i x y : nth_error l i = Some x -> nth_error (upd l i y) i = Some y.
Proof. intros H. rewrite LeadLinks.upd_nth by (apply nth_error_Some; congruence). rewrite Nat.eqb_refl. reflexivity. Qed.
Lemma outs_acc l i m : nth_error l i = Some (mkPM q P m) -> (forall j x, i < j -> nth_error l j = Some x -> pm_to x = P -> accof (pm_msg x) = None) ->
  exists X Y, outs P l = X ++ m :: Y /\ Forall (fun m => accof m = None) Y /\ forall m', outs P (upd l i (mkPM q P m')) = X ++ m' :: Y.
Proof.
  intros H Hq. pose proof (upd_split l i _ (mkPM q P m) H) as (A & B & E1 & E2 & _). exists (outs P A), (outs P B). subst l. rewrite Op.outs_app, outs_cons. cbn [pm_to pm_msg]. rewrite Nat.eqb_refl. split; [reflexivity|]. split.
  - assert (K : forall x, In x B -> pm_to x = P -> accof (pm_msg x) = None).
    { intros x Hx. apply In_nth_error in Hx. destruct Hx as (j & Hj). apply (Hq (S (i + j)) x); [lia|]. rewrite nth_error_app2 by lia. replace (S (i + j) - length A) with (S j) by lia. exact Hj. }
    clear - K. unfold outs. induction B as [|x B IH]; cbn; [constructor|]. destruct (Nat.eqb_spec (pm_to x) P); cbn; [constructor|]; try (apply K; cbn; auto); apply IH; intros y Hy; apply K; cbn; auto.
  - intros m'. rewrite <- E2, LeadSend.upd_mid_eq, Op.outs_app, outs_cons. cbn [pm_to pm_msg]. rewrite Nat.eqb_refl. reflexivity.
Qed.
Lemma reply_qi s is s' : QI s -> i_prom is = n -> reply_accepted (set_is s is) n (i_acc is) = Ok s' -> QI s' /\ s_is s' = is /\ s_cseq s' = s_cseq s.
Proof.
  intros [H1 H2 H3 H4 H5 H6 H7 H8] Hp. unfold reply_accepted. intros H. apply Takeover.lift_bind in H. destruct H as (r & Hr & H). unfold get_latest_accepted in Hr. cbn [s_lam set_is s_out] in Hr.
  assert (Hnn : beq n n = true) by (apply beq_spec; reflexivity).
  assert (New : r = None -> QI (push (set_lam (set_is s is) (Some (n, length (s_out s)))) P (MAccepted n (i_acc is)))).
  { intros _. constructor; unfold push; cbn [s_role set_out set_lam set_is s_phase s_is s_pid s_out s_lam]; auto.
    - rewrite Op.outs_app, Op.outs_one. cbn. rewrite Nat.eqb_refl. apply Forall_app. split; auto. repeat constructor.
    - intros i Hi. injection Hi as <-. exists (i_acc is). rewrite nth_error_app2, Nat.sub_diag by lia. cbn. rewrite H4. reflexivity.
    - intros i Hi j x Hj Hx. injection Hi as <-. assert (j < length (s_out s ++ [mkPM (s_pid s) P (MAccepted n (i_acc is))])) by (apply nth_error_Some; congruence). rewrite app_length in H0. cbn in H0. lia.
    - rewrite Op.outs_app, Op.outs_one. cbn. rewrite Nat.eqb_refl, app_assoc, last_app. reflexivity. }
  destruct r as [i|].
  - injection H as <-. destruct (s_lam s) as [[b i0]|] eqn:Hl; [|discriminate]. destruct (beq b n) eqn:Hb; [|discriminate]. apply beq_spec in Hb. subst b. destruct (H6 i0 eq_refl) as (k & Hk). rewrite Hk in Hr. cbn in Hr. injection Hr as ->.
    unfold mod_accdec. cbn [s_out set_is]. rewrite Hk. cbn [pm_from pm_to pm_msg reaccept]. split; [|split; reflexivity].
    destruct (outs_acc _ _ _ Hk (H7 i eq_refl)) as (X & Y & A & B & C). assert (Hlen : i < length (s_out s)) by (apply nth_error_Some; congruence).
    constructor; cbn [s_role set_out set_lam set_is s_phase s_is s_pid s_out s_lam]; auto.
    + rewrite C. rewrite A in H5. apply Forall_app in H5. destruct H5 as [K1 K2]. inversion K2; subst. apply Forall_app. split; auto.
    + intros i' Hi'. rewrite Hl in Hi'. injection Hi' as <-. exists (i_acc is). eapply nth_upd_same; eauto.
    + intros i' Hi' j x Hj. rewrite Hl in Hi'. injection Hi' as <-. rewrite LeadLinks.upd_nth by auto. destruct (Nat.eqb_spec j i); [lia|]. eauto.
    + rewrite C, app_assoc, last_app, last_cons, (last_none _ _ B). reflexivity.
  - injection H as <-. rewrite HnP. split; [apply New; reflexivity|]. split; reflexivity.
Qed.
(** Nothing is acknowledged when nothing was written. *)
Lemma held_qi s is : QI s -> i_prom is = n -> i_acc is = i_acc (s_is s) -> QI (set_is s is).
Proof. intros [H1 H2 H3 H4 H5 H6 H7 H8] Hp Ha. constructor; auto. cbn. rewrite Ha. exact H8. Qed.

Lemma fl_x (s : istore) : let '(is, acc) := flush_batch s in acc = i_acc is /\ i_acc is = i_acc s + length (c_batch (i_ca s)) /\ c_batch (i_ca is) = [] /\ i_prom is = i_prom s /\ i_dec is = i_dec s.
Proof. cbn. unfold i_acc, i_prom, i_dec. cbn. auto. Qed.
Lemma app_x (s : istore) es : let '(is, r) := append_entries_and_get_accepted_idx s es in
  i_acc is + length (c_batch (i_ca is)) = i_acc s + length (c_batch (i_ca s)) + length es /\ i_prom is = i_prom s /\ i_dec is = i_dec s /\ match r with Some k => k = i_acc is | None => i_acc is = i_acc s end.
Proof.
  unfold append_entries_and_get_accepted_idx, cache_append_entries, take_entries_if_batch_is_full. destruct (_ <=? _); cbn; unfold i_acc, i_prom, i_dec; cbn; rewrite ?app_length; cbn; repeat split; auto; lia.
Qed.
Definition QGone (s : sp) : Prop := s_role s = Leader \/ s_phase s <> PhAccept \/ i_prom (s_is s) <> n.
Definition gq (s s' : sp) : Prop := QGone s' \/ ntq s s'.
Lemma gq_refl s : gq s s. Proof. right. apply ntq_refl. Qed.

(** The decided index [d] of a message has been taken in. *)
Definition took (d : nat) (s' : sp) : Prop := Nat.min d (held s') <= i_dec (s_is s').
Lemma upd_qi s is r1 d s' : QI s -> i_prom is = n -> i_dec is = i_dec (s_is s) -> match r1 with Some k => k = i_acc is | None => i_acc is = i_acc (s_is s) end ->
  (let '(s0, r2) := update_decided (set_is s is) d in match (match r2 with Some _ => r2 | None => r1 end) with Some idx => reply_accepted s0 n idx | None => Ok s0 end) = Ok s' ->
  QI s' /\ s_cseq s' = s_cseq s /\ took d s'.
Proof.
  intros Q Hp Hd Hr. unfold update_decided. cbn [s_is set_is]. unfold took. destruct (Nat.leb_spec d (i_dec is)) as [H1|H1].
  - destruct r1 as [k|].
    + subst k. intros H. destruct (reply_qi _ _ _ Q Hp H) as (A & B & C). split; auto. split; auto. unfold held. rewrite B. lia.
    + intros H. injection H as <-. split; [apply held_qi; auto|]. split; [reflexivity|]. unfold held. cbn. lia.
  - destruct (Nat.ltb_spec (i_acc is) d) as [H2|H2].
    + pose proof (fl_x is) as X. destruct (flush_batch is) as [is2 acc]. destruct X as (-> & X2 & X3 & X4 & X5). intros H.
      change (set_is (set_is s is) (i_set_decided is2 (Nat.min d (i_acc is2)))) with (set_is s (i_set_decided is2 (Nat.min d (i_acc is2)))) in H.
      apply (reply_qi s (i_set_decided is2 (Nat.min d (i_acc is2)))) in H; [|exact Q|unfold i_prom in *; cbn; congruence].
      destruct H as (A & B & C). split; auto. split; auto. unfold held. rewrite B. cbn. rewrite X3. unfold i_dec, i_acc in *. cbn in *. lia.
    + destruct r1 as [k|].
      * intros H. change (set_is (set_is s is) (i_set_decided is d)) with (set_is s (i_set_decided is d)) in H. subst k. apply (reply_qi s (i_set_decided is d)) in H; [|exact Q|exact Hp].
        destruct H as (A & B & C). split; auto. split; auto. unfold held. rewrite B. unfold i_dec, i_acc in *. cbn in *. lia.
      * intros H. injection H as <-. split; [apply (held_qi s (i_set_decided is d)); auto|]. split; [reflexivity|]. unfold held, i_dec, i_acc in *. cbn in *. lia.
Qed.
Lemma seq_exp s sq : sq = snext (s_cseq s) -> check_msg_status (s_cseq s) sq = Expected.
Proof. intros ->. unfold check_msg_status, snext. cbn. rewrite !Nat.eqb_refl. reflexivity. Qed.
Lemma qi_cseq s x : QI s -> QI (set_cseq s x).
Proof. intros [H1 H2 H3 H4 H5 H6 H7 H8]. constructor; auto. Qed.
Lemma beq_cmp (b : ballot) : beq b n = true -> bcmp n b = Eq.
Proof. intros H. apply beq_spec in H. subst. unfold bcmp. rewrite !Nat.compare_refl. reflexivity. Qed.
Lemma check_q s b s1 v : QI s -> check_valid_ballot s b = (s1, v) -> if v then s1 = s /\ bcmp n b = Eq else gq s s1 /\ beq b n = false.
Proof.
  intros Q. assert (B : bcmp n b <> Eq -> beq b n = false) by (intros C; destruct (beq b n) eqn:Hb; auto; apply beq_cmp in Hb; congruence).
  unfold check_valid_ballot. rewrite (qi_n _ Q). destruct (bcmp n b) eqn:C; intros H; injection H as <- <-; auto; (split; [|apply B; discriminate]).
  - unfold reconnected. destruct (b_pid b =? s_pid s); [apply gq_refl|]. destruct (b_pid b =? sp_leader s) eqn:Hl; [left; right; left; discriminate|]. right. apply ntq_push. intros Hb. exfalso. apply Nat.eqb_neq in Hl. apply Hl. unfold sp_leader, sp_promise. rewrite (qi_n _ Q). congruence.
  - right. apply ntq_push. cbn. auto.
Qed.

(** ** Calls of the follower *)
Definition qapt (s : sp) (c : call) : Prop :=
  match c with
  | CHandle (MsgSP m) => forall b sq, numb (pm_msg m) = Some (b, sq) -> bcmp n b = Eq -> b = n /\ sq = snext (s_cseq s) /\ lmsg n (pm_msg m)
  | _ => True
  end.
(** A numbered message of the ballot. *)
Definition takes (c : call) : option (seqnum * nat) :=
  match c with
  | CHandle (MsgSP m) => match numb (pm_msg m), decof (pm_msg m) with Some (b, sq), Some d => if beq b n then Some (sq, d) else None | _, _ => None end
  | _ => None
  end.
Definition qres (c : call) (s s' : sp) : Prop :=
  QI s' /\ match takes c with
  | Some (sq, d) => sq = snext (s_cseq s) /\ s_cseq s' = sq /\ took d s'
  | None => s_cseq s' = s_cseq s /\ held s' = held s /\ i_dec (s_is s') = i_dec (s_is s)
  end.
Lemma qres_gq c s s' : QI s -> takes c = None -> gq s s' -> qres c s s' \/ QGone s'.
Proof. intros Q T [H|H]; auto. left. split; [eapply qi_ntq; eauto|]. rewrite T. destruct H; auto. Qed.
Lemma forward_q s es : QI s -> ntq s (forward_proposals s es).
Proof. intros Q. unfold forward_proposals. destruct (_ && _); [apply ntq_push; cbn; auto|]. constructor; auto. exists []. rewrite app_nil_r. split; auto. constructor. Qed.
Lemma forward_ss_q s ss : QI s -> ntq s (forward_stopsign s ss).
Proof. intros Q. unfold forward_stopsign. destruct (_ && _); [apply ntq_push; cbn; auto|]. destruct (s_bss s); [apply ntq_refl|]. constructor; auto. exists []. rewrite app_nil_r. split; auto. constructor. Qed.
Lemma trim_pr s k is r : try_trim s k = Ok (is, r) -> i_prom is = i_prom s.
Proof.
  unfold try_trim. destruct (dec_without_ss s); [|discriminate]. assert (Main : forall new is (r : option compaction_err), (if i_comp s <? new then
          m <- ilift s (ms_write (i_st s) [OpTrim new; OpSetComp new]) ;;
          let s := put_st s m in Ok (set_ca s (c_set_comp (i_ca s) new), None)
        else Ok (s, None)) = Ok (is, r) -> i_prom is = i_prom s).
  { intros new is' r'. destruct (_ <? new); [|intros X; injection X as <- _; auto]. destruct (ms_write _ _); cbn; [|discriminate]. intros X. injection X as <- _. auto. }
  cbn zeta. destruct (Nat.compare _ _); eauto. intros X; injection X as <- _; auto.
Qed.
Lemma snapshot_pr s k is r : try_snapshot s k = Ok (is, r) -> i_prom is = i_prom s.
Proof.
  unfold try_snapshot. destruct (dec_without_ss s) as [ld|]; [|discriminate]. assert (Main : forall new is (r : option compaction_err), (if i_comp s <? new then
          match create_snapshot s new with
          | CPanic => ipanic s
          | CErr e => Ok (s, Some e)
          | COk sn =>
              m <- ilift s (ms_write (i_st s) [OpTrim new; OpSetComp new; OpSetSnapshot (Some sn)]) ;;
              let s := put_st s m in Ok (set_ca s (c_set_comp (i_ca s) new), None)
          end
        else Ok (s, None)) = Ok (is, r) -> i_prom is = i_prom s).
  { intros new is' r'. destruct (_ <? new); [|intros X; injection X as <- _; auto]. destruct (create_snapshot s new); [|intros X; injection X as <- _; auto|discriminate].
    destruct (ms_write _ _); cbn; [|discriminate]. intros X. injection X as <- _. auto. }
  cbn zeta. destruct k as [k|]; [|apply Main]. destruct (Nat.compare _ _); eauto. intros X; injection X as <- _; auto.
Qed.
Lemma ntq_ieq s is : Chosen.ieq (s_is s) is -> i_prom is = i_prom (s_is s) -> ntq s (set_is s is).
Proof. intros (A & B & C & D) Hp. constructor; auto. - unfold held. cbn. rewrite B, D. reflexivity. - exists []. rewrite app_nil_r. split; auto. constructor. Qed.
Lemma snapshot_q s i l s' r : sp_snapshot s i l = Ok (s', r) -> ntq s s'.
Proof.
  unfold sp_snapshot. destruct (try_snapshot _ _) as [[is r0]|tr] eqn:Ht; [|discriminate]. pose proof (snapshot_pr _ _ _ _ Ht) as Hp. apply Chosen.snapshot_i in Ht. cbn [bind]. destruct r0; intros H; injection H as <- _; [apply ntq_ieq; auto|].
  destruct l; [apply ntq_ieq; auto|]. eapply ntq_trans; [apply ntq_ieq; eauto|apply ntq_push_all; cbn; auto].
Qed.
Lemma handle_q s m s' : QI s -> qapt s (CHandle (MsgSP m)) -> sp_handle s m = Ok s' -> qres (CHandle (MsgSP m)) s s' \/ QGone s'.
Proof.
  intros Q Ha. pose proof (qres_gq (CHandle (MsgSP m)) s s' Q) as G. unfold qres in *. cbn [takes qapt] in *. unfold sp_handle. destruct (pm_msg m) as [b|b d na k|p|b sq d sy|b sq d es|b k|b|b sq d|es|c|b sq ss|ss]; cbn [numb decof] in *.
  - unfold handle_preparereq. rewrite (qi_r _ Q). cbn. intros H. injection H as <-. apply G; auto using gq_refl.
  - unfold handle_prepare. rewrite (qi_n _ Q), (qi_p _ Q). cbn [phase_eqb]. rewrite andb_false_r, orb_false_r. destruct (blt n b) eqn:Hb; [|intros H; injection H as <-; apply G; auto using gq_refl].
    cbn zeta. intros H. apply Takeover.bind_inv in H. destruct H as (sy & _ & H). injection H as <-. right. right. left. discriminate.
  - rewrite (qi_r _ Q). intros H. injection H as <-. apply G; auto using gq_refl.
  - unfold handle_acceptsync. destruct (check_valid_ballot s b) as [s1 v] eqn:C. apply (check_q _ _ _ _ Q) in C. destruct v; cbn [andb].
    + destruct C as [-> C]. rewrite (qi_r _ Q), (qi_p _ Q). cbn. intros H. injection H as <-. apply G; auto using gq_refl.
    + intros H. injection H as <-. apply G; auto. apply C.
  - unfold handle_acceptdecide. destruct (check_valid_ballot s b) as [s1 v] eqn:C. apply (check_q _ _ _ _ Q) in C. destruct v; cbn [andb].
    + destruct C as [-> C]. destruct (Ha b sq eq_refl C) as (-> & Hsq & _). rewrite (qi_r _ Q), (qi_p _ Q). cbn [role_eqb phase_eqb andb]. unfold handle_sequence_num. rewrite (seq_exp _ _ Hsq).
      assert (Hnn : beq n n = true) by (apply beq_spec; reflexivity). rewrite Hnn. cbn [s_is set_cseq]. pose proof (app_x (s_is s) es) as X. destruct (append_entries_and_get_accepted_idx (s_is s) es) as [is r1]. destruct X as (X1 & X2 & X3 & X4).
      intros H. left. pose proof (qi_cseq s sq Q) as Q1. destruct (upd_qi (set_cseq s sq) is r1 d s' Q1) as (A & B & C1); auto. rewrite X2; exact (qi_n _ Q).
    + intros H. injection H as <-. destruct C as [C1 C2]. rewrite C2 in *. apply G; auto.
  - unfold handle_accepted. rewrite (qi_r _ Q). cbn. rewrite andb_false_r. intros H. injection H as <-. apply G; auto using gq_refl.
  - unfold handle_notaccepted. rewrite (qi_r _ Q). cbn. intros H. injection H as <-. apply G; auto using gq_refl.
  - unfold handle_decide. destruct (check_valid_ballot s b) as [s1 v] eqn:C. apply (check_q _ _ _ _ Q) in C. destruct v; cbn [andb].
    + destruct C as [-> C]. destruct (Ha b sq eq_refl C) as (-> & Hsq & _). rewrite (qi_p _ Q). cbn [phase_eqb]. unfold handle_sequence_num. rewrite (seq_exp _ _ Hsq).
      assert (Hnn : beq n n = true) by (apply beq_spec; reflexivity). rewrite Hnn.
      intros H. left. pose proof (qi_cseq s sq Q) as Q1. destruct (upd_qi (set_cseq s sq) (s_is s) None d s' Q1) as (A & B & C1); auto; [exact (qi_n _ Q)|].
      change (set_is (set_cseq s sq) (s_is s)) with (set_cseq s sq). destruct (update_decided (set_cseq s sq) d) as [s0 [x|]]; exact H.
    + intros H. injection H as <-. destruct C as [C1 C2]. rewrite C2 in *. apply G; auto.
  - unfold handle_forwarded_proposal. destruct (accepted_reconfiguration s); [intros H; injection H as <-; apply G; auto using gq_refl|]. rewrite (qi_r _ Q). intros H. injection H as <-. apply G; auto. right. apply forward_q; auto.
  - unfold handle_compaction. destruct c as [i|i].
    + destruct (try_trim _ _) as [[is r]|tr] eqn:Ht; [|discriminate]. pose proof (trim_pr _ _ _ _ Ht) as Hp. apply Chosen.trim_i in Ht. cbn. intros H. injection H as <-. apply G; auto. right. apply ntq_ieq; auto.
    + destruct (sp_snapshot s i true) as [[s1 r]|tr] eqn:Ht; [|discriminate]. cbn. intros H. injection H as <-. apply G; auto. right. eapply snapshot_q; eauto.
  - unfold handle_accept_stopsign. destruct (check_valid_ballot s b) as [s1 v] eqn:C. apply (check_q _ _ _ _ Q) in C. destruct v; cbn [andb].
    + destruct C as [-> C]. destruct (Ha b sq eq_refl C) as (_ & _ & []).
    + intros H. injection H as <-. apply G; auto. apply C.
  - unfold handle_forwarded_stopsign. destruct (accepted_reconfiguration s); [intros H; injection H as <-; apply G; auto using gq_refl|]. rewrite (qi_r _ Q). intros H. injection H as <-. apply G; auto. right. apply forward_ss_q; auto.
Qed.
(** A server that campaigns. *)
Definition risen (s : sp) : Prop := s_role s = Leader /\ s_phase s = PhPrepare.
Lemma risen_gone s : risen s -> QGone s.
Proof. intros [H _]. left. exact H. Qed.
Lemma handle_leader_q s b s' : QI s -> handle_leader s b = Ok s' -> ntq s s' \/ risen s'.
Proof.
  intros Q. unfold handle_leader. destruct (_ || _); [intros H; injection H as <-; left; apply ntq_refl|]. destruct (s_pid s =? b_pid b).
  - intros H. apply Takeover.lift_bind in H. destruct H as ([l m] & Hl & H). cbn zeta in H. injection H as <-. right. rewrite Takeover.push_all_f. split; reflexivity.
  - intros H. injection H as <-. left. constructor; auto; [cbn; symmetry; exact (qi_r _ Q)|]. exists []. rewrite app_nil_r. split; auto. constructor.
Qed.
Lemma resend_risen s s' : risen s -> resend_message_timeout s = Ok s' -> risen s'.
Proof.
  intros [H1 H2]. unfold resend_message_timeout. rewrite H1. unfold resend_messages_leader. rewrite H2. intros X. apply Takeover.lift_bind in X. destruct X as (ps & _ & X). injection X as <-. rewrite PropAnswer.send_prepare_f. split; auto.
Qed.
Lemma flush_risen s s' : risen s -> flush_batch_timeout s = Ok s' -> risen s'.
Proof. intros [H1 H2]. unfold flush_batch_timeout. rewrite H1, H2. intros H. injection H as <-. split; auto. Qed.
Definition qsame (s s' : sp) : Prop := QI s' /\ s_cseq s' = s_cseq s /\ held s' = held s /\ i_dec (s_is s') = i_dec (s_is s).
Lemma qsame_ntq s s' : QI s -> ntq s s' -> qsame s s'.
Proof. intros Q H. split; [eapply qi_ntq; eauto|]. destruct H; auto. Qed.
Lemma qsame_trans a b c : qsame a b -> qsame b c -> qsame a c.
Proof. intros (A1 & A2 & A3 & A4) (B1 & B2 & B3 & B4). repeat split; try congruence; apply B1. Qed.
Lemma flush_q s s' : QI s -> flush_batch_timeout s = Ok s' -> qsame s s'.
Proof.
  intros Q. unfold flush_batch_timeout. rewrite (qi_r _ Q), (qi_p _ Q). unfold flush_batch_follower. pose proof (fl_x (s_is s)) as X. destruct (flush_batch (s_is s)) as [is acc]. destruct X as (-> & X2 & X3 & X4 & X5). rewrite (qi_n _ Q) in X4.
  assert (Hh : forall s1, s_is s1 = is -> held s1 = held s) by (intros s1 E1; unfold held; rewrite E1, X3, X2; cbn; lia).
  destruct (Nat.ltb_spec (i_acc (s_is s)) (i_acc is)).
  - unfold sp_promise. cbn [s_is set_is]. rewrite X4. intros H0. destruct (reply_qi _ _ _ Q X4 H0) as (A & B & C). unfold qsame. rewrite (Hh _ B), B, C. auto.
  - intros H0. injection H0 as <-. assert (X6 : i_acc is = i_acc (s_is s)) by lia. split; [apply held_qi; auto|]. split; [reflexivity|]. split; [apply Hh; reflexivity|exact X5].
Qed.
Lemma resend_q s s' : QI s -> resend_message_timeout s = Ok s' -> s' = s.
Proof. intros Q. unfold resend_message_timeout, resend_messages_follower. rewrite (qi_r _ Q), (qi_p _ Q). intros H. injection H as <-. reflexivity. Qed.
Lemma tick_q o o' : QI (o_sp o) -> tick o = Ok o' -> qsame (o_sp o) (o_sp o') \/ QGone (o_sp o').
Proof.
  intros L H. apply PropAnswer.tick3 in H. destruct H as (s1 & s2 & H1 & H2 & H3).
  assert (X : qsame (o_sp o) s1 \/ risen s1).
  { assert (R : qsame (o_sp o) (o_sp o)) by (apply qsame_ntq; auto; apply ntq_refl). destruct (PropElect.due (o_eclk o)); [|destruct H1 as [_ ->]; auto]. destruct (hb_timeout _ _ _) as [b [r|]]; destruct H1 as [_ H1]; [|subst; auto]. destruct (handle_leader_q _ _ _ L H1) as [X|X]; auto. left. apply qsame_ntq; auto. }
  assert (Y : qsame (o_sp o) s2 \/ risen s2). { destruct (PropElect.due (o_rclk o)); [|subst; auto]. destruct X as [X|X]; [left; rewrite (resend_q _ _ (proj1 X) H2); exact X|right; eapply resend_risen; eauto]. }
  destruct (PropElect.due (o_fclk o)); [|rewrite H3; destruct Y as [Y|Y]; auto using risen_gone]. destruct Y as [Y|Y]; [left; eapply qsame_trans; [exact Y|]; apply flush_q; auto; apply Y|right; apply risen_gone; eapply flush_risen; eauto].
Qed.
Lemma exec_q o c o' r : QI (o_sp o) -> qapt (o_sp o) c -> exec o c = Ok (o', r) -> qres c (o_sp o) (o_sp o') \/ QGone (o_sp o').
Proof.
  intros H0 Ha0. unfold exec. assert (N0 : ntq (o_sp o) (o_sp (start_call o))). { constructor; auto. exists []. rewrite app_nil_r. split; auto. constructor. } pose proof (qi_ntq _ _ H0 N0) as Q.
  assert (Ha : qapt (o_sp (start_call o)) c). { destruct c as [| | | | | | | |[m|m]]; auto. }
  assert (Main : exec_call (start_call o) c = Ok (o', r) -> qres c (o_sp (start_call o)) (o_sp o') \/ QGone (o_sp o')).
  2:{ intros H. destruct (Main H) as [X|X]; auto. }
  clear H0 Ha0 N0. set (o1 := start_call o) in *. clearbody o1. destruct c as [e|cc0 meta| |i|i l|p| |p|m]; cbn [exec_call].
  - unfold sp_append, propose_entry. destruct (accepted_reconfiguration _); cbn; [intros H; injection H as <- _; apply qres_gq; auto using gq_refl|]. rewrite (qi_r _ Q). cbn. intros H. injection H as <- _. apply qres_gq; auto. right. apply forward_q; auto.
  - unfold reconfigure. destruct (cluster_validate cc0); [|intros H; injection H as <- _; apply qres_gq; auto using gq_refl]. unfold sp_reconfigure. destruct (accepted_reconfiguration _); cbn; [intros H; injection H as <- _; apply qres_gq; auto using gq_refl|]. rewrite (qi_r _ Q). cbn. intros H. injection H as <- _. apply qres_gq; auto. right. apply forward_ss_q; auto.
  - destruct (tick o1) as [o2|] eqn:H1; [|discriminate]. cbn. intros H. injection H as <- _. destruct (tick_q _ _ Q H1) as [X|X]; auto.
  - unfold sp_trim. rewrite (qi_r _ Q). cbn. intros H. injection H as <- _. apply qres_gq; auto using gq_refl.
  - destruct (sp_snapshot _ _ _) as [[s1 r1]|] eqn:H1; [|discriminate]. cbn. intros H. injection H as <- _. apply qres_gq; auto. right. eapply snapshot_q; eauto.
  - cbn. intros H. injection H as <- _. apply qres_gq; auto. unfold reconnected. cbn [o_sp set_sp]. destruct (p =? s_pid (o_sp o1)); [apply gq_refl|]. destruct (p =? sp_leader (o_sp o1)) eqn:Hl; [left; right; left; discriminate|]. right. apply ntq_push. intros Hp. exfalso. apply Nat.eqb_neq in Hl. apply Hl. unfold sp_leader, sp_promise. rewrite (qi_n _ Q). congruence.
  - unfold try_become_leader. destruct (handle_leader _ _) as [s1|] eqn:H1; [|discriminate]. cbn. intros H. injection H as <- _. destruct (handle_leader_q _ _ _ Q H1) as [X|X]; [|right; apply risen_gone; exact X]. apply qres_gq; auto. right. exact X.
  - intros H. injection H as <- _. apply qres_gq; auto using gq_refl.
  - unfold handle_incoming. destruct m as [m|m]; [|cbn; intros H; injection H as <- _; apply qres_gq; auto using gq_refl]. destruct (sp_handle _ _) as [s1|] eqn:H1; [|discriminate]. cbn [bind]. intros H. injection H as <- _. eapply handle_q; eauto.
Qed.
End Foll.

(** ** Messages taken and handled *)
Section Move.
Context (P q : nat) (n : ballot) (HnP : b_pid n = P).
Definition fetch (x : sp) : sp := set_lam (set_ls (set_out x []) (reset_latest_accept_meta (s_ls x))) None.
Lemma reset_none l p x : vget (l_accmeta (reset_latest_accept_meta l)) p = Some (Some x) -> False.
Proof. unfold vget. destruct (pid_to_idx p) as [i|]; [|discriminate]. cbn. intros H. apply nth_error_In, repeat_spec in H. discriminate. Qed.
Lemma li_fetch pre cs cb dq a s : LI P q n pre cs cb dq a s -> LI P q n (pre ++ outs q (s_out s)) cs cb dq a (fetch s).
Proof.
  intros [[H1 H2 H3 H4 H5 H6 H7 H8 H9 H10 H11] D]. split.
  - constructor; cbn [fetch s_role s_phase s_ls s_pid s_is s_out set_out set_ls set_lam]; auto.
    + intros p b i H. exfalso. eapply reset_none; eauto.
    + intros b i H. exfalso. eapply reset_none; eauto.
    + constructor.
    + cbn [outs filter map]. rewrite app_nil_r. exact H10.
  - unfold LD in *. cbn [fetch s_out set_out set_ls set_lam s_is outs filter map]. rewrite app_nil_r. exact D.
Qed.
Lemma qi_fetch pre ar s : QI P q n pre ar s -> QI P q n (pre ++ outs P (s_out s)) ar (fetch s).
Proof.
  intros [H1 H2 H3 H4 H5 H6 H7 H8]. constructor; cbn [fetch s_role s_phase s_ls s_pid s_is s_out set_out set_ls set_lam s_lam]; auto; try discriminate.
  - constructor.
  - cbn [outs filter map]. rewrite app_nil_r. exact H8.
Qed.
Lemma li_pop m pre cs cb dq a s : numb m = None -> LI P q n (m :: pre) cs cb dq a s -> LI P q n pre cs cb dq a s.
Proof.
  intros Hm [[H1 H2 H3 H4 H5 H6 H7 H8 H9 (sq & H10 & H10') H11] D]. split.
  - constructor; auto. exists sq. split; auto. cbn in H10'. rewrite Hm in H10'. exact H10'.
  - unfold LD in *. cbn [app] in D. rewrite last_cons, (numb_none _ Hm) in D. destruct (lastof decof (pre ++ _)); exact D.
Qed.
Lemma li_take m b sq d pre cs cb dq a s cb' dq' : numb m = Some (b, sq) -> decof m = Some d -> Nat.min d cb' <= dq' -> LI P q n (m :: pre) cs cb dq a s -> sq = snext cs /\ LI P q n pre sq cb' dq' a s.
Proof.
  intros Hm Hd Ht [[H1 H2 H3 H4 H5 H6 H7 H8 H9 (sq0 & H10 & H10') H11] D]. cbn in H10'. rewrite Hm in H10'. cbn in H10'. destruct H10' as [K1 K2]. split; auto. split.
  - constructor; auto. exists sq0. auto.
  - unfold LD in *. cbn [app] in D. rewrite last_cons, Hd in D. destruct (lastof decof (pre ++ _)); [exact D|]. rewrite <- D. exact Ht.
Qed.
Lemma qi_pop m pre ar s : QI P q n (m :: pre) ar s -> QI P q n pre (match accof m with Some k => k | None => ar end) s.
Proof.
  intros [H1 H2 H3 H4 H5 H6 H7 H8]. constructor; auto. cbn [app] in H8. rewrite last_cons in H8. destruct (lastof accof (pre ++ _)); [exact H8|]. destruct (accof m); exact H8.
Qed.
End Move.
End WithEntry.
