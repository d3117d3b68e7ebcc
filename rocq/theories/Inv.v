(** * The invariant of the cluster *)
From Coq Require Import List Arith Bool Lia.
Import ListNotations.
From Verif Require Import Types Config MemStore Internal LeaderState SeqPaxos Basics Ghost GhostOps.

(** ** Sequence numbers *)
Definition slt (a b : seqnum) : Prop :=
  sq_sess a < sq_sess b \/ (sq_sess a = sq_sess b /\ sq_ctr a < sq_ctr b).
Definition sle (a b : seqnum) : Prop := slt a b \/ a = b.
Definition spred (s : seqnum) : seqnum := mkSeq (sq_sess s) (sq_ctr s - 1).

Lemma slt_trans a b c : slt a b -> slt b c -> slt a c.
Proof. unfold slt. lia. Qed.
Lemma sle_trans a b c : sle a b -> sle b c -> sle a c.
Proof. intros [H| ->] [H'| <-]; unfold sle; auto. left. eapply slt_trans; eauto. Qed.
Lemma sle_slt_trans a b c : sle a b -> slt b c -> slt a c.
Proof. intros [H| ->] H'; auto. eapply slt_trans; eauto. Qed.
Lemma slt_irrefl a : ~ slt a a.
Proof. unfold slt. lia. Qed.

Section WithEntry.
Context {E : EntryT}.
Context (cc : cluster_config).
Notation nds := (nds cc).

(** ** Messages *)

(** Ballot and number of the numbered messages. *)
Definition numb (m : pmsg) : option (ballot * seqnum) :=
  match m with
  | MAcceptSync n sq _ _ | MAcceptDecide n sq _ _ | MDecide n sq _ | MAcceptStopSign n sq _ => Some (n, sq)
  | _ => None
  end.
Definition resendable (m : pmsg) : bool :=
  match m with MDecide _ _ _ | MAcceptStopSign _ _ _ => true | _ => false end.
Definition has_ss (m : pmsg) : bool :=
  match m with
  | MAcceptSync _ _ _ sy => match sy_ss sy with Some _ => true | None => false end
  | MAcceptStopSign _ _ _ => true
  | _ => false
  end.
Definition is_accdec (m : pmsg) : bool := match m with MAcceptDecide _ _ _ _ => true | _ => false end.
Definition is_sync (m : pmsg) : bool := match m with MAcceptSync _ _ _ _ => true | _ => false end.
(** An AcceptSync without stop sign. *)
Definition plain_sync (m : pmsg) : bool :=
  match m with
  | MAcceptSync _ _ _ sy => match sy_ss sy with Some _ => false | None => true end
  | _ => false
  end.

Definition ssset (G : ghost) (n : ballot) : Prop := exists l, gM G n = Some l /\ ll_ss l <> None.
Definition mlen (G : ghost) (n : ballot) : nat := match gM G n with Some l => len l | None => 0 end.

Definition lexle (na : ballot) (ac : nat) (na' : ballot) (ac' : nat) : Prop :=
  bal_lt na na' \/ (na = na' /\ ac <= ac').

Definition promok (G : ghost) (a : node_id) (pr : promise) : Prop :=
  let n := pr_n pr in let na := pr_na pr in let ac := pr_acc pr in
  gC G n <> None /\ decok cc G na (pr_dec pr) /\ acov G a na (pr_dec pr) /\ In a nds /\
  ((na = n /\ acov G a n ac) \/
   (pf cc G n a na ac /\
    (gM G n <> None \/
     match pr_sync pr with
     | None => exists cna cac cd, gC G n = Some (cna, cac, cd) /\ lexle na ac cna cac
     | Some sy => exists c ss, gA G a na = Some (c, ss) /\ syncok cc G (b_pid n) na sy c ss
     end))).

(** What holds for every message from [a] to [b] that is sent and not handled. *)
Definition minv (G : ghost) (a b : node_id) (m : pmsg) : Prop :=
  a <> b /\
  match m with
  | MPrepare n d na ac => b_pid n = a /\ (gC G n = Some (na, ac, d) \/ (na = n /\ gM G n <> None))
  | MPromise pr => b = b_pid (pr_n pr) /\ promok G a pr
  | MAcceptSync n sq d sy => b_pid n = a /\
      exists c ss, syncok cc G b n sy c ss /\ (forall k, ecov (gI G n) k -> k <= c \/ ss = true) /\
        decok cc G n d /\ (ss = false -> d <= c)
  | MAcceptDecide n sq d es => b_pid n = a /\ gM G n <> None /\ decok cc G n d
  | MDecide n sq d => b_pid n = a /\ gM G n <> None /\ decok cc G n d
  | MAcceptStopSign n sq ss => b_pid n = a /\ gM G n <> None
  | MAccepted n ac => b_pid n = b /\ acov G a n ac
  | MCompaction (CmpTrim i) => trimok cc G i
  | _ => True
  end.

(** Two messages of the link from [a] to [b], in this order. *)
Definition pairok (G : ghost) (a b : node_id) (m1 m2 : pmsg) : Prop :=
  forall n s1 s2, b_pid n = a -> numb m1 = Some (n, s1) -> numb m2 = Some (n, s2) ->
    gN G n b s1 <= gN G n b s2 /\
    (slt s1 s2 \/ (s1 = s2 /\ resendable m2 = true /\ is_accdec m1 = false /\ ssset G n)) /\
    (has_ss m1 = true -> plain_sync m2 = false).

(** A numbered message and the position of its number. *)
Definition posok (G : ghost) (a b : node_id) (m : pmsg) : Prop :=
  forall n sq, b_pid n = a -> numb m = Some (n, sq) ->
    gM G n <> None /\ gN G n b sq <= mlen G n /\
    match m with
    | MAcceptSync _ _ _ sy =>
        sq_ctr sq = 1 /\
        match sy_ss sy with
        | None => gN G n b sq = sy_idx sy + length (sy_suffix sy)
        | Some _ => gN G n b sq = mlen G n /\ ssset G n
        end
    | MAcceptDecide _ _ _ es =>
        2 <= sq_ctr sq /\ gN G n b (spred sq) + length es = gN G n b sq /\
        forall l, gM G n = Some l -> forall j e, nth_error es j = Some e -> at_ l (gN G n b (spred sq) + j) = Some (Ent e)
    | MDecide _ _ _ => sq_ctr sq <= 1 \/ gN G n b (spred sq) = gN G n b sq
    | MAcceptStopSign _ _ ss =>
        (exists l, gM G n = Some l /\ ll_ss l = Some ss) /\ gN G n b sq = mlen G n /\
        (sq_ctr sq <= 1 \/ gN G n b (spred sq) = gN G n b sq)
    | _ => True
    end.

(** What of the receiver matters to its incoming links. *)
Record rview := mkRV {
  rv_prom : ballot; rv_arnd : ballot; rv_phase : phase; rv_cseq : seqnum; rv_cnt : nat; rv_ss : bool
}.
Definition issome {A} (o : option A) : bool := match o with Some _ => true | None => false end.

Definition rcvok (G : ghost) (a b : node_id) (vl : list pmsg) (rv : rview) : Prop :=
  forall n, b_pid n = a -> rv_prom rv = n ->
    (rv_phase rv = PhAccept ->
       1 <= sq_ctr (rv_cseq rv) /\ gM G n <> None /\
       (forall m sq, In m vl -> numb m = Some (n, sq) ->
          is_sync m = true -> slt (rv_cseq rv) sq) /\
       (if rv_ss rv then gN G n b (rv_cseq rv) = mlen G n /\ ssset G n
        else rv_cnt rv = gN G n b (rv_cseq rv))) /\
    (rv_arnd rv = n ->
       (if rv_ss rv then ssset G n else rv_cnt rv <= mlen G n) /\
       forall sq m, In m vl -> numb m = Some (n, sq) -> plain_sync m = true ->
         rv_ss rv = false /\ rv_cnt rv <= gN G n b sq).

Definition promd (s : sp) (b : node_id) : Prop := exists m, vget (l_proms (s_ls s)) b = Some (Promised m).

(** The numbers a leader has used towards [b].  While a message towards [b] can still be
    changed before it is fetched, [b] has not reached the last number. *)
Definition snd12 (b : node_id) (s : sp) (vl : list pmsg) (rb : option rview) : Prop :=
  s_role s = Leader -> s_phase s = PhAccept ->
  forall sq, vget (l_seqs (s_ls s)) b = Some sq ->
    (forall m s', In m vl -> numb m = Some (l_n (s_ls s), s') -> sle s' sq) /\
    (forall rv, rb = Some rv -> rv_prom rv = l_n (s_ls s) -> rv_phase rv = PhAccept ->
       sle (rv_cseq rv) sq /\ forall x, vget (l_accmeta (s_ls s)) b = Some (Some x) -> slt (rv_cseq rv) sq).

(** The state of a leader towards [b]: [Norm]: everything is sent.  [Old k]: the log
    above position [k] is not sent.  [Fresh]: nothing is sent. *)
Inductive mode := Norm | Fresh | Old (k : nat).
Definition sndm (G : ghost) (b : node_id) (s : sp) (vl : list pmsg) (md : mode) : Prop :=
  s_role s = Leader -> s_phase s = PhAccept -> promd s b ->
  forall sq, vget (l_seqs (s_ls s)) b = Some sq ->
  let n := l_n (s_ls s) in
  match md with
  | Fresh => True
  | Old k => 1 <= sq_ctr sq /\ gN G n b sq = k
  | Norm => 1 <= sq_ctr sq /\ gN G n b sq = mlen G n /\
      (ssset G n -> (sq_ctr sq <= 1 \/ gN G n b (spred sq) = gN G n b sq) /\
                    forall m, In m vl -> numb m = Some (n, sq) -> is_accdec m = false)
  end.

Definition lcore (G : ghost) (a b : node_id) (vl : list pmsg) (rb : option rview) : Prop :=
  Forall (minv G a b) vl /\ ForallOrdPairs (pairok G a b) vl /\ Forall (posok G a b) vl /\
  (forall rv, rb = Some rv -> rcvok G a b vl rv).
Definition linv (G : ghost) (a b : node_id) (sa : option sp) (vl : list pmsg) (rb : option rview) : Prop :=
  lcore G a b vl rb /\ forall s, sa = Some s -> snd12 b s vl rb /\ sndm G b s vl Norm.

(** ** Storage *)

Definition cnt (st : mstore) : nat := ms_trim st + length (ms_log st).
Definition arnd (st : mstore) : ballot := bal_or_default (ms_around st).

Record StInv (G : ghost) (p : node_id) (st : mstore) : Prop := {
  st_prom : bal_or_default (ms_prom st) = gP G p;
  st_arnd : exists c, gA G p (arnd st) = Some (c, issome (ms_ss st)) /\ (ms_ss st = None -> c = cnt st);
  st_max : forall b, gA G p b <> None -> ble_ b (arnd st);
  st_log : forall l j e, gM G (arnd st) = Some l -> nth_error (ms_log st) j = Some e ->
             at_ l (ms_trim st + j) = Some (Ent e);
  st_ss : forall l s i, gM G (arnd st) = Some l -> ms_ss st = Some s -> cnt st <= i -> at_ l i = Some (Stop s);
  st_dec : decok cc G (arnd st) (ms_dec st);
  st_cov : ms_dec st <= cnt st \/ ms_ss st <> None;
  st_trim : ms_snap st = None -> trimok cc G (ms_trim st);
  st_comp : ms_comp st = ms_trim st
}.

(** The cache shows what is stored. *)
Record Coh (G : ghost) (s : istore) : Prop := {
  co_prom : c_prom (i_ca s) = bal_or_default (ms_prom (i_st s));
  co_around : c_around (i_ca s) = arnd (i_st s);
  co_dec : c_dec (i_ca s) = ms_dec (i_st s);
  co_comp : c_comp (i_ca s) = ms_comp (i_st s);
  co_ss : c_ss (i_ca s) = ms_ss (i_st s);
  co_acc : match ms_ss (i_st s) with
           | None => c_acc (i_ca s) = cnt (i_st s)
           | Some _ => forall l, gM G (arnd (i_st s)) = Some l -> len l < c_acc (i_ca s)
           end
}.

(** ** Servers *)

Definition mok (G : ghost) (n : ballot) (q : node_id) (m : prom_meta) : Prop :=
  decok cc G (pmt_na m) (pmt_dec m) /\ acov G q (pmt_na m) (pmt_dec m) /\ In q nds /\ pmt_pid m = q /\
  ((pmt_na m = n /\ acov G q n (pmt_acc m)) \/ pf cc G n q (pmt_na m) (pmt_acc m)).

(** A leader in the prepare phase. *)
Record LeadPrep (G : ghost) (p : node_id) (s : sp) : Prop := {
  lp_n : l_n (s_ls s) = gP G p;
  lp_pid : b_pid (l_n (s_ls s)) = p;
  lp_C : gC G (l_n (s_ls s)) = Some (i_around (s_is s), i_acc (s_is s), i_dec (s_is s));
  lp_M : gM G (l_n (s_ls s)) = None;
  lp_accs : forall q k, vget (l_accs (s_ls s)) q = Some k -> k = 0;
  lp_meta : forall q x, vget (l_accmeta (s_ls s)) q = Some x -> x = None;
  lp_seqs : forall q x, vget (l_seqs (s_ls s)) q = Some x -> x = seq0;
  lp_proms : forall q m, vget (l_proms (s_ls s)) q = Some (Promised m) ->
     mok G (l_n (s_ls s)) q m /\ pf cc G (l_n (s_ls s)) q (pmt_na m) (pmt_acc m) /\
     lexle (pmt_na m) (pmt_acc m) (pmt_na (l_maxmeta (s_ls s))) (pmt_acc (l_maxmeta (s_ls s)));
  lp_max : let na := pmt_na (l_maxmeta (s_ls s)) in let ac := pmt_acc (l_maxmeta (s_ls s)) in
     exists q, pf cc G (l_n (s_ls s)) q na ac /\
     lexle (i_around (s_is s)) (i_acc (s_is s)) na ac /\
     match l_maxsync (s_ls s) with
     | None => q = p /\ na = i_around (s_is s) /\ ac = i_acc (s_is s)
     | Some sy => exists c ss, gA G q na = Some (c, ss) /\ syncok cc G p na sy c ss
     end
}.

(** A leader in the accept phase. *)
Record LeadAcc (G : ghost) (p : node_id) (s : sp) : Prop := {
  la_n : l_n (s_ls s) = gP G p;
  la_pid : b_pid (l_n (s_ls s)) = p;
  la_arnd : i_around (s_is s) = l_n (s_ls s);
  la_M : exists l, gM G (l_n (s_ls s)) = Some l /\ ll_ss l = ms_ss (i_st (s_is s)) /\
           (ms_ss (i_st (s_is s)) = None -> len l = cnt (i_st (s_is s)));
  la_proms : forall q m, vget (l_proms (s_ls s)) q = Some (Promised m) -> q <> p -> mok G (l_n (s_ls s)) q m;
  la_max : bal_lt (pmt_na (l_maxmeta (s_ls s))) (l_n (s_ls s)) /\
     exists lm, gM G (pmt_na (l_maxmeta (s_ls s))) = Some lm /\
       agree (pmt_acc (l_maxmeta (s_ls s))) lm (gI G (l_n (s_ls s)));
  la_accs : forall q k, vget (l_accs (s_ls s)) q = Some k -> k = 0 \/ acov G q (l_n (s_ls s)) k
}.

Record NodeInv (G : ghost) (p : node_id) (s : sp) : Prop := {
  n_pid : s_pid s = p;
  n_peers : s_peers s = peers_of cc p;
  n_in : In p nds;
  n_st : StInv G p (i_st (s_is s));
  n_coh : Coh G (s_is s);
  n_q : l_quorum (s_ls s) = quorum_of cc p;
  n_maxp : forall q, In q nds -> q <= l_maxpid (s_ls s);
  n_laccs : length (l_accs (s_ls s)) = l_maxpid (s_ls s);
  n_bss : ms_ss (i_st (s_is s)) <> None -> c_batch (i_ca (s_is s)) = [];
  n_barnd : c_batch (i_ca (s_is s)) <> [] -> arnd (i_st (s_is s)) = gP G p;
  n_bprep : s_phase s = PhPrepare -> c_batch (i_ca (s_is s)) = [];
  n_fb : s_role s = Follower -> forall l j e, gM G (arnd (i_st (s_is s))) = Some l ->
           nth_error (c_batch (i_ca (s_is s))) j = Some e -> at_ l (cnt (i_st (s_is s)) + j) = Some (Ent e);
  n_role : match s_role s, s_phase s with
           | Leader, PhPrepare => LeadPrep G p s
           | Leader, PhAccept => LeadAcc G p s
           | Leader, _ => False
           | Follower, PhAccept => arnd (i_st (s_is s)) = gP G p /\ b_pid (gP G p) <> p
           | Follower, _ => True
           end;
  n_lam : forall b i, s_lam s = Some (b, i) -> exists k, nth_error (s_out s) i = Some (mkPM p (b_pid b) (MAccepted b k));
  n_cprom : forall pr, s_cprom s = Some pr -> minv G p (b_pid (pr_n pr)) (MPromise pr);
  n_out : Forall (fun m => pm_from m = p /\ pm_to m <> p) (s_out s)
}.

Definition view (s : sp) : rview :=
  mkRV (i_prom (s_is s)) (i_around (s_is s)) (s_phase s) (s_cseq s)
       (cnt (i_st (s_is s)) + length (c_batch (i_ca (s_is s)))) (issome (i_ss (s_is s))).

(** The cached accept message towards [b]. *)
Definition amok (G : ghost) (p b : node_id) (s : sp) (md : mode) : Prop :=
  s_role s = Leader -> s_phase s = PhAccept ->
  forall n i, vget (l_accmeta (s_ls s)) b = Some (Some (n, i)) ->
    n = l_n (s_ls s) /\ exists sq d es,
      nth_error (s_out s) i = Some (mkPM p b (MAcceptDecide n sq d es)) /\
      (promd s b ->
       match md with
       | Norm => ~ ssset G n -> vget (l_seqs (s_ls s)) b = Some sq
       | Old _ => vget (l_seqs (s_ls s)) b = Some sq
       | Fresh => False
       end).

(** The outgoing messages of [s] to [b]. *)
Definition outs (b : node_id) (l : list pmessage) : list pmsg :=
  map pm_msg (filter (fun m => pm_to m =? b) l).

(** Restarted from the storage [st]. *)
Definition stview (st : mstore) : rview :=
  mkRV (bal_or_default (ms_prom st)) (arnd st) PhRecover seq0 (cnt st) (issome (ms_ss st)).

(** ** Stability *)

Lemma ssset_gle G G' n : gle G G' -> ssset G n -> ssset G' n.
Proof.
  intros H [l [Hl Hs]]. destruct (le_M _ _ H _ _ Hl) as [l' [Hl' L]]. exists l'. split; auto.
  rewrite <- (lle_ss _ _ L Hs). exact Hs.
Qed.
Lemma mlen_gle G G' n : gle G G' -> mlen G n <= mlen G' n.
Proof.
  intros H. unfold mlen. destruct (gM G n) eqn:Hl; [|lia]. destruct (le_M _ _ H _ _ Hl) as [l' [-> L]]. apply lle_len; auto.
Qed.
Lemma mlen_ss G G' n : gle G G' -> ssset G n -> mlen G' n = mlen G n.
Proof.
  intros H [l [Hl Hs]]. unfold mlen. rewrite Hl. destruct (le_M _ _ H _ _ Hl) as [l' [-> L]]. rewrite (lle_ss _ _ L Hs). reflexivity.
Qed.
Lemma Mn_gle G G' n : gle G G' -> gM G n <> None -> gM G' n <> None.
Proof. intros H Hn. destruct (gM G n) eqn:Hl; [|congruence]. destruct (le_M _ _ H _ _ Hl) as [l' [-> L]]. discriminate. Qed.
Lemma Cn_gle G G' n : gle G G' -> gC G n <> None -> gC G' n <> None.
Proof. intros H Hn. destruct (gC G n) eqn:Hl; [|congruence]. rewrite (le_C _ _ H _ _ Hl). discriminate. Qed.

Lemma promok_gle G G' a pr : gle G G' -> promok G a pr -> promok G' a pr.
Proof.
  unfold promok. intros H (H1 & H2 & H3 & H4 & H5). split; [eapply Cn_gle; eauto|]. split; [eapply decok_gle; eauto|].
  split; [eapply gle_acov; eauto|]. split; auto. destruct H5 as [[? ?]|[H5 H6]].
  - left. split; auto. eapply gle_acov; eauto.
  - right. split; [eapply pf_gle; eauto|]. destruct H6 as [H6|H6]; [left; eapply Mn_gle; eauto|right].
    destruct (pr_sync pr) as [sy|].
    + destruct H6 as (c & ss & Ha & Hs). exists c, ss. split; [|eapply syncok_gle; eauto].
      destruct H5 as (H5a & H5b & _). rewrite (le_F _ _ H); auto. eapply lt_ble_trans; eauto.
    + destruct H6 as (cna & cac & cd & Hc & Hx). exists cna, cac, cd. split; auto. apply (le_C _ _ H); auto.
Qed.

Lemma minv_gle G G' a b m : gle G G' -> minv G a b m -> minv G' a b m.
Proof.
  intros H [Hab Hm]. split; auto. destruct m; auto.
  - destruct Hm as [Hp [Hc|[Hn Hc]]]; split; auto; [left; apply (le_C _ _ H); auto|right; split; auto; eapply Mn_gle; eauto].
  - destruct Hm as [Hp Hm]. split; auto. eapply promok_gle; eauto.
  - destruct Hm as [Hp (c & ss & H1 & H2 & H3 & H4)]. split; auto. exists c, ss. split; [eapply syncok_gle; eauto|].
    split; [|split; [eapply decok_gle; eauto|auto]].
    intros k Hk. apply H2. rewrite <- (le_I _ _ H); auto. destruct H1 as [l [-> _]]. discriminate.
  - destruct Hm as [Hp [H1 H2]]. split; auto. split; [eapply Mn_gle; eauto|eapply decok_gle; eauto].
  - destruct Hm as [Hp H1]. split; auto. eapply gle_acov; eauto.
  - destruct Hm as [Hp [H1 H2]]. split; auto. split; [eapply Mn_gle; eauto|eapply decok_gle; eauto].
  - destruct c; auto. eapply trimok_gle; eauto.
  - destruct Hm as [Hp H1]. split; auto. eapply Mn_gle; eauto.
Qed.

(** The numbering of [a]'s ballots towards [b] is the same. *)
Definition nsame (a b : node_id) (G G' : ghost) : Prop :=
  forall n, b_pid n = a -> gN G' n b = gN G n b.

Lemma pairok_gle G G' a b m m' : gle G G' -> nsame a b G G' -> pairok G a b m m' -> pairok G' a b m m'.
Proof.
  intros H Hn HP n s1 s2 Hp H1 H2. rewrite (Hn n Hp). destruct (HP n s1 s2 Hp H1 H2) as (A & B & C).
  split; auto. split; auto. destruct B as [B|(B1 & B2 & B3 & B4)]; auto. right. repeat (split; auto). eapply ssset_gle; eauto.
Qed.
Lemma posok_gle G G' a b m : gle G G' -> nsame a b G G' -> posok G a b m -> posok G' a b m.
Proof.
  intros H Hn HP n sq Hp Hm. rewrite (Hn n Hp). destruct (HP n sq Hp Hm) as (A & B & C).
  split; [eapply Mn_gle; eauto|]. split; [pose proof (mlen_gle _ _ n H); lia|].
  destruct m; auto.
  - destruct C as [C1 C2]. split; auto. destruct (sy_ss sy); auto. destruct C2 as [C2 C3].
    rewrite (mlen_ss _ _ _ H C3). split; auto. eapply ssset_gle; eauto.
  - destruct C as (C1 & C2 & C3). split; auto. split; auto. intros l Hl j e He.
    destruct (gM G n) as [l0|] eqn:Hl0; [|congruence]. destruct (le_M _ _ H _ _ Hl0) as [l' [Hl' L]].
    assert (l' = l) by congruence. subst. eapply lle_at; eauto.
  - destruct C as ((l & C1 & C1') & C2 & C3). assert (Hs : ssset G n) by (exists l; split; auto; congruence).
    rewrite (mlen_ss _ _ _ H Hs). split; auto. exists l. split; auto.
    destruct (le_M _ _ H _ _ C1) as [l' [Hl' L]]. rewrite Hl'. f_equal. symmetry. apply lle_ss with (1 := L). congruence.
Qed.
Lemma rcvok_gle G G' a b vl rv : gle G G' -> nsame a b G G' -> rcvok G a b vl rv -> rcvok G' a b vl rv.
Proof.
  intros H Hn HR n Hp Hpr. destruct (HR n Hp Hpr) as [A B]. rewrite (Hn n Hp). split.
  - intros Hph. destruct (A Hph) as (A1 & A0 & A2 & A3). split; auto. split; [eapply Mn_gle; eauto|]. split.
    + exact A2.
    + destruct (rv_ss rv); auto. destruct A3 as [A3 A4]. rewrite (mlen_ss _ _ _ H A4). split; auto. eapply ssset_gle; eauto.
  - intros Ha. destruct (B Ha) as [B1 B2]. split; auto. destruct (rv_ss rv); [eapply ssset_gle; eauto|].
    pose proof (mlen_gle _ _ n H). lia.
Qed.
Lemma FOP_impl {A} (P Q : A -> A -> Prop) l : (forall x y, P x y -> Q x y) -> ForallOrdPairs P l -> ForallOrdPairs Q l.
Proof. intros H. induction 1; constructor; auto. eapply Forall_impl; [|eassumption]. auto. Qed.
Lemma lcore_gle G G' a b vl rb : gle G G' -> nsame a b G G' -> lcore G a b vl rb -> lcore G' a b vl rb.
Proof.
  intros H Hn (A & B & C & D). split; [|split; [|split]].
  - eapply Forall_impl; [|exact A]. intros m. apply minv_gle; auto.
  - eapply FOP_impl; [|exact B]. intros m m'. apply pairok_gle; auto.
  - eapply Forall_impl; [|exact C]. intros m. apply posok_gle; auto.
  - intros rv Hrv. eapply rcvok_gle; eauto.
Qed.

Lemma gfr_nsame p G G' a b : gfr p G G' -> a <> p -> nsame a b G G'.
Proof. intros H Ha n Hn. rewrite (fr_N _ _ _ H); auto. congruence. Qed.

Context (Hv : cluster_validate cc = true) (H0 : ~ In 0 nds).

Lemma stinv_M G p st : GInv cc G -> StInv G p st -> exists l, gM G (arnd st) = Some l.
Proof.
  intros HG HS. destruct (st_arnd _ _ _ HS) as [c [Hc _]]. destruct (g_acc _ _ HG _ _ _ _ Hc) as [_ [l [Hl _]]]. eauto.
Qed.

(** The logs of the ballots seen from a later ghost state. *)
Lemma M_back G G' n l0 l : gle G G' -> gM G n = Some l0 -> gM G' n = Some l -> lle l0 l.
Proof.
  intros H Hl0 Hl. destruct (le_M _ _ H _ _ Hl0) as [l' [Hl' L]]. congruence.
Qed.

(** Steps after which the stored part of [q] is still described in the same way. *)
Lemma stinv_gle G G' q st : GInv cc G -> gle G G' -> gP G' q = gP G q -> (forall b, gA G' q b = gA G q b) ->
  StInv G q st -> StInv G' q st.
Proof.
  intros HG HL HP HA HS. pose proof (stinv_M _ _ _ HG HS) as [l0 Hl0].
  destruct HS as [A1 A2 A3 A4 A5 A6 A7 A8 A9]. constructor; auto.
  - congruence.
  - rewrite HA. auto.
  - intros b. rewrite HA. auto.
  - intros l j e Hl He. pose proof (M_back _ _ _ _ _ HL Hl0 Hl) as L. eapply lle_at; eauto.
  - intros l s i Hl Hs Hi. pose proof (M_back _ _ _ _ _ HL Hl0 Hl) as L. eapply lle_at; eauto.
  - eapply decok_gle; eauto.
  - intros Hs. eapply trimok_gle; eauto.
Qed.

Lemma stinv_fr p G G' q st : GInv cc G -> glp p G G' -> q <> p -> StInv G q st -> StInv G' q st.
Proof.
  intros HG [HL HF] Hq. apply stinv_gle; auto.
  - apply (fr_P _ _ _ HF); auto.
  - intros b. rewrite (fr_A _ _ _ HF); auto.
Qed.

Lemma stinv_ss G p st l : GInv cc G -> StInv G p st -> ms_ss st <> None -> gM G (arnd st) = Some l -> ll_ss l = ms_ss st.
Proof.
  intros HG HS Hs Hl. destruct (ms_ss st) as [s|] eqn:Hss; [|congruence].
  pose proof (st_ss _ _ _ HS l s (cnt st) Hl Hss (le_n _)) as H. apply at_stop in H. tauto.
Qed.

Lemma coh_gle G G' p s : GInv cc G -> gle G G' -> StInv G p (i_st s) -> Coh G s -> Coh G' s.
Proof.
  intros HG HL HS [A1 A2 A3 A4 A5 A6]. constructor; auto. destruct (ms_ss (i_st s)) eqn:Hss; auto.
  pose proof (stinv_M _ _ _ HG HS) as [l0 Hl0]. intros l Hl.
  assert (ll_ss l0 <> None). { rewrite (stinv_ss _ _ _ _ HG HS); congruence. }
  destruct (le_M _ _ HL _ _ Hl0) as [l' [Hl' L]]. assert (l0 = l') by (apply (lle_ss _ _ L); auto). assert (l' = l) by congruence. subst. auto.
Qed.

Lemma mok_gle G G' n q m : gle G G' -> mok G n q m -> mok G' n q m.
Proof.
  intros H (A & B & C & D & F). split; [eapply decok_gle; eauto|]. split; [eapply gle_acov; eauto|].
  split; auto. split; auto. destruct F as [[? ?]|F]; [left; split; auto; eapply gle_acov; eauto|right; eapply pf_gle; eauto].
Qed.

Lemma leadprep_fr p G G' q s : glp p G G' -> q <> p -> LeadPrep G q s -> LeadPrep G' q s.
Proof.
  intros [HL HF] Hq [A1 A2 A3 A4 A5 A6 A7 A8 A9]. constructor; auto.
  - rewrite (fr_P _ _ _ HF); auto.
  - apply (le_C _ _ HL); auto.
  - rewrite (fr_M _ _ _ HF); auto. congruence.
  - intros q0 m Hm. destruct (A8 q0 m Hm) as [? [? ?]]. split; [eapply mok_gle; eauto|]. split; auto. eapply pf_gle; eauto.
  - destruct A9 as (q0 & B1 & B2 & B3). exists q0. split; [eapply pf_gle; eauto|]. split; auto.
    destruct (l_maxsync (s_ls s)); auto. destruct B3 as (c & ss & B3 & B4). exists c, ss. split; [|eapply syncok_gle; eauto].
    destruct B1 as (B1 & B1' & _). rewrite (le_F _ _ HL); auto. eapply lt_ble_trans; eauto.
Qed.

Lemma leadacc_fr p G G' q s : glp p G G' -> q <> p -> LeadAcc G q s -> LeadAcc G' q s.
Proof.
  intros [HL HF] Hq [A1 A2 A3 A4 A5 A6 A7]. constructor; auto.
  - rewrite (fr_P _ _ _ HF); auto.
  - rewrite (fr_M _ _ _ HF); auto. congruence.
  - intros q0 m Hm Hne. eapply mok_gle; eauto.
  - destruct A6 as [B1 (lm & B2 & B3)]. split; auto. destruct (le_M _ _ HL _ _ B2) as [l' [Hl' L]]. exists l'. split; auto.
    rewrite (fr_I _ _ _ HF) by congruence. eapply agree_mono; [exact L|apply lle_refl|auto].
  - intros q0 k Hk. destruct (A7 q0 k Hk); auto. right. eapply gle_acov; eauto.
Qed.

Lemma nodeinv_fr p G G' q s : GInv cc G -> glp p G G' -> q <> p -> NodeInv G q s -> NodeInv G' q s.
Proof.
  intros HG H Hq HN. pose proof H as [HL HF]. destruct HN. pose proof (stinv_M _ _ _ HG n_st0) as [l0 Hl0].
  constructor; auto.
  - eapply stinv_fr; eauto.
  - eapply coh_gle; eauto.
  - rewrite (fr_P _ _ _ HF); auto.
  - intros Hr l j e Hl He. pose proof (M_back _ _ _ _ _ HL Hl0 Hl) as L. eapply lle_at; eauto.
  - rewrite (fr_P _ _ _ HF) by auto. destruct (s_role s), (s_phase s); auto; [eapply leadprep_fr; eauto|eapply leadacc_fr; eauto].
  - intros pr Hpr. eapply minv_gle; eauto.
Qed.

(** Links between two other servers. *)
Lemma sndm_fr p G G' b s vl md : gfr p G G' -> b_pid (l_n (s_ls s)) <> p ->
  sndm G b s vl md -> sndm G' b s vl md.
Proof.
  intros HF Hn B H1 H2 H3 sq Hsq. specialize (B H1 H2 H3 sq Hsq). cbn zeta in *.
  unfold ssset, mlen in *. rewrite (fr_M _ _ _ HF), (fr_N _ _ _ HF); auto.
Qed.

Definition lead_pid (a : node_id) (s : sp) : Prop :=
  s_role s = Leader -> s_phase s = PhAccept -> b_pid (l_n (s_ls s)) = a.
Lemma nodeinv_lead G a s : NodeInv G a s -> lead_pid a s.
Proof. intros Hn Hr Hp. pose proof (n_role _ _ _ Hn) as HR. rewrite Hr, Hp in HR. apply (la_pid _ _ _ HR). Qed.

Lemma linv_fr p G G' a b sa vl rb : glp p G G' -> a <> p ->
  (forall s, sa = Some s -> lead_pid a s) ->
  linv G a b sa vl rb -> linv G' a b sa vl rb.
Proof.
  intros [HL HF] Ha HN [A B]. split.
  - eapply lcore_gle; eauto. eapply gfr_nsame; eauto.
  - intros s Hs. pose proof (HN s Hs) as Hn. destruct (B s Hs) as [B1 B2]. split; auto.
    intros H1 H2. refine (sndm_fr p G G' b s vl Norm HF _ B2 H1 H2). rewrite (Hn H1 H2). auto.
Qed.

Lemma amok_fr p G G' a b s : glp p G G' -> a <> p -> lead_pid a s -> amok G a b s Norm -> amok G' a b s Norm.
Proof.
  intros [HL HF] Ha Hl A H1 H2 n i Hi. destruct (A H1 H2 n i Hi) as [-> (sq & d & es & B1 & B2)]. split; auto.
  exists sq, d, es. split; auto. unfold ssset in *. rewrite (fr_M _ _ _ HF); auto. rewrite (Hl H1 H2). auto.
Qed.

End WithEntry.
