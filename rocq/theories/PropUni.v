(** * C62: agreement with UniCache

    The claim is false in general: with a batch size of 2 servers decide different entries, and
    with the LRU cache of the library a follower panics after a change of leader.  It is proved
    for batch size 1 and leaders whose cache works, for any cache with three laws; and for the
    LRU cache when nobody leads that accepted entries from a leader since it was started.
    Missing, hence the names [_partial]: the other executions, for which the claim is false. *)
From Coq Require Import List Arith Bool Lia.
Import ListNotations.
From Verif Require Import Types Config MemStore Internal LeaderState SeqPaxos Ble Omni System Scen Spec Unicache PropUnicache UniSys UniInv Refute UniRefute.

Section Lru3.
Local Existing Instance lru3.
Local Existing Instance uentry.

(** The claim in full: in every execution with H1 and H2 no two servers report different entries
    at an index.  False with a batch size of 2 (F29): a server that promises late gets a cache
    that already has the entry waiting in the leader's batch. *)
Theorem C62_batched_refuted : exists l u,
  good_config cc3 scs2 /\ all_usteps (fun u a => h1h2 (u_s u) a) cc3 (init_usys cc3 scs2) l /\
  ureaches cc3 scs2 l u /\ ureports u 1 3 8 /\ ureports u 2 3 8 /\ ureports u 3 3 7.
Proof.
  destruct u1_witness as (u & Hu & H). exists acts_u1, u. split; [exact good3b|]. split; [exact u1_steps|]. split; [exact Hu|exact H].
Qed.

(** The claim that no accepted message makes the cache panic.  False, also with batch size 1
    (F30): after a change of leader, the follower 3 is asked for a code that it does not have. *)
Theorem C62_failover_refuted : exists l u,
  good_config cc3 scs /\ all_usteps (fun u a => h1h2 (u_s u) a) cc3 (init_usys cc3 scs) (l ++ [ADo 3 (EDeliver 2 0)]) /\
  ureaches cc3 scs l u /\ cache_panics u 3 (EDeliver 2 0).
Proof.
  destruct u2_witness as (u & Hu & H). exists acts_u2, u. split; [exact good3|]. split; [exact u2_steps|]. split; [exact Hu|exact H].
Qed.
End Lru3.
Print Assumptions C62_batched_refuted.
Print Assumptions C62_failover_refuted.

(** ** Batch size 1 *)

(** What a cache has to do.  [R c w]: [w] can decode what [c] encodes from now on.  [fine c]: a
    server can lead with [c]. *)
Record cache_laws {U : UniT} (R : UCache -> UCache -> Prop) (fine : UCache -> Prop) : Prop := {
  cl_step : forall c w v c' x, R c w -> u_encode c v = Some (c', x) -> exists w', u_decode w x = Some (w', v) /\ R c' w';
  cl_send : forall c, fine c -> exists w, u_send c = Some w /\ R c w;
  cl_encode : forall c v, fine c -> exists c' x, u_encode c v = Some (c', x) /\ fine c'
}.

Section Positive.
Context {U : UniT}.
Local Existing Instance uentry.

(** H1 and H2, batch size 1 also after restarts, and all leaders have a fine cache. *)
Definition led_by (fine : UCache -> Prop) (u : usys) (a : action) : Prop :=
  h1h2 (u_s u) a /\ (match a with ACrash _ _ _ sc => sc_batch sc <= 1 | _ => True end) /\
  forall p o, nodes (u_s u) p = Some o -> s_role (o_sp o) = Leader -> fine (u_c u p).

(** C62, agreement: no two servers ever report different entries at an index. *)
Theorem C62_agreement_partial : forall R fine, cache_laws R fine ->
  forall cc scs, good_config cc scs -> (forall p, sc_batch (scs p) <= 1) ->
  forall l, all_usteps (led_by fine) cc (init_usys cc scs) l ->
  forall u1 u2, umoment cc scs l u1 -> umoment cc scs l u2 ->
  forall p q i v1 v2, ureports u1 p i v1 -> ureports u2 q i v2 -> v1 = v2.
Proof.
  intros R fine [L1 L2 L3] cc scs (Hv & H0 & _) Hb l Hh u1 u2 M1 M2 p q i v1 v2 A B.
  exact (u_agree cc Hv H0 R fine L1 L2 L3 scs l u1 u2 p q i v1 v2 Hb Hh M1 M2 A B).
Qed.

(** C62, decoding: an AcceptDecide on its way to a server that takes it is decoded there to the
    entries that were sent. *)
Theorem C62_decodes_partial : forall R fine, cache_laws R fine ->
  forall cc scs, good_config cc scs -> (forall p, sc_batch (scs p) <= 1) ->
  forall l u, all_usteps (led_by fine) cc (init_usys cc scs) l -> ureaches cc scs l u ->
  forall p o src m n sq d es, nodes (u_s u) p = Some o -> In (MsgSP m) (net (u_s u) src p) -> pm_msg m = MAcceptDecide n sq d es ->
  takes_accdec (o_sp o) n sq = true -> exists w, dec_all (u_c u p) es = Some (w, es).
Proof.
  intros R fine [L1 L2 L3] cc scs (Hv & H0 & _) Hb l u Hh Hr p o src m n sq d es Ho Hm Hmm Ht.
  exact (u_decodes cc Hv H0 R fine L1 L2 L3 scs l u p o src m n sq d es Hb Hh Hr Ho Hm Hmm Ht).
Qed.

(** C62, panics: the feature adds none.  Before every call the cache is ready, and the call does
    its step unless the protocol itself panics. *)
Theorem C62_no_cache_panic_partial : forall R fine, cache_laws R fine ->
  forall cc scs, good_config cc scs -> (forall p, sc_batch (scs p) <= 1) ->
  forall l u, all_usteps (led_by fine) cc (init_usys cc scs) l -> ureaches cc scs l u ->
  forall p ev o c, led_by fine u (ADo p ev) -> nodes (u_s u) p = Some o -> event_call (u_s u) p ev = Some c ->
  exists c' cache nx, uprep u p o c = Some (c', cache, nx) /\
    forall o' r, exec o c' = Ok (o', r) -> exists u', exec_uaction cc u (ADo p ev) = Some u'.
Proof.
  intros R fine [L1 L2 L3] cc scs (Hv & H0 & _) Hb l u Hh Hr p ev o c Ha Ho Hc.
  exact (u_works cc Hv H0 R fine L1 L2 L3 scs l u p ev o c Hb Hh Hr Ha Ho Hc).
Qed.

(** ** Who leads *)

(** The event lets the server take entries or a cache from a leader. *)
Definition receives (u : usys) (p : node_id) (ev : event) : bool :=
  match nodes (u_s u) p, event_call (u_s u) p ev with
  | Some o, Some (CHandle (MsgSP m)) =>
      match pm_msg m with
      | MAcceptDecide n sq _ _ => takes_accdec (o_sp o) n sq
      | MAcceptSync n _ _ _ => takes_accsync (o_sp o) n
      | _ => false
      end
  | _, _ => false
  end.
(** The servers that took something from a leader since they were started. *)
Definition next_heirs (u : usys) (a : action) (h : node_id -> bool) : node_id -> bool :=
  match a with
  | ADo p ev => if receives u p ev then fun q => if q =? p then true else h q else h
  | ACrash p _ _ _ => fun q => if q =? p then false else h q
  | _ => h
  end.
(** None of them is ever a leader. *)
Fixpoint no_heir_leads (cc : cluster_config) (h : node_id -> bool) (u : usys) (l : list action) : Prop :=
  (forall p o, In p (cc_nodes cc) -> nodes (u_s u) p = Some o -> s_role (o_sp o) = Leader -> h p = false) /\
  match l with
  | [] => True
  | a :: r => match exec_uaction cc u a with Some u' => no_heir_leads cc (next_heirs u a h) u' r | None => True end
  end.

Definition one_batch (u : usys) (a : action) : Prop :=
  h1h2 (u_s u) a /\ match a with ACrash _ _ _ sc => sc_batch sc <= 1 | _ => True end.

Section Heirs.
Context (R : UCache -> UCache -> Prop) (fine : UCache -> Prop) (HL : cache_laws R fine) (Hnew : fine u_new).
Context (cc : cluster_config) (Hv : cluster_validate cc = true) (H0 : ~ In 0 (cc_nodes cc)).

Lemma enc_all_fine vs : forall c i c' es, fine c -> enc_all c i vs = Some (c', es) -> fine c'.
Proof.
  induction vs as [|v vs IH]; intros c i c' es Hf He; cbn in He; [injection He as <- _; exact Hf|].
  destruct (cl_encode _ _ HL c v Hf) as (c1 & x & Hx & Hf1). rewrite Hx in He. destruct (enc_all c1 (S i) vs) as [[c2 es2]|] eqn:H2; [|discriminate].
  injection He as <- _. eapply IH; eauto.
Qed.
Lemma encodes_leads s : encodes s = true -> s_role s = Leader.
Proof. unfold encodes. destruct (accepted_reconfiguration s); [discriminate|]. cbn. destruct (s_role s); [discriminate|reflexivity]. Qed.
Lemma heirs_step u a u' h : (forall p, h p = false -> fine (u_c u p)) -> (forall p o, nodes (u_s u) p = Some o -> s_role (o_sp o) = Leader -> h p = false) ->
  exec_uaction cc u a = Some u' -> forall p, next_heirs u a h p = false -> fine (u_c u' p).
Proof.
  intros Hh Hl He q Hq. destruct a as [p ev|p|src dst k|p ev j sc]; cbn [exec_uaction next_heirs] in *.
  - unfold receives in Hq. destruct (nodes (u_s u) p) as [o|] eqn:Ho; [|discriminate]. destruct (event_call (u_s u) p ev) as [c|] eqn:Hc; [|discriminate].
    destruct (uprep u p o c) as [[[c' cache] nx]|] eqn:Hp; [|discriminate]. destruct (exec o c') as [[o' r]|]; [|discriminate]. destruct (_ && _); [discriminate|]. injection He as <-. cbn [u_c]. unfold upd_cache.
    assert (Hsame : cache = u_c u p -> h q = false -> fine (if q =? p then cache else u_c u q)).
    { intros -> Hx. destruct (Nat.eqb_spec q p) as [->|]; auto. }
    assert (Henc : forall vs i es, encodes (o_sp o) = true -> enc_all (u_c u p) i vs = Some (cache, es) -> h q = false -> fine (if q =? p then cache else u_c u q)).
    { intros vs i es H1 H2 H3. destruct (Nat.eqb_spec q p) as [->|]; [|auto]. eapply enc_all_fine; [|exact H2]. auto. }
    destruct c as [e|c0 meta| |i|i l|x| |x|[m|m]]; cbn [uprep] in Hp; try (injection Hp as _ <- _; apply Hsame; [reflexivity|exact Hq]).
    + destruct (encodes (o_sp o)) eqn:Hen; [|injection Hp as _ <- _; apply Hsame; [reflexivity|exact Hq]].
      match type of Hp with context [match ?x with Some _ => _ | None => _ end] => destruct x as [[c1 [|e1 es1]]|] eqn:Hx end; try discriminate. injection Hp as _ <- _. eapply Henc; eauto.
    + destruct (pm_msg m) as [n|n d na ac|pr|n sq d sy|n sq d es|n i|n|n sq d|es|cp|n sq ss|ss] eqn:Hm; try (injection Hp as _ <- _; apply Hsame; [reflexivity|exact Hq]).
      * destruct (takes_accsync (o_sp o) n); [|injection Hp as _ <- _; apply Hsame; [reflexivity|exact Hq]]. destruct (Nat.eqb_spec q p); [discriminate|]. auto.
      * destruct (takes_accdec (o_sp o) n sq); [|injection Hp as _ <- _; apply Hsame; [reflexivity|exact Hq]]. destruct (Nat.eqb_spec q p); [discriminate|]. auto.
      * destruct (encodes (o_sp o)) eqn:Hen; cbn [andb] in Hp; [|injection Hp as _ <- _; apply Hsame; [reflexivity|exact Hq]].
        destruct (_ =? _); [|injection Hp as _ <- _; apply Hsame; [reflexivity|exact Hq]].
        destruct (enc_all (u_c u p) (u_next u) (map fst es)) as [[c1 es1]|] eqn:Hx; [|discriminate]. injection Hp as _ <- _. eapply Henc; eauto.
  - destruct (exec_action cc (u_s u) (AFetch p)); [|discriminate]. injection He as <-. cbn. auto.
  - destruct (exec_action cc (u_s u) (ADrop src dst k)); [|discriminate]. injection He as <-. cbn. auto.
  - destruct (nodes (u_s u) p) as [o|]; [|discriminate]. destruct (event_call (u_s u) p ev) as [c|]; [|discriminate]. destruct (match uprep u p o c with Some _ => _ | None => _ end) as [points nx].
    destruct (nth_error points j) as [st|]; [|discriminate]. destruct (sc_pid sc =? p); [|discriminate]. destruct (build cc sc st) as [| |o']; try discriminate. injection He as <-.
    cbn [u_c]. unfold upd_cache. destruct (Nat.eqb_spec q p); auto.
Qed.
Lemma heirs_led l : forall u V Cm h, UInv cc R u V Cm -> (forall p, h p = false -> fine (u_c u p)) -> all_usteps one_batch cc u l -> no_heir_leads cc h u l ->
  all_usteps (led_by fine) cc u l /\ forall u', urun cc u l = Some u' -> forall p o, nodes (u_s u') p = Some o -> s_role (o_sp o) = Leader -> fine (u_c u' p).
Proof.
  induction l as [|a l IH]; intros u V Cm h HU Hh Hs Hn; cbn [no_heir_leads] in Hn; destruct Hn as [Hn Hn'].
  all: assert (Hl : forall p o, nodes (u_s u) p = Some o -> s_role (o_sp o) = Leader -> h p = false).
  all: try (intros p o Ho; apply (Hn p o); [|exact Ho]; destruct (v_G _ _ _ _ _ HU 0) as (G & HS & _); assert (A1 : SysInv.osp (u_s u) p = Some (o_sp o)) by (unfold SysInv.osp; rewrite Ho; reflexivity); exact (Inv.n_in _ _ _ _ (SysInv.y_N _ _ _ HS p _ A1))).
  - split; [exact I|]. intros u' X. injection X as <-. intros p o Ho Hr. eauto.
  - cbn [all_usteps] in *. destruct Hs as [[Ha Hb] Hs]. assert (Hled : led_by fine u a) by (split; [exact Ha|split; [exact Hb|]]; intros p o Ho Hr; eauto).
    cbn [urun]. destruct (exec_uaction cc u a) as [u1|] eqn:He; [|split; [split; [exact Hled|exact I]|discriminate]].
    destruct (ustep_ok cc Hv H0 R fine (cl_step _ _ HL) (cl_send _ _ HL) (cl_encode _ _ HL) u V Cm a u1 HU Hled He) as (V1 & Cm1 & HU1).
    destruct (IH u1 V1 Cm1 _ HU1 (heirs_step u a u1 h Hh Hl He) Hs Hn') as [A B]. split; [split; [exact Hled|exact A]|exact B].
Qed.
End Heirs.

(** The same claims when no heir leads. *)
Theorem C62_agreement_no_heir_partial : forall R fine, cache_laws R fine -> fine u_new ->
  forall cc scs, good_config cc scs -> (forall p, sc_batch (scs p) <= 1) ->
  forall l, all_usteps one_batch cc (init_usys cc scs) l -> no_heir_leads cc (fun _ => false) (init_usys cc scs) l ->
  forall u1 u2, umoment cc scs l u1 -> umoment cc scs l u2 ->
  forall p q i v1 v2, ureports u1 p i v1 -> ureports u2 q i v2 -> v1 = v2.
Proof.
  intros R fine HL Hf cc scs Hg Hb l Hh Hn. pose proof Hg as (Hv & H0 & _).
  destruct (heirs_led R fine HL Hf cc Hv H0 l _ _ _ _ (init_ok cc R scs Hb) (fun _ _ => Hf) Hh Hn) as [A _].
  exact (C62_agreement_partial R fine HL cc scs Hg Hb l A).
Qed.
Theorem C62_no_cache_panic_no_heir_partial : forall R fine, cache_laws R fine -> fine u_new ->
  forall cc scs, good_config cc scs -> (forall p, sc_batch (scs p) <= 1) ->
  forall l u, all_usteps one_batch cc (init_usys cc scs) l -> no_heir_leads cc (fun _ => false) (init_usys cc scs) l -> ureaches cc scs l u ->
  forall p ev o c, one_batch u (ADo p ev) -> nodes (u_s u) p = Some o -> event_call (u_s u) p ev = Some c ->
  exists c' cache nx, uprep u p o c = Some (c', cache, nx) /\
    forall o' r, exec o c' = Ok (o', r) -> exists u', exec_uaction cc u (ADo p ev) = Some u'.
Proof.
  intros R fine HL Hf cc scs Hg Hb l u Hh Hn Hr p ev o c Ha Ho Hc. pose proof Hg as (Hv & H0 & _).
  destruct (heirs_led R fine HL Hf cc Hv H0 l _ _ _ _ (init_ok cc R scs Hb) (fun _ _ => Hf) Hh Hn) as [A B].
  apply (C62_no_cache_panic_partial R fine HL cc scs Hg Hb l u A Hr p ev o c); auto. destruct Ha as [Ha Ha']. split; [exact Ha|]. split; [exact Ha'|exact (B u Hr)].
Qed.
End Positive.

(** ** The LRU cache *)
(** Entries with one cached field of any type, an LRU cache of any size for which the encoded
    type has enough values. *)
Definition lruU (A Sn : Type) (cr : list A -> option Sn) (mg : Sn -> Sn -> option Sn) (us : bool) (aeq : A -> A -> bool) (lim size : nat) : UniT := {|
  UA := A; USnap := Sn; u_create := cr; u_merge := mg; u_usesnap := us;
  UCache := lruc A; UEnc := maybe_encoded A;
  u_new := mkLruc (mkLru size []) (mkLru size []) 0 size;
  u_encode := lruc_encode aeq lim;
  u_decode := lruc_decode lim;
  u_send := lruc_clone
|}.
Lemma lru_laws A Sn cr mg us aeq lim size : (forall x y : A, aeq x y = true <-> x = y) -> 1 <= size -> size <= lim ->
  @cache_laws (lruU A Sn cr mg us aeq lim size) lockR (counted lim) /\ counted lim (@u_new (lruU A Sn cr mg us aeq lim size)) /\
  lruc_new size = Some (@u_new (lruU A Sn cr mg us aeq lim size)).
Proof.
  intros Ha H1 Hs. assert (Hn : lruc_new size = Some (@u_new (lruU A Sn cr mg us aeq lim size))) by (destruct size; [lia|reflexivity]). split; [|split; [|exact Hn]].
  - constructor; cbn.
    + intros c w v c' x HR He. exact (lockR_step aeq Ha lim c w v c' x HR He).
    + intros c [Hf _]. destruct (clone_mirror c Hf) as (w & Hw & Hm). exists w. split; [exact Hw|]. split; assumption.
    + intros c v Hc. exact (counted_step aeq Ha lim c v Hc).
  - destruct (fresh_lock _ _ Hn) as [Hf _]. split; [exact Hf|]. cbn. auto.
Qed.
Theorem C62_lru_agreement_partial : forall A Sn cr mg us aeq lim size, (forall x y : A, aeq x y = true <-> x = y) -> 1 <= size -> size <= lim ->
  let U := lruU A Sn cr mg us aeq lim size in let E := @uentry U in
  forall cc scs, good_config cc scs -> (forall p, sc_batch (scs p) <= 1) ->
  forall l, all_usteps one_batch cc (init_usys cc scs) l -> no_heir_leads cc (fun _ => false) (init_usys cc scs) l ->
  forall u1 u2, umoment cc scs l u1 -> umoment cc scs l u2 ->
  forall p q i v1 v2, ureports u1 p i v1 -> ureports u2 q i v2 -> v1 = v2.
Proof.
  intros A Sn cr mg us aeq lim size Ha H1 Hs U E. destruct (lru_laws A Sn cr mg us aeq lim size Ha H1 Hs) as (HL & Hf & _). exact (@C62_agreement_no_heir_partial U _ _ HL Hf).
Qed.
Theorem C62_lru_no_cache_panic_partial : forall A Sn cr mg us aeq lim size, (forall x y : A, aeq x y = true <-> x = y) -> 1 <= size -> size <= lim ->
  let U := lruU A Sn cr mg us aeq lim size in let E := @uentry U in
  forall cc scs, good_config cc scs -> (forall p, sc_batch (scs p) <= 1) ->
  forall l u, all_usteps one_batch cc (init_usys cc scs) l -> no_heir_leads cc (fun _ => false) (init_usys cc scs) l -> ureaches cc scs l u ->
  forall p ev o c, one_batch u (ADo p ev) -> nodes (u_s u) p = Some o -> event_call (u_s u) p ev = Some c ->
  exists c' cache nx, uprep u p o c = Some (c', cache, nx) /\
    forall o' r, exec o c' = Ok (o', r) -> exists u', exec_uaction cc u (ADo p ev) = Some u'.
Proof.
  intros A Sn cr mg us aeq lim size Ha H1 Hs U E. destruct (lru_laws A Sn cr mg us aeq lim size Ha H1 Hs) as (HL & Hf & _). exact (@C62_no_cache_panic_no_heir_partial U _ _ HL Hf).
Qed.

(** A case: server 1 leads and its followers decode what it appends; server 2 is killed and
    started, leads with its new cache, and everybody decides its entries. *)
Section Example3.
Local Existing Instance lru3.
Local Existing Instance uentry.
Lemma lru3_is : lru3 = lruU nat unit (fun _ => None) (fun _ _ => None) false Nat.eqb 255 3.
Proof. reflexivity. Qed.
Fixpoint no_heir_leadsb (cc : cluster_config) (h : node_id -> bool) (u : usys) (l : list action) : bool :=
  forallb (fun p => uon u p (fun o => negb (role_eqb (s_role (o_sp o)) Leader) || negb (h p)) || match nodes (u_s u) p with None => true | _ => false end) (cc_nodes cc) &&
  match l with
  | [] => true
  | a :: r => match exec_uaction cc u a with Some u' => no_heir_leadsb cc (next_heirs u a h) u' r | None => true end
  end.
Lemma no_heir_leadsb_ok cc l : forall h u, no_heir_leadsb cc h u l = true -> no_heir_leads cc h u l.
Proof.
  assert (A : forall h u, forallb (fun p => uon u p (fun o => negb (role_eqb (s_role (o_sp o)) Leader) || negb (h p)) || match nodes (u_s u) p with None => true | _ => false end) (cc_nodes cc) = true ->
    forall p o, In p (cc_nodes cc) -> nodes (u_s u) p = Some o -> s_role (o_sp o) = Leader -> h p = false).
  { intros h u H p o Hp Ho Hr. rewrite forallb_forall in H. specialize (H p Hp). unfold uon in H. rewrite Ho, Hr in H. cbn in H. destruct (h p); [discriminate|reflexivity]. }
  induction l as [|a l IH]; intros h u H; cbn [no_heir_leadsb no_heir_leads] in *; apply andb_true_iff in H; destruct H as [H1 H2]; (split; [apply A; exact H1|]); auto.
  destruct (exec_uaction cc u a); auto.
Qed.
Lemma one_batch_ok cc l : forall u, all_usteps (fun u a => h1h2 (u_s u) a) cc u l -> forallb (fun a => match a with ACrash _ _ _ sc => sc_batch sc <=? 1 | _ => true end) l = true -> all_usteps one_batch cc u l.
Proof.
  induction l as [|a l IH]; intros u H F; cbn in *; auto. apply andb_true_iff in F. destruct F as [F1 F2], H as [H1 H2]. split.
  - split; [exact H1|]. destruct a; auto. apply Nat.leb_le. exact F1.
  - destruct (exec_uaction cc u a); auto.
Qed.
Definition sch_u3 : list cmd :=
  [ Settle [1;2;3] 2; Call 1 CTryLeader; Settle [1;2;3] 4; uappend 1 4; uappend 1 4; uappend 1 5; uappend 1 6; uappend 1 7; uappend 1 4; Settle [1;2;3] 3;
    Do (ACrash 2 (ECall CTick) 0 (scs 2)); Settle [1;2;3] 3; Call 2 CTryLeader; Settle [1;2;3] 5;
    uappend 2 8; uappend 2 9; uappend 3 8; Settle [1;2;3] 4 ].
Definition acts_u3 := Eval vm_compute in acts_of cc3 (init_sys cc3 scs) sch_u3.
Example ex62_steps : all_usteps one_batch cc3 (init_usys cc3 scs) acts_u3 /\ no_heir_leads cc3 (fun _ => false) (init_usys cc3 scs) acts_u3.
Proof.
  split; [apply one_batch_ok; [apply udrained_ok|]; vm_compute; reflexivity|]. apply no_heir_leadsb_ok. vm_compute. reflexivity.
Qed.
Example ex62_decided : exists u, ureaches cc3 scs acts_u3 u /\ ureports u 1 5 4 /\ ureports u 3 5 4 /\ ureports u 1 8 8 /\ ureports u 2 8 8 /\ ureports u 3 8 8.
Proof.
  apply urun_ex with (f := fun u => uon u 1 (fun o => ushows o 5 4) && (uon u 3 (fun o => ushows o 5 4) && (uon u 1 (fun o => ushows o 8 8) && (uon u 2 (fun o => ushows o 8 8) && uon u 3 (fun o => ushows o 8 8))))).
  - vm_compute. reflexivity.
  - intros u H. repeat (apply andb_true_iff in H; let H1 := fresh in destruct H as [H1 H]; apply ushows_ok in H1). apply ushows_ok in H. auto.
Qed.
End Example3.
Print Assumptions C62_agreement_partial.
Print Assumptions C62_decodes_partial.
Print Assumptions C62_no_cache_panic_partial.
Print Assumptions C62_agreement_no_heir_partial.
Print Assumptions C62_no_cache_panic_no_heir_partial.
Print Assumptions C62_lru_agreement_partial.
Print Assumptions C62_lru_no_cache_panic_partial.
