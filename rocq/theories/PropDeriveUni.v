(** * C71 in a cluster: servers agree on entries with the macro [UniCacheEntry]

    C62 for the cache that the macro writes for any struct, instead of a single cached field. *)
From Coq Require Import List Arith Bool Lia.
Import ListNotations.
From Verif Require Import Types Config MemStore Internal LeaderState SeqPaxos Ble Omni System Scen Spec Unicache UniSys UniInv Refute UniRefute PropUni.
From Verif Require Derive PropDerive.

(** The entries of a struct with the slots [sl]; [c0] is what [new] gives. *)
Definition derivedU (order : forall X, list X -> list X) (sl : list Derive.slot) (c0 : Derive.cache sl)
    (Sn : Type) (cr : list (Derive.entry sl) -> option Sn) (mg : Sn -> Sn -> option Sn) (us : bool) : UniT := {|
  UA := Derive.entry sl; USnap := Sn; u_create := cr; u_merge := mg; u_usesnap := us;
  UCache := Derive.cache sl; UEnc := Derive.encoded sl;
  u_new := c0;
  u_encode := Derive.c_encode sl;
  u_decode := Derive.c_decode sl;
  u_send := Derive.c_clone order sl
|}.
Lemma derived_laws order fs sl c0 Sn cr mg us : Forall PropDerive.decidable_field fs -> Forall PropDerive.sized fs -> PropDerive.no_lfu fs ->
  Derive.unicache_entry fs = Some sl -> Derive.c_new sl = Some c0 ->
  @cache_laws (derivedU order sl c0 Sn cr mg us) (PropDerive.clock sl) (PropDerive.cfine sl) /\ PropDerive.cfine sl c0.
Proof.
  intros Hd Hz Hl Hu Hn. pose proof (PropDerive.fields_decide _ _ _ Hd Hu) as HD. split.
  - constructor; cbn.
    + intros c w v c' x. apply PropDerive.c_step. exact HD.
    + intros c. apply PropDerive.c_cloned. exact (PropDerive.fields_lru fs None sl Hl eq_refl Hu).
    + intros c v. apply PropDerive.c_total. exact HD.
  - destruct (PropDerive.c_init sl (PropDerive.fields_sized _ _ _ Hz Hu)) as (c & Hc & Hf). congruence.
Qed.

(** C71, agreement.  Every struct without a field that names lfu, with sizes as documented: no two
    servers ever report different entries (in any field) at an index.

    Partial, as in C62: batch size 1, and nobody leads that took entries or a cache from a leader
    since it was started; and no lfu. *)
Theorem C71_agreement_partial : forall order fs sl c0 Sn cr mg us,
  Forall PropDerive.decidable_field fs -> Forall PropDerive.sized fs -> PropDerive.no_lfu fs ->
  Derive.unicache_entry fs = Some sl -> Derive.c_new sl = Some c0 ->
  let U := derivedU order sl c0 Sn cr mg us in let E := @uentry U in
  forall cc scs, good_config cc scs -> (forall p, sc_batch (scs p) <= 1) ->
  forall l, all_usteps one_batch cc (init_usys cc scs) l -> no_heir_leads cc (fun _ => false) (init_usys cc scs) l ->
  forall u1 u2, umoment cc scs l u1 -> umoment cc scs l u2 ->
  forall p q i v1 v2, ureports u1 p i v1 -> ureports u2 q i v2 -> v1 = v2.
Proof.
  intros order fs sl c0 Sn cr mg us Hd Hz Hl Hu Hn U E. destruct (derived_laws order fs sl c0 Sn cr mg us Hd Hz Hl Hu Hn) as (HL & Hf).
  exact (@C62_agreement_no_heir_partial U _ _ HL Hf).
Qed.
(** And the caches add no panic. *)
Theorem C71_no_cache_panic_partial : forall order fs sl c0 Sn cr mg us,
  Forall PropDerive.decidable_field fs -> Forall PropDerive.sized fs -> PropDerive.no_lfu fs ->
  Derive.unicache_entry fs = Some sl -> Derive.c_new sl = Some c0 ->
  let U := derivedU order sl c0 Sn cr mg us in let E := @uentry U in
  forall cc scs, good_config cc scs -> (forall p, sc_batch (scs p) <= 1) ->
  forall l u, all_usteps one_batch cc (init_usys cc scs) l -> no_heir_leads cc (fun _ => false) (init_usys cc scs) l -> ureaches cc scs l u ->
  forall p ev o c, one_batch u (ADo p ev) -> nodes (u_s u) p = Some o -> event_call (u_s u) p ev = Some c ->
  exists c' cache nx, uprep u p o c = Some (c', cache, nx) /\
    forall o' r, exec o c' = Ok (o', r) -> exists u', exec_uaction cc u (ADo p ev) = Some u'.
Proof.
  intros order fs sl c0 Sn cr mg us Hd Hz Hl Hu Hn U E. destruct (derived_laws order fs sl c0 Sn cr mg us Hd Hz Hl Hu Hn) as (HL & Hf).
  exact (@C62_no_cache_panic_no_heir_partial U _ _ HL Hf).
Qed.

(** ** A case *)
(** The struct of ex71_person.  Server 1 leads and its followers decode what it appends; server 2 is
    killed and started, leads with its new cache, and everybody decides its entries. *)
Section Checks.
Context {U : UniT}.
Local Existing Instance uentry.
Fixpoint heirlessb (cc : cluster_config) (h : node_id -> bool) (u : usys) (l : list action) : bool :=
  forallb (fun p => match nodes (u_s u) p with Some o => negb (role_eqb (s_role (o_sp o)) Leader) || negb (h p) | None => true end) (cc_nodes cc) &&
  match l with
  | [] => true
  | a :: r => match exec_uaction cc u a with Some u' => heirlessb cc (next_heirs u a h) u' r | None => true end
  end.
Lemma heirlessb_ok cc l : forall h u, heirlessb cc h u l = true -> no_heir_leads cc h u l.
Proof.
  assert (A : forall h u, forallb (fun p => match nodes (u_s u) p with Some o => negb (role_eqb (s_role (o_sp o)) Leader) || negb (h p) | None => true end) (cc_nodes cc) = true ->
    forall p o, In p (cc_nodes cc) -> nodes (u_s u) p = Some o -> s_role (o_sp o) = Leader -> h p = false).
  { intros h u H p o Hp Ho Hr. rewrite forallb_forall in H. specialize (H p Hp). cbn beta in H. rewrite Ho, Hr in H. cbn in H. destruct (h p); [discriminate|reflexivity]. }
  induction l as [|a l IH]; intros h u H; cbn [heirlessb no_heir_leads] in *; apply andb_true_iff in H; destruct H as [H1 H2]; (split; [apply A; exact H1|]); auto.
  destruct (exec_uaction cc u a); auto.
Qed.
Fixpoint one_batchb (cc : cluster_config) (u : usys) (l : list action) : bool :=
  match l with
  | [] => true
  | a :: r => fifob a && drainedb (u_s u) a && (match a with ACrash _ _ _ sc => sc_batch sc <=? 1 | _ => true end) &&
      match exec_uaction cc u a with Some u' => one_batchb cc u' r | None => true end
  end.
Lemma one_batchb_ok cc l : forall u, one_batchb cc u l = true -> all_usteps one_batch cc u l.
Proof.
  induction l as [|a l IH]; intros u H; cbn in *; auto. apply andb_true_iff in H. destruct H as [H H4]. apply andb_true_iff in H. destruct H as [H H3]. apply andb_true_iff in H. destruct H as [H1 H2].
  split; [split; [split; [|apply drainedb_ok; exact H2]|]|].
  - apply fifo_syncs_in_order. assert (F : Forall fifo [a]) by (apply fifob_ok; cbn; rewrite H1; reflexivity). inversion F; auto.
  - destruct a; auto. apply Nat.leb_le. exact H3.
  - destruct (exec_uaction cc u a); auto.
Qed.
End Checks.

Section Person.
Definition psl := PropDerive.slots PropDerive.person.
Definition pc0 : Derive.cache psl := (tt, (mkLruc (mkLru 255 []) (mkLru 255 []) 0 255, (mkLruc (mkLru 100 []) (mkLru 100 []) 0 100, (mkLruc (mkLru 20 []) (mkLru 20 []) 0 20, tt)))).
Example ex71_new : Derive.unicache_entry PropDerive.person = Some psl /\ Derive.c_new psl = Some pc0.
Proof. split; reflexivity. Qed.
Definition personU : UniT := derivedU PropDerive.same_order psl pc0 unit (fun _ => None) (fun _ _ => None) false.
Local Existing Instance personU.
Local Existing Instance uentry.
Definition who (i a b c : nat) : Derive.entry psl := (i, (a, (b, (c, tt)))).
Definition pappend (p : nat) (e : Derive.entry psl) : cmd := Call p (CAppend ((e, None) : @T uentry)).
Definition sch_71 : list cmd :=
  [ Settle [1;2;3] 2; Call 1 CTryLeader; Settle [1;2;3] 4; pappend 1 (who 1 4 4 4); pappend 1 (who 2 4 5 6); pappend 1 (who 3 4 5 6); Settle [1;2;3] 3;
    Do (ACrash 2 (ECall CTick) 0 (scs 2)); Settle [1;2;3] 3; Call 2 CTryLeader; Settle [1;2;3] 5;
    pappend 2 (who 4 4 5 6); pappend 2 (who 5 4 5 6); pappend 3 (who 6 7 5 6); Settle [1;2;3] 4 ].
Definition acts_71 := Eval vm_compute in acts_of cc3 (init_sys cc3 scs) sch_71.
Example ex71_steps : all_usteps one_batch cc3 (init_usys cc3 scs) acts_71 /\ no_heir_leads cc3 (fun _ => false) (init_usys cc3 scs) acts_71.
Proof. split; [apply one_batchb_ok; vm_compute; reflexivity|]. apply heirlessb_ok. vm_compute. reflexivity. Qed.
Example ex71_decided : exists u, ureaches cc3 scs acts_71 u /\ ureports u 1 2 (who 3 4 5 6) /\ ureports u 3 2 (who 3 4 5 6) /\ ureports u 1 4 (who 5 4 5 6) /\ ureports u 3 5 (who 6 7 5 6) /\ ureports u 1 5 (who 6 7 5 6).
Proof.
  assert (B : (match urun cc3 (init_usys cc3 scs) acts_71 with Some _ => true | None => false end) = true) by (vm_compute; reflexivity).
  destruct (urun cc3 (init_usys cc3 scs) acts_71) as [u|] eqn:Hu; [|discriminate]. exists u. split; [exact Hu|].
  assert (A : forall p i v, match urun cc3 (init_usys cc3 scs) acts_71 with Some u => match nodes (u_s u) p with Some o => match read o i with RSome (LDecided e) => Some (fst e) | _ => None end | None => None end | None => None end = Some v -> ureports u p i v).
  { intros p i v. rewrite Hu. clear. unfold ureports, server_reports. destruct (nodes (u_s u) p) as [o|]; [|discriminate].
    destruct (read o i) as [| |[e| | | |]] eqn:Er; try discriminate. intros H. injection H as <-. destruct e as [v a]. cbn [fst]. exists a, o. split; [reflexivity|]. apply rep_read. exact Er. }
  refine (conj (A _ _ _ _) (conj (A _ _ _ _) (conj (A _ _ _ _) (conj (A _ _ _ _) (A _ _ _ _))))); vm_compute; reflexivity.
Qed.
End Person.
Print Assumptions C71_agreement_partial.
Print Assumptions C71_no_cache_panic_partial.
