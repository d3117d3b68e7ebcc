(** * Sequence Paxos: leader and follower *)
From Coq Require Import List Arith Bool.
Import ListNotations.
From Verif Require Import Types Config MemStore Internal LeaderState.

(** [Phase], [Role]: sequence_paxos/mod.rs 435-447. *)
Inductive phase := PhPrepare | PhAccept | PhRecover | PhNone.
Inductive role := Follower | Leader.

Definition phase_eqb (a b : phase) : bool :=
  match a, b with
  | PhPrepare, PhPrepare | PhAccept, PhAccept | PhRecover, PhRecover | PhNone, PhNone => true
  | _, _ => false
  end.
Definition role_eqb (a b : role) : bool :=
  match a, b with Follower, Follower | Leader, Leader => true | _, _ => false end.

Section WithEntry.
Context {E : EntryT}.

(** [ProposeErr]: omni_paxos.rs 435-447. *)
Inductive propose_err :=
| PendingReconfigEntry (e : T)
| PendingReconfigConfig (c : cluster_config) (meta : option (list nat))
| ConfigErr (c : cluster_config) (meta : option (list nat)).

(** [SequencePaxos]: sequence_paxos/mod.rs 25-44 (without the logger). *)
Record sp := mkSP {
  s_is : istore;
  s_pid : node_id;
  s_peers : list node_id;
  s_role : role;
  s_phase : phase;
  s_bprops : list T;
  s_bss : option stopsign;
  s_out : list pmessage;
  s_ls : leader_state;
  s_lam : option (ballot * nat);
  s_cseq : seqnum;
  s_cprom : option promise
}.

(** Field updates. *)
Definition set_is (s : sp) x := mkSP x (s_pid s) (s_peers s) (s_role s) (s_phase s) (s_bprops s) (s_bss s) (s_out s) (s_ls s) (s_lam s) (s_cseq s) (s_cprom s).
Definition set_state (s : sp) r p := mkSP (s_is s) (s_pid s) (s_peers s) r p (s_bprops s) (s_bss s) (s_out s) (s_ls s) (s_lam s) (s_cseq s) (s_cprom s).
Definition set_bprops (s : sp) x := mkSP (s_is s) (s_pid s) (s_peers s) (s_role s) (s_phase s) x (s_bss s) (s_out s) (s_ls s) (s_lam s) (s_cseq s) (s_cprom s).
Definition set_bss (s : sp) x := mkSP (s_is s) (s_pid s) (s_peers s) (s_role s) (s_phase s) (s_bprops s) x (s_out s) (s_ls s) (s_lam s) (s_cseq s) (s_cprom s).
Definition set_out (s : sp) x := mkSP (s_is s) (s_pid s) (s_peers s) (s_role s) (s_phase s) (s_bprops s) (s_bss s) x (s_ls s) (s_lam s) (s_cseq s) (s_cprom s).
Definition set_ls (s : sp) x := mkSP (s_is s) (s_pid s) (s_peers s) (s_role s) (s_phase s) (s_bprops s) (s_bss s) (s_out s) x (s_lam s) (s_cseq s) (s_cprom s).
Definition set_lam (s : sp) x := mkSP (s_is s) (s_pid s) (s_peers s) (s_role s) (s_phase s) (s_bprops s) (s_bss s) (s_out s) (s_ls s) x (s_cseq s) (s_cprom s).
Definition set_cseq (s : sp) x := mkSP (s_is s) (s_pid s) (s_peers s) (s_role s) (s_phase s) (s_bprops s) (s_bss s) (s_out s) (s_ls s) (s_lam s) x (s_cprom s).
Definition set_cprom (s : sp) x := mkSP (s_is s) (s_pid s) (s_peers s) (s_role s) (s_phase s) (s_bprops s) (s_bss s) (s_out s) (s_ls s) (s_lam s) (s_cseq s) x.

Definition spanic {A} (s : sp) : res A := ipanic (s_is s).
Definition lift {A} (s : sp) (o : option A) : res A :=
  match o with Some a => Ok a | None => spanic s end.

(** [self.outgoing.push(Message::SequencePaxos(PaxosMessage{from: self.pid, to, msg}))]. *)
Definition push (s : sp) (to : node_id) (m : pmsg) : sp :=
  set_out s (s_out s ++ [mkPM (s_pid s) to m]).

(** Sequential [for pid in list { self = f(self, pid) }]. *)
Fixpoint for_each (s : sp) (l : list node_id) (f : sp -> node_id -> res sp) : res sp :=
  match l with
  | [] => Ok s
  | p :: r => s' <- f s p ;; for_each s' r f
  end.

(** [for peer in &self.peers { push m }]. *)
Definition push_all (s : sp) (l : list node_id) (m : pmsg) : sp :=
  fold_left (fun s p => push s p m) l s.

(** [get_promise], [get_current_leader]: sequence_paxos/mod.rs 134-136, 332-334 (the other
    getters are in Omni.v). *)
Definition sp_promise (s : sp) : ballot := i_prom (s_is s).
Definition sp_leader (s : sp) : node_id := b_pid (sp_promise s).

(** [accepted_reconfiguration]: sequence_paxos/mod.rs 293-295. *)
Definition accepted_reconfiguration (s : sp) : bool :=
  match i_ss (s_is s) with Some _ => true | None => false end.

(** [SequencePaxos::with]: sequence_paxos/mod.rs 53-128.  [None] is the panic of
    [peers.iter().max().unwrap()] on an empty list of peers. *)
Definition sp_with (pid : node_id) (peers : list node_id) (flex : option flexq) (bsize : nat) (st : mstore)
  : option sp :=
  match peers with
  | [] => None
  | p0 :: pr =>
      let num_nodes := length peers + 1 in
      let q := quorum_with flex num_nodes in
      let max_pid := Nat.max (fold_left Nat.max pr p0) pid in
      let '(ph, leader, out) :=
        match ms_prom st with
        | Some b => (PhRecover, b, map (fun p => mkPM pid p (MPrepareReq b)) peers)
        | None => (PhNone, bdef, [])
        end in
      let is0 := istore_with st bsize in
      Some (mkSP (i_set_promise is0 leader) pid peers Follower ph [] None out
                 (ls_with leader max_pid q) None seq0 None)
  end.

(** [create_log_sync]: sequence_paxos/mod.rs 400-432. *)
Definition create_log_sync (s : sp) (common_prefix other_dec : nat) : option log_sync :=
  let is := s_is s in
  let dec := i_dec is in
  if use_snapshots && (common_prefix <? dec) then
    match create_diff_snapshot is other_dec, ms_get_suffix (i_st is) dec with
    | COk (snap, comp), Some suffix => Some (mkSync snap suffix comp (i_ss is))
    | _, _ => None
    end
  else
    match ms_get_suffix (i_st is) common_prefix with
    | Some suffix => Some (mkSync None suffix common_prefix (i_ss is))
    | None => None
    end.

(** [forward_proposals]: sequence_paxos/mod.rs 366-379. *)
Definition forward_proposals (s : sp) (es : list T) : sp :=
  let leader := sp_leader s in
  if (0 <? leader) && negb (s_pid s =? leader) then push s leader (MProposalForward es)
  else set_bprops s (s_bprops s ++ es).

(** [forward_stopsign]: sequence_paxos/mod.rs 381-396. *)
Definition forward_stopsign (s : sp) (ss : stopsign) : sp :=
  let leader := sp_leader s in
  if (0 <? leader) && negb (s_pid s =? leader) then push s leader (MForwardStopSign ss)
  else match s_bss s with None => set_bss s (Some ss) | Some _ => s end.

(** [reconnected]: sequence_paxos/mod.rs 338-352. *)
Definition reconnected (s : sp) (pid : node_id) : sp :=
  if pid =? s_pid s then s
  else
    let s := if pid =? sp_leader s then set_state s Follower PhRecover else s in
    push s pid (MPrepareReq (sp_promise s)).

(** ** Leader: sequence_paxos/leader.rs *)

(** [send_prepare]: leader.rs 97-109. *)
Definition send_prepare (s : sp) (to : node_id) : sp :=
  push s to (MPrepare (l_n (s_ls s)) (i_dec (s_is s)) (i_around (s_is s)) (i_acc (s_is s))).

(** [handle_leader]: leader.rs 16-60. *)
Definition handle_leader (s : sp) (n : ballot) : res sp :=
  if ble n (l_n (s_ls s)) || ble n (i_prom (s_is s)) then Ok s
  else if s_pid s =? b_pid n then
    let s := set_ls s (ls_with n (l_maxpid (s_ls s)) (l_quorum (s_ls s))) in
    let s := set_is s (fst (flush_batch (s_is s))) in
    let s := set_is s (i_set_promise (s_is s) n) in
    let na := i_around (s_is s) in
    let dec := i_dec (s_is s) in
    let acc := i_acc (s_is s) in
    let my := mkProm n na dec acc None in
    '(ls, _) <- lift s (ls_set_promise (s_ls s) my (s_pid s) true) ;;
    let s := set_ls s ls in
    let s := set_state s Leader PhPrepare in
    Ok (push_all s (s_peers s) (MPrepare n dec na acc))
  else Ok (set_state s Follower (s_phase s)).

(** [handle_preparereq]: leader.rs 66-74. *)
Definition handle_preparereq (s : sp) (n : ballot) (from : node_id) : res sp :=
  if role_eqb (s_role s) Leader && ble n (l_n (s_ls s)) then
    ls <- lift s (reset_promise (s_ls s) from) ;;
    ls <- lift s (set_latest_accept_meta ls from None) ;;
    Ok (send_prepare (set_ls s ls) from)
  else Ok s.

(** [get_latest_accdec_message]: leader.rs 347-363.  Returns the index in
    [outgoing] of the message, which callers then modify; outer [None] is the
    panic of [get_mut(..).unwrap()]. *)
Definition get_latest_accdec (s : sp) (to : node_id) : option (option nat) :=
  match get_latest_accept_meta (s_ls s) to with
  | None => None
  | Some None => Some None
  | Some (Some (bal, idx)) =>
      if beq bal (l_n (s_ls s)) then
        match nth_error (s_out s) idx with
        | None => None
        | Some m => match pm_msg m with MAcceptDecide _ _ _ _ => Some (Some idx) | _ => Some None end
        end
      else Some None
  end.

(** Modification of the [AcceptDecide] at index [idx] of [outgoing]. *)
Definition mod_accdec (s : sp) (idx : nat) (f : pmsg -> pmsg) : sp :=
  match nth_error (s_out s) idx with
  | Some m => set_out s (upd (s_out s) idx (mkPM (pm_from m) (pm_to m) (f (pm_msg m))))
  | None => s
  end.

(** [accdec.entries.extend(..); accdec.decided_idx = ..]: leader.rs 200-201. *)
Definition extend_accdec (es : list T) (dec : nat) (m : pmsg) : pmsg :=
  match m with MAcceptDecide n sq _ es0 => MAcceptDecide n sq dec (es0 ++ es) | _ => m end.

(** [accdec.decided_idx = decided_idx]: leader.rs 339. *)
Definition redecide_accdec (dec : nat) (m : pmsg) : pmsg :=
  match m with MAcceptDecide n sq _ es0 => MAcceptDecide n sq dec es0 | _ => m end.

(** Loop body of [send_acceptdecide]: leader.rs 196-219. *)
Definition send_acceptdecide_to (dec : nat) (es : list T) (s : sp) (pid : node_id) : res sp :=
  r <- lift s (get_latest_accdec s pid) ;;
  match r with
  | Some idx => Ok (mod_accdec s idx (extend_accdec es dec))
  | None =>
      ls <- lift s (set_latest_accept_meta (s_ls s) pid (Some (length (s_out s)))) ;;
      '(ls, sq) <- lift s (next_seq_num ls pid) ;;
      Ok (push (set_ls s ls) pid (MAcceptDecide (l_n ls) sq dec es))
  end.

(** [send_acceptdecide]: leader.rs 193-221. *)
Definition send_acceptdecide (s : sp) (es : list T) : res sp :=
  let dec := i_dec (s_is s) in
  ps <- lift s (get_promised_followers (s_ls s)) ;;
  for_each s ps (send_acceptdecide_to dec es).

(** [accept_entry_leader]: leader.rs 111-121. *)
Definition accept_entry_leader (s : sp) (e : T) : res sp :=
  let '(is, r) := append_entry_with_batching (s_is s) e in
  let s := set_is s is in
  match r with
  | Some (acc, es) =>
      ls <- lift s (set_accepted_idx (s_ls s) (s_pid s) acc) ;;
      send_acceptdecide (set_ls s ls) es
  | None => Ok s
  end.

(** [accept_entries_leader]: leader.rs 123-133. *)
Definition accept_entries_leader (s : sp) (es0 : list T) : res sp :=
  let '(is, r) := append_entries_with_batching (s_is s) es0 in
  let s := set_is s is in
  match r with
  | Some (acc, es) =>
      ls <- lift s (set_accepted_idx (s_ls s) (s_pid s) acc) ;;
      send_acceptdecide (set_ls s ls) es
  | None => Ok s
  end.

(** [send_accept_stopsign]: leader.rs 223-238. *)
Definition send_accept_stopsign (ss : stopsign) (resend : bool) (s : sp) (to : node_id) : res sp :=
  '(ls, sq) <- lift s (if resend then option_map (fun q => (s_ls s, q)) (get_seq_num (s_ls s) to)
                       else next_seq_num (s_ls s) to) ;;
  Ok (push (set_ls s ls) to (MAcceptStopSign (l_n ls) sq ss)).

(** [accept_stopsign_leader]: leader.rs 135-148. *)
Definition accept_stopsign_leader (s : sp) (ss : stopsign) : res sp :=
  let '(is, r) := i_append_stopsign (s_is s) ss in
  let s := set_is s is in
  s <- (match r with Some (_, es) => send_acceptdecide s es | None => Ok s end) ;;
  let acc := i_acc (s_is s) in
  ls <- lift s (set_accepted_idx (s_ls s) (s_pid s) acc) ;;
  let s := set_ls s ls in
  ps <- lift s (get_promised_followers (s_ls s)) ;;
  for_each s ps (send_accept_stopsign ss false).

(** [handle_forwarded_proposal]: leader.rs 76-84. *)
Definition handle_forwarded_proposal (s : sp) (es : list T) : res sp :=
  if accepted_reconfiguration s then Ok s
  else match s_role s, s_phase s with
  | Leader, PhPrepare => Ok (set_bprops s (s_bprops s ++ es))
  | Leader, PhAccept => accept_entries_leader s es
  | _, _ => Ok (forward_proposals s es)
  end.

(** [handle_forwarded_stopsign]: leader.rs 86-95. *)
Definition handle_forwarded_stopsign (s : sp) (ss : stopsign) : res sp :=
  if accepted_reconfiguration s then Ok s
  else match s_role s, s_phase s with
  | Leader, PhPrepare => Ok (set_bss s (Some ss))
  | Leader, PhAccept => accept_stopsign_leader s ss
  | _, _ => Ok (forward_stopsign s ss)
  end.

(** [send_accsync]: leader.rs 150-191. *)
Definition send_accsync (s : sp) (to : node_id) : res sp :=
  let ls := s_ls s in
  let n := l_n ls in
  let max := l_maxmeta ls in
  m <- lift s (get_promise_meta ls to) ;;
  fdec <- lift s (match ls_get_decided_idx ls (pmt_pid m) with Some (Some d) => Some d | _ => None end) ;;
  let valid :=
    if beq (pmt_na m) n then pmt_acc m
    else if beq (pmt_na m) (pmt_na max) then Nat.min (pmt_acc max) (pmt_acc m)
    else fdec in
  sy <- lift s (create_log_sync s valid fdec) ;;
  ls <- lift s (increment_seq_num_session ls to) ;;
  '(ls, sq) <- lift s (next_seq_num ls to) ;;
  Ok (push (set_ls s ls) to (MAcceptSync n sq (i_dec (s_is s)) sy)).

(** [send_decide]: leader.rs 240-255. *)
Definition send_decide (dec : nat) (resend : bool) (s : sp) (to : node_id) : res sp :=
  '(ls, sq) <- lift s (if resend then option_map (fun q => (s_ls s, q)) (get_seq_num (s_ls s) to)
                       else next_seq_num (s_ls s) to) ;;
  Ok (push (set_ls s ls) to (MDecide (l_n ls) sq dec)).

(** [handle_majority_promises]: leader.rs 257-285. *)
Definition handle_majority_promises (s : sp) : res sp :=
  let '(ls, sy) := take_max_promise_sync (s_ls s) in
  let s := set_ls s ls in
  let dec := get_max_decided_idx (s_ls s) in
  '(is, acc) <- sync_log (s_is s) (l_n (s_ls s)) dec sy ;;
  let s := set_is s is in
  let '(s, acc) :=
    if accepted_reconfiguration s then (s, acc)
    else
      let '(s, acc) :=
        match s_bprops s with
        | [] => (s, acc)
        | es =>
            let s := set_bprops s [] in
            let '(is, acc) := append_entries_without_batching (s_is s) es in
            (set_is s is, acc)
        end in
      match s_bss s with
      | Some ss =>
          let s := set_bss s None in
          let s := set_is s (fst (i_append_stopsign (s_is s) ss)) in
          (s, i_acc (s_is s))
      | None => (s, acc)
      end in
  let s := set_state s Leader PhAccept in
  ls <- lift s (set_accepted_idx (s_ls s) (s_pid s) acc) ;;
  let s := set_ls s ls in
  ps <- lift s (get_promised_followers (s_ls s)) ;;
  for_each s ps send_accsync.

(** [handle_promise_prepare]: leader.rs 287-299. *)
Definition handle_promise_prepare (s : sp) (p : promise) (from : node_id) : res sp :=
  if beq (pr_n p) (l_n (s_ls s)) then
    '(ls, maj) <- lift s (ls_set_promise (s_ls s) p from true) ;;
    let s := set_ls s ls in
    if maj then handle_majority_promises s else Ok s
  else Ok s.

(** [handle_promise_accept]: leader.rs 301-314. *)
Definition handle_promise_accept (s : sp) (p : promise) (from : node_id) : res sp :=
  if beq (pr_n p) (l_n (s_ls s)) then
    '(ls, _) <- lift s (ls_set_promise (s_ls s) p from false) ;;
    send_accsync (set_ls s ls) from
  else Ok s.

(** Loop body of [handle_accepted]: leader.rs 337-341. *)
Definition handle_accepted_to (dec : nat) (s : sp) (pid : node_id) : res sp :=
  r <- lift s (get_latest_accdec s pid) ;;
  match r with
  | Some idx => Ok (mod_accdec s idx (redecide_accdec dec))
  | None => send_decide dec false s pid
  end.

(** [handle_accepted]: leader.rs 316-345. *)
Definition handle_accepted (s : sp) (n : ballot) (acc : nat) (from : node_id) : res sp :=
  if beq n (l_n (s_ls s)) && (role_eqb (s_role s) Leader && phase_eqb (s_phase s) PhAccept) then
    ls <- lift s (set_accepted_idx (s_ls s) from acc) ;;
    let s := set_ls s ls in
    if (i_dec (s_is s) <? acc) && is_chosen (s_ls s) acc then
      let s := set_is s (i_set_decided (s_is s) acc) in
      ps <- lift s (get_promised_followers (s_ls s)) ;;
      for_each s ps (handle_accepted_to acc)
    else Ok s
  else Ok s.

(** [handle_notaccepted]: leader.rs 365-369. *)
Definition handle_notaccepted (s : sp) (n : ballot) (from : node_id) : res sp :=
  if role_eqb (s_role s) Leader && blt (l_n (s_ls s)) n then
    ls <- lift s (lost_promise (s_ls s) from) ;;
    Ok (set_ls s ls)
  else Ok s.

(** Loop body over the promised followers in [resend_messages_leader]:
    leader.rs 385-391. *)
Definition resend_ss_to (ss : stopsign) (dec : nat) (s : sp) (f : node_id) : res sp :=
  if stopsign_is_decided (i_ca (s_is s)) then send_decide dec true s f
  else
    a <- lift s (ls_get_accepted_idx (s_ls s) f) ;;
    if a =? i_acc (s_is s) then Ok s else send_accept_stopsign ss true s f.

(** [resend_messages_leader]: leader.rs 371-403. *)
Definition resend_messages_leader (s : sp) : res sp :=
  match s_phase s with
  | PhPrepare =>
      ps <- lift s (get_preparable_peers (s_ls s) (s_peers s)) ;;
      Ok (fold_left send_prepare ps s)
  | PhAccept =>
      s <- (match i_ss (s_is s) with
            | Some ss =>
                ps <- lift s (get_promised_followers (s_ls s)) ;;
                for_each s ps (resend_ss_to ss (i_dec (s_is s)))
            | None => Ok s
            end) ;;
      ps <- lift s (get_preparable_peers (s_ls s) (s_peers s)) ;;
      Ok (fold_left send_prepare ps s)
  | _ => Ok s
  end.

(** [flush_batch_leader]: leader.rs 405-415. *)
Definition flush_batch_leader (s : sp) : res sp :=
  let '(is, r) := flush_batch_and_get_entries (s_is s) in
  let s := set_is s is in
  match r with
  | Some (acc, es) =>
      ls <- lift s (set_accepted_idx (s_ls s) (s_pid s) acc) ;;
      send_acceptdecide (set_ls s ls) es
  | None => Ok s
  end.

(** ** Follower: sequence_paxos/follower.rs *)

(** [handle_prepare]: follower.rs 13-51. *)
Definition handle_prepare (s : sp) (n : ballot) (dec : nat) (na : ballot) (acc : nat) (from : node_id) : res sp :=
  let old := i_prom (s_is s) in
  if blt old n || (beq old n && phase_eqb (s_phase s) PhRecover) then
    let s := set_is s (fst (flush_batch (s_is s))) in
    let s := set_is s (i_set_promise (s_is s) n) in
    let s := set_state s Follower PhPrepare in
    let s := set_cseq s seq0 in
    let my_na := i_around (s_is s) in
    let my_acc := i_acc (s_is s) in
    sy <- (if bgt my_na na then
             sy <- lift s (create_log_sync s dec dec) ;; Ok (Some sy)
           else if beq my_na na && (acc <? my_acc) then
             sy <- lift s (create_log_sync s acc dec) ;; Ok (Some sy)
           else Ok None) ;;
    let p := mkProm n my_na (i_dec (s_is s)) my_acc sy in
    let s := set_cprom s (Some p) in
    Ok (push s from (MPromise p))
  else Ok s.

(** [check_valid_ballot]: follower.rs 196-227. *)
Definition check_valid_ballot (s : sp) (b : ballot) : sp * bool :=
  let my := i_prom (s_is s) in
  match bcmp my b with
  | Eq => (s, true)
  | Gt => (push s (b_pid b) (MNotAccepted my), false)
  | Lt => (reconnected s (b_pid b), false)
  end.

(** [handle_sequence_num]: follower.rs 230-238. *)
Definition handle_sequence_num (s : sp) (sq : seqnum) (from : node_id) : sp * msg_status :=
  let st := check_msg_status (s_cseq s) sq in
  match st with
  | Expected => (set_cseq s sq, st)
  | DroppedPreceding => (reconnected s from, st)
  | Outdated => (s, st)
  end.

(** [get_latest_accepted_message]: follower.rs 177-193, as [get_latest_accdec]. *)
Definition get_latest_accepted (s : sp) (n : ballot) : option (option nat) :=
  match s_lam s with
  | None => Some None
  | Some (b, idx) =>
      if beq b n then
        match nth_error (s_out s) idx with
        | None => None
        | Some m => match pm_msg m with MAccepted _ _ => Some (Some idx) | _ => Some None end
        end
      else Some None
  end.

(** [acc.accepted_idx = accepted_idx]: follower.rs 163. *)
Definition reaccept (acc : nat) (m : pmsg) : pmsg :=
  match m with MAccepted n _ => MAccepted n acc | _ => m end.

(** [reply_accepted]: follower.rs 160-175. *)
Definition reply_accepted (s : sp) (n : ballot) (acc : nat) : res sp :=
  r <- lift s (get_latest_accepted s n) ;;
  match r with
  | Some idx => Ok (mod_accdec s idx (reaccept acc))
  | None =>
      let s := set_lam s (Some (n, length (s_out s))) in
      Ok (push s (b_pid n) (MAccepted n acc))
  end.

(** [forward_buffered_proposals]: follower.rs 81-86. *)
Definition forward_buffered_proposals (s : sp) : sp :=
  let es := s_bprops s in
  let s := set_bprops s [] in
  match es with [] => s | _ => forward_proposals s es end.

(** [handle_acceptsync]: follower.rs 53-79. *)
Definition handle_acceptsync (s : sp) (n : ballot) (sq : seqnum) (dec : nat) (sy : log_sync) (from : node_id)
  : res sp :=
  let '(s, valid) := check_valid_ballot s n in
  if valid && (role_eqb (s_role s) Follower && phase_eqb (s_phase s) PhPrepare) then
    let s := set_cprom s None in
    '(is, acc) <- sync_log (s_is s) n dec (Some sy) ;;
    let s := set_is s is in
    let s := match i_ss (s_is s) with None => forward_buffered_proposals s | Some _ => s end in
    let s := set_state s Follower PhAccept in
    let s := set_cseq s sq in
    let s := set_lam s (Some (n, length (s_out s))) in
    Ok (push s from (MAccepted n acc))
  else Ok s.

(** [update_decided_idx_and_get_accepted_idx]: follower.rs 142-158. *)
Definition update_decided (s : sp) (d : nat) : sp * option nat :=
  if d <=? i_dec (s_is s) then (s, None)
  else if i_acc (s_is s) <? d then
    let '(is, acc) := flush_batch (s_is s) in
    let is := i_set_decided is (Nat.min d acc) in
    (set_is s is, Some acc)
  else (set_is s (i_set_decided (s_is s) d), None).

(** [handle_acceptdecide]: follower.rs 88-110. *)
Definition handle_acceptdecide (s : sp) (n : ballot) (sq : seqnum) (dec : nat) (es : list T) : res sp :=
  let '(s, valid) := check_valid_ballot s n in
  if valid && (role_eqb (s_role s) Follower && phase_eqb (s_phase s) PhAccept) then
    let '(s, st) := handle_sequence_num s sq (b_pid n) in
    match st with
    | Expected =>
        let '(is, r1) := append_entries_and_get_accepted_idx (s_is s) es in
        let s := set_is s is in
        let '(s, r2) := update_decided s dec in
        match (match r2 with Some _ => r2 | None => r1 end) with
        | Some idx => reply_accepted s n idx
        | None => Ok s
        end
    | _ => Ok s
    end
  else Ok s.

(** [handle_accept_stopsign]: follower.rs 112-126. *)
Definition handle_accept_stopsign (s : sp) (n : ballot) (sq : seqnum) (ss : stopsign) : res sp :=
  let '(s, valid) := check_valid_ballot s n in
  if valid && (role_eqb (s_role s) Follower && phase_eqb (s_phase s) PhAccept) then
    let '(s, st) := handle_sequence_num s sq (b_pid n) in
    match st with
    | Expected =>
        let s := set_is s (fst (flush_batch (s_is s))) in
        '(is, acc) <- i_set_stopsign (s_is s) (Some ss) ;;
        reply_accepted (set_is s is) n acc
    | _ => Ok s
    end
  else Ok s.

(** [handle_decide]: follower.rs 128-138 (note: the role is not checked). *)
Definition handle_decide (s : sp) (n : ballot) (sq : seqnum) (dec : nat) : res sp :=
  let '(s, valid) := check_valid_ballot s n in
  if valid && phase_eqb (s_phase s) PhAccept then
    let '(s, st) := handle_sequence_num s sq (b_pid n) in
    match st with
    | Expected =>
        let '(s, r) := update_decided s dec in
        match r with Some idx => reply_accepted s n idx | None => Ok s end
    | _ => Ok s
    end
  else Ok s.

(** [send_preparereq_to_all_peers]: follower.rs 271-282. *)
Definition send_preparereq_to_all_peers (s : sp) : sp :=
  push_all s (s_peers s) (MPrepareReq (sp_promise s)).

(** [resend_messages_follower]: follower.rs 240-269. *)
Definition resend_messages_follower (s : sp) : sp :=
  match s_phase s with
  | PhPrepare =>
      match s_cprom s with
      | Some p => push s (b_pid (pr_n p)) (MPromise p)
      | None => send_preparereq_to_all_peers (set_state s Follower PhRecover)
      end
  | PhRecover => send_preparereq_to_all_peers s
  | _ => s
  end.

(** [flush_batch_follower]: follower.rs 284-290. *)
Definition flush_batch_follower (s : sp) : res sp :=
  let acc := i_acc (s_is s) in
  let '(is, acc') := flush_batch (s_is s) in
  let s := set_is s is in
  if acc <? acc' then reply_accepted s (sp_promise s) acc' else Ok s.

(** ** Calls of sequence_paxos/mod.rs *)

(** [trim]: sequence_paxos/mod.rs 141-178. *)
Definition sp_trim (s : sp) (idx : option nat) : res (sp * option compaction_err) :=
  match s_role s with
  | Leader =>
      mn <- lift s (get_min_all_accepted_idx (s_ls s)) ;;
      let go i :=
        '(is, r) <- try_trim (s_is s) i ;;
        let s := set_is s is in
        match r with
        | None => Ok (push_all s (s_peers s) (MCompaction (CmpTrim i)), None)
        | Some e => Ok (s, Some e)
        end in
      match idx with
      | Some i => if i <=? mn then go i else Ok (s, Some (NotAllDecided mn))
      | None => go mn
      end
  | Follower => Ok (s, Some (NotCurrentLeader (sp_leader s)))
  end.

(** [snapshot]: sequence_paxos/mod.rs 184-205. *)
Definition sp_snapshot (s : sp) (idx : option nat) (local_only : bool) : res (sp * option compaction_err) :=
  '(is, r) <- try_snapshot (s_is s) idx ;;
  let s := set_is s is in
  match r with
  | None => Ok (if local_only then s else push_all s (s_peers s) (MCompaction (CmpSnapshot idx)), None)
  | Some e => Ok (s, Some e)
  end.

(** [handle_compaction]: sequence_paxos/mod.rs 217-227. *)
Definition handle_compaction (s : sp) (c : compaction) : res sp :=
  match c with
  | CmpTrim i => '(is, _) <- try_trim (s_is s) i ;; Ok (set_is s is)
  | CmpSnapshot i => '(s, _) <- sp_snapshot s i true ;; Ok s
  end.

(** [resend_message_timeout]: sequence_paxos/mod.rs 232-237. *)
Definition resend_message_timeout (s : sp) : res sp :=
  match s_role s with
  | Leader => resend_messages_leader s
  | Follower => Ok (resend_messages_follower s)
  end.

(** [flush_batch_timeout]: sequence_paxos/mod.rs 240-246. *)
Definition flush_batch_timeout (s : sp) : res sp :=
  match s_role s, s_phase s with
  | Leader, PhAccept => flush_batch_leader s
  | Follower, PhAccept => flush_batch_follower s
  | _, _ => Ok s
  end.

(** [take_outgoing_msgs]: sequence_paxos/mod.rs 251-260. *)
Definition sp_take_outgoing (s : sp) (buffer : list message) : sp * list message :=
  let out := map MsgSP (s_out s) in
  let '(buffer, out') :=
    match buffer with
    | [] => (out, buffer)
    | _ => (buffer ++ out, [])
    end in
  (* both branches leave [self.outgoing] empty: in the first one it becomes the
     (empty) buffer of the caller *)
  let s := set_out s [] in
  let s := set_ls s (reset_latest_accept_meta (s_ls s)) in
  (set_lam s None, buffer).

(** [handle]: sequence_paxos/mod.rs 263-282. *)
Definition sp_handle (s : sp) (m : pmessage) : res sp :=
  let from := pm_from m in
  match pm_msg m with
  | MPrepareReq n => handle_preparereq s n from
  | MPrepare n dec na acc => handle_prepare s n dec na acc from
  | MPromise p =>
      match s_role s, s_phase s with
      | Leader, PhPrepare => handle_promise_prepare s p from
      | Leader, PhAccept => handle_promise_accept s p from
      | _, _ => Ok s
      end
  | MAcceptSync n sq dec sy => handle_acceptsync s n sq dec sy from
  | MAcceptDecide n sq dec es => handle_acceptdecide s n sq dec es
  | MNotAccepted n => handle_notaccepted s n from
  | MAccepted n acc => handle_accepted s n acc from
  | MDecide n sq dec => handle_decide s n sq dec
  | MProposalForward es => handle_forwarded_proposal s es
  | MCompaction c => handle_compaction s c
  | MAcceptStopSign n sq ss => handle_accept_stopsign s n sq ss
  | MForwardStopSign ss => handle_forwarded_stopsign s ss
  end.

(** [is_reconfigured]: sequence_paxos/mod.rs 285-290. *)
Definition sp_is_reconfigured (s : sp) : option stopsign :=
  match i_ss (s_is s) with
  | Some ss => if stopsign_is_decided (i_ca (s_is s)) then Some ss else None
  | None => None
  end.

(** [propose_entry]: sequence_paxos/mod.rs 354-360. *)
Definition propose_entry (s : sp) (e : T) : res sp :=
  match s_role s, s_phase s with
  | Leader, PhPrepare => Ok (set_bprops s (s_bprops s ++ [e]))
  | Leader, PhAccept => accept_entry_leader s e
  | _, _ => Ok (forward_proposals s [e])
  end.

(** [append]: sequence_paxos/mod.rs 298-305. *)
Definition sp_append (s : sp) (e : T) : res (sp * option propose_err) :=
  if accepted_reconfiguration s then Ok (s, Some (PendingReconfigEntry e))
  else s <- propose_entry s e ;; Ok (s, None).

(** [reconfigure]: sequence_paxos/mod.rs 310-330. *)
Definition sp_reconfigure (s : sp) (c : cluster_config) (meta : option (list nat))
  : res (sp * option propose_err) :=
  if accepted_reconfiguration s then Ok (s, Some (PendingReconfigConfig c meta))
  else
    let ss := mkSS c meta in
    s <- (match s_role s, s_phase s with
          | Leader, PhPrepare => Ok (set_bss s (Some ss))
          | Leader, PhAccept => accept_stopsign_leader s ss
          | _, _ => Ok (forward_stopsign s ss)
          end) ;;
    Ok (s, None).

End WithEntry.
