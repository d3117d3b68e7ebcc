(** * Configuration validation *)
From Coq Require Import List Arith Bool.
Import ListNotations.
From Verif Require Import Types.

(** [ClusterConfig::validate]: omni_paxos.rs 104-131.  The error strings are
    dropped; the result is whether validation succeeds. *)
Definition cluster_validate (c : cluster_config) : bool :=
  let num_nodes := length (cc_nodes c) in
  (1 <? num_nodes) &&
  negb (cc_id c =? 0) &&
  match cc_flex c with
  | Some f =>
      (num_nodes <? fq_read f + fq_write f) &&
      ((2 <=? fq_read f) && (fq_read f <=? num_nodes)) &&
      ((2 <=? fq_write f) && (fq_write f <=? num_nodes)) &&
      (fq_write f <=? fq_read f)
  | None => true
  end.

(** [ServerConfig::validate]: omni_paxos.rs 189-202. *)
Definition server_validate (s : server_config) : bool :=
  negb (sc_pid s =? 0) &&
  negb (sc_buffer s =? 0) &&
  negb (sc_batch s =? 0) &&
  negb (sc_election s =? 0) &&
  negb (sc_resend s =? 0).

(** [OmniPaxosConfig::validate]: omni_paxos.rs 41-49. *)
Definition config_validate (c : cluster_config) (s : server_config) : bool :=
  cluster_validate c && server_validate s && existsb (Nat.eqb (sc_pid s)) (cc_nodes c).

(** Peers of a server, i.e. the nodes without its own pid:
    sequence_paxos/mod.rs 473-478 and ballot_leader_election.rs 331-336. *)
Definition peers_of (c : cluster_config) (pid : node_id) : list node_id :=
  filter (fun x => negb (x =? pid)) (cc_nodes c).
