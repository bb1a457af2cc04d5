(** Vocabulary for the cluster properties C20-C25: what a metadata answer says, what the cluster
    knows, what it did.  Error codes are the numbers of the Kafka protocol. *)
From Coq Require Import ZArith String List Bool.
From Verif Require Import PyBase Cluster.
Import ListNotations.
Open Scope Z_scope.

(** ** what the cluster knows *)
Definition holds (k : cluster) (b : Z) : Prop := exists c, dget (k_conns k) b = Some c.
Definition partition_known (k : cluster) (t : text) (p : Z) : Prop :=
  exists ps, dget (k_topics k) t = Some ps /\ In p ps.
Definition leader (k : cluster) (t : text) (p l : Z) : Prop :=
  exists d, dget (k_leaders k) t = Some d /\ dget d p = Some l.

(** ** what a metadata answer says *)
Definition reports (ts : list mtopic) (t : text) (topic_code p part_code l : Z) : Prop :=
  exists T P, In T ts /\ mt_name T = t /\ mt_err T = topic_code /\
    In P (mt_parts T) /\ mp_id P = p /\ mp_err P = part_code /\ mp_leader P = l.
(** 3: unknown topic, 9: replica not available, 5: leader not available *)
Definition usable (ts : list mtopic) (t : text) (p l : Z) : Prop :=
  exists tc pc, reports ts t tc p pc l /\ tc <> 3 /\ tc <> 9 /\ pc <> 5.
Definition in_trouble (k : cluster) (ts : list mtopic) (t : text) : Prop :=
  exists T, In T ts /\ mt_name T = t /\ mt_err T <> 3 /\
    (mt_err T = 9 \/
     exists P, In P (mt_parts T) /\ (mp_err P = 5 \/ ~ holds k (mp_leader P))).
Definition listed (bs : list mbroker) (b : Z) : Prop := exists B, In B bs /\ mb_id B = b.

(** every broker of the answer has a connection, and no topic of the answer is in trouble *)
Definition settled (k : cluster) (r : mresp) : Prop :=
  (forall b, listed (mr_brokers r) b -> holds k b) /\
  (forall t, ~ in_trouble k (mr_topics r) t).
(** the tables of the cluster are those of the answer *)
Definition tables_of (k : cluster) (r : mresp) : Prop :=
  (forall t p, partition_known k t p <-> exists l, leader k t p l) /\
  (forall t p l, leader k t p l -> holds k l /\ usable (mr_topics r) t p l) /\
  (forall t p l, usable (mr_topics r) t p l -> holds k l -> partition_known k t p).

(** ** connections *)
(** broker ids are distinct, connections are distinct and not newer than the last one made *)
Definition wf (k : cluster) : Prop :=
  NoDup (dkeys (k_conns k)) /\
  NoDup (map (fun bc => cc_id (snd bc)) (k_conns k)) /\
  (forall b c, dget (k_conns k) b = Some c -> (cc_id c < k_opened k)%nat).
Definition same_conn (c c' : cconn) : Prop :=
  cc_id c' = cc_id c /\ cc_host c' = cc_host c /\ cc_port c' = cc_port c /\
  (cc_closing c = true -> cc_closing c' = true).

(** ** the record of effects *)
Definition answers (lg : list effect) : list mresp :=
  flat_map (fun x => match x with XAnswer _ r => [r] | _ => [] end) lg.
Definition conn_id (k : cluster) (b : Z) : nat := match dget (k_conns k) b with Some c => cc_id c | None => O end.
Definition closing_now (k : cluster) (b : Z) : Prop := exists c, dget (k_conns k) b = Some c /\ cc_closing c = true.
(** what a run of requests that failed looks like *)
Definition failed_asks (topics : list text) (xs : list (nat * exn)) : list effect :=
  flat_map (fun x => [XAsk (fst x) topics; XAskFailed (fst x) (snd x)]) xs.
(** failures get_metadata() is meant to skip: the connection is closed or lost *)
Definition connection_lost (e : exn) : Prop := e = EStreamClosed \/ e = EBrokerConn.
Inductive subseq {A} : list A -> list A -> Prop :=
| sub_nil l : subseq [] l
| sub_skip x l1 l2 : subseq l1 l2 -> subseq l1 (x :: l2)
| sub_take x l1 l2 : subseq l1 l2 -> subseq (x :: l1) (x :: l2).
(** the brokers [bs], in this order, were each found closing or were asked and failed *)
Definition all_failed (k k' : cluster) (bs : list Z) (xs : list (nat * exn)) : Prop :=
  subseq (map fst xs) (map (conn_id k) bs) /\ Forall (fun x => connection_lost (snd x)) xs /\
  forall b, In b bs -> closing_now k' b \/ In (conn_id k b) (map fst xs).
(** the connections asked *)
Definition asks (lg : list effect) : list nat :=
  flat_map (fun x => match x with XAsk id _ => [id] | _ => [] end) lg.

(** The address a bootstrap entry stands for (C24): "host:port", or a host alone with Kafka's default port. *)
Definition decimal (s : text) (n : Z) : Prop :=
  s <> [] /\ Forall (fun c => 48 <= c <= 57) s /\ n = fold_left (fun a c => 10 * a + (c - 48)) s 0.
Inductive bootstrap_address : text -> text * Z -> Prop :=
| ba_host h : ~ In 58 h -> bootstrap_address h (h, 9092)
| ba_port h s n : ~ In 58 h -> decimal s n -> bootstrap_address (h ++ [58] ++ s) (h, n).
