(** Vocabulary for the producer properties C28-C36. *)
From Coq Require Import ZArith String List Bool Permutation.
From Verif Require Import PyBase Constants Cluster Producer.
Import ListNotations.
Open Scope Z_scope.

(** ** where messages are *)
Definition queued (s : producer) : list pmsg := queue_msgs (p_unsent s).
Definition in_flight (s : producer) : list pmsg := ordered_msgs (p_sent s).
Definition settled_msgs (s : producer) : list pmsg := map fst (p_settled s).
(** every message is in exactly one place: message number i (the i-th accepted one) occurs once in the
    four places together *)
Definition accounted (s : producer) : Prop :=
  Permutation (map pm_id (queued s ++ in_flight s ++ settled_msgs s ++ p_lost s)) (seq 0 (p_next s)).

(** the queue of a topic *)
Definition queue_of (s : producer) (t : text) : list pmsg :=
  match dget (p_unsent s) t with Some q => q | None => [] end.
(** what the metadata tables say *)
Definition partitions_of (k : cluster) (t : text) : list Z := match dget (k_topics k) t with Some ps => ps | None => [] end.
Definition leader_for (k : cluster) (t : text) (p : Z) : option Z :=
  match dget (k_leaders k) t with Some d => dget d p | None => None end.
Definition connected (k : cluster) (b : Z) : bool := dmem (k_conns k) b.

(** the messages a list of requests carries for a partition *)
Definition carried (rqs : list prequest) (t : text) (p : Z) : list pmsg :=
  flat_map (fun rq => flat_map (fun tp => if list_eqb (fst tp) t
    then flat_map (fun pm => if fst pm =? p then snd pm else []) (snd tp) else []) (pq_topics rq)) rqs.
(** the partitioner sends message m of topic t to partition p, whose leader is connected / is not *)
Definition goes_to (part : partitioner) (k : cluster) (t : text) (p : Z) (m : pmsg) : bool :=
  match part m (partitions_of k t) with
  | Ok p' => (p' =? p) && match leader_for k t p' with Some l => connected k l | None => false end
  | Err _ => false
  end.
Definition leaderless (part : partitioner) (k : cluster) (t : text) (m : pmsg) : bool :=
  match part m (partitions_of k t) with
  | Ok p' => match leader_for k t p' with Some l => negb (connected k l) | None => false end
  | Err _ => false
  end.
(** the partitioner's choice succeeds and has a leader in the tables *)
Definition lookup_ok (part : partitioner) (k : cluster) (t : text) (m : pmsg) : Prop :=
  exists p l, part m (partitions_of k t) = Ok p /\ leader_for k t p = Some l.
Definition lookups_succeed (part : partitioner) (s : producer) : Prop :=
  forall t m, In m (queue_of s t) -> lookup_ok part (p_cluster s) t m.

(** dictionaries have distinct keys *)
Definition distinct_keys (s : producer) : Prop := NoDup (dkeys (p_unsent s)).

(** ** answers *)
(** the request content kept for a correlation id *)
Definition content (s : producer) (corr : Z) (t : text) (p : Z) (msgs : list pmsg) : Prop :=
  exists b d, dget (p_sent s) corr = Some b /\ dget b t = Some d /\ dget d p = Some msgs.
Definition gives (resp : presponse) (t : text) (p code : Z) : Prop :=
  exists ps, dget resp t = Some ps /\ dget ps p = Some code.
(** the response lists topics and partitions at most once, only partitions of the request, with known
    codes *)
Definition sane_answer (s : producer) (corr : Z) (resp : presponse) : Prop :=
  NoDup (dkeys resp) /\ (forall t ps, In (t, ps) resp -> NoDup (dkeys ps)) /\
  (forall t p code, gives resp t p code -> dmem ERROR_CODES code = true /\ exists msgs, content s corr t p msgs).
Definition full_answer (s : producer) (corr : Z) (resp : presponse) : Prop :=
  sane_answer s corr resp /\ forall t p msgs, content s corr t p msgs -> exists code, gives resp t p code.
(** Kafka's retriable produce errors *)
Definition retriable_code (c : Z) : bool := smem [2; 3; 5; 6; 7; 14; 15; 16; 19; 20] c.

(** the messages kept for a partition of a request *)
Definition sent_for (s : producer) (corr : Z) (t : text) (p : Z) : list pmsg :=
  match dget (p_sent s) corr with
  | Some b => match dget b t with Some d => match dget d p with Some ms => ms | None => [] end | None => [] end
  | None => [] end.
(** the partitions of a topic in a response that are to be retried, in the order of the response *)
Definition retried (resp : presponse) (t : text) : list Z :=
  match dget resp t with Some ps => map fst (filter (fun pc => retriable_code (snd pc)) ps) | None => [] end.
Definition any_retriable (resp : presponse) : bool :=
  existsb (fun tp => existsb (fun pc => retriable_code (snd pc)) (snd tp)) resp.

(** ** runs *)
Section Runs.
  Variable batch_size : option Z.
  Variables acks timeout : Z.
  Variable compress_fails : list pmsg -> option exn.
  Variable serialize_fails : prequest -> option exn.
  Definition reachable (s : producer) : Prop :=
    exists evs k corr, s = prun batch_size acks timeout compress_fails serialize_fails evs (producer_init k corr).
  (** events in which lookups succeed, no connection fails and brokers answer every partition they
      were asked about *)
  Definition calm_event (s : producer) (ev : pevent) : Prop :=
    match ev with
    | EvProduce part t mk | EvResume part t mk =>
        lookups_succeed part s /\ forall m, mk = Ok m -> lookup_ok part (p_cluster s) t (PM (p_next s) m)
    | EvFlush part | EvClose part => lookups_succeed part s
    | EvResponse corr resp => In corr (p_open s) -> full_answer s corr resp
    | EvFail _ _ => False
    | _ => True
    end.
  Fixpoint calm (evs : list pevent) (s : producer) : Prop :=
    match evs with
    | [] => True
    | ev :: rest => calm_event s ev /\ calm rest (pstep batch_size acks timeout compress_fails serialize_fails s ev)
    end.
End Runs.
