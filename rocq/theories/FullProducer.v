(** A whole producer (kiel/clients/producer.py, client.py, cluster.py and connection.py together): Full.v over
    ProducerStack.v.  Nothing is assumed about its cluster: the tables start empty and are what start(), heal() and stop()
    make of the metadata responses that arrive. *)
From Coq Require Import ZArith List Bool.
From Verif Require Import PyBase Messages Cluster Heals Producer ProducerStack Full.
From Verif Require Connection.
Import ListNotations.
Open Scope Z_scope.

(** the events that are the producer's own: produce(), flush() and close() are called, produce() goes on after a heal()
    (the model allows this at any time), heal_cluster is reset, a future is done *)
Definition mine (ev : pevent) : bool := match ev with EvResponse _ _ | EvFail _ _ | EvCluster _ | EvCorr => false | _ => true end.
Definition pown (e : yevent) : bool := match e with YCall ev _ => mine ev | YDone _ => true | _ => false end.
Definition pcl (Y : pstack) : cluster := p_cluster (y_prod Y).
Definition plast (Y : pstack) : Z := p_corr (y_prod Y).
Definition ptables (k : cluster) : yevent := YCall (EvCluster k) (fun _ => None).

Section FullProducer.
  Variable C : codec.
  Variable compression : Z.
  Variable batch_size : option Z.
  Variables acks timeout : Z.
  Variable depth : nat.
  Variable neg_read : Z -> bytes -> bytes * bytes.
  Definition pfstep : full pstack -> fevent yevent -> full pstack :=
    fstep (ystep C compression batch_size acks timeout depth neg_read) pcl y_link plast ptables YConn YMeta pown.
  Definition pfrun (evs : list (fevent yevent)) (F : full pstack) : full pstack := fold_left pfstep evs F.
  (** Client.__init__ and Cluster.__init__, client.py:19-24 and cluster.py:26-31; [corr] is request.py's last id *)
  Definition pfinit (corr : Z) : full pstack := full_init (pstack_init cluster_init corr).
End FullProducer.
