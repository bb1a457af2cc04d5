(** Vocabulary for C98: where a start() of a whole client is in its list of bootstrap hosts. *)
From Coq Require Import ZArith List Sorted.
From Verif Require Import PyBase Cluster SpecCluster Heals Stack Full.
From Verif Require Connection.
Import ListNotations.
Open Scope Z_scope.

(** a connection to bootstrap host [h] was begun, as number [id] *)
Definition attempted (lg : list effect) (h : text) (id : nat) : Prop := exists host port, bootstrap_address h (host, port) /\ In (XConnect id host port) lg.
(** connections to these hosts were begun one after the other, with those numbers, and each failed *)
Definition refused (lg : list effect) (hs : list text) (ids : list nat) : Prop :=
  Forall2 (fun h id => attempted lg h id /\ exists e, In (XConnectFailed id e) lg) hs ids /\ StronglySorted lt ids.
(** what has become of a start() called as number [i] with these hosts, when [n0] connections had been begun: the first
    hosts have refused, and it
    - waits for the connection to the next one;
    - or waits for that host's answer to the metadata request;
    - or has ended: no host was left, the next one is no address, or the next one was connected to - then its answer was
      used, or start() has raised *)
Definition start_stage {B} (cl : B -> cluster) (n0 : nat) (hosts : list text) (i : Z) (F : full B) : Prop :=
  let lg := k_log (cl (f_base F)) in
  exists past ahead ids, hosts = past ++ ahead /\ refused lg past ids /\ Forall (fun n => n0 <= n)%nat ids /\
  match dget (f_boots F) i with
  | Some (BConn more id) => exists h, ahead = h :: more /\ attempted lg h id /\ Forall (fun n => n < id)%nat ids /\ (n0 <= id)%nat
  | Some (BAsk id) => exists h more, ahead = h :: more /\ attempted lg h id /\ In (XConnected id) lg /\ Forall (fun n => n < id)%nat ids /\ (n0 <= id)%nat
  | None =>
      (ahead = [] /\ In (i, Err ENoBrokers) (f_ended F)) \/
      exists h more, ahead = h :: more /\
        ((exists e, (forall a, ~ bootstrap_address h a) /\ In (i, Err e) (f_ended F)) \/
         (exists id, attempted lg h id /\ In (XConnected id) lg /\ Forall (fun n => n < id)%nat ids /\ (n0 <= id)%nat /\
            ((exists e, In (i, Err e) (f_ended F)) \/ exists r, In (XAnswer id r) lg)))
  end.
(** the number of a call is not used again *)
Definition not_again {E} (i : Z) (ev : fevent E) : Prop := match ev with FStart j _ | FHeal j _ => j <> i | _ => True end.
(** the loop that reads responses has been started on this connection *)
Definition awake (l : link) : Prop := Connection.c_phase (l_conn l) <> Connection.PNotStarted.
