(** Vocabulary for C102: what the counter has seen. *)
From Coq Require Import ZArith String List Bool.
From Verif Require Import PyBase Constants Cluster Zookeeper Consumer SpecConsumer SpecLog Counter.
Import ListNotations.
Open Scope Z_scope.

Section SpecCounter.
  Context {V : Type}.
  Variable t : text.
  Variable color : V -> option text.
  Variable log : Z -> list (Z * pymsg).
  (** a step of the program, or of the world with brokers that serve the logs, SpecLog.serves *)
  Definition counts_on (cfg : config V) (s : consumer V) (l : label) : Prop :=
    may t color s l /\
    match l with
    | Arrive i b (Ok r) => forall rq, waits_for s i b rq -> answers rq r = true -> serves t log rq r
    | _ => True
    end.
  Definition counting (cfg : config V) (k : cluster) (name : text) (ls : list label) : Prop := each_step cfg (counts_on cfg) ls (consumer_init k name).
  (** how many of some messages have a color *)
  Definition having (x : text) (ms : list V) : Z := zlen (filter (fun m => match color m with Some y => eqb y x | None => false end) ms).
  (** a step with which the consumer comes to know its positions, and the state after it *)
  Definition learns (cfg : config V) (k : cluster) (name : text) (ls : list label) (s : consumer V) : Prop :=
    exists ls0 l ls1, ls = ls0 ++ l :: ls1 /\ ~ In t (c_synced (crun cfg ls0 (consumer_init k name))) /\ s = crun cfg (ls0 ++ [l]) (consumer_init k name) /\ In t (c_synced s).
End SpecCounter.
