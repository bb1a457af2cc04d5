(** Vocabulary for C37: a broker that keeps partition logs, and what the calls on a topic returned. *)
From Coq Require Import ZArith String List Bool Sorting.Sorted.
From Verif Require Import PyBase Constants Cluster Consumer SpecConsumer.
Import ListNotations.
Open Scope Z_scope.

(** a partition's log: messages under strictly increasing offsets, none negative *)
Definition is_log (l : list (Z * pymsg)) : Prop := StronglySorted Z.lt (map fst l) /\ forall o, In o (map fst l) -> 0 <= o.
(** the part of a log from an offset on; that between two offsets (the second excluded) *)
Definition from (a : Z) (l : list (Z * pymsg)) : list (Z * pymsg) := filter (fun om => a <=? fst om) l.
Definition between (a b : Z) (l : list (Z * pymsg)) : list (Z * pymsg) := filter (fun om => (a <=? fst om) && (fst om <? b)) l.

Section SpecLog.
  Context {V : Type}.
  Variable cfg : config V.
  Variable t : text.
  Variable log : Z -> list (Z * pymsg).

  (** what the broker may answer to a request: it names the topic it was asked about; for [t] it gives each partition
      at most once, does not say that the offset is out of range, and in a part without error serves a run of
      messages of the log (as many as it likes) beginning at the offset asked for.  Brokers may report errors. *)
  Definition serves (rq : request) (r : response) : Prop :=
    match rq, r with
    | RFetch _ _ _ t' asked, PFetch ((t'', parts) :: _) =>
        t'' = t' /\
        (t' = t -> NoDup (map fst parts) /\
          forall p code ms, In (p, (code, ms)) parts -> code <> offset_out_of_range /\
            (code = no_error -> exists o limit n, In (p, (o, limit)) asked /\ ms = firstn n (from o (log p))))
    | ROffset _ t' _, POffset ((t'', _) :: _) => t'' = t'
    | _, _ => True
    end.
  (** every answer is such an answer; consume(t) is not called while another consume(t) runs *)
  Definition orderly (s : consumer V) (l : label) : Prop :=
    match l with
    | Call _ (OpConsume t' _) => t' = t -> ~ busy s t
    | Arrive i b (Ok r) => forall rq, waits_for s i b rq -> answers rq r = true -> serves rq r
    | _ => True
    end.

  (** what the calls of consume(t) that ended between [s0] and [s] returned, in the order in which they ended *)
  Definition ended_since (s0 s : consumer V) : list (Z * op * res (rv V)) := skipn (length (c_ended s0)) (c_ended s).
  Definition gave (e : Z * op * res (rv V)) : list V :=
    match e with (_, OpConsume t' _, Ok (RvList l)) => if eqb t' t then l else [] | _ => [] end.
  Definition returned (s0 s : consumer V) : list V := flat_map gave (ended_since s0 s).
  (** none of them raised *)
  Definition none_raised (s0 s : consumer V) : Prop := forall i o e, In (i, o, Err e) (ended_since s0 s) -> ~ on_topic t o.

  (** deliveries: partition, offset, value *)
  Definition of_partition (p : Z) (D : list (Z * (Z * V))) : list (Z * V) := map snd (filter (fun d => fst d =? p) D).
  Definition values (D : list (Z * (Z * V))) : list V := map (fun d => snd (snd d)) D.
End SpecLog.
