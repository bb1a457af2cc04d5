(** Vocabulary for C74 and C75: a broker whose logs, and whose answers, are byte strings.  The grammars are Kafka's
    (SpecKafka.v); messages are Kafka's keys and values. *)
From Coq Require Import ZArith String List Bool Sorting.Sorted.
From Verif Require Import PyBase Utf8 Constants Messages SpecWire SpecRequest Cluster Consumer SpecConsumer SpecKafka ResponseRead.
Import ListNotations.
Open Scope Z_scope.

(** a partition's log *)
Definition is_klog (l : list (Z * kmsg)) : Prop := StronglySorted Z.lt (map fst l) /\ forall o, In o (map fst l) -> 0 <= o.
Definition kfrom (a : Z) (l : list (Z * kmsg)) : list (Z * kmsg) := filter (fun om => a <=? fst om) l.
Definition kbetween (a b : Z) (l : list (Z * kmsg)) : list (Z * kmsg) := filter (fun om => (a <=? fst om) && (fst om <? b)) l.

Section SpecBytes.
  Context {V : Type}.
  Variable C : codec.
  Variable depth : nat.
  Variable t : text.
  Variable klog : Z -> list (Z * kmsg).

  (** the bytes [raw] are a broker's answer to a request: a fetch response names the topic asked about; for [t] it gives
      each partition at most once, does not say that the offset is out of range, and in a part without error holds a run
      of messages of the log, as many as the broker likes, beginning at the offset asked for *)
  Definition kserves (rq : request) (raw : bytes) : Prop :=
    match rq with
    | RFetch _ _ _ t' asked => exists parts rest, kw_fetch C 12 ((t', parts) :: rest) raw /\
        (t' = t -> NoDup (map fst parts) /\
          forall p code ms, In (p, (code, ms)) parts -> code <> offset_out_of_range /\
            (code = no_error -> exists o limit n, In (p, (o, limit)) asked /\ ms = firstn n (kfrom o (klog p))))
    | ROffset _ t' _ => exists parts rest, kw_offset ((t', parts) :: rest) raw
    | _ => True
    end.
  (** every response that reaches the consumer is what its reader makes of such bytes; consume(t) is not called while
      another consume(t) runs *)
  Definition korderly (s : consumer V) (l : label) : Prop :=
    match l with
    | Call _ (OpConsume t' _) => t' = t -> ~ busy s t
    | Arrive i b (Ok r) => forall rq, waits_for s i b rq -> exists raw, kserves rq raw /\ read_response C (S depth) rq raw = Some (Ok r)
    | _ => True
    end.

  (** the messages a produce request has for a partition of [t] *)
  Definition kcarried (p : Z) (d : list (text * list (Z * list (Z * kmsg)))) : list kmsg :=
    flat_map (fun tp => if eqb (fst tp) t then flat_map (fun pm => if fst pm =? p then map snd (snd pm) else []) (snd tp) else []) d.
  (** the broker reads the bytes of a request as a produce request *)
  Definition kreceives (raw : bytes) (d : list (text * list (Z * list (Z * kmsg)))) : Prop :=
    exists corr acks timeout payload, raw = request_frame 0 corr payload /\ kw_produce C 0 acks timeout d payload.
  (** and appends what it says, in order of arrival, under offsets it chooses *)
  Definition kstores (raws : list bytes) : Prop :=
    exists ds, Forall2 kreceives raws ds /\ forall p, map snd (klog p) = flat_map (kcarried p) ds.
End SpecBytes.
