(** examples/maker.py: the program that numbers messages and produces one after the other. *)
From Coq Require Import ZArith String List Bool.
From Verif Require Import PyBase Constants Cluster JsonValues Producer.
Import ListNotations.
Open Scope Z_scope.

(** key_maker(), maker.py:54-55 *)
Definition maker_key (n : Z) : pyval := PInt n.
(** partitioner(), maker.py:58-59; [partitions[key % len(partitions)]] raises ZeroDivisionError for an empty list, and
    a TypeError for a key that is no number.  The exceptions are not told apart by anything that follows, so that the first
    is given as a ValueError. *)
Definition maker_partitioner : partitioner := fun m ps =>
  match m_key (pm_msg m) with
  | PInt k => match ps with [] => Err EValue | _ => Ok (nth (Z.to_nat (k mod zlen ps)) ps 0) end
  | _ => Err EType
  end.
(** colors, maker.py:49-51 *)
Definition maker_colors : list text := map txt ["red"; "green"; "blue"; "yellow"; "orange"; "purple"; "white"; "black"]%string.
(** the message produce() makes of {"counter": n, "color": color} (maker.py:71-73, producer.py:105-112), with the default
    serializer *)
Definition maker_message (n : Z) (color : text) : pymsg :=
  Msg PNone (PInt 0) (PInt 0) (maker_key n) (default_ser (JDict [(txt "counter", JInt n); (txt "color", JStr color)])).

(** where run() (maker.py:62-73) is: about to make the next message, awaiting the heal() of a produce() for an unknown topic,
    or ended by an exception *)
Inductive making := Making | Healing | Stopped.

Section Maker.
  Variable batch_size : option Z.
  Variables acks timeout : Z.
  Variable compress_fails : list pmsg -> option exn.
  Variable serialize_fails : prequest -> option exn.
  Variable topic : text.
  (** what random.choice(colors) gives for message n, line 72 *)
  Variable color : Z -> text.
  Definition message_no (n : Z) : pymsg := maker_message n (color n).
  Notation produce := (produce batch_size acks timeout compress_fails serialize_fails).
  Notation produce_resume := (produce_resume batch_size acks timeout compress_fails serialize_fails).

  (** run() calls produce() for message counter + 1 when the last call has ended, that is when none of its requests is
      awaited; a produce() goes on after its heal.  Everything else is not up to the program.  The close() at the end
      (maker.py:121-125) is left out: it is outside run(). *)
  Definition maker_may (st : Z * making) (s : producer) (ev : pevent) : Prop :=
    match ev with
    | EvProduce part t mk => snd st = Making /\ p_open s = [] /\ part = maker_partitioner /\ t = topic /\ mk = Ok (message_no (fst st + 1))
    | EvResume part t mk => snd st = Healing /\ part = maker_partitioner /\ t = topic /\ mk = Ok (message_no (fst st))
    | EvFlush _ | EvClose _ => False
    | _ => True
    end.
  Definition then_is (x : produced) : making := match x with AwaitHeal => Healing | Raised _ => Stopped | _ => Making end.
  (** [counter] and where run() is, after an event *)
  Definition maker_then (st : Z * making) (s : producer) (ev : pevent) : Z * making :=
    match ev with
    | EvProduce part t mk => (fst st + 1, then_is (fst (produce part t mk s)))
    | EvResume part t mk => (fst st, then_is (fst (produce_resume part t mk s)))
    | _ => st
    end.
  (** a run of the program from [st] on: [counter] and where it is at the end *)
  Fixpoint maker_runs (st : Z * making) (evs : list pevent) (s : producer) : Prop :=
    match evs with
    | [] => True
    | ev :: rest => maker_may st s ev /\ maker_runs (maker_then st s ev) rest (pstep batch_size acks timeout compress_fails serialize_fails s ev)
    end.
  Fixpoint maker_ends (st : Z * making) (evs : list pevent) (s : producer) : Z * making :=
    match evs with
    | [] => st
    | ev :: rest => maker_ends (maker_then st s ev) rest (pstep batch_size acks timeout compress_fails serialize_fails s ev)
    end.
End Maker.
