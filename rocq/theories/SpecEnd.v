(** Vocabulary for C64: a broker that keeps what one producer wrote, and values as the application sees them. *)
From Coq Require Import ZArith String List Bool.
From Verif Require Import PyBase SpecWire Producer SpecProducer.
Import ListNotations.
Open Scope Z_scope.

(** the log of each partition of [t] holds, in order of arrival, the messages of the requests in [wire], as they read
    from the wire (offsets are the broker's choice) *)
Definition keeps (t : text) (wire : list prequest) (log : Z -> list (Z * pymsg)) : Prop :=
  forall p, Forall2 (fun m om => msg_reads (pm_msg m) (snd om)) (carried wire t p) (log p).
(** the messages are those made from the values [xs] by a serializer *)
Definition made_from {V} (ser : V -> pyval) (xs : list V) (ms : list pymsg) : Prop := Forall2 (fun x m => m_value m = ser x) xs ms.
