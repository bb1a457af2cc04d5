(** The program of examples/counter.py: a loop around a SingleConsumer that counts the colors of the messages it gets. *)
From Coq Require Import ZArith String List Bool.
From Verif Require Import PyBase Constants Cluster Zookeeper Consumer.
Import ListNotations.
Open Scope Z_scope.

Section Counter.
  Context {V : Type}.
  (** args.topic *)
  Variable t : text.
  (** msg["color"], None if that raises.  Simplified: colors are texts *)
  Variable color : V -> option text.

  (** [msg["color"] for msg in msgs], examples/counter.py:46: raises if one of them does *)
  Fixpoint colors (ms : list V) : option (list text) :=
    match ms with
    | [] => Some []
    | m :: rest => match color m, colors rest with Some c, Some cs => Some (c :: cs) | _, _ => None end
    end.
  (** color_counter.update(...), examples/counter.py:46: collections.Counter adds one for each element *)
  Definition count (c : dict text Z) (x : text) : Z := match dget c x with Some n => n | None => 0 end.
  Definition update (c : dict text Z) (xs : list text) : dict text Z := fold_left (fun c x => dset c x (count c x + 1)) xs c.
  (** color_counter after the consume() calls that have ended (examples/counter.py:43-46); None if one of them, or line 46, has
      raised and run() has ended.  A consume() of a closing consumer returns None: line 46 then raises.
      Simplified: line 46 is executed in the step in which consume() ends. *)
  Fixpoint tally (es : list (Z * op * res (rv V))) (c : dict text Z) : option (dict text Z) :=
    match es with
    | [] => Some c
    | (_, _, Ok (RvList ms)) :: rest => match colors ms with Some xs => tally rest (update c xs) | None => None end
    | _ => None
    end.
  Definition color_counter (s : consumer V) : option (dict text Z) := tally (c_ended s) [].
  (** the calls the program makes (examples/counter.py:40-43): one consume() at a time, as long as run() goes on; everything else
      happens to it.  connect() is the cluster's own events, as in Consumer.v. *)
  Definition may (s : consumer V) (l : label) : Prop :=
    match l with
    | Call i o => o = OpConsume t None /\ c_calls s = [] /\ color_counter s <> None
    | _ => True
    end.
End Counter.
