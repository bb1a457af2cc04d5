(** kiel/connection.py: one broker connection, as a state machine driven by the events of the I/O
    loop.  Futures are numbered in the order send() creates them; [c_done] is the log of completed
    futures, [c_written] the log of payloads handed to the socket. *)
From Coq Require Import ZArith String List Bool.
From Verif Require Import PyBase Struct Primitives Snappy Messages Protocol Request Schemas.
Import ListNotations.
Open Scope Z_scope.

(** response_classes, connection.py:24-32 *)
Definition response_classes : dict string fields :=
  [("metadata", MetadataResponse); ("produce", ProduceResponse); ("fetch", FetchResponse);
   ("offset", OffsetResponse); ("offset_commit", OffsetCommitResponse);
   ("offset_fetch", OffsetFetchResponse); ("group_coordinator", GroupCoordinatorResponse)]%string.

(** what send() uses of a request: message.api, message.correlation_id and message.serialize() *)
Record request := Rq { rq_api : string; rq_corr : Z; rq_payload : res bytes }.

(** the request object that Request.__init__ (request.py:46-52) builds from keyword arguments *)
Definition request_of (api : string) (fs : fields) (kwargs : dict string pyval) (last_id : Z) : res (request * Z) :=
  '(attrs, last') <- request_init api fs kwargs last_id ;;
  Ok (Rq api last' (serialize fs attrs), last').

(** the state of a future: a response instance (its class's api, its correlation_id, its fields) or
    an exception *)
Inductive outcome :=
| Got (api : string) (corr : Z) (v : pyval)
| Fail (e : exn).

(** where the read_loop/read_message coroutines are suspended (connection.py:137-151, 178-206) *)
Inductive phase :=
| PNotStarted                               (* connect() not finished *)
| PLoop                                     (* at the head of read_loop's while *)
| PSize                                     (* awaiting the 4 size bytes, line 192 *)
| PCorr (size : Z)                          (* awaiting the correlation id, line 195 *)
| PPayload (size : Z) (corr : Z)            (* awaiting the payload, line 200 *)
| PGot (api : string) (corr : Z) (v : pyval)  (* read_message returned, read_loop not yet resumed *)
| PRaise (e : exn)                          (* read_message raised, read_loop not yet resumed *)
| PStopped.                                 (* read_loop returned *)

(** Connection.__init__, connection.py:50-58, plus the state of its IOStream: bytes received but
    not read, and whether it is closed *)
Record conn := Conn {
  c_closing : bool;
  c_api : dict Z string;          (* api_correlation *)
  c_pending : dict Z nat;         (* correlation id -> future *)
  c_phase : phase;
  c_inbuf : bytes;
  c_closed : bool;                (* the stream is closed *)
  c_next : nat;                   (* number of futures created by send() *)
  c_done : list (nat * outcome);  (* completed futures, oldest first *)
  c_written : list bytes }.       (* writes handed to the stream, oldest first *)

Definition conn_init : conn := Conn false [] [] PNotStarted [] false O [] [].

Definition set_phase (st : conn) (p : phase) : conn :=
  Conn (c_closing st) (c_api st) (c_pending st) p (c_inbuf st) (c_closed st) (c_next st) (c_done st) (c_written st).

(** close(), connection.py:76-82 *)
Definition conn_close (st : conn) : conn :=
  Conn true (c_api st) (c_pending st) (c_phase st) (c_inbuf st) true (c_next st) (c_done st) (c_written st).

(** abort(), connection.py:153-176; [exc] is sys.exc_info().  popitem takes the newest entry. *)
Definition conn_abort (exc : option exn) (st : conn) : conn :=
  if c_closing st then st
  else
    let e := match exc with Some e => e | None => EBrokerConn end in
    Conn true [] [] (c_phase st) (c_inbuf st) true (c_next st)
      (c_done st ++ map (fun kf => (snd kf, Fail e)) (rev (c_pending st))) (c_written st).

(** socket_error_handling, connection.py:84-99, for an exception raised in its body *)
Definition on_error (e : exn) (st : conn) : conn :=
  match e with
  | EStreamClosed =>
      Conn true (c_api st) (c_pending st) (c_phase st) (c_inbuf st) (c_closed st) (c_next st) (c_done st) (c_written st)
  | e => conn_abort (Some e) st
  end.

(** send(), connection.py:101-135.  [wr] is what IOStream.write does when called, or (when the
    write future is already done) what handle_write sees: None for success.  Writing to a closed
    stream raises StreamClosedError.  Returns the future, or the exception serialize() or
    size_struct.pack raises. *)
Definition conn_send (rq : request) (wr : option exn) (st : conn) : res nat * conn :=
  let f := c_next st in
  if c_closing st then
    (Ok f, Conn (c_closing st) (c_api st) (c_pending st) (c_phase st) (c_inbuf st) (c_closed st)
             (S f) (c_done st ++ [(f, Fail EBrokerConn)]) (c_written st))
  else
    match (p <- rq_payload rq ;; framed p) with
    | Err e => (Err e, st)
    | Ok bs =>
        let st1 := Conn (c_closing st) (dset (c_api st) (rq_corr rq) (rq_api rq))
                     (dset (c_pending st) (rq_corr rq) f) (c_phase st) (c_inbuf st) (c_closed st)
                     (S f) (c_done st) (c_written st) in
        if c_closed st then (Ok f, on_error EStreamClosed st1)
        else match wr with
             | Some e => (Ok f, on_error e st1)
             | None => (Ok f, Conn (c_closing st1) (c_api st1) (c_pending st1) (c_phase st1) (c_inbuf st1)
                               (c_closed st1) (c_next st1) (c_done st1) (c_written st1 ++ [bs]))
             end
    end.

Section Reader.
  Variable C : codec.
  Variable depth : nat.
  (** what IOStream.read_bytes gives for a negative count (what it returns, what it leaves in its
      buffer): left open, tornado does not say *)
  Variable neg_read : Z -> bytes -> bytes * bytes.

  (** IOStream.read_bytes(n): buffered bytes are returned even when the stream is closed *)
  Inductive read_result := RGot (b rest : bytes) | RClosed | RWait.
  Definition read_bytes (n : Z) (st : conn) : read_result :=
    if n <? 0 then let '(b, r) := neg_read n (c_inbuf st) in RGot b r
    else if n <=? zlen (c_inbuf st)
    then RGot (firstn (Z.to_nat n) (c_inbuf st)) (skipn (Z.to_nat n) (c_inbuf st))
    else if c_closed st then RClosed else RWait.

  Definition with_read (n : Z) (st : conn) (k : bytes -> conn -> conn) : conn :=
    match read_bytes n st with
    | RGot b r => k b (Conn (c_closing st) (c_api st) (c_pending st) (c_phase st) r (c_closed st)
                         (c_next st) (c_done st) (c_written st))
    | RClosed => set_phase st (PRaise EStreamClosed)
    | RWait => st
    end.

  Definition int_of (v : pyval) : Z := match v with PInt z => z | _ => 0 end.
  (** size_struct / correlation_struct unpack, lines 193 and 196 (always 4 bytes here) *)
  Definition unpack_i (b : bytes) : res Z := v <- unpack1 Fi b 0 ;; Ok (int_of v).

  (** one step of the read_loop and read_message coroutines; a step that has to wait changes
      nothing *)
  Definition read_step (st : conn) : conn :=
    match c_phase st with
    | PNotStarted | PStopped => st
    | PLoop => set_phase st (if c_closing st then PStopped else PSize)
    | PSize =>
        with_read 4 st (fun b st' =>
          set_phase st' (match unpack_i b with Ok size => PCorr size | Err e => PRaise e end))
    | PCorr size =>
        with_read 4 st (fun b st' =>
          set_phase st' (match unpack_i b with Ok corr => PPayload (size - 4) corr | Err e => PRaise e end))
    | PPayload size corr =>
        with_read size st (fun raw st' =>
          match dget (c_api st') corr with
          | None => set_phase st' (PRaise EKey)
          | Some api =>
              let st2 := Conn (c_closing st') (ddel (c_api st') corr) (c_pending st') (c_phase st') (c_inbuf st')
                           (c_closed st') (c_next st') (c_done st') (c_written st') in
              match dget response_classes api with
              | None => set_phase st2 (PRaise EKey)
              | Some fs =>
                  match deserialize C depth (TPart fs) raw with
                  | Err e => set_phase st2 (PRaise e)
                  | Ok v => set_phase st2 (PGot api corr v)
                  end
              end
          end)
    | PGot api corr v =>
        match dget (c_pending st) corr with
        | None => set_phase (on_error EKey st) PLoop
        | Some f =>
            Conn (c_closing st) (c_api st) (ddel (c_pending st) corr) PLoop (c_inbuf st) (c_closed st)
              (c_next st) (c_done st ++ [(f, Got api corr v)]) (c_written st)
        end
    | PRaise e => set_phase (on_error e st) PLoop
    end.

  Inductive event :=
  | EvSend (rq : request) (wr : option exn)   (* a client calls send() *)
  | EvWriteFailed (e : exn)                   (* a write future fails later: handle_write *)
  | EvConnected                               (* connect() finished, read_loop is started *)
  | EvData (b : bytes)                        (* bytes arrive *)
  | EvRemoteClose                             (* the broker closes the connection *)
  | EvRead                                    (* the reader coroutine gets to run *)
  | EvClose                                   (* someone calls close() *)
  | EvAbort (exc : option exn).               (* someone calls abort() *)

  Definition step (ev : event) (st : conn) : conn :=
    match ev with
    | EvSend rq wr => snd (conn_send rq wr st)
    | EvWriteFailed e => on_error e st
    | EvConnected => match c_phase st with PNotStarted => set_phase st PLoop | _ => st end
    | EvData b =>
        if c_closed st then st
        else Conn (c_closing st) (c_api st) (c_pending st) (c_phase st) (c_inbuf st ++ b) (c_closed st)
               (c_next st) (c_done st) (c_written st)
    | EvRemoteClose =>
        Conn (c_closing st) (c_api st) (c_pending st) (c_phase st) (c_inbuf st) true (c_next st) (c_done st) (c_written st)
    | EvRead => read_step st
    | EvClose => conn_close st
    | EvAbort exc => conn_abort exc st
    end.

  Definition run (evs : list event) (st : conn) : conn := fold_left (fun s e => step e s) evs st.
End Reader.
