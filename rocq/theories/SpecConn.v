(** Specification side for connections: what a client observes of a history of events. *)
From Coq Require Import ZArith String List Bool.
From Verif Require Import PyBase SpecWire Messages Protocol Connection SpecDocs.
Import ListNotations.
Open Scope Z_scope.

(** the bytes of a Kafka response frame: size, correlation id, payload *)
Definition frame_bytes (fr : Z * bytes) : bytes :=
  big_endian 4 (zlen (snd fr) + 4) ++ big_endian 4 (fst fr) ++ snd fr.
Definition frame_ok (fr : Z * bytes) : Prop := fits 32 (fst fr) /\ fits 32 (zlen (snd fr) + 4).
Definition frames_bytes (frs : list (Z * bytes)) : bytes := concat (map frame_bytes frs).

(** [b] is the beginning of a frame (possibly nothing of it) that has not arrived completely *)
Definition incomplete_frame (b : bytes) : Prop :=
  exists fr more, frame_ok fr /\ frame_bytes fr = b ++ more /\ more <> [].

(** the documented class of the responses of an api: module and name *)
Definition response_doc (api : string) : option (string * string) :=
  match find (fun e => String.eqb (fst e) api)
    [("metadata", ("metadata", "MetadataResponse")); ("produce", ("produce", "ProduceResponse")); ("fetch", ("fetch", "FetchResponse"));
     ("offset", ("offset", "OffsetResponse")); ("offset_commit", ("offset_commit", "OffsetCommitResponse"));
     ("offset_fetch", ("offset_fetch", "OffsetFetchResponse")); ("group_coordinator", ("coordinator", "GroupCoordinatorResponse"))]%string
  with Some e => Some (snd e) | None => None end.
(** the payload [raw] decodes to [v] as a response of the api: in the layout documented for it *)
Definition decodes (C : codec) (depth : nat) (api : string) (raw : bytes) (v : pyval) : Prop :=
  exists m c ds fs, response_doc api = Some (m, c) /\ documented m c = Some ds /\ matches_fields m ds fs /\
    deserialize C depth (TPart fs) raw = Ok v.

(** the futures handed out by send() in a history, with the request each was given for *)
Definition issued1 (ev : event) (st : conn) : list (nat * request) :=
  match ev with
  | EvSend rq wr => match fst (conn_send rq wr st) with Ok f => [(f, rq)] | Err _ => [] end
  | _ => []
  end.
Section Hist.
  Variable C : codec.
  Variable depth : nat.
  Variable neg_read : Z -> bytes -> bytes * bytes.
  Fixpoint issued (evs : list event) (st : conn) : list (nat * request) :=
    match evs with
    | [] => []
    | ev :: r => issued1 ev st ++ issued r (step C depth neg_read ev st)
    end.
End Hist.

(** no two requests sent on the connection have the same correlation id *)
Definition distinct_ids (l : list (nat * request)) : Prop := NoDup (map (fun p => rq_corr (snd p)) l).

(** the futures completed so far *)
Definition completed (st : conn) : list nat := map fst (c_done st).

(** bytes that arrived in a history *)
Definition received_bytes (evs : list event) : bytes :=
  concat (map (fun ev => match ev with EvData b => b | _ => [] end) evs).
(** requests sent in a history *)
Definition sent_requests (evs : list event) : list request :=
  flat_map (fun ev => match ev with EvSend rq _ => [rq] | _ => [] end) evs.

(** nothing goes wrong on the connection: requests serialize and are written, bytes arrive, the
    reader runs *)
Definition smooth (ev : event) : Prop :=
  match ev with
  | EvSend rq wr => wr = None /\ exists p, rq_payload rq = Ok p /\ fits 32 (zlen p)
  | EvData _ | EvRead | EvConnected => True
  | _ => False
  end.

(** the broker answers only what it was asked: when a frame has arrived completely, its request
    had been sent before, and its payload is a response of that request's api *)
Definition answers_requests (C : codec) (depth : nat) (evs : list event) (frames : list (Z * bytes)) : Prop :=
  forall k fr evs1 evs2, nth_error frames k = Some fr -> evs = evs1 ++ evs2 ->
    zlen (frames_bytes (firstn (S k) frames)) <= zlen (received_bytes evs1) ->
    exists rq v, In rq (sent_requests evs1) /\ rq_corr rq = fst fr /\ decodes C depth (rq_api rq) (snd fr) v.

(** [fo] is the completion, by the response in frame [fr], of the future given for the request with
    the frame's correlation id *)
Definition delivers (C : codec) (depth : nat) (iss : list (nat * request)) (fr : Z * bytes) (fo : nat * outcome) : Prop :=
  exists f rq v, In (f, rq) iss /\ rq_corr rq = fst fr /\ decodes C depth (rq_api rq) (snd fr) v /\
    fo = (f, Got (rq_api rq) (fst fr) v).
