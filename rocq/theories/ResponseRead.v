(** From the bytes of a response to what the clients read off the response object: Connection.read_message()
    (connection.py:179-207), Response.deserialize() (response.py:13-24), and the attributes the response handlers use. *)
From Coq Require Import ZArith String List Bool.
From Verif Require Import PyBase Primitives Constants Messages Protocol Schemas Cluster Producer Consumer.
Import ListNotations.
Open Scope Z_scope.
Local Open Scope string_scope.

(** attribute access on a parsed structure (part.py:52-68 sets exactly the parts as attributes) *)
Definition fld (v : pyval) (n : string) : option pyval := match v with PObj l => dget l n | _ => None end.
Definition int_fld (v : pyval) (n : string) : option Z := match fld v n with Some (PInt z) => Some z | _ => None end.
Definition text_fld (v : pyval) (n : string) : option text := match fld v n with Some (PStr t) => Some t | _ => None end.
(** "for x in v.n": [None] when something is met that the clients' models have no value for *)
Fixpoint all_of {A} (f : pyval -> option A) (vs : list pyval) : option (list A) :=
  match vs with
  | [] => Some []
  | v :: r => match f v, all_of f r with Some a, Some l => Some (a :: l) | _, _ => None end
  end.
Definition each_fld {A} (f : pyval -> option A) (v : pyval) (n : string) : option (list A) :=
  match fld v n with Some (PList vs) => all_of f vs | _ => None end.
Definition pair_of {A B} (a : option A) (b : option B) : option (A * B) := match a, b with Some x, Some y => Some (x, y) | _, _ => None end.

(** the loops over topics and partitions of the handlers: producer.py:207-208, consumer.py:159-160,
    single.py:103-104, grouped.py:184-185, 265-266 *)
Definition topics_fld {A} (part : pyval -> option A) (v : pyval) : option (list (text * list A)) :=
  each_fld (fun t => pair_of (text_fld t "name") (each_fld part t "partitions")) v "topics".

(** consumer.py:159-186: partition_id, error_code, message_set.messages *)
Definition messages_fld (v : pyval) : option (list (Z * pymsg)) :=
  match fld v "message_set" with
  | Some (PMsgSet ms) => (fix go l := match l with
                                      | [] => Some []
                                      | (PInt o, m) :: r => match go r with Some l' => Some ((o, m) :: l') | None => None end
                                      | _ => None
                                      end) ms
  | _ => None
  end.
Definition fetch_view (v : pyval) : option (list (text * list (Z * (Z * list (Z * pymsg))))) :=
  topics_fld (fun p => pair_of (int_fld p "partition_id") (pair_of (int_fld p "error_code") (messages_fld p))) v.
(** single.py:103-121: partition_id, error_code, offsets *)
Definition offset_view (v : pyval) : option (list (text * list (Z * (Z * list Z)))) :=
  topics_fld (fun p => pair_of (int_fld p "partition_id") (pair_of (int_fld p "error_code")
                (each_fld (fun o => match o with PInt z => Some z | _ => None end) p "offsets"))) v.
(** grouped.py:184-208: partition_id, error_code, offset *)
Definition offset_fetch_view (v : pyval) : option (list (text * list (Z * (Z * Z)))) :=
  topics_fld (fun p => pair_of (int_fld p "partition_id") (pair_of (int_fld p "error_code") (int_fld p "offset"))) v.
(** grouped.py:265-281, producer.py:207-221: partition_id, error_code *)
Definition codes_view (v : pyval) : option (list (text * list (Z * Z))) :=
  topics_fld (fun p => pair_of (int_fld p "partition_id") (int_fld p "error_code")) v.
(** cluster.py:138-143, 184-199, 233-258 *)
Definition metadata_view (v : pyval) : option mresp :=
  match each_fld (fun b => match int_fld b "broker_id", text_fld b "host", int_fld b "port" with
                           | Some i, Some h, Some p => Some (MBroker i h p) | _, _, _ => None end) v "brokers",
        each_fld (fun t => match int_fld t "error_code", text_fld t "name",
                                 each_fld (fun p => match int_fld p "error_code", int_fld p "partition_id", int_fld p "leader" with
                                                    | Some c, Some i, Some l => Some (MPart c i l) | _, _, _ => None end) t "partitions" with
                           | Some c, Some n, Some ps => Some (MTopic c n ps) | _, _, _ => None end) v "topics" with
  | Some bs, Some ts => Some (MResp bs ts)
  | _, _ => None
  end.

Section Read.
  Variable C : codec.
  Variable depth : nat.

  (** a response parsed with the class of its api, then looked at.  An exception of the parser is what the request's
      future gets: socket_error_handling() calls abort() with it (connection.py:148-177).  [None]: the
      response holds something the clients' models have no value for (a topic name that is null or not UTF-8). *)
  Definition look {A} (fs : fields) (view : pyval -> option A) (b : bytes) : option (res A) :=
    match deserialize C depth (TPart fs) b with
    | Err e => Some (Err e)
    | Ok v => match view v with Some a => Some (Ok a) | None => None end
    end.
  Definition as_response {A} (f : A -> response) (x : option (res A)) : option (res response) :=
    match x with Some (Ok a) => Some (Ok (f a)) | Some (Err e) => Some (Err e) | None => None end.

  (** response_classes[api], connection.py:22-30 and 200-204; the coordinator's answer: grouped.py:129-131 *)
  Definition read_response (rq : request) (b : bytes) : option (res response) :=
    match rq with
    | RFetch _ _ _ _ _ => as_response PFetch (look FetchResponse fetch_view b)
    | ROffset _ _ _ => as_response POffset (look OffsetResponse offset_view b)
    | ROffsetFetch _ _ _ => as_response POffsetFetch (look OffsetFetchResponse offset_fetch_view b)
    | RCommit _ _ => as_response PCommit (look OffsetCommitResponse codes_view b)
    | RCoordinator _ => as_response (fun ci => PCoordinator (fst ci) (snd ci))
                          (look GroupCoordinatorResponse (fun v => pair_of (int_fld v "error_code") (int_fld v "coordinator_id")) b)
    end.
  Definition read_produced (b : bytes) : option (res presponse) := look ProduceResponse codes_view b.
  Definition read_metadata (b : bytes) : option (res mresp) := look MetadataResponse metadata_view b.
End Read.
