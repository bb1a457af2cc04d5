(** kiel/protocol/request.py and part.py: constructing, numbering and serializing requests. *)
From Coq Require Import ZArith String List Bool.
From Verif Require Import PyBase Struct Primitives Messages Protocol.
Import ListNotations.
Open Scope Z_scope.

(** generate_correlation_id, request.py:23-34: the state is the module variable last_id *)
Definition generate_correlation_id (last_id : Z) : Z * Z := (last_id + 1, last_id + 1).

(** the seed, request.py:20: (int(md5 bytes) + pid) & 0xffffff ("+" binds tighter than "&") *)
Definition seed (machine pid : Z) : Z := Z.land (machine + pid) 16777215.

(** the ids of the first [n] requests made by a process *)
Fixpoint first_ids (n : nat) (last_id : Z) : list Z :=
  match n with
  | O => []
  | S n' => let '(id, last') := generate_correlation_id last_id in id :: first_ids n' last'
  end.

(** API_KEYS, constants.py:15-29 *)
Definition api_keys : dict string Z :=
  [("produce", 0); ("fetch", 1); ("offset", 2); ("metadata", 3); ("offset_commit", 8);
   ("offset_fetch", 9); ("group_coordinator", 10); ("join_group", 11); ("heartbeat", 12);
   ("leave_group", 13); ("sync_group", 14); ("describe_groups", 15); ("list_groups", 16)]%string.

(** CLIENT_ID and API_VERSION, constants.py:10-13 *)
Definition CLIENT_ID : text := txt "kiel".
Definition API_VERSION : Z := 0.

(** Part.__init__, part.py:14-21: keyword arguments become attributes, unknown names raise
    ValueError *)
Fixpoint part_init (names : list string) (kwargs attrs : dict string pyval) : res (dict string pyval) :=
  match kwargs with
  | [] => Ok attrs
  | (n, v) :: r => if smem names n then part_init names r (dset attrs n v) else Err EValue
  end.

(** Request.__init__, request.py:46-52; the class is given by its api name and its parts *)
Definition request_init (api : string) (fs : list (string * ty)) (kwargs : dict string pyval) (last_id : Z)
  : res (dict string pyval * Z) :=
  attrs <- part_init (map fst fs) kwargs [] ;;
  key <- dindex api_keys api ;;
  let '(corr, last') := generate_correlation_id last_id in
  let attrs := dset attrs "client_id"%string (PStr CLIENT_ID) in
  let attrs := dset attrs "api_key"%string (PInt key) in
  let attrs := dset attrs "api_version"%string (PInt API_VERSION) in
  let attrs := dset attrs "correlation_id"%string (PInt corr) in
  Ok (attrs, last').

(** preamble_parts, request.py:70-75 *)
Definition preamble_parts : list (string * ty) :=
  [("api_key", TPrim Int16); ("api_version", TPrim Int16); ("correlation_id", TPrim Int32);
   ("client_id", TPrim String_)]%string.

(** Request.serialize, request.py:54-86 *)
Definition serialize (fs : list (string * ty)) (attrs : dict string pyval) : res bytes :=
  '(f, d) <- render_fields preamble_parts attrs ;;
  '(f', d') <- render_fields fs attrs ;;
  pack (f ++ f') (d ++ d').

(** what Connection.send writes, connection.py:122-123 *)
Definition framed (payload : bytes) : res bytes :=
  h <- pack [Fi] [PInt (zlen payload)] ;; Ok (h ++ payload).

(** a request, built, serialized and framed *)
Definition request_bytes (fs : list (string * ty)) (attrs : dict string pyval) : res bytes :=
  p <- serialize fs attrs ;; framed p.
