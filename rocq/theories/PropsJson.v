(** Property C68: what the default serializer writes is JSON, the default deserializer reads JSON, and values come back equal. *)
From Coq Require Import ZArith String List Bool Lia.
From Verif Require Import PyBase BaseLemmas SpecWire Utf8 Json SpecJson JsonProofs JsonValues SpecJsonValues JsonValueProofs JsonSound Cluster Producer SpecProducer SpecFlow ProducerRun PropsProducer PropsFlow Consumer SpecConsumer SpecLog SpecEnd PropsEnd.
Import ListNotations.
Open Scope Z_scope.

Section C68.
  Variable float_repr : text -> text.

  (** what is written is a JSON document of an equal value; equal values in canonical order are written alike *)
  Theorem C68_written : forall v, sayable float_repr v -> exists w, equal v w /\ json_text float_repr w (jdumps v) /\ jdumps w = jdumps v.
  Proof.
    intros v Y. destruct (jdumps_writes float_repr v Y) as (w & E & V & D). exists w. split; [exact E|]. split; [|exact D].
    exists [], (jdumps v), []. split; [intros x []|]. split; [intros x []|]. split; [exact V|]. now rewrite app_nil_r.
  Qed.
  (** every JSON document is read, whoever wrote it *)
  Theorem C68_read : forall v s, json_text float_repr v s -> jloads float_repr s = Ok v.
  Proof. apply jloads_reads. Qed.
  (** what is written, sent as the value of a message and read back, is an equal value *)
  Theorem C68_round_trip : forall v x, sayable float_repr v -> var_reads (default_ser v) x -> exists w, default_deser float_repr x = Ok w /\ equal v w.
  Proof.
    intros v x Y W. destruct (C68_written v Y) as (w & E & T & _). exists w. split; [|exact E]. cbn [default_ser var_reads] in W. subst x. cbn [default_deser]. now apply C68_read.
  Qed.
  (** the deserializer returns a value for JSON texts and for nothing else: a message without a value, or with one that is no
      JSON, is not returned *)
  Theorem C68_only_json : forall x, (exists v, default_deser float_repr x = Ok v) <-> exists s, x = PStr s /\ is_json s.
  Proof.
    intros x. split.
    - intros (v & H). destruct x; try discriminate H. eexists. split; [reflexivity|]. now apply (jloads_json float_repr _ v).
    - intros (s & -> & H). now apply json_jloads.
  Qed.
End C68.

(** it can be sent: every character is ASCII, so that it has a UTF-8 encoding, its own *)
Lemma ascii_encodes s : Forall (fun c => 0 <= c < 128) s -> utf8_encode s = Some s.
Proof.
  induction 1 as [|c s C F IH]; [reflexivity|]. cbn [utf8_encode]. rewrite IH. unfold utf8_enc1, is_scalar.
  replace ((0 <=? c) && (c <? 55296)) with true by (symmetry; apply andb_true_iff; lia). cbn [orb negb]. replace (c <? 128) with true by (symmetry; apply Z.ltb_lt; lia). reflexivity.
Qed.
Definition ascii (s : text) : Prop := Forall (fun c => 0 <= c < 128) s.
Ltac asc := unfold ascii; cbn; repeat (apply Forall_cons; [lia|]); apply Forall_nil.
Lemma ascii_app a b : ascii a -> ascii b -> ascii (a ++ b).
Proof. intros A B. apply Forall_app. now split. Qed.
Lemma ascii_digits s : Forall digit s -> ascii s.
Proof. apply Forall_impl. unfold digit. lia. Qed.
Lemma ascii_integer z s : integer z s -> ascii s.
Proof. intros [t [[_ D] _]|t [[_ D] _]]; [now apply ascii_digits|]. constructor; [lia|now apply ascii_digits]. Qed.
Lemma ascii_floating s : floating s -> ascii s.
Proof.
  intros (z & i & f & e & I & -> & H). apply ascii_app; [exact (ascii_integer _ _ I)|].
  assert (FR : forall f, fraction f -> ascii f) by (intros f0 (d & [_ D] & ->); constructor; [lia|now apply ascii_digits]).
  assert (EX : forall e, exponent e -> ascii e).
  { intros e0 (c & sg & d & C & SG & [_ D] & ->). constructor; [lia|]. apply ascii_app; [|now apply ascii_digits]. destruct SG as [->|[->| ->]]; asc. }
  destruct H as [[F ->]|[[-> E]|[F E]]]; cbn [app]; rewrite ?app_nil_r; auto. apply ascii_app; auto.
Qed.
Lemma ascii_hex n : ascii (u_escape n).
Proof.
  unfold u_escape, hex4. repeat (constructor; [try lia|]); try constructor; unfold hexd;
    match goal with |- context [?a mod 16] => pose proof (Z.mod_pos_bound a 16 ltac:(lia)); destruct (Z.ltb_spec (a mod 16) 10); lia end.
Qed.
Lemma ascii_jstring t : ascii (jstring t).
Proof.
  unfold jstring. constructor; [lia|]. apply ascii_app; [|asc]. induction t as [|c t IH]; [constructor|]. cbn [flat_map]. apply ascii_app; [|exact IH]. clear IH. unfold jchar.
  repeat match goal with |- context [if ?b then _ else _] => destruct b eqn:? end; try asc; try apply ascii_hex; apply ascii_app; apply ascii_hex.
Qed.
Lemma ascii_comma l : Forall ascii l -> ascii (comma l).
Proof.
  induction 1 as [|s l A F IH]; [constructor|]. destruct F as [|s' l A' F]; [exact A|]. change (comma (s :: s' :: l)) with (s ++ [44; 32] ++ comma (s' :: l)).
  apply ascii_app; [exact A|]. apply ascii_app; [asc|exact IH].
Qed.
Theorem C68_can_be_sent : forall float_repr v, sayable float_repr v -> utf8_encode (jdumps v) = Some (jdumps v).
Proof.
  intros fr v Y. apply ascii_encodes. change (ascii (jdumps v)). induction v as [|b|z|r|t|l IH|d IH] using jv_ind'; cbn [jdumps].
  - asc.
  - destruct b; asc.
  - exact (ascii_integer _ _ (str_of_int_integer z)).
  - inversion Y as [| | |? F E| | | |? w N]; subst; [rewrite float_text_plain by assumption; now apply ascii_floating|]. rewrite (float_text_name r w N). cbn [float_names In] in N. destruct N as [N|[N|[N|[]]]]; injection N as _ <-; asc.
  - apply ascii_jstring.
  - constructor; [lia|]. apply ascii_app; [|asc]. apply ascii_comma. inversion Y as [| | | | |? YL| |]; subst. clear Y.
    rewrite Forall_forall in *. intros s Hs. apply in_map_iff in Hs as (v & <- & Hv). apply IH; auto.
  - constructor; [lia|]. apply ascii_app; [|asc]. apply ascii_comma. inversion Y as [| | | | | |? _ YD|]; subst. clear Y.
    rewrite Forall_forall in *. intros s Hs. apply in_map_iff in Hs as ([k q] & <- & Hq). eapply Permutation.Permutation_in in Hq; [|apply sort_keys_perm].
    apply in_map_iff in Hq as ([k' v] & E & Hv). cbn [fst snd] in *. injection E as -> <-. apply ascii_app; [apply ascii_jstring|]. apply ascii_app; [asc|]. apply (IH (k, v)); [exact Hv|]. exact (proj2 (YD _ Hv)).
Qed.

(** ** from produce() to consume() with the defaults *)
Section C68_end.
  Variable float_repr : text -> text.
  Variable cfg : config jv.
  Variable batch_size : option Z.
  Variables acks timeout : Z.
  Variable compress_fails : list pmsg -> option exn.
  Variable serialize_fails : prequest -> option exn.
  Notation prun := (prun batch_size acks timeout compress_fails serialize_fails).
  Notation accepted := (SpecFlow.accepted batch_size acks timeout compress_fails serialize_fails).
  Notation each_event := (each_event batch_size acks timeout compress_fails serialize_fails).

  (** a broker keeps what the producer wrote to [t]; a single consumer with the default deserializer reads it
      (C64 says what [orderly], [is_log] and so on ask of broker and calls) *)
  Theorem C68_end_to_end : forall t evs k corr xs log s0 ls,
    let start := producer_init k corr in
    made_from default_ser xs (for_topic t (accepted evs start)) -> (forall x, In x xs -> sayable float_repr x /\ truth x = true) ->
    deser cfg = default_deser float_repr -> truthy cfg = truth ->
    keeps t (p_wire (prun evs start)) log -> (forall p, is_log (log p)) ->
    md cfg = Single -> reachable cfg s0 -> In t (c_synced s0) -> ~ busy s0 t -> each_step cfg (orderly t log) ls s0 ->
    let s := crun cfg ls s0 in none_raised t s0 s -> ~ busy s t ->
    exists D, returned t s0 s = values D /\
      (* everything returned is equal to a value produced for the topic *)
      (forall v, In v (values D) -> exists x, In x xs /\ equal x v) /\
      (* per partition and without retries, in the order produced *)
      (each_event steady evs start -> forall p, exists ys, in_order ys xs /\ Forall2 equal ys (map snd (of_partition p D))) /\
      (* a partition read from before its first offset to past its last gave all that was written to it *)
      (forall p, (forall o m, In (o, m) (log p) -> position s0 t p <= o < position s t p) ->
        made_from default_ser (map snd (of_partition p D)) (map pm_msg (carried (p_wire (prun evs start)) t p))).
  Proof.
    intros t evs k corr xs log s0 ls start MF SX DE TR KE LOG SG R SY NB OR s NR NB'.
    assert (CAN : exists ws, Forall2 (fun x w => equal x w /\ json_text float_repr w (jdumps x) /\ jdumps w = jdumps x) xs ws).
    { clear -SX. induction xs as [|x xs IH]; [exists []; constructor|]. destruct IH as (ws & F); [intros; apply SX; now right|].
      destruct (C68_written float_repr x) as (w & W); [apply SX; now left|]. exists (w :: ws). now constructor. }
    destruct CAN as (ws & F).
    assert (MW : made_from default_ser ws (for_topic t (accepted evs start))).
    { unfold made_from in *. clear -F MF. revert F. revert ws. induction MF as [|x m xs ms E MF IH]; intros ws F; inversion F as [|? w ? ws' (_ & _ & D) F']; subst; constructor; [|now apply IH].
      rewrite E. unfold default_ser. now rewrite D. }
    assert (IW : forall w, In w ws -> exists x, In x xs /\ equal x w /\ json_text float_repr w (jdumps x) /\ jdumps w = jdumps x).
    { clear -F. induction F as [|x w xs ws H F IH]; intros y []; [subst; exists x; split; [now left|exact H]|]. destruct (IH y H0) as (z & Iz & Z). exists z. split; [now right|exact Z]. }
    destruct (C64_end_to_end cfg default_ser batch_size acks timeout compress_fails serialize_fails t evs k corr ws log s0 ls MW) as (D & G & V & O & A); try assumption.
    - intros w v Iw W. destruct (IW w Iw) as (x & Ix & _ & T & EQ). rewrite DE. cbn [default_ser var_reads] in W. subst v. cbn [default_deser]. rewrite EQ. now apply C68_read.
    - intros w Iw. destruct (IW w Iw) as (x & Ix & E & _). rewrite TR. destruct (SX x Ix) as [_ T]. clear -E T. destruct E as [| | | | |l1 l2 F|d1 d2 d P F]; try exact T.
      + destruct F; [exact T|reflexivity].
      + cbn [truth] in *. destruct F; [discriminate T|]. destruct d2; [now apply Permutation.Permutation_sym, Permutation.Permutation_nil in P|reflexivity].
    - exists D. split; [exact G|]. split; [|split; [|exact A]].
      + intros v Iv. destruct (IW v (V v Iv)) as (x & Ix & E & _). eauto.
      + intros ST p. specialize (O ST p). clear -O F. revert O. generalize (map snd (of_partition p D)). intros l O. revert xs F. induction O as [|w l ws O IH|w l ws O IH]; intros xs F.
        * exists []. split; [inversion F; constructor|constructor].
        * inversion F as [|x ? xs' ? _ F']; subst. destruct (IH _ F') as (ys & I & E). exists ys. split; [now constructor|exact E].
        * inversion F as [|x ? xs' ? (Ex & _) F']; subst. destruct (IH _ F') as (ys & I & E). exists (x :: ys). split; now constructor.
  Qed.
End C68_end.

(** ** a case *)
(** a dict of a list, a string with a euro sign and a quotation mark, and a dict, in that order *)
Definition ex_repr (s : text) : text := s.
Definition ex_value : jv := JDict [(txt "b", JList [JInt 1; JFloat (txt "-2.5"); JNull]); (txt "a", JStr [8364; 34]); ([], JDict [])].
Lemma ex_floating : floating (txt "-2.5").
Proof.
  exists (-2), (txt "-2"), (txt ".5"), []. split; [|split; [reflexivity|]].
  - change (-2) with (- number [50]). apply I_neg. split; [split; [discriminate|constructor; [unfold digit; lia|constructor]]|]. right. exists 50, []. split; [reflexivity|lia].
  - left. split; [|reflexivity]. exists [53]. split; [|reflexivity]. split; [discriminate|constructor; [unfold digit; lia|constructor]].
Qed.
Example C68_sayable : sayable ex_repr ex_value /\ truth ex_value = true.
Proof.
  split; [|reflexivity]. assert (C : forall t, forallb (fun c => (0 <=? c) && (c <? 55296)) t = true -> clean t).
  { intros t F c Ic. rewrite forallb_forall in F. specialize (F c Ic). apply andb_true_iff in F as [F1 F2]. apply Z.leb_le in F1. apply Z.ltb_lt in F2. unfold scalar. lia. }
  apply Y_dict.
  - cbn [map fst]. repeat constructor; cbn; intuition discriminate.
  - constructor; [|constructor; [|constructor; [|constructor]]]; cbn [fst snd]; (split; [apply C; reflexivity|]).
    + apply Y_list. constructor; [constructor|]. constructor; [constructor; [exact ex_floating|reflexivity]|]. constructor; [constructor|constructor].
    + constructor. apply C. reflexivity.
    + apply Y_dict; constructor.
Qed.
Example C68_example : jdumps ex_value = txt "{"""": {}, ""a"": ""\u20ac\"""", ""b"": [1, -2.5, null]}" /\
  jloads ex_repr (jdumps ex_value) = Ok (JDict [([], JDict []); (txt "a", JStr [8364; 34]); (txt "b", JList [JInt 1; JFloat (txt "-2.5"); JNull])]) /\
  jloads ex_repr (txt " [true , {""k"" :0,""k2"":-0}, ""\/\ud83d\ude00"" ,1e3]") = Ok (JList [JBool true; JDict [(txt "k", JInt 0); (txt "k2", JInt 0)]; JStr [47; 128512]; JFloat (txt "1e3")]) /\
  jloads ex_repr (txt "[1,]") = Err EValue /\ jloads ex_repr (txt "01") = Err EValue.
Proof. vm_compute. repeat split. Qed.

(** not a number and minus infinity, which Python writes and reads by name *)
Example C68_names : sayable ex_repr (JList [JFloat (txt "nan"); JFloat (txt "-inf")]) /\
  jdumps (JList [JFloat (txt "nan"); JFloat (txt "-inf")]) = txt "[NaN, -Infinity]" /\
  jloads ex_repr (txt "[NaN, -Infinity]") = Ok (JList [JFloat (txt "nan"); JFloat (txt "-inf")]).
Proof.
  split; [|vm_compute; split; reflexivity]. apply Y_list. constructor; [|constructor; [|constructor]].
  - apply (Y_name _ _ (txt "NaN")). now left.
  - apply (Y_name _ _ (txt "-Infinity")). right. right. now left.
Qed.

(** two members with one key, a lone surrogate, a name: read; a comma too many and a control character: not *)
Example C68_only_example :
  default_deser ex_repr (PStr (txt "{""k"": 1, ""k"": [""\ud800"", -Infinity]}")) = Ok (JDict [(txt "k", JList [JStr [55296]; JFloat (txt "-inf")])]) /\
  default_deser ex_repr (PStr (txt "[1,]")) = Err EValue /\ default_deser ex_repr (PStr [34; 10; 34]) = Err EValue /\ default_deser ex_repr PNone = Err EType.
Proof. vm_compute. repeat split. Qed.

Print Assumptions C68_written.
Print Assumptions C68_read.
Print Assumptions C68_only_json.
Print Assumptions C68_round_trip.
Print Assumptions C68_can_be_sent.
Print Assumptions C68_end_to_end.
