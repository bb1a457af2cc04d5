(** Property theorems C20-C27: cluster metadata, routing, healing, bootstrap and fan-out send.
    Specification: SpecCluster.v.  The world (what brokers and network do, and when connections die)
    is universally quantified. *)
From Coq Require Import ZArith String List Bool Lia Permutation.
From Verif Require Import PyBase BaseLemmas Constants Cluster Client SpecCluster ClusterProofs.
Import ListNotations.
Open Scope Z_scope.

(** ** a concrete cluster: broker 1 connected, broker 2 known to the metadata only *)
Definition host (n : Z) : text := [104; 48 + n].
Definition demo_k : cluster :=
  Cl [(1, CC (host 1) 9092 0 false); (7, CC (host 7) 9092 1 true)] [] [] 2 0 [].
Definition topic_a : mtopic := MTopic 0 (txt "a") [MPart 0 0 1; MPart 0 1 2].
Definition topic_b : mtopic := MTopic 0 (txt "b") [MPart 5 0 (-1); MPart 0 1 1].
Definition topic_c : mtopic := MTopic 3 (txt "c") [].
Definition demo_brokers : list mbroker := [MBroker 1 (host 1) 9092; MBroker 2 (host 2) 9092].
Definition demo_resp : mresp := MResp demo_brokers [topic_a; topic_b; topic_c].
Definition demo_resp2 : mresp := MResp demo_brokers [MTopic 0 (txt "b") [MPart 0 0 2; MPart 0 1 1]].
Definition all_connect (_ : nat) : answer unit := Answer [] (Ok tt).
Definition demo_world : world := World all_connect (fun n => Answer [] (Ok demo_resp2)).
Example demo_wf : wf demo_k.
Proof.
  split; [|split].
  - repeat constructor; cbn; intros H; repeat destruct H as [H|H]; try lia; auto.
  - repeat constructor; cbn; intros H; repeat destruct H as [H|H]; try lia; auto.
  - intros b c H. apply dget_In in H. destruct H as [H|[H|[]]]; injection H as <- <-; cbn; lia.
Qed.

(** * C20 Routing tables are consistent after metadata processing *)
Theorem C20_tables_consistent_partial : forall ts k missing k',
  process_topics ts k = (missing, k') ->
  (forall t p, partition_known k' t p <-> exists l, leader k' t p l) /\
  (forall t p l, leader k' t p l -> holds k' l /\ usable ts t p l) /\
  (forall t p l, usable ts t p l -> holds k l -> partition_known k' t p) /\
  (forall t, In t missing <-> in_trouble k ts t) /\
  k_conns k' = k_conns k /\ k_log k' = k_log k.
Proof.
  intros ts k missing k' H. destruct (process_topics_spec _ _ _ _ H) as (A & B & D & E & F & _ & _ & G).
  assert (HC : forall b, holds k' b <-> holds k b) by (intros b; unfold holds; now rewrite F).
  split; [exact A|]. split; [exact B|]. split; [|split; [|auto]].
  - intros t p l U Hl. apply (D t p l U). now apply HC.
  - intros t. rewrite E. unfold in_trouble. setoid_rewrite HC. tauto.
Qed.

(** the leader asked for is the one reported, when the answer names one *)
Theorem C20_get_leader : forall ts k missing k' t p,
  process_topics ts k = (missing, k') -> partition_known k' t p ->
  exists l, fst (get_leader t p k') = Ok l /\ holds k' l /\ usable ts t p l.
Proof.
  intros ts k missing k' t p H K. destruct (process_topics_spec _ _ _ _ H) as (A & B & _).
  apply A in K as (l & L). exists l. split; [|now apply B]. destruct L as (d & Hd & Hl).
  unfold get_leader, ddefault. rewrite Hd. cbn [fst]. unfold dindex. now rewrite Hl.
Qed.
Theorem C20_unique_leader : forall ts k missing k' t p l,
  process_topics ts k = (missing, k') -> usable ts t p l -> holds k l ->
  (forall l', usable ts t p l' -> l' = l) -> leader k' t p l.
Proof.
  intros ts k missing k' t p l H U Hl Un. destruct (process_topics_spec _ _ _ _ H) as (A & B & D & _ & F & _).
  assert (holds k' l) as Hl' by (unfold holds; now rewrite F).
  pose proof (proj1 (A t p) (D t p l U Hl')) as (l' & L'). pose proof (B t p l' L') as [_ U'].
  now rewrite (Un l' U') in L'.
Qed.
(** the full claim also says that nothing with an error code gets into the tables; partitions with a
    code other than leader_not_available, and topics with a code other than the two tested, do *)
Theorem C20_error_codes_refuted :
  exists ts k missing k' t p tc pc l,
    process_topics ts k = (missing, k') /\ reports ts t tc p pc l /\ tc = 29 /\ pc = 9 /\ leader k' t p l.
Proof.
  exists [MTopic 29 (txt "a") [MPart 9 0 1]], demo_k. eexists. eexists. exists (txt "a"), 0, 29, 9, 1.
  split; [vm_compute; reflexivity|]. split.
  - exists (MTopic 29 (txt "a") [MPart 9 0 1]), (MPart 9 0 1). cbn. repeat split; auto.
  - split; [reflexivity|]. split; [reflexivity|]. exists [(0, 1)]. split; reflexivity.
Qed.
Example C20_example : let '(missing, k') := process_topics (mr_topics demo_resp) demo_k in
  missing = [txt "a"; txt "b"] /\ leader k' (txt "a") 0 1 /\ partition_known k' (txt "b") 1 /\
  ~ partition_known k' (txt "a") 1.
Proof.
  vm_compute. split; [reflexivity|]. split; [eexists; split; reflexivity|]. split; [eexists; split; [reflexivity|now left]|].
  intros (ps & E & H). injection E as <-. destruct H as [H|[]]. discriminate H.
Qed.

(** * C21 Broker connections follow the metadata *)
Theorem C21_connections_follow_metadata : forall w bs k missing k',
  wf k -> process_brokers w bs k = (Ret missing, k') ->
  (forall b, listed bs b -> holds k' b \/ In b missing) /\
  (forall b c, dget (k_conns k) b = Some c ->
     exists c', dget (k_conns k') b = Some c' /\ same_conn c c' /\ (~ listed bs b -> cc_closing c' = true)) /\
  k_topics k' = k_topics k /\ k_leaders k' = k_leaders k /\
  exists lg, k_log k' = k_log k ++ lg /\
    (* nothing is done but connecting to listed brokers without connection and dropping unlisted ones *)
    (forall x, In x lg ->
       match x with
       | XConnect _ h p => exists B, In B bs /\ h = mb_host B /\ p = mb_port B /\ ~ holds k (mb_id B)
       | XConnected _ | XConnectFailed _ _ => True
       | XAbort id => exists b c, dget (k_conns k) b = Some c /\ ~ listed bs b /\ id = cc_id c
       | _ => False
       end) /\
    (* a broker is missing only if a connection attempt to it failed *)
    (forall b, In b missing -> ~ holds k b /\
       exists B id e, In B bs /\ mb_id B = b /\ In (XConnect id (mb_host B) (mb_port B)) lg /\ In (XConnectFailed id e) lg) /\
    (* a connection is an old one, or one just made to the address listed *)
    (forall b c', dget (k_conns k') b = Some c' ->
       (exists c, dget (k_conns k) b = Some c /\ same_conn c c') \/
       (~ holds k b /\ exists B, In B bs /\ mb_id B = b /\ cc_host c' = mb_host B /\ cc_port c' = mb_port B /\
          In (XConnect (cc_id c') (mb_host B) (mb_port B)) lg /\ In (XConnected (cc_id c')) lg)).
Proof.
  intros w bs k missing k' W H.
  destruct (process_brokers_spec _ _ _ _ _ H W) as (W' & T & L & O & P1 & P2 & lg & E & F & M & N).
  split; [exact P1|]. split; [exact P2|]. split; [exact T|]. split; [exact L|]. exists lg. split; [exact E|].
  split; [|split; [exact M|]].
  - intros x Hx. destruct (F x Hx) as [C|(b & c & H1 & H2 & ->)]; [|eauto]. unfold connects_only in C. destruct x; auto; destruct C.
  - intros b c' Hc. destruct (N b c' Hc) as [?|(B & R1 & R2 & R3 & R4 & R5 & R6 & R7 & R8)]; [now left|right].
    split; [exact R5|]. exists B. auto 10.
Qed.
Theorem C21_never_raises : forall w bs k e k', process_brokers w bs k <> (Raise e, k').
Proof. apply process_brokers_no_raise. Qed.
(** a connection that the metadata lists is closed only if it died by itself *)
Theorem C21_listed_not_aborted : forall w bs k missing k' b c,
  wf k -> process_brokers w bs k = (Ret missing, k') -> dget (k_conns k) b = Some c -> listed bs b ->
  forall lg, k_log k' = k_log k ++ lg -> ~ In (XAbort (cc_id c)) lg.
Proof.
  intros w bs k missing k' b c W H Hc HL lg E HI.
  destruct (process_brokers_spec _ _ _ _ _ H W) as (_ & _ & _ & _ & _ & _ & lg' & E' & F & _).
  rewrite E in E'. apply app_inv_head in E'. subst lg'. destruct (F _ HI) as [[]|(b' & c' & Hc' & NL & Ei)].
  injection Ei as Ei. pose proof (id_inj _ _ _ _ _ W Hc Hc' Ei) as E1. injection E1 as -> ->. now apply NL.
Qed.
Example C21_example : let '(o, k') := process_brokers demo_world demo_brokers demo_k in
  o = Ret [] /\ k_log k' = [XConnect 2 (host 2) 9092; XConnected 2] /\ holds k' 2.
Proof. vm_compute. repeat split. eexists. reflexivity. Qed.
Example C21_example_abort :
  let '(o, k') := process_brokers (World (fun _ => Answer [] (Err EStreamClosed)) (w_ask demo_world)) [MBroker 2 (host 2) 9092] demo_k in
  o = Ret [2] /\ k_log k' = [XConnect 2 (host 2) 9092; XConnectFailed 2 EStreamClosed; XAbort 0].
Proof. vm_compute. repeat split. Qed.

(** * C22 Heal finishes only in a consistent state *)
Theorem C22_heal_settled : forall w fuel resp k k',
  wf k -> heal w fuel resp k = (Ret tt, k') ->
  wf k' /\
  (exists lg r l,
    k_log k' = k_log k ++ lg /\
    (match resp with Some r0 => [r0] | None => [] end ++ answers lg) = l ++ [r] /\   (* r: the last answer *)
    settled k' r /\ tables_of k' r) /\
  (* connections that were closing at the start are gone *)
  (forall b c, dget (k_conns k) b = Some c -> cc_closing c = true ->
     forall b' c', dget (k_conns k') b' = Some c' -> cc_id c' <> cc_id c).
Proof.
  intros w fuel [r0|] k k' W H; cbn [heal] in H.
  - destruct (heal_with_spec _ _ _ _ _ H W) as (W' & D & lg & r & l & L & E & S & T).
    split; [exact W'|]. split; [exists lg, r, l; auto|exact D].
  - destruct (get_metadata w [] k) as [[r0| |] k1] eqn:EG; try discriminate H.
    destruct (get_metadata_answer _ _ _ _ _ EG) as (U & lg1 & L1 & A1).
    destruct (heal_with_spec _ _ _ _ _ H (unchanged_wf _ _ U W)) as (W' & D & lg & r & l & L & E & S & T).
    split; [exact W'|]. split.
    + exists (lg1 ++ lg), r, l. split; [rewrite L, L1; now rewrite <- app_assoc|]. split; [|auto].
      now rewrite answers_app, A1.
    + intros b c Hc Hcl. destruct U as (_ & _ & _ & _ & _ & A). destruct (A _ _ Hc) as (c1 & H1 & S1 & _ & _ & S2).
      rewrite <- S1. apply (D b c1 H1). auto.
Qed.
(** it fails only if a metadata request round failed, see C25 for what that means *)
Theorem C22_heal_raises : forall w fuel resp k e k',
  heal w fuel resp k = (Raise e, k') -> exists topics k0, get_metadata w topics k0 = (Raise e, k').
Proof.
  intros w fuel [r0|] k e k' H; cbn [heal] in H; [now apply heal_with_raises in H|].
  destruct (get_metadata w [] k) as [[r0|e0|] k1] eqn:EG; try discriminate H.
  - now apply heal_with_raises in H.
  - injection H as -> ->. eauto.
Qed.
(** the number of passes looked at does not matter: a finished heal is finished *)
Theorem C22_fuel_irrelevant : forall w fuel n resp k o k',
  heal w fuel resp k = (o, k') -> o <> Wait -> heal w (fuel + n) resp k = (o, k').
Proof.
  intros w fuel n resp k o k' H N.
  assert (HW : forall r k0, heal_with w fuel r k0 = (o, k') -> heal_with w (fuel + n) r k0 = (o, k')).
  { intros r k0. unfold heal_with. destruct (process w r (cull k0)) as [[m| |] k1]; auto. intros H0. now apply heal_loop_more. }
  destruct resp; cbn [heal] in *; auto. destruct (get_metadata w [] k) as [[r0| |] k1]; auto.
Qed.
Example C22_example : exists k', heal demo_world 1 (Some demo_resp) demo_k = (Ret tt, k') /\
  dkeys (k_conns k') = [1; 2] /\ answers (k_log k') = [demo_resp2] /\ wf demo_k.
Proof. eexists. split; [vm_compute; reflexivity|]. split; [reflexivity|]. split; [reflexivity|exact demo_wf]. Qed.
Example C22_example_raises :
  fst (heal (World (fun _ => Answer [0%nat] (Err EStreamClosed)) (w_ask demo_world)) 5 (Some demo_resp) demo_k) = Raise ENoBrokers.
Proof. vm_compute. reflexivity. Qed.

(** * C23 Heal keeps healthy topics *)
(** proved: what the last answer of the heal reports as usable is known; missing: what an earlier
    answer of the same heal reported *)
Theorem C23_last_answer_partial : forall w fuel resp k k',
  wf k -> heal w fuel resp k = (Ret tt, k') ->
  exists lg r l, k_log k' = k_log k ++ lg /\
    (match resp with Some r0 => [r0] | None => [] end ++ answers lg) = l ++ [r] /\
    forall t p led, usable (mr_topics r) t p led -> partition_known k' t p.
Proof.
  intros w fuel resp k k' W H. destruct (C22_heal_settled _ _ _ _ _ W H) as (_ & (lg & r & l & L & E & [S1 S2] & (T1 & T2 & T3)) & _).
  exists lg, r, l. split; [exact L|]. split; [exact E|]. intros t p led U. apply (T3 t p led U).
  destruct U as (tc & pc & (T & P & HT & Hn & He & HP & Hi & Hp & Hl) & N3 & N9 & N5).
  destruct (dmem (k_conns k') led) eqn:ED; [now apply holds_dmem|]. exfalso.
  apply (S2 t). exists T. split; [exact HT|]. split; [exact Hn|]. split; [congruence|]. right. exists P. split; [exact HP|].
  right. rewrite Hl, holds_dmem, ED. discriminate.
Qed.
(** refuted: while one topic is waiting for a leader, the follow-up answer about that topic alone
    replaces the whole table and the healthy topic disappears *)
Theorem C23_healthy_topic_lost_refuted :
  exists w k r0 k', wf k /\ heal w 1 (Some r0) k = (Ret tt, k') /\
    (exists p l, usable (mr_topics r0) (txt "a") p l /\ holds k l /\ holds k' l) /\
    forall p, ~ partition_known k' (txt "a") p.
Proof.
  exists demo_world, demo_k, demo_resp. eexists. split; [exact demo_wf|]. split; [vm_compute; reflexivity|].
  split.
  - exists 0, 1. split; [|split; eexists; reflexivity]. exists 0, 0.
    split; [|repeat split; discriminate]. exists topic_a, (MPart 0 0 1). cbn. repeat split; auto.
  - intros p (ps & H & _). discriminate H.
Qed.

(** * C25 Metadata is taken from the first broker that answers *)
(** [k]'s brokers, in order: those before the answering one were closing or failed with a lost
    connection, at most one request each; nothing is sent after the answer *)
Theorem C25_first_answer_partial : forall w topics k o k',
  get_metadata w topics k = (o, k') ->
  let bs := dkeys (k_conns k) in
  match o with
  | Ret r =>
      exists pre b post xs, bs = pre ++ b :: post /\ all_failed k k' pre xs /\
        k_log k' = k_log k ++ failed_asks topics xs ++ [XAsk (conn_id k b) topics; XAnswer (conn_id k b) r]
  | Raise e =>
      (e = ENoBrokers /\ exists xs, all_failed k k' bs xs /\ k_log k' = k_log k ++ failed_asks topics xs) \/
      (exists pre b post xs, bs = pre ++ b :: post /\ all_failed k k' pre xs /\ ~ connection_lost e /\
        k_log k' = k_log k ++ failed_asks topics xs ++ [XAsk (conn_id k b) topics; XAskFailed (conn_id k b) e])
  | Wait =>
      exists pre b post xs, bs = pre ++ b :: post /\ all_failed k k' pre xs /\
        k_log k' = k_log k ++ failed_asks topics xs ++ [XAsk (conn_id k b) topics]
  end.
Proof.
  intros w topics k o k' H. unfold get_metadata in H.
  destruct (ask_each w (dkeys (k_conns k)) topics k) as [o1 k1] eqn:E.
  apply ask_each_spec in E as [_ S]; [|intros b Hb; now apply in_dkeys_dget in Hb].
  destruct o1 as [[r|]|e|]; injection H as <- <-; cbv zeta; auto.
Qed.
(** refuted: a failure of another kind (say the answer could not be decoded, connection.py:96-99 and
    170-172) ends the round although the next broker would answer *)
Theorem C25_other_failure_refuted :
  exists w k k', (forall n, (1 <= n)%nat -> exists r, w_ask w n = Answer [] (Ok r)) /\
    get_metadata w [] k = (Raise EStruct, k') /\ asks (k_log k') = [0%nat] /\ dkeys (k_conns k) = [1; 2].
Proof.
  exists (World all_connect (fun n => match n with O => Answer [0%nat] (Err EStruct) | _ => Answer [] (Ok demo_resp) end)),
    (Cl [(1, CC (host 1) 9092 0 false); (2, CC (host 2) 9092 1 false)] [] [] 2 0 []). eexists.
  split; [|split; [vm_compute; reflexivity|split; reflexivity]].
  intros [|n] H; [lia|]. eexists. reflexivity.
Qed.
Definition two_conns : cluster :=
  Cl [(7, CC (host 7) 9092 1 true); (1, CC (host 1) 9092 0 false); (2, CC (host 2) 9092 2 false); (3, CC (host 3) 9092 3 false)] [] [] 4 0 [].
Example C25_example :
  let '(o, k') := get_metadata (World all_connect (fun n => match n with O => Answer [0%nat] (Err EBrokerConn) | _ => Answer [] (Ok demo_resp) end))
    [txt "a"] two_conns in
  o = Ret demo_resp /\
  k_log k' = [XAsk 0 [txt "a"]; XAskFailed 0 EBrokerConn; XAsk 2 [txt "a"]; XAnswer 2 demo_resp].
Proof. vm_compute. split; reflexivity. Qed.

(** * C24 Bootstrap hosts are tried in order *)
(** the effects of failing to connect to each of [addrs], connections numbered from n *)
Fixpoint failed_hosts (n : nat) (addrs : list (text * Z)) (es : list exn) : list effect :=
  match addrs, es with
  | (h, p) :: addrs', e :: es' => XConnect n h p :: XConnectFailed n e :: failed_hosts (S n) addrs' es'
  | _, _ => []
  end.
Lemma split_colon_spec h : exists w ws, split_colon h = w :: ws /\ ~ In 58 w /\ match ws with [] => h = w | x :: r => exists h', h = w ++ 58 :: h' /\ split_colon h' = x :: r end.
Proof.
  induction h as [|c h (w & ws & E & N & S)]; [exists [], []; auto|]. cbn [split_colon]. rewrite E. destruct (Z.eqb_spec c 58) as [->|C].
  - exists [], (w :: ws). split; [reflexivity|]. split; [intros []|]. exists h. split; [reflexivity|exact E].
  - exists (c :: w), ws. split; [reflexivity|]. split; [intros [H|H]; auto|]. destruct ws as [|x r]; [now subst|]. destruct S as (h' & -> & S). exists h'. split; [reflexivity|exact S].
Qed.
Lemma digits_spec s : forall a, match digits a s with Some n => Forall (fun c => 48 <= c <= 57) s /\ n = fold_left (fun a c => 10 * a + (c - 48)) s a | None => ~ Forall (fun c => 48 <= c <= 57) s end.
Proof.
  induction s as [|c s IH]; intros a; [split; [constructor|reflexivity]|]. cbn [digits fold_left]. destruct ((48 <=? c) && (c <=? 57)) eqn:C.
  - specialize (IH (a * 10 + (c - 48))). replace (10 * a + (c - 48)) with (a * 10 + (c - 48)) by lia. apply andb_true_iff in C as [C1 C2]. destruct (digits _ s) as [n|].
    + destruct IH as [IH ->]. split; [constructor; [lia|exact IH]|reflexivity].
    + intros H. inversion H. auto.
  - intros H. inversion H. apply andb_false_iff in C as [C|C]; lia.
Qed.
Lemma first_colon (a b c d : text) : ~ In 58 a -> ~ In 58 c -> a ++ 58 :: b = c ++ 58 :: d -> a = c /\ b = d.
Proof.
  revert c. induction a as [|x a IH]; intros [|y c] A C E; cbn in *.
  - injection E as <-. auto.
  - injection E as <- _. exfalso. auto.
  - injection E as -> _. exfalso. auto.
  - injection E as -> E. destruct (IH c) as [-> ->]; auto.
Qed.
Lemma parse_host_spec h : match parse_host h with Ok a => bootstrap_address h a | Err e => e = EValue /\ forall a, ~ bootstrap_address h a end.
Proof.
  unfold parse_host. destruct (smem h 58) eqn:M.
  2:{ apply ba_host. intros H. apply smem_In in H. congruence. }
  apply smem_In in M. destruct (split_colon_spec h) as (w & ws & -> & N & S). destruct ws as [|port ws]; [subst; contradiction|]. destruct S as (h' & -> & S).
  destruct (split_colon_spec h') as (w' & ws' & E & N' & S'). rewrite S in E. injection E as <- <-.
  assert (X : forall a, bootstrap_address (w ++ 58 :: h') a -> exists n, a = (w, n) /\ decimal h' n).
  { intros a A. inversion A as [h0 H0 E0|h0 s n H0 D E0]; [subst; exfalso; apply H0, in_or_app; right; now left|]. apply (first_colon h0 s w h' H0 N) in E0 as [-> ->]. eauto. }
  destruct ws as [|x ws].
  - subst port. unfold int_of_text. pose proof (digits_spec h' 0) as D. destruct h' as [|c h'].
    + split; [reflexivity|]. intros a A. apply X in A as (n & _ & A & _). congruence.
    + destruct (digits 0 (c :: h')) as [n|]; cbn [bind].
      * apply ba_port; [exact N|]. split; [discriminate|exact D].
      * split; [reflexivity|]. intros a A. apply X in A as (n & _ & _ & A & _). contradiction.
  - split; [reflexivity|]. intros a A. apply X in A as (n & _ & _ & A & _). destruct S' as (h2 & -> & _). rewrite Forall_forall in A. assert (48 <= 58 <= 57) by (apply A, in_or_app; right; now left). lia.
Qed.
Lemma parse_ok h a : parse_host h = Ok a -> bootstrap_address h a.
Proof. intros E. pose proof (parse_host_spec h) as S. now rewrite E in S. Qed.
(** what int() and the unpacking of split() raise for an entry that is no address *)
Definition no_address (h : text) (e : exn) : Prop := e = EValue /\ forall a, ~ bootstrap_address h a.
Lemma parse_err h e : parse_host h = Err e -> no_address h e.
Proof. intros E. pose proof (parse_host_spec h) as S. now rewrite E in S. Qed.

Lemma boot_spec w hosts : forall k o k', boot w hosts k = (o, k') ->
  exists pre post addrs es, hosts = pre ++ post /\ Forall2 bootstrap_address pre addrs /\ length es = length addrs /\
  let n := (k_opened k + length pre)%nat in
  match o with
  | Ret None => post = [] /\ k_log k' = k_log k ++ failed_hosts (k_opened k) addrs es
  | Ret (Some r) => exists h p h0 post', post = h0 :: post' /\ bootstrap_address h0 (h, p) /\
      k_log k' = k_log k ++ failed_hosts (k_opened k) addrs es ++ [XConnect n h p; XConnected n; XAsk n []; XAnswer n r; XClose n]
  | Raise e => 
      (exists h0 post', post = h0 :: post' /\ no_address h0 e /\
         k_log k' = k_log k ++ failed_hosts (k_opened k) addrs es) \/
      (exists h p h0 post', post = h0 :: post' /\ bootstrap_address h0 (h, p) /\
         k_log k' = k_log k ++ failed_hosts (k_opened k) addrs es ++ [XConnect n h p; XConnected n; XAsk n []; XAskFailed n e])
  | Wait => True
  end.
Proof.
  induction hosts as [|h0 hosts IH]; intros k o k' H; cbn [boot] in H.
  { injection H as <- <-. exists [], [], [], []. cbn. rewrite app_nil_r. repeat split; constructor. }
  destruct (parse_host h0) as [[h p]|e] eqn:EP; [apply parse_ok in EP|apply parse_err in EP].
  2:{ injection H as <- <-. exists [], (h0 :: hosts), [], []. repeat split; [constructor|]. left. exists h0, hosts. cbn.
      rewrite app_nil_r. auto. }
  destruct (w_connect w (k_clock k)) as [|died [[]|e]].
  - injection H as <- <-. exists [], (h0 :: hosts), [], []. repeat split. constructor.
  - exists [], (h0 :: hosts), [], []. split; [reflexivity|]. split; [constructor|]. split; [reflexivity|].
    destruct (w_ask w _) as [|died2 [r|e]] in H; injection H as <- <-; cbv zeta; cbn [length]; rewrite ?Nat.add_0_r.
    + exact Logic.I.
    + exists h, p, h0, hosts. split; [reflexivity|]. split; [exact EP|]. cbn. now rewrite <- !app_assoc.
    + right. exists h, p, h0, hosts. split; [reflexivity|]. split; [exact EP|]. cbn. now rewrite <- !app_assoc.
  - apply IH in H as (pre & post & addrs & es & -> & F & Le & Q).
    exists (h0 :: pre), post, ((h, p) :: addrs), (e :: es). split; [reflexivity|]. split; [now constructor|].
    split; [cbn; lia|]. cbv zeta in *. cbn [emit waited opening k_opened k_log] in Q. cbn [failed_hosts length].
    replace (k_opened k + S (length pre))%nat with (S (k_opened k) + length pre)%nat by lia.
    destruct o as [[r|]|e0|].
    + destruct Q as (h1 & p1 & h2 & post' & E1 & E2 & E3). exists h1, p1, h2, post'. split; [exact E1|]. split; [exact E2|].
      rewrite E3. now rewrite <- !app_assoc.
    + destruct Q as [E1 E2]. split; [exact E1|]. rewrite E2. now rewrite <- !app_assoc.
    + destruct Q as [(h2 & post' & E1 & E2 & E3)|(h1 & p1 & h2 & post' & E1 & E2 & E3)].
      * left. exists h2, post'. split; [exact E1|]. split; [exact E2|]. rewrite E3. now rewrite <- !app_assoc.
      * right. exists h1, p1, h2, post'. split; [exact E1|]. split; [exact E2|]. rewrite E3. now rewrite <- !app_assoc.
    + exact Logic.I.
Qed.

(** a start() that ends: the hosts before the one used all refused the connection, in order; the one
    used answered and its connection was closed again; then heal() works on that answer *)
Theorem C24_in_order_partial : forall w fuel hosts k o k',
  start w fuel hosts k = (o, k') -> o <> Wait ->
  exists pre post addrs es, hosts = pre ++ post /\ Forall2 bootstrap_address pre addrs /\ length es = length addrs /\
  let n := (k_opened k + length pre)%nat in
  let tried := k_log k ++ failed_hosts (k_opened k) addrs es in
  (post = [] /\ o = Raise ENoBrokers /\ k_log k' = tried) \/
  (exists h p h0 post' r k1, post = h0 :: post' /\ bootstrap_address h0 (h, p) /\
     k_log k1 = tried ++ [XConnect n h p; XConnected n; XAsk n []; XAnswer n r; XClose n] /\
     heal w fuel (Some r) k1 = (o, k')) \/
  (exists e h0 post', post = h0 :: post' /\ no_address h0 e /\ o = Raise e /\ k_log k' = tried) \/
  (exists e h p h0 post', post = h0 :: post' /\ bootstrap_address h0 (h, p) /\ o = Raise e /\
     k_log k' = tried ++ [XConnect n h p; XConnected n; XAsk n []; XAskFailed n e]).
Proof.
  intros w fuel hosts k o k' H N. unfold start in H. destruct (boot w hosts k) as [ob k1] eqn:EB.
  destruct (boot_spec _ _ _ _ _ EB) as (pre & post & addrs & es & E & F & L & S).
  exists pre, post, addrs, es. split; [exact E|]. split; [exact F|]. split; [exact L|]. cbv zeta in *.
  destruct ob as [[r|]|e|]; [| | |injection H as <- <-; congruence].
  - right. left. destruct S as (h & p & h0 & post' & E1 & E2 & E3). exists h, p, h0, post', r, k1.
    rewrite <- app_assoc. auto.
  - left. injection H as <- <-. destruct S as [-> ->]. auto.
  - right. right. injection H as <- <-. destruct S as [(h0 & post' & E1 & E2 & E3)|(h & p & h0 & post' & E1 & E2 & E3)].
    + left. exists e, h0, post'. auto.
    + right. exists e, h, p, h0, post'. rewrite <- app_assoc. auto 10.
Qed.
(** refuted: the first host accepts the connection but the request fails; start() raises although the
    second host would have answered *)
Theorem C24_next_host_not_tried_refuted :
  exists w k', (forall n, (1 <= n)%nat -> n <> 1%nat -> exists r, w_ask w n = Answer [] (Ok r)) /\ (forall n, w_connect w n = Answer [] (Ok tt)) /\
    start w 5 [host 1; host 2] cluster_init = (Raise EBrokerConn, k') /\
    k_log k' = [XConnect 0 (host 1) 9092; XConnected 0; XAsk 0 []; XAskFailed 0 EBrokerConn].
Proof.
  exists (World all_connect (fun n => match n with 1%nat => Answer [] (Err EBrokerConn) | _ => Answer [] (Ok demo_resp) end)).
  eexists. split; [|split; [reflexivity|split; [vm_compute; reflexivity|reflexivity]]].
  intros [|[|n]] H N; try lia. eexists. reflexivity.
Qed.
(** refuted: NoBrokersError although a bootstrap host gave a metadata answer *)
Theorem C24_no_brokers_after_answer_refuted :
  exists w k', start w 5 [host 1] cluster_init = (Raise ENoBrokers, k') /\ answers (k_log k') = [demo_resp].
Proof.
  exists (World (fun n => match n with O => Answer [] (Ok tt) | _ => Answer [] (Err EStreamClosed) end) (fun _ => Answer [] (Ok demo_resp))).
  eexists. split; [vm_compute; reflexivity|reflexivity].
Qed.
Example C24_example :
  let w := World (fun n => match n with O => Answer [] (Err EStreamClosed) | _ => Answer [] (Ok tt) end)
                 (fun n => if (n <? 4)%nat then Answer [] (Ok (MResp demo_brokers [topic_a])) else Answer [] (Ok demo_resp2)) in
  exists k', start w 5 [host 1; host 2 ++ [58; 56; 48]; host 3] cluster_init = (Ret tt, k') /\
    firstn 7 (k_log k') = [XConnect 0 (host 1) 9092; XConnectFailed 0 EStreamClosed; XConnect 1 (host 2) 80; XConnected 1;
      XAsk 1 []; XAnswer 1 (MResp demo_brokers [topic_a]); XClose 1].
Proof. eexists. split; [vm_compute; reflexivity|reflexivity]. Qed.

(** * C26 Fan-out send handles each response once *)
Section Fanout.
  Variables St R Resp Rq : Type.
  Variable resp_api : Resp -> string.
  Variable handler : string -> option (Resp -> St -> res R * bool * St).
  Variable heal_op : St -> out unit * St.
  Variable cluster_conns : St -> dict Z cconn.
  Variable sendable : Rq -> option exn.
  Notation client := (client St R Resp Rq).
  Notation client_send := (client_send St R Resp Rq resp_api handler heal_op cluster_conns sendable).
  Notation send_loop := (send_loop St R Resp Rq resp_api handler).

  (** the responses among the completed futures, in order *)
  Definition responses (arrivals : list (Z * res Resp)) : list (Z * Resp) :=
    flat_map (fun a => match snd a with Ok r => [(fst a, r)] | Err _ => [] end) arrivals.

  Lemma send_all_spec rqs : forall c u c', send_all St R Resp Rq cluster_conns sendable rqs c = (Ok u, c') ->
    cl_st _ _ _ _ c' = cl_st _ _ _ _ c /\ cl_heal _ _ _ _ c' = cl_heal _ _ _ _ c /\ cl_heals _ _ _ _ c' = cl_heals _ _ _ _ c /\
    cl_calls _ _ _ _ c' = cl_calls _ _ _ _ c /\ cl_sent _ _ _ _ c' = cl_sent _ _ _ _ c ++ rqs.
  Proof.
    induction rqs as [|[b rq] rqs IH]; intros c u c' H; cbn [send_all] in H.
    - injection H as _ <-. now rewrite app_nil_r.
    - destruct (dget _ b) as [cn|]; [|discriminate H]. destruct (if cc_closing cn then None else sendable rq); [discriminate H|].
      apply IH in H as (A & B & D & E & F). cbn in *. rewrite <- app_assoc in F. auto.
  Qed.

  Lemma send_loop_spec todo : forall arrivals results (c : client) results' c',
    length arrivals = todo -> NoDup (dkeys results ++ map fst arrivals) ->
    send_loop todo arrivals results c = (Ret results', c') ->
    exists xs : list (Z * Resp * R),
      map fst xs = responses arrivals /\
      cl_calls _ _ _ _ c' = cl_calls _ _ _ _ c ++ map (fun x => (resp_api (snd (fst x)), snd (fst x), Ok (snd x))) xs /\
      results' = results ++ map (fun x => (fst (fst x), snd x)) xs /\
      cl_heals _ _ _ _ c' = cl_heals _ _ _ _ c /\ cl_sent _ _ _ _ c' = cl_sent _ _ _ _ c.
  Proof.
    induction todo as [|todo IH]; intros arrivals results c results' c' L N H; cbn [Client.send_loop] in H.
    - destruct arrivals; [|discriminate L]. injection H as <- <-. exists []. cbn. rewrite !app_nil_r. auto.
    - destruct arrivals as [|[b [r|e]] rest]; [discriminate L| |].
      + destruct (handler (resp_api r)) as [h|]; [|discriminate H]. destruct (h r _) as [[x flag] st].
        destruct x as [v|e]; [|discriminate H].
        assert (dget results b = None) as Nb.
        { apply dget_None_notin. intros Hb. cbn [map fst] in N. apply NoDup_remove in N as [_ N]. apply N, in_or_app. now left. }
        rewrite (dset_new _ _ _ Nb) in H.
        apply IH in H as (xs & E1 & E2 & E3 & E4 & E5); [|cbn in L; lia|].
        * exists ((b, r, v) :: xs). cbn in *. rewrite E1, E2, E3, <- !app_assoc. auto.
        * unfold dkeys in *. rewrite map_app, <- app_assoc. exact N.
      + apply IH in H as (xs & E1 & E2 & E3 & E4 & E5); [|cbn in L; lia|].
        * exists xs. cbn in *. auto.
        * cbn [map fst] in N. now apply NoDup_remove_1 in N.
  Qed.

  (** the futures of a send: one for each request, completing in some order *)
  Definition completes (rqs : dict Z Rq) (arrivals : list (Z * res Resp)) : Prop :=
    NoDup (dkeys rqs) /\ Permutation (map fst arrivals) (dkeys rqs).

  Lemma completes_len rqs arrivals : completes rqs arrivals -> length arrivals = length rqs.
  Proof. intros [_ P]. apply Permutation_length in P. unfold dkeys in P. now rewrite !map_length in P. Qed.

  Theorem C26_each_response_once : forall rqs arrivals c results c',
    completes rqs arrivals -> client_send rqs arrivals c = (Ret results, c') ->
    cl_sent _ _ _ _ c' = cl_sent _ _ _ _ c ++ rqs /\
    exists xs : list (Z * Resp * R),            (* broker, its response, what the handler returned *)
      map fst xs = responses arrivals /\
      cl_calls _ _ _ _ c' = cl_calls _ _ _ _ c ++ map (fun x => (resp_api (snd (fst x)), snd (fst x), Ok (snd x))) xs /\
      results = map (fun x => (fst (fst x), snd x)) xs.
  Proof.
    intros rqs arrivals c results c' Co H. pose proof (completes_len _ _ Co) as L. destruct Co as [N P].
    unfold Client.client_send in H. destruct (send_all _ _ _ _ _ _ rqs c) as [[[]|e] c1] eqn:EA; [|discriminate H].
    destruct (send_all_spec _ _ _ _ EA) as (A1 & A2 & A3 & A4 & A5).
    destruct (send_loop (length rqs) arrivals [] c1) as [[rs| |] c2] eqn:EL; try discriminate H.
    apply send_loop_spec in EL as (xs & E1 & E2 & E3 & E4 & E5); [|exact L|cbn; eapply Permutation_NoDup; [symmetry; exact P|exact N]].
    assert (cl_sent _ _ _ _ c' = cl_sent _ _ _ _ c2 /\ cl_calls _ _ _ _ c' = cl_calls _ _ _ _ c2 /\ results = rs) as (F1 & F2 & F3).
    { unfold send_finish in H. destruct (cl_heal _ _ _ _ c2); [|injection H as <- <-; auto].
      destruct (heal_op _) as [[u| |] st]; try discriminate H. injection H as <- <-. auto. }
    split; [congruence|]. exists xs. split; [exact E1|]. split; [congruence|]. now rewrite F3, E3.
  Qed.
  (** so a broker that failed has no entry, and every entry is the result for that broker's response *)
  Theorem C26_results_by_broker : forall rqs arrivals c results c',
    completes rqs arrivals -> client_send rqs arrivals c = (Ret results, c') ->
    (forall b, In b (dkeys results) <-> exists r, In (b, Ok r) arrivals) /\
    (forall b x, In (b, x) results -> exists r, In (b, Ok r) arrivals /\ In (resp_api r, r, Ok x) (cl_calls _ _ _ _ c')).
  Proof.
    intros rqs arrivals c results c' Co H. destruct (C26_each_response_once _ _ _ _ _ Co H) as (_ & xs & E1 & E2 & ->).
    assert (RA : forall b r, In (b, r) (responses arrivals) <-> In (b, Ok r) arrivals).
    { intros b r. unfold responses. rewrite in_flat_map. split.
      - intros ([b' [r'|e]] & H1 & H2); cbn in H2; [|destruct H2]. destruct H2 as [H2|[]]. injection H2 as -> ->. exact H1.
      - intros H1. exists (b, Ok r). split; [exact H1|]. now left. }
    split.
    - intros b. split.
      + intros Hb. unfold dkeys in Hb. rewrite map_map in Hb. apply in_map_iff in Hb as ([[b' r] x] & <- & Hx). exists r.
        apply RA. rewrite <- E1. apply in_map_iff. exists (b', r, x). auto.
      + intros (r & Hr). apply RA in Hr. rewrite <- E1 in Hr. apply in_map_iff in Hr as ([[b' r'] x] & E & Hx). injection E as -> ->.
        unfold dkeys. rewrite map_map. apply in_map_iff. exists (b, r, x). auto.
    - intros b x Hx. apply in_map_iff in Hx as ([[b' r] x'] & E & Hx). injection E as -> ->. exists r. split.
      + apply RA. rewrite <- E1. apply in_map_iff. exists (b, r, x). auto.
      + rewrite E2. apply in_or_app. right. apply in_map_iff. exists (b, r, x). auto.
  Qed.
  (** a response nobody handles, an unknown broker *)
  Theorem C26_unhandled : forall rqs b r c,
    length rqs = 1%nat -> (exists c1, send_all _ _ _ _ cluster_conns sendable rqs c = (Ok tt, c1)) ->
    handler (resp_api r) = None -> fst (client_send rqs [(b, Ok r)] c) = Raise EUnhandled.
  Proof.
    intros rqs b r c L [c1 E] H. unfold Client.client_send. rewrite E, L. cbn [Client.send_loop]. now rewrite H.
  Qed.

  (** * C27 Cluster repair after errors *)
  (** some future failed with something else than StreamClosedError, or some handler asked for it *)
  Fixpoint wants_heal (arrivals : list (Z * res Resp)) (st : St) : bool :=
    match arrivals with
    | [] => false
    | (_, Err e) :: rest => (match e with EStreamClosed => false | _ => true end) || wants_heal rest st
    | (_, Ok r) :: rest =>
        match handler (resp_api r) with
        | Some h => let '(_, flag, st') := h r st in flag || wants_heal rest st'
        | None => false
        end
    end.
  Lemma send_loop_heal todo : forall arrivals results (c : client) results' c',
    length arrivals = todo -> send_loop todo arrivals results c = (Ret results', c') ->
    cl_heal _ _ _ _ c' = cl_heal _ _ _ _ c || wants_heal arrivals (cl_st _ _ _ _ c) /\
    cl_heals _ _ _ _ c' = cl_heals _ _ _ _ c.
  Proof.
    induction todo as [|todo IH]; intros arrivals results c results' c' L H; cbn [Client.send_loop] in H.
    - destruct arrivals; [|discriminate L]. injection H as _ <-. cbn. now rewrite orb_false_r.
    - destruct arrivals as [|[b [r|e]] rest]; [discriminate L| |].
      + cbn [wants_heal]. destruct (handler (resp_api r)) as [h|]; [|discriminate H].
        destruct (h r _) as [[x flag] st]. destruct x as [v|e]; [|discriminate H].
        apply IH in H as [E1 E2]; [|cbn in L; lia]. cbn in E1, E2. split; [|exact E2]. rewrite E1.
        destruct flag, (cl_heal _ _ _ _ c); reflexivity.
      + apply IH in H as [E1 E2]; [|cbn in L; lia]. cbn in E1, E2. split; [|exact E2]. rewrite E1. cbn [wants_heal].
        destruct e, (cl_heal _ _ _ _ c); reflexivity.
  Qed.
  Theorem C27_heal_once_partial : forall rqs arrivals c results c',
    completes rqs arrivals -> cl_heal _ _ _ _ c = false -> client_send rqs arrivals c = (Ret results, c') ->
    cl_heals _ _ _ _ c' = ((if wants_heal arrivals (cl_st _ _ _ _ c) then 1 else 0) + cl_heals _ _ _ _ c)%nat /\
    cl_heal _ _ _ _ c' = false.
  Proof.
    intros rqs arrivals c results c' Co F H. pose proof (completes_len _ _ Co) as L.
    unfold Client.client_send in H. destruct (send_all _ _ _ _ _ _ rqs c) as [[[]|e] c1] eqn:EA; [|discriminate H].
    destruct (send_all_spec _ _ _ _ EA) as (A1 & A2 & A3 & A4 & A5).
    destruct (send_loop (length rqs) arrivals [] c1) as [[rs| |] c2] eqn:EL; try discriminate H.
    apply send_loop_heal in EL as [E1 E2]; [|exact L]. rewrite A1, A2, F in E1. cbn [orb] in E1.
    unfold send_finish in H. rewrite E1 in H. destruct (wants_heal arrivals _).
    - destruct (heal_op _) as [[u| |] st]; try discriminate H. injection H as _ <-. cbn. split; [congruence|reflexivity].
    - injection H as _ <-. split; [cbn; congruence|exact E1].
  Qed.
  (** a connection error is enough *)
  Theorem C27_connection_error : forall rqs arrivals c results c' b e,
    completes rqs arrivals -> cl_heal _ _ _ _ c = false -> client_send rqs arrivals c = (Ret results, c') ->
    In (b, Err e) arrivals -> e <> EStreamClosed ->
    cl_heals _ _ _ _ c' = S (cl_heals _ _ _ _ c) /\ cl_heal _ _ _ _ c' = false.
  Proof.
    intros rqs arrivals c results c' b e Co F H Hi Ne. destruct (C27_heal_once_partial _ _ _ _ _ Co F H) as [E1 E2].
    split; [|exact E2]. rewrite E1. 
    assert (HH : forall todo results (c : client) results' c', length arrivals = todo ->
      send_loop todo arrivals results c = (Ret results', c') -> wants_heal arrivals (cl_st _ _ _ _ c) = true).
    { clear - Hi Ne. revert Hi. induction arrivals as [|[b0 [r|e0]] rest IH]; [intros []| |]; intros Hi todo results c results' c' L H.
      - destruct todo; [discriminate L|]. cbn [Client.send_loop wants_heal] in *. destruct (handler (resp_api r)) as [h|]; [|discriminate H].
        destruct (h r _) as [[x flag] st]. destruct x as [v|e1]; [|discriminate H].
        destruct Hi as [Hi|Hi]; [discriminate Hi|]. apply (IH Hi) in H; [|cbn in L; lia]. cbn in H. rewrite H. apply orb_true_r.
      - destruct todo; [discriminate L|]. cbn [Client.send_loop wants_heal] in *. destruct Hi as [Hi|Hi].
        + injection Hi as -> ->. destruct e; auto; congruence.
        + apply (IH Hi) in H; [|cbn in L; lia]. cbn in H. rewrite H. apply orb_true_r. }
    pose proof (completes_len _ _ Co) as L.
    unfold Client.client_send in H. destruct (send_all _ _ _ _ _ _ rqs c) as [[[]|e0] c1] eqn:EA; [|discriminate H].
    destruct (send_all_spec _ _ _ _ EA) as (A1 & A2 & A3 & A4 & A5).
    destruct (send_loop (length rqs) arrivals [] c1) as [[rs| |] c2] eqn:EL; try discriminate H.
    apply HH in EL; [|exact L]. rewrite A1 in EL. now rewrite EL.
  Qed.
End Fanout.

(** a concrete client: the state counts the responses handled, the result is the response number *)
Definition demo_handler (api : string) : option (Z -> Z -> res Z * bool * Z) :=
  if String.eqb api "fetch" then Some (fun r st => (Ok (r + st), Z.ltb r 0, st + 1)) else None.
Definition demo_send := client_send Z Z Z unit (fun _ => "fetch"%string) demo_handler (fun st => (Ret tt, st))
  (fun _ => k_conns two_conns) (fun _ => None).
Definition demo_client : client Z Z Z unit := Client_ Z Z Z unit 100 false 0 [] [].
Example C26_C27_example :
  let rqs := [(1, tt); (2, tt); (3, tt)] in
  let arrivals := [(3, Ok 30); (1, Err EBrokerConn); (2, Ok 20)] in
  completes Z unit rqs arrivals /\
  exists c', demo_send rqs arrivals demo_client = (Ret [(3, 130); (2, 121)], c') /\
    cl_heals _ _ _ _ c' = 1%nat /\ cl_calls _ _ _ _ c' = [("fetch", 30, Ok 130); ("fetch", 20, Ok 121)]%string.
Proof.
  split.
  - split; [repeat constructor; cbn; intuition lia|]. cbn.
    change [3; 1; 2] with ([3] ++ [1; 2]). change [1; 2; 3] with ([1; 2] ++ [3]). apply Permutation_app_comm.
  - eexists. split; [vm_compute; reflexivity|split; reflexivity].
Qed.
(** refuted: a connection lost with StreamClosedError does not lead to a heal *)
Theorem C27_stream_closed_refuted :
  exists c', demo_send [(1, tt)] [(1, Err EStreamClosed)] demo_client = (Ret [], c') /\ cl_heals _ _ _ _ c' = 0%nat.
Proof. eexists. split; [vm_compute; reflexivity|reflexivity]. Qed.

Print Assumptions C20_tables_consistent_partial.
Print Assumptions C20_get_leader.
Print Assumptions C20_unique_leader.
Print Assumptions C20_error_codes_refuted.
Print Assumptions C21_connections_follow_metadata.
Print Assumptions C21_never_raises.
Print Assumptions C21_listed_not_aborted.
Print Assumptions C22_heal_settled.
Print Assumptions C22_heal_raises.
Print Assumptions C22_fuel_irrelevant.
Print Assumptions C23_last_answer_partial.
Print Assumptions C23_healthy_topic_lost_refuted.
Print Assumptions C24_in_order_partial.
Print Assumptions C24_next_host_not_tried_refuted.
Print Assumptions C24_no_brokers_after_answer_refuted.
Print Assumptions C25_first_answer_partial.
Print Assumptions C25_other_failure_refuted.
Print Assumptions C26_each_response_once.
Print Assumptions C26_results_by_broker.
Print Assumptions C26_unhandled.
Print Assumptions C27_heal_once_partial.
Print Assumptions C27_connection_error.
Print Assumptions C27_stream_closed_refuted.
