(** Property theorems C70-C72: several heal() calls on one Cluster at the same time, connections dying and stop() in
    between.  Model: Heals.v.  Specification: SpecHeals.v and SpecCluster.v. *)
From Coq Require Import ZArith String List Bool Lia.
From Verif Require Import PyBase BaseLemmas Constants Cluster SpecCluster ClusterProofs Heals SpecHeals HealsProofs PropsCluster.
Import ListNotations.
Open Scope Z_scope.

(** * C70 Overlapping heals do not corrupt the routing tables *)
(** Whatever heal() calls, answers, connections, deaths and stops come in whatever order: a step leaves both tables alone, or
    makes them exactly what the latest answer of the heal() that took the step says about brokers connected at that moment. *)
Theorem C70_tables_follow_answers : forall k ls l, let s := hrun ls (hinit k) in let s' := hstep s l in
  (k_topics (h_k s') = k_topics (h_k s) /\ k_leaders (h_k s') = k_leaders (h_k s)) \/
  (exists i r, heal_of l i /\ latest i (ls ++ [l]) (hinit k) r /\ tables_of (h_k s') r).
Proof.
  intros k ls l s s'. destruct (heal_of_dec l) as [[i H]|[[id ->]| ->]].
  - destruct (hrun_works ls k) as [_ W]. destruct (hstep_ok i _ s l H (W i)) as ([T|(r & pre & E & T)] & _); [left; exact T|right].
    exists i, r. split; [exact H|]. split; [|exact T]. exists pre. now rewrite given_to_snoc.
  - left. split; reflexivity.
  - left. unfold s'. cbn [hstep h_k]. unfold Cluster.stop. set (k0 := h_k s). generalize k0 at 2 3 5 6. generalize (k_conns k0). intros d. induction d as [|[b c] d IH]; intros k1; [auto|].
    cbn [fold_left]. destruct (IH (emit (XClose (cc_id c)) (set_conns k1 (dset (k_conns k1) b (shut c))))) as [A B]. split; [exact A|exact B].
Qed.
(** When a heal() returns, the tables are those of the latest answer it got, and no topic of that answer is left with a
    replica or leader not available, or with a leader that has no connection. *)
Theorem C70_returns_partial : forall k ls l i, let s := hrun ls (hinit k) in let s' := hstep s l in
  heal_of l i -> h_ended s' = h_ended s ++ [(i, Ok tt)] ->
  exists r, latest i (ls ++ [l]) (hinit k) r /\ tables_of (h_k s') r /\ forall t, ~ in_trouble (h_k s') (mr_topics r) t.
Proof.
  intros k ls l i s s' H E. destruct (hrun_works ls k) as [_ W]. destruct (hstep_ok i _ s l H (W i)) as (_ & R & _).
  destruct (R E) as (r & pre & G & T). exists r. split; [|exact T]. exists pre. now rewrite given_to_snoc.
Qed.

(** Two brokers, both connected. *)
Definition two_k : cluster := Cl [(1, CC (host 1) 9092 0 false); (2, CC (host 2) 9092 1 false)] [] [] 2 0 [XConnected 0; XConnected 1].
Definition brokers_123 : list mbroker := [MBroker 1 (host 1) 9092; MBroker 2 (host 2) 9092; MBroker 3 (host 3) 9092].
Definition answer_23 : mresp := MResp brokers_123 [MTopic 0 (txt "a") [MPart 0 0 2; MPart 0 1 3]].
Definition answer_3 : mresp := MResp brokers_123 [MTopic 0 (txt "a") [MPart 0 0 3]].
(** heal() 1 and heal() 2 ask at the same time; 1 gets the newer answer and finishes first, then 2 writes its older one. *)
Definition overtaken : list hlabel :=
  [Heal 1 None; Heal 2 None; Answered 2 (Ok answer_23) []; Answered 1 (Ok answer_3) []; Connected 1 (Ok tt); Connected 2 (Ok tt)].
Example C70_example : let s := hrun overtaken (hinit two_k) in
  h_ended s = [(1, Ok tt); (2, Ok tt)] /\ latest 1 overtaken (hinit two_k) answer_3 /\ latest 2 overtaken (hinit two_k) answer_23 /\
  k_leaders (h_k (hrun (firstn 5 overtaken) (hinit two_k))) = [(txt "a", [(0, 3)])] /\ k_leaders (h_k s) = [(txt "a", [(0, 2); (1, 3)])].
Proof.
  split; [vm_compute; reflexivity|]. split; [exists []; vm_compute; reflexivity|]. split; [exists []; vm_compute; reflexivity|]. split; vm_compute; reflexivity.
Qed.
(** So "after heal() the tables are those of the newest answer" fails: heal() 2 asked and was answered before heal() 1 was,
    and still its answer is what stays in the tables. *)
Theorem C70_newest_answer_refuted : exists k ls i j r r', let s := hrun ls (hinit k) in
  In (i, Ok tt) (h_ended s) /\ In (j, Ok tt) (h_ended s) /\ latest i ls (hinit k) r /\ latest j ls (hinit k) r' /\
  (exists n m, (n < m)%nat /\ nth_error ls n = Some (Answered j (Ok r') []) /\ nth_error ls m = Some (Answered i (Ok r) [])) /\
  tables_of (h_k s) r' /\ ~ tables_of (h_k s) r.
Proof.
  exists two_k, overtaken, 1, 2, answer_3, answer_23. destruct C70_example as (E & L1 & L2 & _ & EL). cbv zeta in *. rewrite E.
  split; [now left|]. split; [right; now left|]. split; [exact L1|]. split; [exact L2|].
  split; [exists 2%nat, 3%nat; split; [lia|split; reflexivity]|].
  assert (T : tables_of (h_k (hrun overtaken (hinit two_k))) answer_23).
  { destruct (C70_returns_partial two_k (firstn 5 overtaken) (Connected 2 (Ok tt)) 2) as (r & [pre G] & T & _).
    - reflexivity.
    - vm_compute. reflexivity.
    - assert (X : given_to 2 (firstn 5 overtaken ++ [Connected 2 (Ok tt)]) (hinit two_k) = [] ++ [answer_23]) by (vm_compute; reflexivity).
      rewrite X in G. apply app_inj_tail in G as [_ <-]. rewrite <- hrun_snoc in T. exact T. }
  split; [exact T|]. intros (A & B & _). destruct (B (txt "a") 1 3) as (_ & tc & pc & (TT & P & HT & _ & _ & HP & I1 & _) & _).
  - exists [(0, 2); (1, 3)]. rewrite EL. split; vm_compute; reflexivity.
  - cbn in HT. destruct HT as [<-|[]]. cbn in HP. destruct HP as [<-|[]]. discriminate I1.
Qed.
(** Nor does every broker of the answer have a connection when heal() returns, as it has without overlapping (C22): here broker 1
    dies while heal() 1 connects to broker 3, heal() 2 removes it and waits for a new connection, and heal() 1 returns. *)
Theorem C70_brokers_refuted : exists k ls i r b, let s := hrun ls (hinit k) in
  In (i, Ok tt) (h_ended s) /\ latest i ls (hinit k) r /\ listed (mr_brokers r) b /\ ~ holds (h_k s) b.
Proof.
  exists two_k, [Heal 1 None; Heal 2 None; Answered 1 (Ok answer_23) []; Died 0; Answered 2 (Ok answer_23) []; Connected 1 (Ok tt)], 1, answer_23, 1.
  split; [vm_compute; auto|]. split; [exists []; vm_compute; reflexivity|]. split; [eexists; split; [left; reflexivity|reflexivity]|].
  intros [c H]. vm_compute in H. discriminate H.
Qed.

(** * C71 The cluster never loses track of an open connection *)
(** Without overlapping heal() calls: every connection that was set up and is still open is the connection of some broker. *)
Theorem C71_none_lost_partial : forall k ls id, fresh k -> one_at_a_time ls (hinit k) ->
  still_open ls (hinit k) id -> at_hand (hrun ls (hinit k)) id.
Proof.
  intros k ls id [FC FL] O (U & NL & ND).
  assert (K : kept (fun _ => False) k).
  { split; rewrite ?FC; [constructor| |discriminate|discriminate]. intros i H. right. right; left. now apply FL. }
  destruct (hrun_inv ls k _ K (fun _ H => H) O) as [[[A B C E] _] _].
  assert (NG : ~ gone (died ls (hinit k)) (h_k (hrun ls (hinit k))) id) by (intros [H|[H|H]]; [apply NL; now left|apply NL; now right|exact (ND H)]).
  destruct (B id U) as [(b & c & G & I)|X]; [|destruct (NG X)]. exists b, c. split; [exact G|]. split; [exact I|].
  destruct (cc_closing c) eqn:Ec; [|reflexivity]. destruct NG. rewrite <- I. exact (C b c G Ec).
Qed.
(** So stop() leaves no connection open. *)
Theorem C71_stop_closes_all_partial : forall k ls id, fresh k -> one_at_a_time ls (hinit k) ->
  ~ still_open (ls ++ [Stop]) (hinit k) id.
Proof.
  intros k ls id F O SO. assert (O' : one_at_a_time (ls ++ [Stop]) (hinit k)) by (apply one_snoc; auto).
  destruct (C71_none_lost_partial k _ id F O' SO) as (b & c & G & I & _). destruct SO as (_ & NL & _). apply NL. right.
  rewrite hrun_snoc in *. cbn [hstep h_k] in *. destruct F as [FC FL].
  assert (K : kept (fun _ => False) k).
  { split; rewrite ?FC; [constructor| |discriminate|discriminate]. intros i H. right. right; left. now apply FL. }
  destruct (hrun_inv ls k _ K (fun _ H => H) O) as [[K' _] _]. destruct (kept_stop _ _ K') as (_ & _ & CL). rewrite <- I. exact (CL b c G).
Qed.

(** start(): the bootstrap connection 0 is closed, heal() gets its answer, connects to three brokers; broker 1's connection dies
    and a later heal() replaces it. *)
Definition booted : cluster := Cl [] [] [] 1 0 [XConnect 0 (host 1) 9092; XConnected 0; XClose 0].
Definition ordinary : list hlabel :=
  [Heal 1 (Some answer_23); Connected 1 (Ok tt); Connected 1 (Ok tt); Connected 1 (Ok tt); Died 1; Heal 2 None; Answered 2 (Ok answer_23) []; Connected 2 (Ok tt)].
Example C71_example : fresh booted /\ one_at_a_time ordinary (hinit booted) /\ h_calls (hrun ordinary (hinit booted)) = [] /\
  still_open ordinary (hinit booted) 2 /\ still_open ordinary (hinit booted) 4 /\ died ordinary (hinit booted) 1.
Proof.
  assert (U : forall id, In id [2; 4]%nat -> still_open ordinary (hinit booted) id).
  { intros id H. split; [|split].
    - destruct H as [<-|[<-|[]]]; vm_compute; tauto.
    - intros X. destruct H as [<-|[<-|[]]]; vm_compute in X; intuition discriminate.
    - intros (pre & post & E & _). assert (X : In (Died id) ordinary) by (rewrite E; apply in_or_app; right; now left).
      destruct H as [<-|[<-|[]]]; vm_compute in X; intuition discriminate. }
  split; [split; [reflexivity|]|].
  { intros id H. destruct H as [H|[H|[H|[]]]]; try discriminate H. injection H as <-. cbn. auto. }
  split; [vm_compute; tauto|]. split; [vm_compute; reflexivity|]. split; [apply U; cbn; auto|]. split; [apply U; cbn; auto|].
  exists (firstn 4 ordinary), (skipn 5 ordinary). split; [reflexivity|]. vm_compute. tauto.
Qed.

(** Two heal() calls that both connect to broker 3: the second connection takes the place of the first, which stays open, is no
    broker's, and is not closed by stop(). *)
Theorem C71_overlap_refuted : exists k ls id, fresh k /\ still_open ls (hinit k) id /\ ~ at_hand (hrun ls (hinit k)) id /\
  h_calls (hrun ls (hinit k)) = [] /\ still_open (ls ++ [Stop]) (hinit k) id.
Proof.
  set (ls := [Heal 1 (Some (MResp (firstn 2 brokers_123) [])); Connected 1 (Ok tt); Connected 1 (Ok tt); Heal 2 None; Heal 3 None;
    Answered 2 (Ok answer_23) []; Answered 3 (Ok answer_23) []; Connected 2 (Ok tt); Connected 3 (Ok tt)]).
  assert (U : forall ls', In ls' [ls; ls ++ [Stop]] -> still_open ls' (hinit booted) 3).
  { intros ls' H. split; [|split].
    - destruct H as [<-|[<-|[]]]; vm_compute; tauto.
    - intros X. destruct H as [<-|[<-|[]]]; vm_compute in X; intuition discriminate.
    - intros (pre & post & E & _). assert (X : In (Died 3) ls') by (rewrite E; apply in_or_app; right; now left).
      destruct H as [<-|[<-|[]]]; vm_compute in X; intuition discriminate. }
  exists booted, ls, 3%nat. split; [exact (proj1 C71_example)|]. split; [apply U; now left|]. split; [|split; [vm_compute; reflexivity|apply U; right; now left]].
  intros (b & c & G & I & _). apply dget_In in G.
  assert (X : forallb (fun bc => negb (Nat.eqb (cc_id (snd bc)) 3)) (k_conns (h_k (hrun ls (hinit booted)))) = true) by (vm_compute; reflexivity).
  rewrite forallb_forall in X. specialize (X _ G). cbn [snd] in X. rewrite I in X. discriminate X.
Qed.
(** stop() while a heal() is connecting, even with one heal() at a time: the connection is set up afterwards and stays open. *)
Theorem C71_stop_during_heal_refuted : exists k ls id, fresh k /\ one_at_a_time (ls ++ [Stop; Connected 1 (Ok tt)]) (hinit k) /\
  let s := hrun (ls ++ [Stop; Connected 1 (Ok tt)]) (hinit k) in h_calls s = [] /\ h_ended s = [(1, Ok tt)] /\
  still_open (ls ++ [Stop; Connected 1 (Ok tt)]) (hinit k) id.
Proof.
  exists booted, [Heal 1 (Some (MResp (firstn 1 brokers_123) []))], 1%nat. split; [exact (proj1 C71_example)|]. split; [vm_compute; tauto|].
  cbv zeta. split; [vm_compute; reflexivity|]. split; [vm_compute; reflexivity|]. split; [vm_compute; tauto|]. split.
  - intros X. vm_compute in X. intuition discriminate.
  - intros (pre & post & E & _). assert (X : In (Died 1) ([Heal 1 (Some (MResp (firstn 1 brokers_123) []))] ++ [Stop; Connected 1 (Ok tt)])) by (rewrite E; apply in_or_app; right; now left).
    vm_compute in X. intuition discriminate.
Qed.

(** * C72 heal() fails only when no broker answers *)
(** Without overlapping heal() calls, whatever dies or is stopped meanwhile: heal() raises NoBrokersError, or what a metadata
    request raised that was not the loss of the connection. *)
Theorem C72_failures_partial : forall k ls i e, fresh k -> one_at_a_time ls (hinit k) -> In (i, Err e) (h_ended (hrun ls (hinit k))) ->
  e = ENoBrokers \/ (~ connection_lost e /\ exists alt, In (Answered i (Err e) alt) ls).
Proof.
  intros k ls i e [FC FL] O H.
  assert (K : kept (fun _ => False) k).
  { split; rewrite ?FC; [constructor| |discriminate|discriminate]. intros j X. right. right; left. now apply FL. }
  destruct (hrun_inv ls k _ K (fun _ H => H) O) as [_ R]. destruct (R i e H) as [X|(alt & X & S)]; [now left|right].
  split; [|eauto]. intros [->| ->]; discriminate S.
Qed.
Example C72_example : let ls := ordinary ++ [Died 2; Heal 3 None; Answered 3 (Err EStreamClosed) []; Answered 3 (Err EStruct) []] in
  one_at_a_time ls (hinit booted) /\ In (3, Err EStruct) (h_ended (hrun ls (hinit booted))).
Proof. split; vm_compute; tauto. Qed.

(** With another heal() meanwhile: KeyError.  heal() 1 is to drop broker 2 and connects to broker 3; broker 2's connection dies and
    heal() 2 removes it. *)
Definition answer_13 : mresp := MResp [MBroker 1 (host 1) 9092; MBroker 3 (host 3) 9092] [].
Definition start_12 : list hlabel := [Heal 1 (Some (MResp (firstn 2 brokers_123) [])); Connected 1 (Ok tt); Connected 1 (Ok tt)].
Theorem C72_key_error_refuted : exists k ls i, fresh k /\ In (i, Err EKey) (h_ended (hrun ls (hinit k))) /\
  (forall j r alt, In (Answered j r alt) ls -> r = Ok answer_13) /\ (forall j r, In (Connected j r) ls -> r = Ok tt).
Proof.
  exists booted, (start_12 ++ [Heal 2 None; Heal 3 None; Answered 2 (Ok answer_13) []; Died 2; Answered 3 (Ok answer_13) []; Connected 2 (Ok tt)]), 2.
  split; [exact (proj1 C71_example)|]. split; [vm_compute; tauto|]. split.
  - intros j r alt H. cbn in H. repeat (destruct H as [H|H]; [first [discriminate H|injection H as <- <- <-; reflexivity]|]). destruct H.
  - intros j r H. cbn in H. repeat (destruct H as [H|H]; [first [discriminate H|injection H as <- <-; reflexivity]|]). destruct H.
Qed.
(** With another heal() meanwhile: RuntimeError.  heal() 2 asks broker 1; heal() 3 was answered and adds broker 3; then broker 1's
    connection is lost.  Brokers 2 and 3 are connected and are not asked. *)
Theorem C72_runtime_error_refuted : exists k ls i, fresh k /\ let s := hrun ls (hinit k) in
  In (i, Err ERuntime) (h_ended s) /\ (exists id id', id <> id' /\ at_hand s id /\ at_hand s id') /\
  (forall topics, ~ In (XAsk 2 topics) (k_log (h_k s))) /\ (forall id e, In (XAskFailed id e) (k_log (h_k s)) -> id = 1%nat).
Proof.
  exists booted, (start_12 ++ [Heal 2 None; Heal 3 None; Answered 3 (Ok answer_23) []; Connected 3 (Ok tt); Died 1; Answered 2 (Err EStreamClosed) []]), 2.
  split; [exact (proj1 C71_example)|]. cbv zeta. split; [vm_compute; tauto|]. split.
  - exists 2%nat, 3%nat. split; [lia|]. split; [exists 2, (CC (host 2) 9092 2 false)|exists 3, (CC (host 3) 9092 3 false)]; (split; [vm_compute; reflexivity|split; reflexivity]).
  - split.
    + intros topics H. set (s := hrun _ _) in *.
      assert (X : forallb (fun x => match x with XAsk 2 _ => false | _ => true end) (k_log (h_k s)) = true) by (vm_compute; reflexivity).
      rewrite forallb_forall in X. discriminate (X _ H).
    + intros id e H. set (s := hrun _ _) in *.
      assert (X : forallb (fun x => match x with XAskFailed i _ => Nat.eqb i 1 | _ => true end) (k_log (h_k s)) = true) by (vm_compute; reflexivity).
      rewrite forallb_forall in X. apply PeanoNat.Nat.eqb_eq. exact (X _ H).
Qed.

Print Assumptions C70_tables_follow_answers.
Print Assumptions C70_returns_partial.
Print Assumptions C70_newest_answer_refuted.
Print Assumptions C70_brokers_refuted.
Print Assumptions C71_none_lost_partial.
Print Assumptions C71_stop_closes_all_partial.
Print Assumptions C71_overlap_refuted.
Print Assumptions C71_stop_during_heal_refuted.
Print Assumptions C72_failures_partial.
Print Assumptions C72_key_error_refuted.
Print Assumptions C72_runtime_error_refuted.
