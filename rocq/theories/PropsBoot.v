(** Property C98: start() of a whole client goes through the bootstrap hosts in order, and what it connects to is read.
    Specification: SpecStart.v. *)
From Coq Require Import ZArith String List Bool Lia Sorted.
From Verif Require Import PyBase BaseLemmas Messages Protocol Request SpecWire SpecRequest SpecCodec SpecConn ConnStream Cluster SpecCluster Heals Consumer Producer Stack StackProofs ProducerStack ProducerStackProofs Full FullProofs FullProducer FullConsumer RouteProducer RouteConsumer SpecStart StartProofs PropsWire PropsStack PropsRoute.
From Verif Require Connection.
Import ListNotations.
Open Scope Z_scope.

Definition no_frames : nat -> list (Z * bytes) := fun _ => [].
Lemma no_frames_ok n : Forall frame_ok (no_frames n).
Proof. constructor. Qed.

Section Producer.
  Variable C : codec.
  Variable compression : Z.
  Variable batch_size : option Z.
  Variables acks timeout : Z.
  Variable depth : nat.
  Variable neg_read : Z -> bytes -> bytes * bytes.
  Notation pfstep := (pfstep C compression batch_size acks timeout depth neg_read).
  Notation pfrun := (pfrun C compression batch_size acks timeout depth neg_read).
  Notation ystep := (ystep C compression batch_size acks timeout depth neg_read).
  Notation whole := (whole C compression depth no_frames).

  Lemma sends_wake wr rqs : forall Y, wakes (y_link Y) (y_link (fold_left (send_produce C compression depth neg_read wr) rqs Y)).
  Proof.
    induction rqs as [|rq rqs IH]; intros Y; cbn [fold_left]; [apply wakes_refl|]. eapply wakes_trans; [|apply IH]. unfold send_produce. destruct (dget _ _) as [cn|]; [|apply wakes_refl]. destruct (produce_object _ _ _) as [obj|e]; [|apply wakes_refl].
    destruct (fst _); [|apply wakes_refl]. cbn [y_link]. apply wakes_put.
  Qed.
  Lemma pown_wakes Y e : pown e = true -> wakes (y_link Y) (y_link (ystep Y e)).
  Proof.
    destruct e as [ev wr|n ev|n topics wr|corr]; intros O; try discriminate O; cbn [ProducerStack.ystep].
    - destruct ev; try discriminate O; cbv zeta; destruct (awaited _ _ _) eqn:A; try apply wakes_refl; first [apply (sends_wake wr _ (PStack _ (y_link Y) (y_wait Y)))|cbn [y_link]; apply (sends_wake wr _ (PStack _ (y_link Y) (y_wait Y)))].
    - destruct (answer_to Y corr) as [[r|e]|]; apply wakes_refl.
  Qed.
  Lemma p_cluster_ok Y k : whole Y -> whole (ystep Y (ptables k)) /\ pcl (ystep Y (ptables k)) = k /\ y_link (ystep Y (ptables k)) = y_link Y.
  Proof. intros WH. destruct (ystep_ok C compression batch_size acks timeout depth neg_read no_frames no_frames_ok (ptables k) Y WH) as (_ & W & _). split; [exact W|]. cbn [ptables ProducerStack.ystep awaited Producer.pstep prod_flags with_cluster p_wire]. rewrite skipn_all. cbn [fold_left]. auto. Qed.
  Lemma p_conn_ok Y n ev : whole Y -> (forall rq wr, ev <> Connection.EvSend rq wr) -> whole (ystep Y (YConn n ev)) /\ pcl (ystep Y (YConn n ev)) = pcl Y /\ wakes (y_link Y) (y_link (ystep Y (YConn n ev))) /\ (ev = Connection.EvConnected -> awake (y_link (ystep Y (YConn n ev)) n)).
  Proof.
    intros WH N. destruct (ystep_ok C compression batch_size acks timeout depth neg_read no_frames no_frames_ok (YConn n ev) Y WH) as (_ & W & _). split; [exact W|].
    assert (L : ystep Y (YConn n ev) = PStack (y_prod Y) (put n (happens C depth neg_read ev (y_link Y n)) (y_link Y)) (y_wait Y)) by (destruct ev; try reflexivity; now destruct (N rq wr)).
    rewrite L. cbn [y_link]. split; [reflexivity|]. split; [apply wakes_put|]. intros ->. apply awake_connected.
  Qed.
  Lemma p_meta_ok Y n topics wr : whole Y -> whole (ystep Y (YMeta n topics wr)) /\ pcl (ystep Y (YMeta n topics wr)) = pcl Y /\ wakes (y_link Y) (y_link (ystep Y (YMeta n topics wr))).
  Proof. intros WH. destruct (ystep_ok C compression batch_size acks timeout depth neg_read no_frames no_frames_ok (YMeta n topics wr) Y WH) as (_ & W & _). split; [exact W|]. cbn [ProducerStack.ystep]. destruct (Connection.request_of _ _ _ _) as [[obj l']|e]; (split; [reflexivity|]); [apply wakes_put|apply wakes_refl]. Qed.
  Lemma p_own_ok Y e : whole Y -> pown e = true -> whole (ystep Y e) /\ k_log (pcl (ystep Y e)) = k_log (pcl Y) /\ k_opened (pcl (ystep Y e)) = k_opened (pcl Y) /\ wakes (y_link Y) (y_link (ystep Y e)).
  Proof.
    intros WH O. destruct (ystep_ok C compression batch_size acks timeout depth neg_read no_frames no_frames_ok e Y WH) as (_ & W & _). destruct (RouteProducer.own_ok C compression batch_size acks timeout depth neg_read no_frames no_frames_ok Y e WH O) as [(S1 & S2 & _) _].
    split; [exact W|]. split; [exact S1|]. split; [exact S2|]. now apply pown_wakes.
  Qed.
  Lemma p_reach evs corr : let F := pfrun evs (pfinit corr) in ok whole F /\ listening pcl y_link F.
  Proof.
    refine (frun_listens ystep pcl y_link plast ptables YConn YMeta pown whole p_cluster_ok p_conn_ok p_meta_ok p_own_ok 0 0 [] evs (pfinit corr) _ _); [split; [apply whole_init|constructor]|intros n []].
  Qed.
  (** A producer's start(), in any history and whatever else happens: it goes through its hosts in order. *)
  Theorem C98_start_producer : forall corr before i hosts evs, let F0 := pfrun before (pfinit corr) in
    dmem (f_boots F0) i = false -> dmem (f_calls F0) i = false -> Forall (not_again i) evs ->
    start_stage pcl (k_opened (pcl (f_base F0))) hosts i (pfrun evs (pfstep F0 (FStart i hosts))).
  Proof.
    intros corr before i hosts evs F0 D1 D2 NA. destruct (p_reach before corr) as [OKF _]. fold F0 in OKF.
    pose proof (start_sinv ystep pcl y_link plast ptables YConn YMeta pown whole p_cluster_ok p_conn_ok p_meta_ok i (k_opened (pcl (f_base F0))) hosts F0 OKF D1 D2 eq_refl) as S1.
    apply (frun_sinv ystep pcl y_link plast ptables YConn YMeta pown whole p_cluster_ok p_conn_ok p_meta_ok p_own_ok i (k_opened (pcl (f_base F0))) hosts evs _ S1 NA).
  Qed.
  (** Every connection a producer has made is read. *)
  Theorem C98_read_producer : forall corr evs n, let F := pfrun evs (pfinit corr) in In (XConnected n) (k_log (pcl (f_base F))) -> awake (y_link (f_base F) n).
  Proof. intros corr evs n F H. destruct (p_reach evs corr) as [_ L]. exact (L n H). Qed.
End Producer.

Section Consumer.
  Context {V : Type}.
  Variable cfg : config V.
  Variable C : codec.
  Variable depth : nat.
  Variable neg_read : Z -> bytes -> bytes * bytes.
  Notation cfstep := (cfstep cfg C depth neg_read).
  Notation cfrun := (cfrun cfg C depth neg_read).
  Notation sstep := (sstep cfg C depth neg_read).
  Notation good := (good cfg C depth no_frames).

  Lemma send_wakes again wr i brq S : wakes (k_link S) (k_link (@send_to V C depth neg_read again wr i brq S)).
  Proof.
    unfold send_to. destruct brq as [b rq]. destruct (match (if again then _ else None) with Some _ => _ | None => _ end) as [before last']. destruct (dget _ b) as [cn|]; [|apply wakes_refl]. destruct (request_object before rq) as [[obj id]|e]; [|apply wakes_refl].
    cbv zeta. destruct (Connection.conn_send obj (wr b) (l_conn (k_link S (cc_id cn)))) as [[f|e] st'] eqn:E; [|apply wakes_refl]. cbn [k_link]. intros m H. unfold put. destruct (Nat.eqb m (cc_id cn)) eqn:N; [|exact H]. apply Nat.eqb_eq in N. subst m. unfold awake. cbn [l_conn]. now apply awake_happens.
  Qed.
  Lemma sends_wakes again wr i l : forall S, wakes (k_link S) (k_link (fold_left (fun S brq => @send_to V C depth neg_read again wr i brq S) l S)).
  Proof. induction l as [|x l IH]; intros S; cbn [fold_left]; [apply wakes_refl|]. eapply wakes_trans; [apply send_wakes|apply IH]. Qed.
  Lemma piece_wakes wr i s1 s2 S : wakes (k_link S) (k_link (@Stack.piece V C depth neg_read wr i s1 s2 S)).
  Proof.
    unfold Stack.piece. cbv zeta. set (S1 := Stack _ _ _ _ _). change (k_link S) with (k_link S1). destruct (dget (c_calls s2) i) as [[o p]|]; [destruct p|]; first [apply sends_wakes|cbn [k_link]; apply sends_wakes].
  Qed.
  Lemma sown_wakes S e : sown e = true -> wakes (k_link S) (k_link (sstep S e)).
  Proof.
    destruct e as [l wr|n ev|n topics wr|i b wr]; intros O; try discriminate O; cbn [Stack.sstep].
    - destruct l; try discriminate O; try apply wakes_refl.
      + destruct (dmem _ _); [apply wakes_refl|apply piece_wakes].
      + destruct (dget _ _) as [[o p]|]; [destruct p|]; first [apply wakes_refl|apply piece_wakes].
    - destruct (outcome_of S i b) as [r|]; [|apply wakes_refl]. destruct (goes_on _ _ _ _ _); [apply wakes_refl|apply piece_wakes].
  Qed.
  Lemma c_cluster_ok S k : good S -> good (sstep S (stables k)) /\ scl (sstep S (stables k)) = k /\ k_link (sstep S (stables k)) = k_link S.
  Proof. intros [SI O]. destruct (sstep_ok cfg C depth neg_read no_frames no_frames_ok (stables k) S SI) as (_ & A & _). split; [split; [exact A|]|cbn; auto]. cbn [stables Stack.sstep]. now apply only_same. Qed.
  Lemma c_conn_ok S n ev : good S -> (forall rq wr, ev <> Connection.EvSend rq wr) -> good (sstep S (SConn n ev)) /\ scl (sstep S (SConn n ev)) = scl S /\ wakes (k_link S) (k_link (sstep S (SConn n ev))) /\ (ev = Connection.EvConnected -> awake (k_link (sstep S (SConn n ev)) n)).
  Proof.
    intros [SI O] N. destruct (sstep_ok cfg C depth neg_read no_frames no_frames_ok (SConn n ev) S SI) as (_ & A & _).
    assert (L : sstep S (SConn n ev) = Stack (k_cons S) (k_last S) (put n (happens C depth neg_read ev (k_link S n)) (k_link S)) (k_wait S) (k_held S)) by (destruct ev; try reflexivity; now destruct (N rq wr)).
    rewrite L in *. cbn [k_link]. split; [split; [exact A|exact O]|]. split; [reflexivity|]. split; [apply wakes_put|]. intros ->. apply awake_connected.
  Qed.
  Lemma c_meta_ok S n topics wr : good S -> good (sstep S (SMeta n topics wr)) /\ scl (sstep S (SMeta n topics wr)) = scl S /\ wakes (k_link S) (k_link (sstep S (SMeta n topics wr))).
  Proof. intros [SI O]. destruct (sstep_ok cfg C depth neg_read no_frames no_frames_ok (SMeta n topics wr) S SI) as (_ & A & _). cbn [Stack.sstep] in *. destruct (Connection.request_of _ _ _ _) as [[obj l']|e]; (split; [split; [exact A|exact O]|]); (split; [reflexivity|]); [apply wakes_put|apply wakes_refl]. Qed.
  Lemma c_own_ok S e : good S -> sown e = true -> good (sstep S e) /\ k_log (scl (sstep S e)) = k_log (scl S) /\ k_opened (scl (sstep S e)) = k_opened (scl S) /\ wakes (k_link S) (k_link (sstep S e)).
  Proof.
    intros G O. pose proof G as [SI ON]. destruct (sstep_ok cfg C depth neg_read no_frames no_frames_ok e S SI) as (_ & A & _). destruct (RouteConsumer.own_ok cfg C depth neg_read no_frames no_frames_ok S e G O) as (B1 & (S1 & S2 & _) & _).
    split; [split; assumption|]. split; [exact S1|]. split; [exact S2|]. now apply sown_wakes.
  Qed.
  Lemma c_reach evs name last : let F := cfrun evs (cfinit name last) in ok good F /\ listening scl (@k_link V) F.
  Proof.
    refine (frun_listens sstep scl (@k_link V) (@k_last V) stables SConn SMeta sown good c_cluster_ok c_conn_ok c_meta_ok c_own_ok 0 0 [] evs (cfinit name last) _ _); [split; [split; [apply stack_inv_init|intros i b nf []]|constructor]|intros n []].
  Qed.
  (** A consumer's start(), in any history and whatever else happens: it goes through its hosts in order. *)
  Theorem C98_start_consumer : forall name last before i hosts evs, let F0 := cfrun before (cfinit name last) in
    dmem (f_boots F0) i = false -> dmem (f_calls F0) i = false -> Forall (not_again i) evs ->
    start_stage scl (k_opened (scl (f_base F0))) hosts i (cfrun evs (cfstep F0 (FStart i hosts))).
  Proof.
    intros name last before i hosts evs F0 D1 D2 NA. destruct (c_reach before name last) as [OKF _]. fold F0 in OKF.
    pose proof (start_sinv sstep scl (@k_link V) (@k_last V) stables SConn SMeta sown good c_cluster_ok c_conn_ok c_meta_ok i (k_opened (scl (f_base F0))) hosts F0 OKF D1 D2 eq_refl) as S1.
    apply (frun_sinv sstep scl (@k_link V) (@k_last V) stables SConn SMeta sown good c_cluster_ok c_conn_ok c_meta_ok c_own_ok i (k_opened (scl (f_base F0))) hosts evs _ S1 NA).
  Qed.
  (** Every connection a consumer has made is read. *)
  Theorem C98_read_consumer : forall name last evs n, let F := cfrun evs (cfinit name last) in In (XConnected n) (k_log (scl (f_base F))) -> awake (k_link (f_base F) n).
  Proof. intros name last evs n F H. destruct (c_reach evs name last) as [_ L]. exact (L n H). Qed.
End Consumer.

(** ** examples *)
(** another start() and a heal() run meanwhile; the first host refuses, the second is connected to *)
Definition st_hosts : list text := [txt "b"; txt "c:1234"; txt "d"].
Definition st_evs : list (fevent yevent) := [FStart 2 [txt "x"]; FConnected 1 (Err EStreamClosed) None; FConnected 2 (Err EStreamClosed) None; FHeal 3 None].
Notation st_from evs := (pfrun demo_codec 1 (Some 10) 1 500 1 st_neg evs (pfstep demo_codec 1 (Some 10) 1 500 1 st_neg (pfinit 41) (FStart 1 st_hosts))).
Example C98_example : Forall (not_again 1) (st_evs ++ [FConnected 1 (Ok tt) None]) /\
  dget (f_boots (st_from st_evs)) 1 = Some (BConn [txt "d"] 2) /\ dget (f_boots (st_from (st_evs ++ [FConnected 1 (Ok tt) None]))) 1 = Some (BAsk 2) /\
  k_log (pcl (f_base (st_from (st_evs ++ [FConnected 1 (Ok tt) None])))) =
    [XConnect 0 (txt "b") 9092; XConnect 1 (txt "x") 9092; XConnectFailed 0 EStreamClosed; XConnect 2 (txt "c") 1234; XConnectFailed 1 EStreamClosed; XConnected 2; XAsk 2 []] /\
  f_ended (st_from st_evs) = [(2, Err ENoBrokers); (3, Err ENoBrokers)] /\
  f_ended (st_from (st_evs ++ [FConnected 1 (Err EStreamClosed) None; FConnected 1 (Err EStreamClosed) None])) = [(2, Err ENoBrokers); (3, Err ENoBrokers); (1, Err ENoBrokers)].
Proof. split; [repeat constructor; discriminate|]. vm_compute. repeat split. Qed.

Print Assumptions C98_start_producer.
Print Assumptions C98_read_producer.
Print Assumptions C98_start_consumer.
Print Assumptions C98_read_consumer.
