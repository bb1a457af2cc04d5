(** Property C109: from the maker to a group of workers. *)
From Coq Require Import ZArith Lia String List Bool Permutation Sorting.Sorted.
From Verif Require Import FollowRuns PropsProducer PropsConsumer PropsLog PropsGroupLog PropsTeam.
From Verif Require Import PyBase BaseLemmas Constants Cluster Zookeeper JsonValues SpecWire SpecJson SpecJsonValues PropsJson Producer SpecProducer SpecFlow ProducerRun SpecTurns PropsTurns Maker PropsMaker.
From Verif Require Import Consumer SpecConsumer ConsumerRuns SpecLog SpecGroupLog SpecTeam TeamProofs Counter SpecCounter PropsRound Worker SpecWorker WorkerProofs PropsWorker SoundProofs.
Import ListNotations.
Open Scope Z_scope.

(** the value of the maker's message number [n] *)
Definition made_value (color : Z -> text) (n : Z) : jv := JDict [(txt "counter", JInt n); (txt "color", JStr (color n))].

Section C109.
  Variable float_repr : text -> text.
  Variable batch_size : option Z.
  Variables acks timeout : Z.
  Variable compress_fails : list pmsg -> option exn.
  Variable serialize_fails : prequest -> option exn.
  Notation prun := (prun batch_size acks timeout compress_fails serialize_fails).
  Notation each_event := (each_event batch_size acks timeout compress_fails serialize_fails).
  Notation refused := (refused batch_size acks timeout compress_fails serialize_fails).
  Notation maker_runs := (maker_runs batch_size acks timeout compress_fails serialize_fails).
  Notation maker_ends := (maker_ends batch_size acks timeout compress_fails serialize_fails).

  Lemma made_reads (cfg : config jv) color n m : deser cfg = default_deser float_repr -> truthy cfg = truth -> In (color n) maker_colors -> msg_reads (message_no color n) m ->
    exists w, deser cfg (msg_value m) = Ok w /\ equal (made_value color n) w /\ truthy cfg w = true.
  Proof.
    intros DE TR IX (_ & _ & _ & R). destruct (C68_round_trip float_repr _ (m_value m) (maker_sayable float_repr n _ IX) R) as (w & D & E). exists w. split; [rewrite DE; destruct m; exact D|].
    split; [exact E|]. rewrite TR. now apply (maker_equal n (color n)).
  Qed.

  (** members whose brokers serve the logs return nothing else *)
  Lemma team_sound t log (cf : Z -> config jv) k0 start es x : plain_members cf -> workers t cf k0 es -> spared t log start cf k0 es ->
    sound (cf x) t (fun v => exists p o m, In (o, m) (log p) /\ deser (cf x) (msg_value m) = Ok v) (member cf k0 x es).
  Proof.
    intros PL. induction es as [|[y l] es IH] using rev_ind; intros W S; [apply sound_init|]. specialize (IH (work_prefix t cf k0 es _ W) (spared_prefix t log start cf k0 es _ S)).
    destruct (Z.eq_dec y x) as [->|NE]; [|now rewrite member_other]. rewrite member_same. apply sound_step; [apply reach_inv, member_reach| |exact IH].
    destruct (S es x l [] eq_refl) as [(SV & _) _]. rewrite work_member in SV. destruct l as [|i b [r|e]| | | |]; cbn [brings]; try exact Logic.I. intros rq WF (r0 & mw & mb & parts & ->) AN. specialize (SV _ WF AN). destruct SV as [SV _].
    destruct r as [ts| | | |]; try (constructor; fail). destruct ts as [|[t2 ps] ts]; [constructor|]. cbn [serves] in SV. destruct SV as (-> & SV). destruct (SV eq_refl) as (_ & SV'). cbn [response_values]. apply Forall_forall. intros v X.
    apply in_flat_map in X as ([p [code ms]] & X1 & X2). cbn [part_values] in X2. destruct (Z.eqb_spec code no_error) as [->|]; [|destruct X2]. destruct (SV' p no_error ms X1) as (_ & G). destruct (G eq_refl) as (o & lim & n & _ & ->).
    apply in_map_iff in X2 as ([o' v'] & <- & X2). unfold readable in X2. apply in_flat_map in X2 as ([o2 m] & X2 & X3). cbn [fst snd] in *. destruct (deser (cf x) (msg_value m)) as [v2|] eqn:DV; [|destruct X3]. destruct X3 as [X3|[]]. injection X3 as <- <-.
    exists p, o2, m. split; [|exact DV]. assert (Y : In (o2, m) (SpecLog.from o (log p))). { rewrite <- (firstn_skipn n). apply in_or_app. now left. } unfold SpecLog.from in Y. now apply filter_In in Y.
  Qed.

  (** The maker has run on a topic whose partitions stay [ps]; the log of each partition holds what some of the requests carried
      for it, in the order written, without those the broker refused.  Workers of a group read these logs, as in C100. *)
  Variables (topic : text) (color : Z -> text) (ps : list Z) (evs : list pevent) (k : cluster) (corr : Z) (stored : Z -> list prequest) (log : Z -> list (Z * pymsg)).
  Variables (cf : Z -> config jv) (k0 : Z -> cluster) (start : Z -> Z) (es : history).
  Definition written : Prop :=
    maker_runs topic color (0, Making) evs (producer_init k corr) /\ each_event (partitions_stay topic ps) evs (producer_init k corr) /\ (forall n, In (color n) maker_colors) /\
    (forall p, in_order (stored p) (p_wire (prun evs (producer_init k corr))) /\ forall rq, In rq (stored p) -> ~ refused evs (producer_init k corr) (pq_corr rq) topic p) /\
    (forall p, Forall2 (fun m om => msg_reads (pm_msg m) (snd om)) (carried (stored p) topic p) (log p)) /\ (forall p, is_log (log p)).
  Definition hired : Prop :=
    plain_members cf /\ (forall x, deser (cf x) = default_deser float_repr /\ truthy (cf x) = truth) /\ workers topic cf k0 es /\ spared topic log start cf k0 es.
  Notation last := (fst (maker_ends (0, Making) evs (producer_init k corr))).

  Lemma log_numbers : written -> forall p o m, In (o, m) (log p) -> exists n, 1 <= n <= last /\ PropsMaker.place ps n = p /\ msg_reads (message_no color n) m.
  Proof.
    intros (MR & PS & IC & ST & KE & _) p o m X. destruct (C104_numbers_increase batch_size acks timeout compress_fails serialize_fails topic color ps evs k corr p (stored p) MR PS (proj1 (ST p)) (proj2 (ST p))) as (ns & E & _ & F).
    specialize (KE p). assert (KE' : Forall2 (fun m om => msg_reads m (snd om)) (map (message_no color) ns) (log p)) by (rewrite <- E; clear -KE; induction KE; constructor; assumption).
    clear - KE' F X. revert ns F KE'. induction (log p) as [|om l IH]; intros ns F KE'; [destruct X|]. inversion KE' as [|m0 ? ms ? R R' EQ]; subst. destruct ns as [|n ns]; [discriminate EQ|]. cbn [map] in EQ. inversion EQ; subst. inversion F as [|? ? F1 F2]; subst.
    destruct X as [->|X]; [exists n; split; [apply F1|split; [apply F1|exact R]]|]. eapply IH; eassumption.
  Qed.
  (** What a worker processes are messages the maker has made. *)
  Theorem C109_only_made : written -> hired -> forall x v, In v (w_done (at_work cf k0 x es)) ->
    exists n, 1 <= n <= last /\ equal (made_value color n) v.
  Proof.
    intros WR (PL & DT & W & S) x v X. pose proof (team_sound topic log cf k0 start es x PL W S) as [_ SD].
    assert (G : In v (flat_map (gave topic) (c_ended (member cf k0 x es)))) by (rewrite (C100_processed_once _ topic cf k0 es x W); apply in_or_app; now left).
    apply in_flat_map in G as ([[i o] r] & G1 & G2). destruct o as [t' st|m|]; cbn [gave] in G2; [|destruct G2..]. destruct r as [[|l]|e]; [destruct G2| |destruct G2]. destruct (eqb t' topic) eqn:TT; [|destruct G2].
    apply list_eqb_spec in TT. specialize (SD i _ l G1 TT). rewrite Forall_forall in SD. destruct (SD v G2) as (p & o & m & IL & DV). destruct (log_numbers WR p o m IL) as (n & N1 & _ & RD). exists n. split; [exact N1|].
    destruct (made_reads (cf x) color n m (proj1 (DT x)) (proj2 (DT x)) (proj1 (proj2 (proj2 WR)) n) RD) as (w & D & E & _). rewrite DV in D. injection D as ->. exact E.
  Qed.
  (** When an offset of a partition is committed, each message in the log before it, from the group's start, is one the maker
      made for this partition, and some worker has processed it. *)
  Theorem C109_committed_processed : written -> hired -> forall p c, committed topic cf k0 es p c -> forall o m, In (o, m) (log p) -> start p <= o < c ->
    exists n, 1 <= n <= last /\ PropsMaker.place ps n = p /\ msg_reads (message_no color n) m /\ exists x v, In v (w_done (at_work cf k0 x es)) /\ equal (made_value color n) v.
  Proof.
    intros WR (PL & DT & W & S) p c CM o m IL O. destruct (log_numbers WR p o m IL) as (n & N1 & N2 & RD). exists n. split; [exact N1|]. split; [exact N2|]. split; [exact RD|].
    destruct (C100_committed_processed_partial _ topic log start cf k0 es p c (proj2 (proj2 (proj2 (proj2 (proj2 WR))))) PL W S CM o m IL O) as (x & PR). exists x.
    destruct (made_reads (cf x) color n m (proj1 (DT x)) (proj2 (DT x)) (proj1 (proj2 (proj2 WR)) n) RD) as (w & D & E & T). exists w. split; [exact (PR w D T)|exact E].
  Qed.
End C109.

(** The maker of [C104_example], whose message 1 is sent twice.  One worker reads both partitions and commits. *)
Definition mw_team (x : Z) : config jv := Cfg jv (default_deser (fun t => t)) truth (fun _ => txt "1.5") 1000 1 1000 (fun _ => None) (Grouped (txt "g") naive_allocator false (txt "me")).
Definition mw_day : history :=
  [(0, Alloc (EvMembers [txt "me"])); (0, Alloc (EvPartitions (Some [part_name tp_a 0; part_name tp_a 1]))); (0, Call 1 OpCoordinator); (0, Arrive 1 1 (Ok (PCoordinator 0 1)));
   (0, Call 2 (OpConsume tp_a None)); (0, Arrive 2 1 (Ok (POffsetFetch [(tp_a, [(0, (0, 0)); (1, (0, 0))])])));
   (0, Arrive 2 1 (Ok (PFetch [(tp_a, [(0, (0, round_log 0)); (1, (0, round_log 1))])]))); (0, Call 3 (OpCommit None))].
Ltac mw_cut E := repeat match type of E with
  | _ :: _ = ?es1 ++ _ => destruct es1 as [|? es1]; cbn [app] in E; inversion E; subst; clear E; [|match goal with H : _ = es1 ++ _ |- _ => rename H into E end]
  | [] = ?es1 ++ _ => destruct es1; discriminate E
  end.
Lemma mw_workers : workers tp_a mw_team (fun _ => demo_cluster) mw_day.
Proof.
  intros es1 x l es2 E. unfold mw_day in E. mw_cut E; cbn [may]; try exact Logic.I; (split; [vm_compute; reflexivity|split; vm_compute; reflexivity]).
Qed.
Ltac mw_nocommit := let H := fresh in intros _ ? ? (? & ? & ? & ? & ? & H & _); vm_compute in H; repeat (destruct H as [H|H]; [discriminate H|]); destruct H.
Ltac mw_calls := split; [ex_norebalance|let N := fresh in intros N; exfalso; exact (N _ _ eq_refl)].
Ltac mw_alloc := split; [intros _; split; [intros i (st & rq & [(w & rs & D)|(rs & D)]); vm_compute in D; discriminate D|vm_compute; discriminate]|mw_nocommit].
Ltac mw_reply := let H := fresh in let W := fresh in intros ? (? & ? & ? & ? & H & W) _; vm_compute in H; injection H as <- <- <- <-; vm_compute in W; injection W as <-.
Lemma mw_spared : spared tp_a round_log (fun _ => 0) mw_team (fun _ => demo_cluster) mw_day.
Proof.
  intros es1 x l es2 E. unfold mw_day in E. mw_cut E; unfold spares; cbv zeta.
  - split; [split; [exact Logic.I|mw_alloc]|ex_notold].
  - split; [split; [exact Logic.I|mw_alloc]|ex_notold].
  - split; [split; [exact Logic.I|mw_calls]|ex_notold].
  - split; [split; [mw_reply; split; exact Logic.I|split; [ex_norebalance|mw_nocommit]]|ex_notold].
  - split; [split; [exact Logic.I|mw_calls]|ex_notold].
  - split; [split; [mw_reply; split; [exact Logic.I|reflexivity]|split; [ex_norebalance|mw_nocommit]]|].
    intros i b g asked parts rest E' (o & k & w & rs & H & W). injection E' as <- <- <- <-. vm_compute in H. injection H as <- <- <- <-. vm_compute in W. injection W as <- <-.
    split; [repeat constructor; cbn; intuition discriminate|]. split; [cbn; tauto|]. intros p o [X|[X|[]]]; injection X as <- <-; now left.
  - split; [split; [|split; [ex_norebalance|mw_nocommit]]|ex_notold]. mw_reply. split; [|exact Logic.I]. cbn [serves]. split; [reflexivity|]. intros _. split; [repeat constructor; cbn; intuition discriminate|].
    intros p code ms [X|[X|[]]]; injection X as <- <- <-; (split; [discriminate|]); intros _; [exists 0, 500, 1%nat|exists 0, 500, 2%nat]; (split; [cbn; auto|reflexivity]).
  - split; [split; [exact Logic.I|mw_calls]|ex_notold].
Qed.
Example C109_example : written (Some 1) 1 500 never never tp_a maker_color [0; 1] maker_evs (Cl [(1, CC (txt "h") 9092 0 false)] [] [] 1 0 []) 41 round_stored round_log /\
  hired (fun t => t) tp_a round_log mw_team (fun _ => demo_cluster) (fun _ => 0) mw_day /\
  committed tp_a mw_team (fun _ => demo_cluster) mw_day 1 2 /\ map (fun v => match v with JDict d => dget d (txt "counter") | _ => None end) (w_done (at_work mw_team (fun _ => demo_cluster) 0 mw_day)) = map (fun n => Some (JInt n)) [2; 1; 3].
Proof.
  split; [|split; [|split; [|vm_compute; reflexivity]]].
  - destruct C105_example as (A1 & A2 & A3 & A4 & A5 & A6 & _). split; [exact A1|]. split; [exact A2|]. split; [exact A3|]. split; [exact A4|]. split; [exact A5|exact A6].
  - split; [intros x; eexists _, _, _; (split; [exact naive_answers|reflexivity])|]. split; [intros x; split; reflexivity|]. split; [exact mw_workers|exact mw_spared].
  - exists (firstn 7 mw_day), 0, (Call 3 (OpCommit None)), []. split; [reflexivity|]. do 5 eexists. split; [vm_compute; left; reflexivity|]. split; [left; reflexivity|]. right. left. reflexivity.
Qed.

Print Assumptions C109_only_made.
Print Assumptions C109_committed_processed.
