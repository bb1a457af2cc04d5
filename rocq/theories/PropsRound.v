(** Property C105: from the maker to the counter. *)
From Coq Require Import ZArith Lia String List Bool Permutation Sorting.Sorted.
From Verif Require Import FollowRuns PropsProducer PropsConsumer PropsLog.
From Verif Require Import PyBase BaseLemmas Constants Cluster Zookeeper JsonValues SpecWire SpecJson SpecJsonValues PropsJson Producer SpecProducer SpecFlow ProducerRun SpecTurns PropsTurns Maker PropsMaker Consumer SpecConsumer SpecLog Counter SpecCounter CounterProofs PropsCounter.
Import ListNotations.
Open Scope Z_scope.

(** msg["color"] *)
Definition color_of (v : jv) : option text := match v with JDict d => match dget d (txt "color") with Some (JStr x) => Some x | _ => None end | _ => None end.

Lemma maker_clean x : In x maker_colors -> clean x.
Proof. intros H c C. unfold maker_colors in H. repeat (destruct H as [<-|H]; [repeat (destruct C as [<-|C]; [unfold scalar; cbn; lia|]); destruct C|]). destruct H. Qed.
Lemma maker_sayable fr n x : In x maker_colors -> sayable fr (JDict [(txt "counter", JInt n); (txt "color", JStr x)]).
Proof.
  intros H. assert (C : forall y, (y = txt "counter" \/ y = txt "color") -> clean y) by (intros y [-> | ->] c C; repeat (destruct C as [<-|C]; [unfold scalar; cbn; lia|]); destruct C).
  apply Y_dict.
  - cbn. constructor; [intros [E|[]]; discriminate E|]. constructor; [intros []|constructor].
  - constructor; [split; [apply C; now left|constructor]|]. constructor; [split; [apply C; now right|constructor; now apply maker_clean]|constructor].
Qed.
Lemma maker_equal n x w : equal (JDict [(txt "counter", JInt n); (txt "color", JStr x)]) w -> color_of w = Some x /\ truth w = true.
Proof.
  intros H. inversion H as [| | | | | |d1 d2 d P F]; subst. inversion F as [|a1 b1 l1 l2 [A1 A2] F1]; subst. inversion F1 as [|a3 b3 l3 l4 [A3 A4] F2]; subst. inversion F2; subst. destruct b1 as [k1 v1], b3 as [k3 v3]. cbn [fst snd] in *. subst k1 k3. inversion A2; subst. inversion A4; subst.
  apply Permutation_length_2_inv in P as [-> | ->]; split; reflexivity.
Qed.
(** what the counter makes of a message of the maker *)
Lemma maker_read fr cfg n x m : deser cfg = default_deser fr -> In x maker_colors -> msg_reads (maker_message n x) m -> exists w, deser cfg (msg_value m) = Ok w /\ color_of w = Some x /\ truth w = true.
Proof.
  intros DE IX (_ & _ & _ & R). destruct (C68_round_trip fr _ (m_value m) (maker_sayable fr n x IX) R) as (w & D & E). exists w. split; [rewrite DE; destruct m; exact D|now apply (maker_equal n)].
Qed.
Lemma maker_having fr (cfg : config jv) color x ns l : deser cfg = default_deser fr -> truthy cfg = truth -> (forall n, In (color n) maker_colors) -> Forall2 (fun m om => msg_reads m (snd om)) (map (message_no color) ns) l ->
  having color_of x (filter (truthy cfg) (map snd (readable cfg l))) = zlen (filter (fun n => eqb (color n) x) ns).
Proof.
  intros DE TR IC F. remember (map (message_no color) ns) as ms eqn:E. revert ns E. induction F as [|m om ms l R F IH]; intros ns E; destruct ns as [|n ns]; try discriminate E; [reflexivity|]. injection E as -> E.
  destruct (maker_read fr cfg n (color n) (snd om) DE (IC n) R) as (w & D & C & T). specialize (IH ns E). change (om :: l) with ([om] ++ l). unfold readable in *. rewrite flat_map_app, map_app, filter_app, having_app, IH. cbn [flat_map]. rewrite D. cbn [app map snd filter]. rewrite TR, T. unfold having at 1. cbn [filter]. rewrite C.
  destruct (eqb (color n) x); unfold zlen; cbn [List.length]; lia.
Qed.

Section C105.
  Variable float_repr : text -> text.
  Variable cfg : config jv.
  Variable batch_size : option Z.
  Variables acks timeout : Z.
  Variable compress_fails : list pmsg -> option exn.
  Variable serialize_fails : prequest -> option exn.
  Notation prun := (prun batch_size acks timeout compress_fails serialize_fails).
  Notation each_event := (each_event batch_size acks timeout compress_fails serialize_fails).
  Notation refused := (refused batch_size acks timeout compress_fails serialize_fails).
  Notation maker_runs := (maker_runs batch_size acks timeout compress_fails serialize_fails).
  Notation maker_ends := (maker_ends batch_size acks timeout compress_fails serialize_fails).

  (** The maker has run on a topic whose partitions stay [ps].  The log of each partition holds what some of the requests carried
      for it, in the order written, without those the broker refused.  The counter has read these logs from start to end and
      waits for nothing.  Then there are numbers, each once, all given out by the maker, which are those of the messages in the
      logs, and the count of each color is the number of messages the maker gave this color among them. *)
  Theorem C105_round_trip : forall topic color ps evs k corr (stored : Z -> list prequest) log k' name ls c, let start := producer_init k corr in
    maker_runs topic color (0, Making) evs start -> each_event (partitions_stay topic ps) evs start -> (forall n, In (color n) maker_colors) -> ps <> [] ->
    (forall p, in_order (stored p) (p_wire (prun evs start)) /\ forall rq, In rq (stored p) -> ~ refused evs start (pq_corr rq) topic p) ->
    (forall p, Forall2 (fun m om => msg_reads (pm_msg m) (snd om)) (carried (stored p) topic p) (log p)) -> (forall p, is_log (log p)) ->
    md cfg = Single -> deser cfg = default_deser float_repr -> truthy cfg = truth -> counting topic color_of log cfg k' name ls ->
    let s := crun cfg ls (consumer_init k' name) in color_counter color_of s = Some c -> ~ busy s topic -> In topic (c_synced s) ->
    (forall s0, learns topic cfg k' name ls s0 -> forall p o m, In (o, m) (log p) -> position s0 topic p <= o < position s topic p) ->
    exists numbers, NoDup numbers /\ (forall n, In n numbers -> 1 <= n <= fst (maker_ends (0, Making) evs start)) /\
      (forall n, In n numbers <-> exists p ns, map pm_msg (carried (stored p) topic p) = map (message_no color) ns /\ In n ns) /\
      forall x, count c x = zlen (filter (fun n => eqb (color n) x) numbers).
  Proof.
    intros topic color ps evs k corr stored log k' name ls c start MR PS IC NP ST KE LOG MD DE TR CT s CC NB SY RD.
    pose proof (fun p => C104_numbers_increase batch_size acks timeout compress_fails serialize_fails topic color ps evs k corr p (stored p) MR PS (proj1 (ST p)) (proj2 (ST p))) as NS. fold start in NS.
    assert (INJ : forall a b, map (message_no color) a = map (message_no color) b -> a = b). { induction a as [|x a IH]; intros [|y b] E; try discriminate E; [reflexivity|]. cbn [map] in E. injection E as E1 _ E2. f_equal; [exact E1|now apply IH]. }
    assert (OUT : forall p, ~ In p ps -> carried (stored p) topic p = []).
    { intros p N. destruct (NS p) as (ns & E & _ & F). destruct ns as [|n ns]; [destruct (carried (stored p) topic p); [reflexivity|discriminate E]|]. exfalso. inversion F as [|? ? [_ F1] _]; subst. apply N. unfold place. apply nth_In.
      assert (0 < zlen ps) by (destruct ps; [now destruct NP|unfold zlen; cbn; lia]). pose proof (Z.mod_pos_bound n (zlen ps)). unfold zlen in *. lia. }
    (* the numbers, partition by partition *)
    assert (ALL : forall l, NoDup l -> exists numbers, NoDup numbers /\ (forall n, In n numbers -> 1 <= n <= fst (maker_ends (0, Making) evs start) /\ In (place ps n) l) /\
      (forall n, In n numbers <-> exists p ns, In p l /\ map pm_msg (carried (stored p) topic p) = map (message_no color) ns /\ In n ns) /\
      forall x, zlen (filter (fun n => eqb (color n) x) numbers) = fold_right Z.add 0 (map (fun p => having color_of x (filter (truthy cfg) (map snd (readable cfg (log p))))) l)).
    { induction l as [|p l IH]; intros ND.
      - exists []. split; [constructor|]. split; [intros ? []|]. split; [|reflexivity]. intros n. split; [intros []|intros (p & ns & [] & _)].
      - inversion ND as [|? ? N1 N2]; subst. destruct (IH N2) as (nums & A1 & A2 & A3 & A4). destruct (NS p) as (ns & E & S & F). rewrite Forall_forall in F. exists (ns ++ nums). split; [|split; [|split]].
        + apply ProducerProofs.NoDup_app_intro; [|exact A1|].
          * clear -S. induction S as [|x l S IH F]; [constructor|]. constructor; [|exact IH]. intros X. rewrite Forall_forall in F. apply F in X. lia.
          * intros n X Y. apply F in X as [_ X]. apply A2 in Y as [_ Y]. rewrite X in Y. contradiction.
        + intros n X. apply in_app_iff in X as [X|X]; [apply F in X as [X1 X2]; split; [exact X1|left; now rewrite X2]|]. apply A2 in X as [X1 X2]. split; [exact X1|now right].
        + intros n. rewrite in_app_iff, A3. split.
          * intros [X|(q & ns' & X)]; [exists p, ns; split; [now left|auto]|]. exists q, ns'. split; [now right|apply X].
          * intros (q & ns' & [<-|X] & X2 & X3); [left; rewrite E in X2; apply INJ in X2; now subst|]. right. now exists q, ns'.
        + intros x. cbn [map fold_right]. rewrite <- A4, filter_app. rewrite (maker_having float_repr cfg color x ns (log p) DE TR IC); [unfold zlen; rewrite app_length; lia|]. rewrite <- E. clear -KE. specialize (KE p). induction KE; constructor; assumption. }
    destruct (ALL (nodup Z.eq_dec ps) (NoDup_nodup _ _)) as (numbers & B1 & B2 & B3 & B4). exists numbers. split; [exact B1|]. split; [intros n X; now apply B2|]. split.
    - intros n. rewrite B3. split; [intros (p & ns & _ & X); eauto|]. intros (p & ns & X1 & X2). exists p, ns. split; [|auto]. apply nodup_In. destruct (in_dec Z.eq_dec p ps) as [I0|I0]; [exact I0|]. rewrite (OUT p I0) in X1. destruct ns; [destruct X2|discriminate X1].
    - intros x. destruct (C102_counts_partial cfg topic color_of log k' name ls c MD LOG CT CC) as [[X _]|(s0 & held & L & H0 & _ & SUM)]; [destruct (X SY)|]. fold s in H0, SUM. rewrite (H0 NB) in SUM. specialize (RD s0 L).
      assert (BT : forall p, between (position s0 topic p) (position s topic p) (log p) = log p). { intros p. unfold between. apply FollowRuns.filter_all. intros [o m] X. apply RD in X. cbn. apply andb_true_iff. split; [apply Z.leb_le|apply Z.ltb_lt]; lia. }
      rewrite B4. specialize (SUM (nodup Z.eq_dec ps) (NoDup_nodup _ _)). rewrite Z.add_0_r in SUM || idtac. erewrite map_ext by (intros p; rewrite <- BT; reflexivity).
      assert (Z0 : having color_of x [] = 0) by reflexivity. rewrite <- SUM; [rewrite Z0; lia|]. intros p N. rewrite BT. specialize (KE p). rewrite (OUT p) in KE; [now inversion KE|]. intros I0. apply N. now apply nodup_In.
  Qed.
End C105.

(** The run of [C104_example]: message 1 is refused and sent again.  The counter then reads both partitions in one call. *)
Definition round_message (n : Z) : pymsg := Msg PNone (PInt 0) (PInt 0) (PStr (str_of_int n)) (m_value (message_no maker_color n)).
Definition round_stored (p : Z) : list prequest := if (p =? 0) || (p =? 1) then skipn 1 (p_wire (one_run maker_evs maker_start)) else [].
Definition round_log (p : Z) : list (Z * pymsg) := if p =? 0 then [(0, round_message 2)] else if p =? 1 then [(0, round_message 1); (1, round_message 3)] else [].
Definition round_cfg : config jv := Cfg jv (default_deser (fun t => t)) truth (fun _ => txt "1.5") 1000 1 1000 (fun _ => None) Single.
Definition round_run : list label :=
  [Call 1 (OpConsume tp_a None); Arrive 1 1 (Ok (POffset [(tp_a, [(0, (0, [0])); (1, (0, [0]))])])); Arrive 1 1 (Ok (PFetch [(tp_a, [(0, (0, round_log 0)); (1, (0, round_log 1))])]))].
Lemma round_counting : counting tp_a color_of round_log round_cfg demo_cluster (txt "me") round_run.
Proof.
  unfold counting, round_run. cbn [each_step]. unfold counts_on. cbn [may].
  split; [split; [split; [reflexivity|split; [reflexivity|discriminate]]|exact I]|]. split; [split; [exact I|ex_reply; reflexivity]|]. split; [|exact I]. split; [exact I|].
  ex_reply. split; [reflexivity|]. intros _. split; [repeat constructor; cbn; intuition discriminate|]. intros p code ms [X|[X|[]]]; injection X as <- <- <-; split; try discriminate; intros _.
  - exists 0, 500, 1%nat. split; [now left|reflexivity].
  - exists 0, 500, 2%nat. split; [right; now left|reflexivity].
Qed.
Lemma round_reads (o n : Z) : msg_reads (message_no maker_color n) (snd (o, round_message n)).
Proof. split; [reflexivity|]. split; [reflexivity|]. split; reflexivity. Qed.
Lemma kept_by_message (l : list pmsg) (log : list (Z * pymsg)) : Forall2 (fun m om => msg_reads m (snd om)) (map pm_msg l) log -> Forall2 (fun m om => msg_reads (pm_msg m) (snd om)) l log.
Proof. intros F. remember (map pm_msg l) as ms eqn:E. revert l E. induction F as [|m om ms log H F IH]; intros [|x l] E; try discriminate E; constructor; injection E as -> E; auto. Qed.
Example C105_example : let s := crun round_cfg round_run (consumer_init demo_cluster (txt "me")) in
  maker_runs (Some 1) 1 500 never never tp_a maker_color (0, Making) maker_evs maker_start /\ each_event (Some 1) 1 500 never never (partitions_stay tp_a [0; 1]) maker_evs maker_start /\ (forall n, In (maker_color n) maker_colors) /\
  (forall p, in_order (round_stored p) (p_wire (one_run maker_evs maker_start)) /\ forall rq, In rq (round_stored p) -> ~ refused (Some 1) 1 500 never never maker_evs maker_start (pq_corr rq) tp_a p) /\
  (forall p, Forall2 (fun m om => msg_reads (pm_msg m) (snd om)) (carried (round_stored p) tp_a p) (round_log p)) /\ (forall p, is_log (round_log p)) /\
  counting tp_a color_of round_log round_cfg demo_cluster (txt "me") round_run /\ ~ busy s tp_a /\ In tp_a (c_synced s) /\
  (forall s0, learns tp_a round_cfg demo_cluster (txt "me") round_run s0 -> forall p o m, In (o, m) (round_log p) -> position s0 tp_a p <= o < position s tp_a p) /\
  color_counter color_of s = Some [(txt "red", 1); (txt "blue", 2)].
Proof.
  destruct C104_example as (A1 & A2 & A3 & A4 & _). cbv zeta. split; [exact A1|]. split; [exact A2|]. split; [intros n; unfold maker_color, maker_colors; destruct (Z.even n); cbn; auto|]. split; [|split; [|split; [|split; [exact round_counting|split; [|split; [|split]]]]]].
  - intros p. unfold round_stored. destruct (p =? 0) eqn:E0; [apply Z.eqb_eq in E0 as ->|destruct (p =? 1) eqn:E1; [apply Z.eqb_eq in E1 as ->; split; [exact A3|exact A4]|]]; cbn [orb].
    + split; [exact A3|]. intros rq X. assert (C : In (pq_corr rq) [43; 44]) by (apply (in_map pq_corr) in X; vm_compute in X; exact X). clear X. unfold maker_evs. destruct C as [<-|[<-|[]]]; not_refused.
    + split; [generalize (p_wire (one_run maker_evs maker_start)); intros l; induction l; constructor; assumption|intros rq []].
  - intros p. unfold round_stored, round_log. destruct (p =? 0) eqn:E0; [apply Z.eqb_eq in E0 as ->|destruct (p =? 1) eqn:E1; [apply Z.eqb_eq in E1 as ->|]]; cbn [orb]; [..|constructor].
    + apply kept_by_message. replace (map pm_msg _) with [message_no maker_color 2] by (vm_compute; reflexivity). constructor; [apply round_reads|constructor].
    + apply kept_by_message. replace (map pm_msg _) with [message_no maker_color 1; message_no maker_color 3] by (vm_compute; reflexivity). constructor; [apply round_reads|]. constructor; [apply round_reads|constructor].
  - intros p. unfold round_log. destruct (p =? 0); [|destruct (p =? 1)]; split; cbn; repeat constructor; lia.
  - intros (i & ti & fu & X & Y). vm_compute in X. discriminate X.
  - vm_compute. now left.
  - intros s0 (ls0 & l & ls1 & E & N & -> & S). 
    assert (L : ls0 ++ [l] = firstn 2 round_run).
    { unfold round_run in E. destruct ls0 as [|a [|b [|d ls0]]]; cbn [app] in E; inversion E; subst; clear E.
      - exfalso. vm_compute in S. destruct S.
      - reflexivity.
      - exfalso. apply N. clear N S. vm_compute. left. reflexivity.
      - exfalso. destruct ls0; discriminate. }
    rewrite L. intros p o m X. unfold round_log in X. destruct (p =? 0) eqn:E0; [apply Z.eqb_eq in E0 as ->|destruct (p =? 1) eqn:E1; [apply Z.eqb_eq in E1 as ->|destruct X]].
    + destruct X as [X|[]]. injection X as <- <-. vm_compute. split; [discriminate|reflexivity].
    + destruct X as [X|[X|[]]]; injection X as <- <-; vm_compute; (split; [discriminate|reflexivity]).
  - vm_compute. reflexivity.
Qed.

Print Assumptions C105_round_trip.
