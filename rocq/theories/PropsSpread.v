(** C108: the modulo strategy of the documentation (docs/clients/producer.rst) and of examples/maker.py spreads messages evenly. *)
From Coq Require Import ZArith String List Bool Lia Sorted.
From Verif Require Import PyBase BaseLemmas Constants Cluster JsonValues Producer SpecProducer ProducerProofs PropsProducer SpecFlow ProducerRun SpecTurns TurnsProofs PropsTurns Maker PropsMaker.
Import ListNotations.
Open Scope Z_scope.

(** the numbers 1, 2, ..., n *)
Definition upto (n : nat) : list Z := map Z.of_nat (seq 1 n).
Definition falls (k i n : Z) : bool := n mod k =? i.

Lemma upto_S n : upto (S n) = upto n ++ [Z.of_nat (S n)].
Proof. unfold upto. rewrite seq_S, map_app. reflexivity. Qed.
Lemma in_upto n x : In x (upto n) <-> 1 <= x <= Z.of_nat n.
Proof.
  unfold upto. rewrite in_map_iff. split.
  - intros (y & <- & Y). apply in_seq in Y. lia.
  - intros H. exists (Z.to_nat x). split; [lia|]. apply in_seq. lia.
Qed.
Lemma upto_nodup n : NoDup (upto n).
Proof. unfold upto. apply FinFun.Injective_map_NoDup; [intros a b; apply Nat2Z.inj|apply seq_NoDup]. Qed.

(** how many of 1, ..., n leave the remainder i *)
Lemma count_falls k i n : 0 < k -> 0 <= i < k ->
  k * zlen (filter (falls k i) (upto n)) = Z.of_nat n - (Z.of_nat n - i) mod k + (- i) mod k.
Proof.
  intros K I. induction n as [|n IH]; [cbn [upto seq map filter]; change (zlen (@nil Z)) with 0; replace (Z.of_nat 0 - i) with (- i) by lia; lia|].
  rewrite upto_S, filter_app. unfold zlen in *. rewrite app_length, Nat2Z.inj_add. cbn [filter]. unfold falls at 2.
  rewrite Nat2Z.inj_succ, <- Z.add_1_r in *. set (m := Z.of_nat n) in *. set (c := Z.of_nat (length _)) in *.
  pose proof (Z.mod_pos_bound (m - i) k K) as B. pose proof (Z.mod_pos_bound (m + 1) k K) as B1.
  destruct ((m + 1) mod k =? i) eqn:E; cbn [length].
  - apply Z.eqb_eq in E. assert (X : (m + 1 - i) mod k = 0). { rewrite <- E. rewrite Zminus_mod_idemp_r. rewrite Z.sub_diag. apply Z.mod_0_l. lia. }
    assert (Y : (m - i) mod k = k - 1). { symmetry. apply (Z.mod_unique_pos _ _ ((m + 1 - i) / k - 1)); [lia|]. pose proof (Z.div_mod (m + 1 - i) k). lia. }
    lia.
  - apply Z.eqb_neq in E. assert (X : (m + 1 - i) mod k = (m - i) mod k + 1).
    { assert (L : (m - i) mod k + 1 < k).
      { destruct (Z.eq_dec ((m - i) mod k) (k - 1)) as [Y|]; [|lia]. exfalso. apply E. symmetry. apply (Z.mod_unique_pos _ _ ((m - i) / k + 1)); [lia|]. pose proof (Z.div_mod (m - i) k). lia. }
      symmetry. apply (Z.mod_unique_pos _ _ ((m - i) / k)); [lia|]. pose proof (Z.div_mod (m - i) k). lia. }
    lia.
Qed.

Lemma sorted_nodup (l : list Z) : StronglySorted Z.lt l -> NoDup l.
Proof. induction 1 as [|x l S IH F]; constructor; [|exact IH]. rewrite Forall_forall in F. intros X. specialize (F _ X). lia. Qed.

Lemma place_index ps i n : NoDup ps -> ps <> [] -> (i < length ps)%nat -> place ps n = nth i ps 0 <-> falls (zlen ps) (Z.of_nat i) n = true.
Proof.
  intros ND NE L. unfold place, falls, zlen. assert (P : 0 < Z.of_nat (length ps)) by lia. pose proof (Z.mod_pos_bound n _ P) as B. rewrite Z.eqb_eq. split; intros H.
  - apply (NoDup_nth ps 0) in H; try assumption; lia.
  - rewrite H, Nat2Z.id. reflexivity.
Qed.

Section C108.
  Variable batch_size : option Z.
  Variables acks timeout : Z.
  Variable compress_fails : list pmsg -> option exn.
  Variable serialize_fails : prequest -> option exn.
  Variable topic : text.
  Variable color : Z -> text.
  Notation prun := (prun batch_size acks timeout compress_fails serialize_fails).
  Notation maker_runs := (maker_runs batch_size acks timeout compress_fails serialize_fails topic color).
  Notation maker_ends := (maker_ends batch_size acks timeout compress_fails serialize_fails).
  Notation each_event := (each_event batch_size acks timeout compress_fails serialize_fails).
  Notation refused := (refused batch_size acks timeout compress_fails serialize_fails).
  Notation message_no := (message_no color).

  Lemma message_no_inj n m : message_no n = message_no m -> n = m.
  Proof. unfold Maker.message_no, maker_message. intros H. now injection H. Qed.

  (** [stored] are the requests the brokers keep, as in C104.  After N messages no partition has more than N/k of them,
      rounded up; once all N messages are kept, the sizes of any two partitions' logs differ by one at most. *)
  Theorem C108_even : forall ps evs k corr stored, let start := producer_init k corr in let made := fst (maker_ends (0, Making) evs start) in
    let size p := zlen (carried stored topic p) in
    maker_runs (0, Making) evs start -> each_event (partitions_stay topic ps) evs start -> NoDup ps ->
    in_order stored (p_wire (prun evs start)) -> (forall rq p, In rq stored -> In p ps -> ~ refused evs start (pq_corr rq) topic p) ->
    (forall p, In p ps -> size p <= (made + zlen ps - 1) / zlen ps) /\
    ((forall n, 1 <= n <= made -> exists p, In p ps /\ In (message_no n) (map pm_msg (carried stored topic p))) ->
     forall p q, In p ps -> In q ps -> Z.abs (size p - size q) <= 1).
  Proof.
    intros ps evs k corr stored start made size H PS ND O N.
    assert (M0 : 0 <= made). { destruct (maker_numbers batch_size acks timeout compress_fails serialize_fails topic color evs (0, Making) start (pinv_init k corr) H) as [X _]. exact X. }
    assert (B : forall p, In p ps -> exists c, size p <= c /\ zlen ps * c < made + zlen ps /\ made - zlen ps < zlen ps * c /\
      ((forall n, 1 <= n <= made -> exists p, In p ps /\ In (message_no n) (map pm_msg (carried stored topic p))) -> size p = c)).
    { intros p Hp. assert (NE : ps <> []) by (intros ->; exact Hp). destruct (In_nth ps p 0 Hp) as (i & L & E).
      assert (KP : 0 < zlen ps) by (unfold zlen; lia).
      pose proof (count_falls (zlen ps) (Z.of_nat i) (Z.to_nat made) KP ltac:(unfold zlen; lia)) as C.
      set (l := filter _ _) in C. exists (zlen l). rewrite Z2Nat.id in C by exact M0.
      pose proof (Z.mod_pos_bound (made - Z.of_nat i) _ KP). pose proof (Z.mod_pos_bound (- Z.of_nat i) _ KP).
      destruct (C104_numbers_increase batch_size acks timeout compress_fails serialize_fails topic color ps evs k corr p stored H PS O (fun rq R => N rq p R Hp)) as (ns & E1 & S & F).
      assert (SZ : size p = zlen ns). { unfold size, zlen. f_equal. rewrite <- (map_length pm_msg), E1. apply map_length. }
      assert (IN : forall n, In n ns -> In n l). { intros n Hn. rewrite Forall_forall in F. destruct (F n Hn) as [F1 F2]. apply filter_In. split; [apply in_upto; fold start made in F1; lia|]. apply place_index; try assumption. congruence. }
      split; [|split; [lia|split; [lia|]]].
      - rewrite SZ. unfold zlen. apply Nat2Z.inj_le. apply NoDup_incl_length; [now apply sorted_nodup|exact IN].
      - intros All. apply Z.le_antisymm; rewrite SZ; unfold zlen; apply Nat2Z.inj_le; apply NoDup_incl_length; try exact IN; [now apply sorted_nodup|apply NoDup_filter, upto_nodup|].
        intros n Hn. apply filter_In in Hn as [Hn Fn]. apply in_upto in Hn. destruct (All n ltac:(lia)) as (q & Hq & X).
        destruct (C104_numbers_increase batch_size acks timeout compress_fails serialize_fails topic color ps evs k corr q stored H PS O (fun rq R => N rq q R Hq)) as (ns' & E1' & S' & F').
        rewrite E1' in X. apply in_map_iff in X as (m & X & Hm). apply message_no_inj in X. subst m. rewrite Forall_forall in F'. destruct (F' n Hm) as [_ PL].
        apply (place_index ps i n ND NE L) in Fn. assert (QP : q = p) by congruence. rewrite QP, E1 in E1'. apply (in_map message_no) in Hm. rewrite <- E1' in Hm. apply in_map_iff in Hm as (m & X & Hm). apply message_no_inj in X. now subst m. }
    split.
    - intros p Hp. assert (KP : 0 < zlen ps) by (destruct ps; [contradiction|unfold zlen; cbn; lia]). destruct (B p Hp) as (c & C1 & C2 & _). apply Z.div_le_lower_bound; [exact KP|]. nia.
    - intros All p q Hp Hq. assert (KP : 0 < zlen ps) by (destruct ps; [contradiction|unfold zlen; cbn; lia]). destruct (B p Hp) as (c & _ & C1 & C2 & C3). destruct (B q Hq) as (d & _ & D1 & D2 & D3). rewrite (C3 All), (D3 All). nia.
  Qed.
End C108.

(** Three messages on two partitions: the run of C104, whose first request is refused.  All three are kept. *)
Example C108_example : let w := skipn 1 (p_wire (one_run maker_evs maker_start)) in
  maker_runs (Some 1) 1 500 never never tp_a maker_color (0, Making) maker_evs maker_start /\ each_event (Some 1) 1 500 never never (partitions_stay tp_a [0; 1]) maker_evs maker_start /\
  (forall rq p, In rq w -> In p [0; 1] -> ~ refused (Some 1) 1 500 never never maker_evs maker_start (pq_corr rq) tp_a p) /\
  fst (maker_ends (Some 1) 1 500 never never (0, Making) maker_evs maker_start) = 3 /\
  (forall n, 1 <= n <= 3 -> exists p, In p [0; 1] /\ In (message_no maker_color n) (map pm_msg (carried w tp_a p))) /\
  zlen (carried w tp_a 0) = 1 /\ zlen (carried w tp_a 1) = 2.
Proof.
  cbv zeta. destruct C104_example as (A & B & _). split; [exact A|]. split; [exact B|]. clear A B. split; [|split; [vm_compute; reflexivity|split]].
  - intros rq p X P. assert (C : In (pq_corr rq) [43; 44]) by (apply (in_map pq_corr) in X; vm_compute in X; exact X). clear X. unfold maker_evs. destruct P as [<-|[<-|[]]]; destruct C as [<-|[<-|[]]]; not_refused.
  - intros n N. assert (C : n = 1 \/ n = 2 \/ n = 3) by lia. destruct C as [->|[->| ->]]; [exists 1|exists 0|exists 1]; (split; [cbn; tauto|]); vm_compute; tauto.
  - vm_compute. auto.
Qed.
Print Assumptions C108_even.
