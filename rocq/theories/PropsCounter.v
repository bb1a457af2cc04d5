(** Property C102: the counter counts each message once. *)
From Coq Require Import ZArith Lia String List Bool.
From Verif Require Import PyBase BaseLemmas Constants Cluster Zookeeper Consumer SpecConsumer ConsumerRuns PropsConsumer SpecLog FollowRuns PropsLog Counter SpecCounter CounterProofs.
Import ListNotations.
Open Scope Z_scope.

Lemma having_part {V} color tr x (D : list (Z * (Z * V))) d ps : NoDup ps ->
  fold_right Z.add 0 (map (fun p => having color x (filter tr (map snd (of_partition p (d :: D))))) ps) =
  fold_right Z.add 0 (map (fun p => having color x (filter tr (map snd (of_partition p D)))) ps) + (if in_dec Z.eq_dec (fst d) ps then having color x (filter tr [snd (snd d)]) else 0).
Proof.
  induction ps as [|p ps IH]; intros N; [reflexivity|]. inversion N as [|? ? N1 N2]; subst. specialize (IH N2). cbn [map fold_right]. rewrite IH. clear IH. unfold of_partition at 1. cbn [filter].
  destruct (Z.eqb_spec (fst d) p) as [E|NE].
  - subst p. destruct (in_dec Z.eq_dec (fst d) ps) as [X|_]; [contradiction|]. destruct (in_dec Z.eq_dec (fst d) (fst d :: ps)) as [_|X]; [|destruct X; now left].
    cbn [map]. fold (of_partition (fst d) D). change (snd (snd d) :: map snd (of_partition (fst d) D)) with ([snd (snd d)] ++ map snd (of_partition (fst d) D)). rewrite filter_app, having_app. cbn [filter]. lia.
  - fold (of_partition p D). destruct (in_dec Z.eq_dec (fst d) ps) as [X|X]; destruct (in_dec Z.eq_dec (fst d) (p :: ps)) as [Y|Y]; try lia; [destruct Y; now right|]. destruct Y as [Y|Y]; [now destruct NE|contradiction].
Qed.
Lemma having_parts {V} color tr x (D : list (Z * (Z * V))) ps : NoDup ps -> (forall d, In d D -> In (fst d) ps) ->
  having color x (filter tr (values D)) = fold_right Z.add 0 (map (fun p => having color x (filter tr (map snd (of_partition p D)))) ps).
Proof.
  intros N. induction D as [|d D IH]; intros H; [induction ps as [|p ps IHp]; [reflexivity|]; inversion N; subst; cbn [map fold_right]; rewrite <- IHp; [reflexivity|assumption|intros d []]|].
  rewrite (having_part color tr x D d ps N). destruct (in_dec Z.eq_dec (fst d) ps) as [_|X]; [|destruct X; apply H; now left]. rewrite <- IH by (intros d' I0; apply H; now right).
  change (values (d :: D)) with ([snd (snd d)] ++ values D). rewrite filter_app, having_app. cbn [filter]. lia.
Qed.

(** Whenever the program looks at its counter: as long as the consumer does not know its positions nothing is counted.  From
    then on the count of a color is the number of messages with this color, over all partitions, among the readable and not
    falsy messages of the logs from where the consumer began to where it is now, less those the consume() that runs holds.
    So no message is counted twice or left out, in whatever batches and order the brokers hand the messages out.
    Missing for the English claim: the messages of a batch in which one has no color (refuted below). *)
Theorem C102_counts_partial {V} (cfg : config V) t color log k name ls c :
  md cfg = Single -> (forall p, is_log (log p)) -> counting t color log cfg k name ls ->
  let s := crun cfg ls (consumer_init k name) in color_counter color s = Some c ->
  (~ In t (c_synced s) /\ forall x, count c x = 0) \/
  exists s0 held, learns t cfg k name ls s0 /\ (~ busy s t -> held = []) /\ In t (c_synced s) /\
    forall ps, NoDup ps -> (forall p, ~ In p ps -> between (position s0 t p) (position s t p) (log p) = []) -> forall x,
      count c x + having color x held =
      fold_right Z.add 0 (map (fun p => having color x (filter (truthy cfg) (map snd (readable cfg (between (position s0 t p) (position s t p) (log p)))))) ps).
Proof.
  intros MD LOG C s T. destruct (counts_well cfg t color log k name MD LOG ls C) as [AL CW]. fold s in AL. assert (AV : color_counter color s <> None) by congruence.
  pose proof (tally_counts t color (c_ended s) (proj2 (proj2 AL)) [] c T) as TC. destruct (CW AV) as [(NS & _ & G)|(s0 & D & L & G & F)].
  - fold s in NS, G. left. split; [exact NS|]. intros x. rewrite TC, G. reflexivity.
  - right. fold s in F. exists s0.
    assert (RT : flat_map (gave t) (c_ended s) = returned t s0 s).
    { destruct (f_ended _ _ _ _ _ _ F) as (l & E). unfold returned, ended_since. rewrite E, flat_map_app, G, skipn_app, skipn_all, Nat.sub_diag. reflexivity. }
    assert (H : exists held, (~ busy s t -> held = []) /\ filter (truthy cfg) (values D) = returned t s0 s ++ held).
    { destruct (busy_dec cfg t s (f_inv _ _ _ _ _ _ F)) as [(i & o & p & DD & OT)|B].
      - exists (FollowRuns.held cfg p). split; [intros N; destruct N; now exists i, o, p|apply (f_pc _ _ _ _ _ _ F i o p DD OT)].
      - exists []. split; [auto|]. rewrite app_nil_r. exact (f_free _ _ _ _ _ _ F B). }
    destruct H as (held & HB & HD). exists held. split; [exact L|]. split; [exact HB|]. split; [exact (f_sync _ _ _ _ _ _ F)|]. intros ps N P x. rewrite TC, RT. replace (count [] x) with 0 by reflexivity. rewrite Z.add_0_l, <- having_app, <- HD.
    rewrite (having_parts color (truthy cfg) x D ps N).
    + f_equal. apply map_ext. intros p. now rewrite (proj1 (proj2 (f_log _ _ _ _ _ _ F p))).
    + intros [p [o v]] I0. cbn [fst]. destruct (in_dec Z.eq_dec p ps) as [X|X]; [exact X|]. exfalso. pose proof (proj1 (proj2 (f_log _ _ _ _ _ _ F p))) as E. rewrite (P p X) in E.
      assert (Y : In (o, v) (of_partition p D)) by (unfold of_partition; apply in_map_iff; exists (p, (o, v)); split; [reflexivity|]; apply filter_In; split; [exact I0|apply Z.eqb_refl]). rewrite E in Y. destruct Y.
Qed.

(** Messages 2, 4 and 6 are red, 3 is blue, 5 has no color. *)
Definition ex_color (n : Z) : option text := if n =? 5 then None else Some (if Z.even n then txt "red" else txt "blue").
Definition ex_count_run : list label :=
  ex_looked_up ++ [Arrive 1 1 (Ok (PFetch [(tt_, [(0, (0, [(5, msg 2); (8, msg 3)]))])])); Arrive 1 2 (Ok (PFetch [(tt_, [(1, (0, []))])])); Call 2 (OpConsume tt_ None); Arrive 2 1 (Ok (PFetch [(tt_, [(0, (0, [(9, msg 4)]))])]))].
Definition ex_bad_batch : label := Arrive 2 2 (Ok (PFetch [(tt_, [(1, (0, [(7, msg 5)]))])])).
Ltac ex_reply := let H := fresh in let W := fresh in intros ? (? & ? & ? & ? & H & W) _; vm_compute in H; injection H as <- <- <- <-; vm_compute in W; injection W as <-; cbn.
Ltac ex_serve n o := ex_reply; split; [reflexivity|]; intros _;
  split; [repeat constructor; intros []|]; let X := fresh in intros ? ? ? [X|[]]; injection X as <- <- <-; split; [discriminate|]; intros _; exists o, 1000, n; split; [now left|reflexivity].
Lemma ex_counting : counting tt_ ex_color ex_log (ex_cfg Single) ex_cluster (txt "me") (ex_count_run ++ [ex_bad_batch]).
Proof.
  unfold counting, ex_count_run, ex_looked_up, ex_bad_batch. cbn [app each_step]. unfold counts_on. cbn [may].
  split; [split; [split; [reflexivity|split; [reflexivity|discriminate]]|exact I]|]. split; [split; [exact I|ex_reply; reflexivity]|]. split; [split; [exact I|ex_reply; reflexivity]|].
  split; [split; [exact I|ex_serve 2%nat 5]|]. split; [split; [exact I|ex_serve 0%nat 7]|]. split; [split; [split; [reflexivity|split; [vm_compute; reflexivity|vm_compute; discriminate]]|exact I]|].
  split; [split; [exact I|ex_serve 1%nat 9]|]. split; [split; [exact I|ex_serve 1%nat 7]|exact I].
Qed.
(** It has counted the first batch and holds a message of the second. *)
Example C102_example : let s := crun (ex_cfg Single) ex_count_run (consumer_init ex_cluster (txt "me")) in
  counting tt_ ex_color ex_log (ex_cfg Single) ex_cluster (txt "me") ex_count_run /\ (forall p, is_log (ex_log p)) /\
  color_counter ex_color s = Some [(txt "red", 1); (txt "blue", 1)] /\ busy s tt_ /\ In tt_ (c_synced s) /\ position s tt_ 0 = 10 /\ position s tt_ 1 = 7.
Proof.
  cbv zeta. split; [exact (proj1 (counting_snoc (ex_cfg Single) tt_ ex_color ex_log ex_cluster (txt "me") ex_count_run ex_bad_batch ex_counting))|]. split; [exact ex_log_is_log|]. split; [vm_compute; reflexivity|].
  split; [exists 2; do 2 eexists; split; [vm_compute; reflexivity|reflexivity]|]. vm_compute. auto.
Qed.
(** A message without color ends the program, and the messages that came with it, in the same batch, are not counted. *)
Theorem C102_bad_batch_refuted : exists (cfg : config Z) color log k ls l v x, md cfg = Single /\ (forall p, is_log (log p)) /\ counting tt_ color log cfg k (txt "me") (ls ++ [l]) /\
  let s := crun cfg ls (consumer_init k (txt "me")) in let s' := cstep cfg s l in
  In v (returned tt_ s s') /\ color v = Some x /\ (exists c, color_counter color s = Some c) /\ color_counter color s' = None.
Proof.
  exists (ex_cfg Single), ex_color, ex_log, ex_cluster, ex_count_run, ex_bad_batch, 4, (txt "red"). split; [reflexivity|]. split; [exact ex_log_is_log|]. split; [exact ex_counting|]. cbv zeta.
  split; [vm_compute; auto|]. split; [reflexivity|]. split; [eexists; vm_compute; reflexivity|vm_compute; reflexivity].
Qed.

Print Assumptions C102_counts_partial.
Print Assumptions C102_bad_batch_refuted.
