(** C37: consumption follows the log. *)
From Coq Require Import ZArith String List Bool Lia Permutation Sorting.Sorted.
From Verif Require Import PyBase BaseLemmas Constants Cluster Zookeeper Consumer SpecConsumer ConsumerProofs ConsumerSteps ConsumerRuns ConsumerSync PropsConsumer SpecLog FollowRuns.
Import ListNotations.
Open Scope Z_scope.
Set Default Proof Using "Type".

(** ** the books of C37 *)
Section Follow.
  Context {V : Type}.
  Variable cfg : config V.
  Variable t : text.
  Variable log : Z -> list (Z * pymsg).
  Variable s0 : consumer V.
  Variable LOG : forall p, is_log (log p).

  Definition in_log (D : list (Z * (Z * V))) (f : Z -> Z) : Prop := forall p,
    position s0 t p <= f p /\
    of_partition p D = readable cfg (between (position s0 t p) (f p) (log p)) /\
    f p = one_past_last (map fst (of_partition p D)) (position s0 t p).
  Lemma in_log_ext D f g : (forall p, g p = f p) -> in_log D f -> in_log D g.
  Proof. intros E L p. rewrite E. apply L. Qed.
  Lemma serves_fetch x mw mb t' asked t'' parts rest : serves t log (RFetch x mw mb t' asked) (PFetch ((t'', parts) :: rest)) -> t'' = t' /\
    (t' = t -> NoDup (map fst parts) /\ forall p code ms, In (p, (code, ms)) parts -> code <> offset_out_of_range /\ (code = no_error -> In p (map fst asked))).
  Proof.
    intros [E H]. split; [exact E|]. intros T. destruct (H T) as [ND P]. split; [exact ND|]. intros p code ms I. destruct (P _ _ _ I) as [N S]. split; [exact N|]. intros C. destruct (S C) as (o & limit & n & IA & _). apply (in_map fst) in IA. exact IA.
  Qed.
  Lemma in_log_step D f f' x mw mb asked parts rest : in_log D f -> (forall p o limit, In (p, (o, limit)) asked -> o = f p) -> serves t log (RFetch x mw mb t asked) (PFetch ((t, parts) :: rest)) ->
    (forall p, f' p = one_past_last (filter (fun o => 0 <=? o) (map fst (of_partition p (got_of cfg parts)))) (f p)) -> in_log (D ++ got_of cfg parts) f'.
  Proof using LOG.
    intros L POS [_ H] PG. destruct (H eq_refl) as [NDP PARTS]. intros p. destruct (L p) as (LE & DP & PP). rewrite of_partition_app, map_app, one_past_app, <- PP. destruct (got_present cfg p parts NDP) as [G|(ms & I & G)].
    - rewrite PG, G. cbn. rewrite app_nil_r. auto.
    - destruct (PARTS _ _ _ I) as [_ S]. destruct (S eq_refl) as (o & limit & n & IA2 & ->). apply POS in IA2. subst o. rewrite PG, G.
      destruct (log_step cfg (log p) (position s0 t p) (f p) n (LOG p) LE) as (LE' & EQ & NN). rewrite NN. split; [lia|]. split; [|reflexivity]. rewrite DP. symmetry. exact EQ.
  Qed.
  Lemma in_log_start : in_log [] (position s0 t).
  Proof. intros p. split; [lia|]. split; [|reflexivity]. cbn. unfold between. rewrite filter_none; [reflexivity|]. intros [o m] _. cbn. lia. Qed.
End Follow.

(** ** C37: consumption follows the log *)
(** For a SingleConsumer that knows where to start in topic [t] (positions [position s0 t p]) and any run from there
    against brokers that serve the logs [log p], in which no consume(t) raised and no two of them overlapped: the
    messages delivered from each partition are exactly the readable messages of its log from the start position up to
    the position reached, in order, none missing and none twice; the position is one past the last message delivered;
    and what the calls returned, in the order they returned, followed by what a call still running holds, is exactly the
    values of these deliveries, except that values that are falsy in Python are left out.
    Missing for the English claim: falsy values and messages that cannot be deserialised are not returned (refuted below),
    the consumer must have its start positions, and calls of consume() on one topic must not overlap. *)
Theorem C37_follows_log_partial {V} (cfg : config V) t log s0 ls :
  md cfg = Single -> reachable cfg s0 -> (forall p, is_log (log p)) -> In t (c_synced s0) -> ~ busy s0 t -> each_step cfg (orderly t log) ls s0 ->
  let s := crun cfg ls s0 in none_raised t s0 s ->
  exists D pending,
    filter (truthy cfg) (values D) = returned t s0 s ++ pending /\
    (~ busy s t -> pending = []) /\
    forall p, of_partition p D = readable cfg (between (position s0 t p) (position s t p) (log p)) /\
      position s t p = one_past_last (map fst (of_partition p D)) (position s0 t p).
Proof.
  intros SG R LOG SY NB OR s NR. pose proof (reach_inv cfg s0 R) as I0. 
  destruct (follows_run cfg t s0 (serves t log) (in_log cfg t log s0) (in_log_ext cfg t log s0) (serves_fetch t log) (fun _ _ _ _ _ _ H => H) (or_introl SG) (in_log_step cfg t log s0 LOG) ls SG [] s0
    (follows_start cfg t s0 (in_log cfg t log s0) (in_log_start cfg t log s0) I0 SY NB) OR NR) as (D & F). exists D.
  assert (L : forall p, of_partition p D = readable cfg (between (position s0 t p) (position s t p) (log p)) /\ position s t p = one_past_last (map fst (of_partition p D)) (position s0 t p)) by (intros p; now destruct (f_log _ _ _ _ _ _ F p)).
  destruct (busy_dec cfg t s (f_inv _ _ _ _ _ _ F)) as [B|B].
  - destruct B as (i & o & p & DD & OT). destruct (f_pc _ _ _ _ _ _ F i o p DD OT) as [_ G]. exists (held cfg p). split; [exact G|]. split; [|exact L]. intros N. destruct N. now exists i, o, p.
  - exists []. rewrite app_nil_r. split; [now apply (f_free _ _ _ _ _ _ F)|]. auto.
Qed.

(** When every message of the logs can be deserialised and none of them is falsy, nothing is left out: what was returned
    are the values of all the messages of the logs between the start and the position reached. *)
Theorem C37_whole_log {V} (cfg : config V) t log s0 ls :
  md cfg = Single -> reachable cfg s0 -> (forall p, is_log (log p)) -> In t (c_synced s0) -> ~ busy s0 t -> each_step cfg (orderly t log) ls s0 ->
  (forall p o m, In (o, m) (log p) -> exists v, deser cfg (msg_value m) = Ok v /\ truthy cfg v = true) ->
  let s := crun cfg ls s0 in none_raised t s0 s -> ~ busy s t ->
  exists D, returned t s0 s = values D /\
    forall p, map (fun d => (fst d, Ok (snd d))) (of_partition p D) = map (fun om => (fst om, deser cfg (msg_value (snd om)))) (between (position s0 t p) (position s t p) (log p)) /\
      position s t p = one_past_last (map fst (between (position s0 t p) (position s t p) (log p))) (position s0 t p).
Proof.
  intros SG R LOG SY NB OR CL s NR NB'. destruct (C37_follows_log_partial cfg t log s0 ls SG R LOG SY NB OR NR) as (D & pe & G & PE & L). fold s in G, PE, L. rewrite (PE NB'), app_nil_r in G. exists D.
  assert (RD : forall l, (forall o m, In (o, m) l -> exists v, deser cfg (msg_value m) = Ok v /\ truthy cfg v = true) ->
    map (fun d => (fst d, Ok (snd d))) (readable cfg l) = map (fun om => (fst om, deser cfg (msg_value (snd om)))) l /\ map fst (readable cfg l) = map fst l /\ Forall (fun d => truthy cfg (snd d) = true) (readable cfg l)).
  { induction l as [|[o m] l IH]; intros H; [repeat split; constructor|]. destruct (H o m (or_introl eq_refl)) as (v & E & T). destruct IH as (A & B & C); [intros; apply (H o0 m0); now right|].
    unfold readable in *. cbn [flat_map fst snd]. rewrite E. cbn [app map fst snd]. rewrite A, B, E. repeat split. now constructor. }
  assert (BT : forall p, (forall o m, In (o, m) (between (position s0 t p) (position s t p) (log p)) -> exists v, deser cfg (msg_value m) = Ok v /\ truthy cfg v = true)) by (intros p o m H; apply filter_In in H as [H _]; eapply CL, H).
  split.
  - rewrite <- G. apply filter_all. intros v H. apply in_map_iff in H as ([p [o v']] & <- & H). destruct (RD _ (BT p)) as (_ & _ & A). rewrite <- (proj1 (L p)) in A. rewrite Forall_forall in A. apply (A (o, v')).
    unfold of_partition. apply in_map_iff. exists (p, (o, v')). split; [reflexivity|]. apply filter_In. split; [exact H|]. cbn. apply Z.eqb_refl.
  - intros p. destruct (RD _ (BT p)) as (A & B & _). destruct (L p) as [L1 L2]. rewrite L1. split; [exact A|]. rewrite L1, B in L2. exact L2.
Qed.

(** the consumer of the examples after its first consume(t), which found nothing new: partition 0 starts at 5, partition 1 at 7 *)
Definition ex_idle : consumer Z := crun (ex_cfg Single) [Arrive 1 1 (Ok (PFetch [(tt_, [(0, (0, []))])])); Arrive 1 2 (Ok (PFetch [(tt_, [(1, (0, []))])]))] ex_fetching.
Definition ex_log (p : Z) : list (Z * pymsg) := if p =? 0 then [(3, msg 1); (5, msg 2); (8, msg 3); (9, msg 4)] else [(7, msg 5); (8, msg 6)].
(** two calls; broker 1 hands out one message at first, then two; broker 2 fails, then hands out both *)
Definition ex_two_calls : list label :=
  [Call 2 (OpConsume tt_ None); Arrive 2 2 (Ok (PFetch [(tt_, [(1, (6, []))])])); Arrive 2 1 (Ok (PFetch [(tt_, [(0, (0, [(5, msg 2)]))])])); Healed 2 (Ok tt);
   Call 3 (OpConsume tt_ None); Arrive 3 1 (Ok (PFetch [(tt_, [(0, (0, [(8, msg 3); (9, msg 4)]))])])); Arrive 3 2 (Ok (PFetch [(tt_, [(1, (0, [(7, msg 5); (8, msg 6)]))])]))].
Lemma ex_log_is_log p : is_log (ex_log p).
Proof. unfold ex_log. destruct (p =? 0); split; cbn; repeat constructor; try lia. Qed.
Lemma ex_idle_reach : reachable (ex_cfg Single) ex_idle.
Proof. exists ex_cluster, (txt "me"), (ex_looked_up ++ [Arrive 1 1 (Ok (PFetch [(tt_, [(0, (0, []))])])); Arrive 1 2 (Ok (PFetch [(tt_, [(1, (0, []))])]))]). unfold ex_idle, ex_fetching, crun. now rewrite fold_left_app. Qed.
Lemma ex_idle_synced : In tt_ (c_synced ex_idle).
Proof. vm_compute. now left. Qed.
Lemma ex_idle_free : ~ busy ex_idle tt_.
Proof. intros (i & o & p & H & _). vm_compute in H. discriminate H. Qed.
Example C37_example : let s := crun (ex_cfg Single) ex_two_calls ex_idle in
  reachable (ex_cfg Single) ex_idle /\ In tt_ (c_synced ex_idle) /\ ~ busy ex_idle tt_ /\ each_step (ex_cfg Single) (orderly tt_ ex_log) ex_two_calls ex_idle /\ none_raised tt_ ex_idle s /\ ~ busy s tt_ /\
  (forall p o m, In (o, m) (ex_log p) -> exists v, deser (ex_cfg Single) (msg_value m) = Ok v /\ truthy (ex_cfg Single) v = true) /\
  returned tt_ ex_idle s = [2; 3; 4; 5; 6] /\ position ex_idle tt_ 0 = 5 /\ position ex_idle tt_ 1 = 7 /\ position s tt_ 0 = 10 /\ position s tt_ 1 = 9.
Proof.
  cbv zeta. split; [exact ex_idle_reach|]. split; [exact ex_idle_synced|]. split; [exact ex_idle_free|]. split; [|split; [|split; [intros (i & o & p & H & _); vm_compute in H; discriminate H|split; [|vm_compute; auto 6]]]].
  - cbn [each_step ex_two_calls orderly]. split; [intros _ (i & o & p & H & _); vm_compute in H; discriminate H|].
    split; [intros rq (o & k & w & rs & H & W) _; vm_compute in H; injection H as <- <- <- <-; vm_compute in W; injection W as <-; cbn; split; [reflexivity|]; intros _; split; [repeat constructor; intros []|];
      intros p code ms [X|[]]; injection X as <- <- <-; split; [discriminate|discriminate]|].
    split; [intros rq (o & k & w & rs & H & W) _; vm_compute in H; injection H as <- <- <- <-; vm_compute in W; injection W as <-; cbn; split; [reflexivity|]; intros _; split; [repeat constructor; intros []|];
      intros p code ms [X|[]]; injection X as <- <- <-; split; [discriminate|]; intros _; exists 5, 1000, 1%nat; split; [now left|reflexivity]|].
    split; [exact I|]. split; [intros _ (i & o & p & H & _); vm_compute in H; discriminate H|].
    split; [intros rq (o & k & w & rs & H & W) _; vm_compute in H; injection H as <- <- <- <-; vm_compute in W; injection W as <-; cbn; split; [reflexivity|]; intros _; split; [repeat constructor; intros []|];
      intros p code ms [X|[]]; injection X as <- <- <-; split; [discriminate|]; intros _; exists 6, 1000, 2%nat; split; [now left|reflexivity]|].
    split; [intros rq (o & k & w & rs & H & W) _; vm_compute in H; injection H as <- <- <- <-; vm_compute in W; injection W as <-; cbn; split; [reflexivity|]; intros _; split; [repeat constructor; intros []|];
      intros p code ms [X|[]]; injection X as <- <- <-; split; [discriminate|]; intros _; exists 7, 1000, 2%nat; split; [now left|reflexivity]|].
    exact I.
  - intros i o e H. vm_compute in H. destruct H as [H|[H|[]]]; discriminate H.
  - intros p o m H. unfold ex_log in H. destruct (p =? 0); repeat (destruct H as [H|H]; [injection H as <- <-; eexists; split; reflexivity|]); destruct H.
Qed.

(** The claim is false as it stands.  First: a message whose value is falsy in Python is part of the log and readable, the
    position moves past it, and no call returns it. *)
Theorem C37_falsy_refuted : exists (cfg : config Z) s ls log, md cfg = Single /\ reachable cfg s /\ (forall p, is_log (log p)) /\ In tt_ (c_synced s) /\ ~ busy s tt_ /\ each_step cfg (orderly tt_ log) ls s /\
  let s' := crun cfg ls s in none_raised tt_ s s' /\ ~ busy s' tt_ /\
  readable cfg (between (position s tt_ 0) (position s' tt_ 0) (log 0)) = [(5, 1); (6, 0); (7, 2)] /\ returned tt_ s s' = [1; 2].
Proof.
  exists (ex_cfg Single), ex_idle, [Call 2 (OpConsume tt_ None); Arrive 2 1 (Ok (PFetch [(tt_, [(0, (0, [(5, msg 1); (6, msg 0); (7, msg 2)]))])])); Arrive 2 2 (Err EStreamClosed)], (fun p => if p =? 0 then [(5, msg 1); (6, msg 0); (7, msg 2)] else []).
  split; [reflexivity|]. split; [exact ex_idle_reach|]. split; [intros p; destruct (p =? 0); split; cbn; repeat constructor; lia|]. split; [exact ex_idle_synced|]. split; [exact ex_idle_free|]. split.
  - cbn [each_step orderly]. split; [intros _; exact ex_idle_free|]. split; [|split; exact I]. intros rq (o & k & w & rs & H & W) _. vm_compute in H. injection H as <- <- <- <-. vm_compute in W. injection W as <-. cbn. split; [reflexivity|]. intros _. split; [repeat constructor; intros []|].
    intros p code ms [X|[]]. injection X as <- <- <-. split; [discriminate|]. intros _. exists 5, 1000, 3%nat. split; [now left|reflexivity].
  - cbv zeta. split; [intros i o e H; vm_compute in H; destruct H as [H|[]]; discriminate H|]. split; [intros (i & o & p & H & _); vm_compute in H; discriminate H|]. vm_compute. auto.
Qed.
(** Second: two consume() calls on one topic that overlap return the same messages twice. *)
Theorem C37_overlap_refuted : exists (cfg : config Z) s ls log, md cfg = Single /\ reachable cfg s /\ (forall p, is_log (log p)) /\ In tt_ (c_synced s) /\ ~ busy s tt_ /\
  each_step cfg (fun s l => match l with Call _ _ => True | _ => orderly tt_ log s l end) ls s /\
  let s' := crun cfg ls s in none_raised tt_ s s' /\ ~ busy s' tt_ /\ returned tt_ s s' = [2; 3; 2; 3] /\ map snd (log 0) = [msg 1; msg 2; msg 3; msg 4].
Proof.
  exists (ex_cfg Single), ex_idle,
    [Call 2 (OpConsume tt_ None); Call 3 (OpConsume tt_ None); Arrive 2 1 (Ok (PFetch [(tt_, [(0, (0, [(5, msg 2); (8, msg 3)]))])])); Arrive 2 2 (Err EStreamClosed); Arrive 3 1 (Ok (PFetch [(tt_, [(0, (0, [(5, msg 2); (8, msg 3)]))])])); Arrive 3 2 (Err EStreamClosed)], ex_log.
  split; [reflexivity|]. split; [exact ex_idle_reach|]. split; [apply ex_log_is_log|]. split; [exact ex_idle_synced|]. split; [exact ex_idle_free|]. split.
  - assert (X : forall rq, rq = RFetch (-1) 1000 1 tt_ [(0, (5, 1000))] -> serves tt_ ex_log rq (PFetch [(tt_, [(0, (0, [(5, msg 2); (8, msg 3)]))])])).
    { intros rq ->. cbn. split; [reflexivity|]. intros _. split; [repeat constructor; intros []|]. intros p code ms [X|[]]. injection X as <- <- <-. split; [discriminate|]. intros _. exists 5, 1000, 2%nat. split; [now left|reflexivity]. }
    cbn [each_step orderly]. split; [exact I|]. split; [exact I|]. split; [intros rq (o & k & w & rs & H & W) _; apply X; vm_compute in H; injection H as <- <- <- <-; vm_compute in W; injection W as <-; reflexivity|]. split; [exact I|].
    split; [intros rq (o & k & w & rs & H & W) _; apply X; vm_compute in H; injection H as <- <- <- <-; vm_compute in W; injection W as <-; reflexivity|]. split; exact I.
  - cbv zeta. split; [intros i o e H; vm_compute in H; destruct H as [H|[H|[]]]; discriminate H|]. split; [intros (i & o & p & H & _); vm_compute in H; discriminate H|]. vm_compute. auto.
Qed.

Print Assumptions C37_follows_log_partial.
Print Assumptions C37_whole_log.
Print Assumptions C37_falsy_refuted.
Print Assumptions C37_overlap_refuted.
