(** Properties C96 and C97: the callbacks of an allocator and its consumer in several threads. *)
From Coq Require Import ZArith Lia String List Bool Permutation FinFun.
From Verif Require Import PyBase BaseLemmas Cluster Zookeeper SpecZk ZkProofs ZkAlloc PropsZk Threads SpecThreads ThreadProofs ThreadCalm.
Import ListNotations.
Open Scope Z_scope.

(** ** what the allocator knows, one callback at a time *)
Definition same (a b : list text) : Prop := NoDup a /\ NoDup b /\ forall x, In x a <-> In x b.
Definition told_at (w : which) (a : at_line) (lm lp : list text) (s : shared) : Prop :=
  match a with
  | Compare new | Assign new =>
      match w with
      | Members => same new lm /\ NoDup (h_members s) /\ same (h_partitions s) lp
      | Partitions => same new lp /\ NoDup (h_partitions s) /\ same (h_members s) lm
      end
  | _ => same (h_members s) lm /\ same (h_partitions s) lp
  end.
Definition told_inv (lm lp : list text) (s : shared) : Prop :=
  match h_threads s with
  | [] => same (h_members s) lm /\ same (h_partitions s) lp
  | [(k, (w, a))] => told_at w a lm lp s
  | _ => False
  end.
Lemma told_step name lm lp s ev : told_inv lm lp s -> good_call good_name ev -> alone s ev ->
  told_inv (match ev with TCall _ Members new => mkset new | _ => lm end) (match ev with TCall _ Partitions new => new | _ => lp end) (tstep naive_allocator name s ev).
Proof.
  unfold told_inv. intros V GC AL. destruct ev as [k w new|k|t| |]; cbn [tstep].
  - cbn in AL. unfold busy_watch. rewrite AL in *. cbn [existsb dmem dget orb]. unfold move. cbn [set_threads h_threads]. rewrite AL. cbn [dset told_at]. destruct V as [[VM X] [VP Y]]. destruct w; cbn.
    + split; [|split; [exact VM|now split]]. split; [apply nodup_mkset|]. split; [apply nodup_mkset|reflexivity].
    + split; [|split; [exact VP|now split]]. destruct GC as [ND _]. split; [exact ND|]. split; [exact ND|reflexivity].
  - destruct (h_threads s) as [|[k0 [w a]] [|x l]] eqn:T; [cbn [dget]; now rewrite T| |destruct V]. cbn [dget]. change (eqb k0 k) with (k0 =? k). destruct (Z.eqb_spec k0 k) as [->|NE]; [|now rewrite T].
    assert (DS : forall y, dset [(k, (w, a))] k y = [(k, y)]) by (intros y; cbn; now rewrite Z.eqb_refl). assert (DD : ddel [(k, (w, a))] k = []) by (cbn; now rewrite Z.eqb_refl).
    destruct a as [new|new| |ms|ms ps| |id n i|id n i t|]; cbn [run_callback].
    + destruct (set_eqb new (view w s)) eqn:E; unfold ends, move; cbn [set_threads h_threads]; rewrite T, ?DS, ?DD; [|exact V]. cbn [set_threads h_members h_partitions]. pose proof (set_same _ _ E) as X. destruct w; cbn [told_at view] in *; destruct V as ((N1 & N2 & S1) & N3 & S2).
      * split; [|exact S2]. split; [exact N3|]. split; [exact N2|]. intros x. rewrite <- X. apply S1.
      * split; [exact S2|]. split; [exact N3|]. split; [exact N2|]. intros x. rewrite <- X. apply S1.
    + unfold move. destruct w; cbn [set_view set_threads h_threads h_members h_partitions] in *; rewrite T, DS; cbn [told_at h_members h_partitions set_threads] in *; tauto.
    + unfold move. cbn [set_threads h_threads]. rewrite T, DS. exact V.
    + unfold move. cbn [set_threads h_threads]. rewrite T, DS. exact V.
    + destruct (naive_allocator ms ps); unfold move, raises; cbn [set_threads set_maps h_threads]; rewrite T, ?DS, ?DD; exact V.
    + destruct (alloc_in name (cur_map s)) as [[tm mp]|e]; unfold move, raises; cbn [set_threads put_cur set_maps h_threads]; rewrite T, ?DS, ?DD; exact V.
    + destruct (dget _ name) as [tm|]; [|now rewrite T]. destruct (negb _); [unfold raises; cbn [h_threads]; rewrite T, DD; exact V|]. destruct (nth_error _ _); unfold move; cbn [set_threads h_threads]; rewrite T, DS; exact V.
    + destruct (alloc_topic name (cur_map s) t) as [[tm mp]|e]; unfold move, raises; cbn [set_threads put_cur set_maps h_threads]; rewrite T, ?DS, ?DD; exact V.
    + unfold ends, cleared. cbn [set_threads h_threads]. rewrite T, DD. exact V.
  - destruct (h_consumer s); exact V.
  - unfold run_consumer. destruct (h_consumer s) as [|t|t ps|t n|t n|t]; try exact V.
    + destruct (alloc_topic name (cur_map s) t) as [[ps mp]|e]; exact V.
    + destruct (alloc_in name (cur_map s)) as [[tm mp]|e]; [destruct (dmem tm t)|]; exact V.
    + destruct (alloc_topic name (cur_map s) t) as [[ps mp]|e]; [destruct ps|]; exact V.
    + destruct (alloc_topic name (cur_map s) t) as [[ps mp]|e]; exact V.
  - destruct (h_consumer s); exact V.
Qed.
Lemma told_of_snoc w evs ev : told_of w (evs ++ [ev]) = told_of w evs ++ match ev, w with TCall _ Members new, Members => [mkset new] | TCall _ Partitions new, Partitions => [new] | _, _ => [] end.
Proof. unfold told_of. rewrite flat_map_app. cbn [flat_map app]. now rewrite app_nil_r. Qed.
Lemma trun_app name a b s : trun naive_allocator name (a ++ b) s = trun naive_allocator name b (trun naive_allocator name a s).
Proof. unfold trun. now rewrite fold_left_app. Qed.
Lemma told_run name evs : (forall ev, In ev evs -> good_call good_name ev) -> steps name alone evs threads_init -> told_inv (last_of Members evs) (last_of Partitions evs) (trun naive_allocator name evs threads_init).
Proof.
  induction evs as [|ev evs IH] using rev_ind; intros G S; [cbn; repeat split; auto; constructor|]. apply steps_app in S as [S1 [S2 _]]. specialize (IH (fun e H => G e (in_or_app _ _ _ (or_introl H))) S1).
  pose proof (told_step name _ _ _ ev IH (G ev (in_or_app _ _ _ (or_intror (in_eq _ _)))) S2) as X. rewrite trun_app. unfold last_of in *. rewrite !told_of_snoc.
  destruct ev as [k [|] new|k|t| |]; rewrite ?app_nil_r, ?last_snoc; exact X.
Qed.

(** When the callbacks do not overlap, the allocation is right whenever none of them runs, whatever the consumer does at
    the same time, and even if one ended with an exception: it is what the default allocator says of the members and
    partitions notified last.
    Missing for the English claim: callbacks that overlap (refuted below). *)
Theorem C96_one_at_a_time_partial : forall name evs, (forall ev, In ev evs -> good_call good_name ev) -> steps name alone evs threads_init ->
  let s := trun naive_allocator name evs threads_init in h_threads s = [] ->
  exists mp, naive_allocator (sorted (last_of Members evs)) (sorted (last_of Partitions evs)) = Ok mp /\ forall m t, allots s m t = gives_to mp m t.
Proof.
  intros name evs G S s T. pose proof (told_run name evs G S) as V. unfold told_inv in V. fold s in V. rewrite T in V. destruct V as [(N1 & N2 & E1) (N3 & N4 & E2)].
  destruct (single_run name evs _ single_init G S) as (_ & _ & R). fold s in R. rewrite T in R. destruct R as (mp & E & H). exists mp. split; [|exact H]. rewrite <- E. f_equal; apply sorted_canonical; auto; intros x; symmetry; auto.
Qed.
(** However the threads run, what consume() asks for is never a mixture: each time it is what the default allocator says
    of some members and some partitions the allocator was told of. *)
Theorem C96_never_torn : forall name evs t ps, In (t, ps) (h_fetched (trun naive_allocator name evs threads_init)) ->
  exists M P mp, In M (told_of Members evs) /\ In P (told_of Partitions evs) /\ naive_allocator (sorted M) (sorted P) = Ok mp /\ ps = gives_to mp name t.
Proof. intros name evs t ps H. destruct (v_f _ _ _ _ (run_whole name evs) t ps H) as (f & (M & P & mp & HM & HP & E & F) & ->). exists M, P, mp. rewrite <- F. auto. Qed.

Section Crossing.
  Variables (fn : list text -> list text -> res mapping) (name : text) (ms ps : list text) (mp : mapping).
  Hypothesis Q1 : set_eqb (mkset ms) [] = false.
  Hypothesis Q2 : set_eqb ps [] = false.
  Hypothesis E : fn (sorted (mkset ms)) (sorted ps) = Ok mp.
  Hypothesis E0 : fn (sorted (mkset ms)) (sorted []) = Ok (Mp true []).
  Hypothesis EQ : list_eqb name name = true.
  Lemma trun_cons e r s : trun fn name (e :: r) s = trun fn name r (tstep fn name s e).
  Proof. reflexivity. Qed.
  Ltac go := rewrite trun_cons; do 2 (match goal with |- trun _ _ ?r ?x = _ => let y := eval cbv -[mkset sorted set_eqb list_eqb text] in x in replace x with y by (cbv -[mkset sorted set_eqb list_eqb text]; reflexivity) end; rewrite ?Q1, ?Q2, ?E, ?E0; repeat match goal with |- context [@list_eqb ?A ?i name name] => replace (@list_eqb A i name name) with true by (symmetry; exact EQ) end).
  Lemma crossing_run : trun fn name [TCall 1 Members ms; TRun 1; TRun 1; TRun 1; TRun 1; TCall 2 Partitions ps; TRun 2; TRun 2; TRun 2; TRun 2; TRun 2; TRun 1; TRun 1; TRun 1; TRun 1; TRun 2; TRun 2; TRun 2] threads_init =
    Sh (mkset ms) ps [Mp false []; mp; Mp true [(name, [])]] [] [] Idle [] [] [].
  Proof.
    unfold threads_init. do 18 go. reflexivity.
  Qed.
End Crossing.
(** Callbacks that overlap leave a wrong allocation behind.  Whatever the members and partitions are: one callback for
    each, both end without an exception, nothing runs any more, the allocator knows all members and all partitions, and
    nobody has a partition.  It stays like this until the group changes again. *)
Definition crossing (ms ps : list text) : list tevent :=
  [TCall 1 Members ms; TRun 1; TRun 1; TRun 1; TRun 1; TCall 2 Partitions ps; TRun 2; TRun 2; TRun 2; TRun 2; TRun 2; TRun 1; TRun 1; TRun 1; TRun 1; TRun 2; TRun 2; TRun 2].
Theorem C96_overlap_refuted : forall name ms pairs, ms <> [] -> pairs <> [] -> NoDup pairs -> (forall t p, In (t, p) pairs -> no_colon t) ->
  let ps := map partition_string pairs in let evs := crossing ms ps in let s := trun naive_allocator name evs threads_init in
  calls evs = [(Members, ms); (Partitions, ps)] /\ h_threads s = [] /\ h_raised s = [] /\ h_members s = mkset ms /\ h_partitions s = ps /\ (forall m t, allots s m t = []) /\
  exists mp, naive_allocator (sorted (h_members s)) (sorted (h_partitions s)) = Ok mp /\ forall t p, In (t, p) pairs -> exists m, In m ms /\ In p (gives_to mp m t).
Proof.
  intros name ms pairs NM NP ND NC ps evs s. split; [reflexivity|].
  assert (GP : forall p, In p ps -> good_name p) by (intros p H; apply in_map_iff in H as ([t i] & <- & H); exists t, i; split; [eapply NC, H|reflexivity]).
  destruct (naive_total (sorted (mkset ms)) (sorted ps)) as [mp E]; [intros p H; exact (GP p (proj1 (in_sorted _ _) H))|].
  assert (E0 : forall l, naive_allocator l [] = Ok (Mp true [])) by reflexivity.
  assert (Q1 : set_eqb (mkset ms) [] = false). { destruct (set_eqb (mkset ms) []) eqn:X; [|reflexivity]. pose proof (set_same _ _ X) as Y. destruct ms as [|m ms]; [easy|]. destruct (proj1 (Y m)). apply in_mkset, in_eq. }
  assert (Q2 : set_eqb ps [] = false). { destruct (set_eqb ps []) eqn:X; [|reflexivity]. pose proof (set_same _ _ X) as Y. unfold ps in Y. destruct pairs as [|m l]; [easy|]. destruct (proj1 (Y (partition_string m))). apply in_eq. }
  assert (S : s = Sh (mkset ms) ps [Mp false []; mp; Mp true [(name, [])]] [] [] Idle [] [] []).
  { apply crossing_run; [exact Q1|exact Q2|exact E|apply E0|now apply list_eqb_spec]. }
  rewrite S. cbn [h_threads h_raised h_members h_partitions]. split; [reflexivity|]. split; [reflexivity|]. split; [reflexivity|]. split; [reflexivity|]. split.
  - intros m t. unfold allots, cur_map. cbn [h_maps last]. unfold gives_to. cbn [mp_tab dget]. destruct (eqb name m); reflexivity.
  - exists mp. split; [exact E|]. intros t p H.
    destruct (good_pairs (sorted ps)) as (pairs' & EP & NP' & NC'); [eapply Permutation_NoDup; [symmetry; apply sorted_perm|]|intros q Hq; exact (GP q (proj1 (in_sorted _ _) Hq))|].
    + unfold ps. apply FinFun.Injective_map_NoDup; [|exact ND]. intros [t1 p1] [t2 p2] X. apply C56_names_distinct in X as [-> ->]. reflexivity.
    + destruct (C45_exact_even_cover (sorted (mkset ms)) pairs') as (mp' & E' & A & _); auto; [eapply Permutation_NoDup; [symmetry; apply sorted_perm|apply nodup_mkset]|intros X|].
      { destruct ms as [|m l]; [easy|]. apply (in_nil (a := m)). rewrite <- X. apply in_sorted, in_mkset, in_eq. }
      rewrite <- EP, E in E'. injection E' as <-. assert (IN : In (t, p) pairs').
      { assert (X : In (partition_string (t, p)) (sorted ps)) by (apply in_sorted; unfold ps; now apply in_map). rewrite EP in X. apply in_map_iff in X as ([t' p'] & X & Y). apply C56_names_distinct in X as [-> ->]. exact Y. }
      destruct (A t p IN) as (m & M & G & _). exists m. split; [|exact G]. exact (proj1 (in_mkset _ _) (proj1 (in_sorted _ _) M)).
Qed.

(** ** offsets are looked up before fetching *)
(** When callbacks keep apart from each other and from consume(), none of them raises, and consume() fetches only
    partitions whose offsets it has looked up since the allocation changed last.
    Missing for the English claim: callbacks that run while consume() does (refuted below). *)
Theorem C97_apart_partial : forall name evs, (forall ev, In ev evs -> good_call good_name ev) -> steps name apart_from_consume evs threads_init ->
  let s := trun naive_allocator name evs threads_init in
  h_raised s = [] /\
  (h_threads s = [] -> right s) /\
  (h_threads s = [] -> forall t ps, h_fetched (tstep naive_allocator name s URun) = h_fetched s ++ [(t, ps)] -> ps = allots s name t /\ forall p, In p ps -> In (t, p) (h_known s)).
Proof.
  intros name evs G S s. pose proof (calm_run name evs _ (calm_init name) G S) as [A B C D E]. fold s in A, B, C, D, E. split; [exact B|]. split; [intros T; destruct A as (_ & _ & R); now rewrite T in R|].
  intros T t ps F. rewrite T in D. cbn [tstep] in F. unfold run_consumer in F. unfold calm_consumer in E.
  assert (NO : h_fetched s <> h_fetched s ++ [(t, ps)]) by (intros X; apply (f_equal (@length _)) in X; rewrite app_length in X; cbn in X; lia).
  destruct (h_consumer s) as [|t0|t0 ps0|t0 n|t0 n|t0]; try (now destruct (NO F)).
  - destruct (alloc_topic name (cur_map s) t0) as [[ps1 mp]|e]; now destruct (NO F).
  - destruct (alloc_in name (cur_map s)) as [[tm mp]|e]; [destruct (dmem tm t0)|]; now destruct (NO F).
  - destruct (alloc_topic name (cur_map s) t0) as [[ps1 mp]|e]; [destruct ps1|]; now destruct (NO F).
  - destruct (alloc_topic name (cur_map s) t0) as [[ps1 mp]|e] eqn:X; [|now destruct (NO F)]. cbn in F. apply app_inv_head in F. injection F as <- <-. destruct (alloc_topic_gives _ _ _ _ _ X) as (-> & _). split; [reflexivity|]. intros p H. now apply D.
Qed.
(** what the consumer has been told of a topic does not change while it counts as synced and no callback is called *)
Lemma stays_synced name t evs : calls evs = [] -> forall s, h_threads s = [] -> smem (h_synced s) t = true -> (match h_consumer s with Look t' | Wait t' _ => t' <> t | _ => True end) ->
  (forall p, In (t, p) (ever_known name evs s) -> In (t, p) (h_known s)) /\
  let s' := trun naive_allocator name evs s in h_threads s' = [] /\ (h_maps s <> [] -> forall m u, allots s' m u = allots s m u).
Proof.
  induction evs as [|ev evs IH]; intros NC s T SY CO; [cbn [ever_known]; split; [intros p H; now rewrite app_nil_r in H|]; cbn; auto|].
  assert (NC' : calls evs = []) by (destruct ev; [discriminate NC|exact NC..]).
  assert (X : h_threads (tstep naive_allocator name s ev) = [] /\ smem (h_synced (tstep naive_allocator name s ev)) t = true /\ (match h_consumer (tstep naive_allocator name s ev) with Look t' | Wait t' _ => t' <> t | _ => True end) /\
    (forall p, In (t, p) (h_known (tstep naive_allocator name s ev)) -> In (t, p) (h_known s)) /\ (h_maps s <> [] -> like s (tstep naive_allocator name s ev))).
  { destruct ev as [k w new|k|u| |]; [discriminate NC| | | |]; cbn [tstep].
    - rewrite T. cbn [dget]. split; [exact T|]. split; [exact SY|]. split; [exact CO|]. split; [auto|]. intros _. apply like_refl.
    - destruct (h_consumer s) eqn:I; try (split; [exact T|]; split; [exact SY|]; split; [rewrite I; exact CO|]; split; [auto|]; intros _; apply like_refl).
      split; [exact T|]. split; [exact SY|]. split; [|split; [auto|intros _; apply like_consumer]]. cbn [set_consumer h_consumer]. destruct (smem (h_synced s) u) eqn:Y; [exact Logic.I|]. intros ->. congruence.
    - assert (L : h_maps s <> [] -> like s (run_consumer name s)) by (intros N; apply (like_run name s N)). revert L. unfold run_consumer. destruct (h_consumer s) as [|u|u ps|u n|u n|u] eqn:I; intros L; try (split; [exact T|]; split; [exact SY|]; split; [rewrite I; exact CO|]; split; [auto|exact L]).
      + destruct (alloc_topic name (cur_map s) u) as [[ps mp]|e]; (split; [exact T|]); (split; [exact SY|]); (split; [first [exact CO|exact Logic.I]|]); (split; [auto|exact L]).
      + destruct (alloc_in name (cur_map s)) as [[tm mp]|e]; [destruct (dmem tm u); [|destruct n]|]; (split; [exact T|]); (split; [exact SY|]); (split; [first [exact CO|exact Logic.I]|]); (split; [auto|exact L]).
      + destruct (alloc_topic name (cur_map s) u) as [[ps mp]|e]; [destruct ps; [destruct n|]|]; (split; [exact T|]); (split; [exact SY|]); (split; [first [exact CO|exact Logic.I]|]); (split; [auto|exact L]).
      + destruct (alloc_topic name (cur_map s) u) as [[ps mp]|e]; (split; [exact T|]); (split; [exact SY|]); (split; [first [exact CO|exact Logic.I]|]); (split; [auto|exact L]).
    - destruct (h_consumer s) as [|u|u ps|u n|u n|u] eqn:I; try (split; [exact T|]; split; [exact SY|]; split; [rewrite I; exact CO|]; split; [auto|]; intros _; apply like_refl).
      split; [exact T|]. split; [cbn [set_consumer set_synced h_synced]; apply smem_In, in_sadd; right; now apply smem_In|]. split; [exact Logic.I|]. split; [|intros _; repeat split; auto].
      intros p H. cbn [set_consumer set_synced h_known] in H. apply in_app_iff in H as [H|H]; [exact H|]. apply in_map_iff in H as (q & H & _). injection H as H _. now destruct CO. }
  destruct X as (X1 & X2 & X3 & X4 & X5). destruct (IH NC' _ X1 X2 X3) as (Y1 & Y2 & Y3). split.
  - intros p H. cbn [ever_known] in H. apply in_app_iff in H as [H|H]; [exact H|]. apply X4, Y1, H.
  - change (trun naive_allocator name (ev :: evs) s) with (trun naive_allocator name evs (tstep naive_allocator name s ev)). split; [exact Y2|]. intros N m u. rewrite Y3 by now apply X5. now apply X5.
Qed.

Definition nm : text := txt "a".
Definition tp : text := txt "t".
Definition both : list text := [part_name tp 0; part_name tp 1].
(** consumer a with b in its group: a has partition 0 of topic t, has looked it up and fetched it *)
Definition paired : list tevent :=
  [TCall 1 Members [nm; txt "b"]] ++ repeat (TRun 1) 8 ++ [TCall 1 Partitions both] ++ repeat (TRun 1) 12 ++ [UCall tp; URun; UAnswer; URun; URun; URun].
(** b leaves; between the new mapping and on_rebalance() consume(t) runs *)
Definition in_window : list tevent := paired ++ [TCall 1 Members [nm]] ++ repeat (TRun 1) 5 ++ [UCall tp; URun; URun; URun] ++ repeat (TRun 1) 5.
(** b leaves; between two topics of rebalance()'s loop consume() looks up topic u, of which a has nothing *)
Definition in_loop : list tevent := paired ++ [TCall 1 Members [nm]] ++ repeat (TRun 1) 7 ++ [UCall (txt "u"); URun] ++ repeat (TRun 1) 3 ++ [UAnswer; URun; URun; URun; URun].
Lemma good_both : NoDup both /\ forall p, In p both -> good_name p.
Proof.
  split; [repeat constructor; cbn; intuition discriminate|]. intros p [<-|[<-|[]]]; [exists tp, 0|exists tp, 1]; (split; [intros X; vm_compute in X; intuition discriminate|reflexivity]).
Qed.
Lemma good_evs evs : forallb (fun ev => match ev with TCall _ Partitions new => list_eqb new both | _ => true end) evs = true -> forall ev, In ev evs -> good_call good_name ev.
Proof. intros H ev I. rewrite forallb_forall in H. specialize (H ev I). destruct ev as [k [|] new|k|t| |]; try exact Logic.I. apply list_eqb_spec in H. subst new. exact good_both. Qed.
Lemma not_among (l : list (text * Z)) t p : existsb (fun k => list_eqb (fst k) t && (snd k =? p)) l = false -> ~ In (t, p) l.
Proof. intros H J. assert (existsb (fun k => list_eqb (fst k) t && (snd k =? p)) l = true); [|congruence]. apply existsb_exists. exists (t, p). split; [exact J|]. cbn [fst snd]. rewrite Z.eqb_refl, andb_true_r. now apply list_eqb_spec. Qed.
(** A callback runs while consume() does: between the assignment of the new mapping and on_rebalance() consume() still
    takes the topic for synced and fetches a partition whose offset nobody ever looked up. *)
Theorem C97_window_refuted : exists name evs t ps p, (forall ev, In ev evs -> good_call good_name ev) /\ steps name alone evs threads_init /\
  let s := trun naive_allocator name evs threads_init in h_threads s = [] /\ h_raised s = [] /\ In (t, ps) (h_fetched s) /\ In p ps /\ ~ In (t, p) (ever_known name evs threads_init).
Proof.
  exists nm, in_window, tp, [0; 1], 1. split; [apply good_evs; vm_compute; reflexivity|]. split; [vm_compute; repeat split|]. cbv zeta. split; [vm_compute; reflexivity|]. split; [vm_compute; reflexivity|].
  split; [vm_compute; auto|]. split; [right; apply in_eq|]. apply not_among. vm_compute. reflexivity.
Qed.
(** A consume() of a topic the member has no partition of, while rebalance() goes through the topics, makes rebalance()
    fail ("dictionary changed size during iteration"); on_rebalance() is not called.  From then on, for as long as the group
    does not change, consume() fetches the new partition without ever looking its offset up. *)
Theorem C97_loop_refuted : exists name evs t p, (forall ev, In ev evs -> good_call good_name ev) /\ steps name alone evs threads_init /\
  let s := trun naive_allocator name evs threads_init in h_threads s = [] /\ h_raised s = [(Members, ERuntime)] /\ h_consumer s = Idle /\
  (forall more, calls more = [] -> let s' := trun naive_allocator name (evs ++ more) threads_init in In p (allots s' name t) /\ ~ In (t, p) (ever_known name more s) /\ ~ In (t, p) (ever_known name evs threads_init)) /\
  exists ps, h_fetched (trun naive_allocator name (evs ++ [UCall t; URun; URun; URun]) threads_init) = h_fetched s ++ [(t, ps)] /\ In p ps.
Proof.
  exists nm, in_loop, tp, 1. split; [apply good_evs; vm_compute; reflexivity|]. split; [vm_compute; repeat split|]. cbv zeta. split; [vm_compute; reflexivity|]. split; [vm_compute; reflexivity|]. split; [vm_compute; reflexivity|]. split.
  - intros more NC. rewrite trun_app. assert (T : h_threads (trun naive_allocator nm in_loop threads_init) = []) by (vm_compute; reflexivity). assert (Y : smem (h_synced (trun naive_allocator nm in_loop threads_init)) tp = true) by (vm_compute; reflexivity).
    assert (C : h_consumer (trun naive_allocator nm in_loop threads_init) = Idle) by (vm_compute; reflexivity). assert (K : h_known (trun naive_allocator nm in_loop threads_init) = [(tp, 0)]) by (vm_compute; reflexivity).
    assert (A : In 1 (allots (trun naive_allocator nm in_loop threads_init) nm tp)) by (vm_compute; auto). assert (N0 : length (h_maps (trun naive_allocator nm in_loop threads_init)) <> O) by (vm_compute; discriminate).
    assert (N : h_maps (trun naive_allocator nm in_loop threads_init) <> []) by (intros X; exact (N0 (f_equal (@length _) X))). clear N0.
    assert (E : ~ In (tp, 1) (ever_known nm in_loop threads_init)) by (apply not_among; vm_compute; reflexivity).
    revert T Y C K A N. generalize (trun naive_allocator nm in_loop threads_init). intros s T Y C K A N. destruct (stays_synced nm tp more NC s T Y) as (H1 & _ & H2); [now rewrite C|]. split; [rewrite (H2 N); exact A|]. split; [|exact E].
    intros H. apply H1 in H. rewrite K in H. destruct H as [H|[]]. discriminate H.
  - exists [0; 1]. split; [vm_compute; reflexivity|right; apply in_eq].
Qed.

(** ** examples *)
(** callbacks one at a time with consume() in between: the hypotheses of C96_one_at_a_time_partial and C97_apart_partial hold *)
Definition in_turn : list tevent := paired ++ [TCall 1 Members [nm]] ++ repeat (TRun 1) 10 ++ [UCall tp; URun; UAnswer; URun; URun].
Example C96_example : (forall ev, In ev in_turn -> good_call good_name ev) /\ steps nm alone in_turn threads_init /\ steps nm apart_from_consume in_turn threads_init /\
  let s := trun naive_allocator nm in_turn threads_init in h_threads s = [] /\ last_of Members in_turn = [nm] /\ last_of Partitions in_turn = both /\ allots s nm tp = [0; 1] /\ h_known s = [(tp, 0); (tp, 1)] /\
  h_fetched (tstep naive_allocator nm s URun) = h_fetched s ++ [(tp, [0; 1])].
Proof. split; [apply good_evs; vm_compute; reflexivity|]. split; [vm_compute; repeat split|]. split; [vm_compute; repeat split|]. vm_compute. repeat split. Qed.
(** the overlap of C96_overlap_refuted for the two partitions of topic t *)
Example C96_overlap_example : let s := trun naive_allocator nm (crossing [nm; txt "b"] both) threads_init in
  h_threads s = [] /\ h_members s = [nm; txt "b"] /\ h_partitions s = both /\ allots s nm tp = [] /\ allots s (txt "b") tp = [].
Proof. vm_compute. repeat split. Qed.

Print Assumptions C96_one_at_a_time_partial.
Print Assumptions C96_never_torn.
Print Assumptions C96_overlap_refuted.
Print Assumptions C97_apart_partial.
Print Assumptions C97_window_refuted.
Print Assumptions C97_loop_refuted.
