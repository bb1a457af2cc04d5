(** Proofs for C78 and C79. *)
From Coq Require Import ZArith Lia String List Bool Permutation Sorting.Sorted.
From Verif Require Import PyBase BaseLemmas Cluster Iterables Zookeeper SpecZk ZkProofs ZkAlloc PropsZk Group SpecGroupRun.
From Verif Require Export GroupAny.
Import ListNotations.
Open Scope Z_scope.

(** ** one allocator *)
Notation nrun := (arun naive_allocator true).

Definition fresh_or_default (s : allocator) : Prop := mp_default (a_mapping s) = true \/ a_members s = [] /\ a_partitions s = [].
Lemma allocation_default s : mp_default (a_mapping s) = true -> mp_default (a_mapping (snd (allocation s))) = true.
Proof. intros D. unfold allocation. destruct (dget _ _); [exact D|]. now rewrite D. Qed.
Lemma rebalance_default s : (forall p, In p (a_partitions s) -> good_name p) -> mp_default (a_mapping (snd (rebalance naive_allocator true s))) = true.
Proof.
  intros G. unfold rebalance. destruct (naive_total (sorted (a_members s)) (sorted (a_partitions s))) as (mp & E); [intros p H; apply G; now apply in_sorted|]. rewrite E.
  assert (D : mp_default mp = true). { unfold naive_allocator in E. destruct (allocate _ _ _ _) as [tab|]; [|discriminate E]. cbn in E. now injection E as <-. }
  match goal with |- context[allocation ?x] => pose proof (allocation_default x D) as A; destruct (allocation x) as [[r|e] s2] end; exact A.
Qed.
Lemma subset_nil_l (l : list text) : subset l [] = true -> l = [].
Proof. destruct l; [reflexivity|discriminate]. Qed.
Lemma default_step s ev : good_event good_name ev -> (forall p, In p (a_partitions s) -> good_name p) -> fresh_or_default s -> fresh_or_default (astep naive_allocator true s ev).
Proof.
  intros G GP F. destruct ev as [ms|[ps|]|st|]; cbn [astep].
  - unfold on_members. destruct (set_eqb _ _); [exact F|]. left. pose proof (rebalance_default (with_members (mkset ms) s) GP) as R. destruct (rebalance _ _ _) as [[r|e] s1]; exact R.
  - unfold on_partitions. destruct (set_eqb _ _); [exact F|]. left. pose proof (rebalance_default (with_partitions ps s) (proj2 G)) as R. destruct (rebalance _ _ _) as [[r|e] s1]; exact R.
  - exact F.
  - exact F.
  - destruct F as [F|F]; [left; now apply allocation_default|]. right. pose proof (allocation_gives s) as A. cbv zeta in A. destruct A as (_ & _ & -> & -> & _). exact F.
Qed.
Lemma default_run evs name : (forall ev, In ev evs -> good_event good_name ev) -> fresh_or_default (nrun evs (allocator_init name)).
Proof.
  induction evs as [|ev evs IH] using rev_ind; intros G; [now right|]. rewrite nrun_app. apply default_step; [apply G, in_or_app; right; now left| |apply IH; intros e H; apply G, in_or_app; now left].
  pose proof (arun_linv naive_allocator true good_name evs naive_total (fun ev H => G ev (in_or_app _ _ _ (or_introl H))) [] [] _ (linv_init naive_allocator good_name name)) as L. apply L.
Qed.
Notation client_ok := (@GroupAny.client_ok naive_allocator).
Notation ginv := (@GroupAny.ginv naive_allocator).
Notation ginv_init := (@GroupAny.ginv_init naive_allocator).
Notation run_inv := (@GroupAny.run_inv naive_allocator).
Lemma reach_inv g : greachable g -> exists used, ginv used g.
Proof. intros (evs & F & N & ->). exists (new_names evs). now apply run_inv. Qed.

(** ** what a settled client has *)
Lemma has_gives cl : mp_default (a_mapping (g_alloc cl)) = true ->
  (exists tm, fst (allocation (g_alloc cl)) = Ok tm) /\ forall t p, has cl t p <-> In p (gives_to (a_mapping (g_alloc cl)) (a_name (g_alloc cl)) t).
Proof.
  intros D. unfold has, allocation, gives_to. destruct (dget (mp_tab (a_mapping (g_alloc cl))) (a_name (g_alloc cl))) as [tm|]; [|rewrite D]; cbn [fst].
  - split; [eauto|]. intros t p. split; [intros (tm' & ps & E & H & Hp); injection E as <-; now rewrite H|]. destruct (dget tm t) as [ps|] eqn:E; [|intros []]. intros H. exists tm, ps. auto.
  - split; [eauto|]. intros t p. split; [intros (tm' & ps & E & H & Hp); injection E as <-; discriminate H|intros []].
Qed.
Lemma share used g c cl : ginv used g -> dget (g_clients g) c = Some cl -> settled cl -> g_children g <> [] \/ g_items g <> [] ->
  exists mp, naive_allocator (sorted (members g)) (sorted (g_items g)) = Ok mp /\ (exists tm, fst (allocation (g_alloc cl)) = Ok tm) /\
    forall t p, has cl t p <-> In p (gives_to mp (member_name cl) t).
Proof.
  intros I D (WM & WP) NE. destruct (gi_c _ _ I c cl D) as (evs & E & G & M & P & _). rewrite WM in M. rewrite WP in P. cbn [watch_ok] in M, P.
  pose proof (arun_linv naive_allocator true good_name evs naive_total G [] [] _ (linv_init naive_allocator good_name (a_name (g_alloc cl)))) as L. fold (last_members evs) in L. fold (last_partitions evs) in L. rewrite <- E in L.
  pose proof (default_run evs (a_name (g_alloc cl)) G) as F. rewrite <- E in F.
  assert (SM : sorted (a_members (g_alloc cl)) = sorted (members g)). { apply sorted_canonical; [apply L|apply I|]. intros x. rewrite (l_m _ _ _ _ _ L x). apply M. }
  assert (SP : sorted (a_partitions (g_alloc cl)) = sorted (g_items g)). { apply sorted_canonical; [apply L|apply I|]. intros x. rewrite (l_p _ _ _ _ _ L x). apply P. }
  assert (NN : ~ (a_members (g_alloc cl) = [] /\ a_partitions (g_alloc cl) = [])).
  { intros (A & B). destruct NE as [NE|NE]; apply NE.
    - destruct (g_children g) as [|[n s] ch] eqn:EC; [reflexivity|]. exfalso. apply (in_nil (a := n)). rewrite <- A. apply (l_m _ _ _ _ _ L n), M. now left.
    - destruct (g_items g) as [|n it] eqn:EC; [reflexivity|]. exfalso. apply (in_nil (a := n)). rewrite <- B. apply (l_p _ _ _ _ _ L n), P. now left. }
  destruct F as [F|F]; [|contradiction]. destruct (has_gives cl F) as (R & H).
  destruct (l_map _ _ _ _ _ L) as [(A & B & _)|(mp & E1 & X)]; [destruct NN; now split|]. rewrite SM, SP in E1. exists mp. split; [exact E1|]. split; [exact R|]. intros t p. rewrite H, X. reflexivity.
Qed.
Lemma cover g used : ginv used g -> g_children g <> [] -> exists mp, naive_allocator (sorted (members g)) (sorted (g_items g)) = Ok mp /\
  (forall t p, In (partition_string (t, p)) (g_items g) -> no_colon t -> exists m, In m (members g) /\ In p (gives_to mp m t) /\ forall m', In p (gives_to mp m' t) -> m' = m) /\
  (forall m t p, In p (gives_to mp m t) -> In m (members g) /\ In (partition_string (t, p)) (g_items g)) /\
  (forall m1 m2, In m1 (members g) -> In m2 (members g) -> (load mp m1 <= load mp m2 + 1)%nat).
Proof.
  intros I NE. assert (NS : NoDup (sorted (g_items g))) by (eapply Permutation_NoDup; [symmetry; apply sorted_perm|apply I]). assert (NM : NoDup (sorted (members g))) by (eapply Permutation_NoDup; [symmetry; apply sorted_perm|apply I]).
  destruct (good_pairs _ NS) as (pairs & EP & NP & NC); [intros q Hq; apply (proj2 (gi_items _ _ I)); now apply in_sorted|].
  assert (NE' : sorted (members g) <> []). { destruct (g_children g) as [|[n s] ch] eqn:EC; [congruence|]. intros X. apply (in_nil (a := n)). rewrite <- X. apply in_sorted. unfold members. rewrite EC. now left. }
  destruct (C45_exact_even_cover _ pairs NM NE' NP NC) as (mp & E & A & _ & B & LD). rewrite <- EP in E. exists mp. split; [exact E|]. split; [|split].
  - intros t p H NCt. apply in_sorted in H. rewrite EP in H. apply in_map_iff in H as ((t' & p') & X & H). apply C56_names_distinct in X as (-> & ->). destruct (A t p H) as (m & Hm & Hp & U). exists m. split; [now apply in_sorted|]. auto.
  - intros m t p H. destruct (B m t p H) as (Hm & Hp). split; [now apply in_sorted|]. apply in_sorted. rewrite EP. now apply in_map.
  - intros m1 m2 H1 H2. apply LD; now apply in_sorted.
Qed.
