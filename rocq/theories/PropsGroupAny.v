(** Property theorem C107: groups with an allocator function of the user's.  Specification: SpecGroupAny.v. *)
From Coq Require Import ZArith Lia String List Bool Permutation Sorting.Sorted.
From Verif Require Import PyBase BaseLemmas Cluster Iterables Zookeeper SpecZk ZkProofs ZkAlloc PropsZk Group SpecGroupRun SpecGroupAny GroupAny GroupOpen.
Import ListNotations.
Open Scope Z_scope.

Section Any.
Variable fn : list text -> list text -> res mapping.
Hypothesis SO : shares_out fn.
Lemma any_total : ZkAlloc.total fn good_name.
Proof. intros ms ps G. apply (so_returns fn SO). exact G. Qed.

(** what is stored answers for each member *)
Definition keyed (s : allocator) : Prop :=
  mp_default (a_mapping s) = true \/ (forall m, In m (a_members s) -> dget (mp_tab (a_mapping s)) m <> None) \/ a_members s = [] /\ a_partitions s = [].
Lemma allocation_keyed s : keyed s -> keyed (snd (allocation s)).
Proof.
  intros K. unfold allocation. destruct (dget (mp_tab (a_mapping s)) (a_name s)); [exact K|]. destruct (mp_default (a_mapping s)) eqn:D; [|exact K]. left. reflexivity.
Qed.
Lemma rebalance_keyed s : NoDup (a_members s) -> (forall p, In p (a_partitions s) -> good_name p) -> keyed (snd (rebalance fn true s)).
Proof.
  intros N G. unfold rebalance. destruct (any_total (sorted (a_members s)) (sorted (a_partitions s))) as (mp & E); [intros p H; apply G; now apply in_sorted|]. rewrite E.
  match goal with |- context[allocation ?x] => set (s1 := x) end.
  assert (K : keyed s1).
  { destruct (mp_default mp) eqn:D; [left; exact D|]. right. left. intros m Hm. destruct (so_keyed fn SO (sorted (a_members s)) _ mp (Permutation_NoDup (Permutation_sym (sorted_perm _)) N) E m) as [H|H]; [now apply in_sorted|exact H|congruence]. }
  pose proof (allocation_keyed s1 K) as A. destruct (allocation s1) as [[r|e] s2]; exact A.
Qed.
Lemma keyed_step s ev : good_event good_name ev -> NoDup (a_members s) -> (forall p, In p (a_partitions s) -> good_name p) -> keyed s -> keyed (astep fn true s ev).
Proof.
  intros G N GP F. destruct ev as [ms|[ps|]|st|]; cbn [astep].
  - unfold on_members. destruct (set_eqb _ _); [exact F|]. pose proof (rebalance_keyed (with_members (mkset ms) s) (nodup_mkset ms) GP) as R. destruct (rebalance _ _ _) as [[r|e] s1]; exact R.
  - unfold on_partitions. destruct (set_eqb _ _); [exact F|]. pose proof (rebalance_keyed (with_partitions ps s) N (proj2 G)) as R. destruct (rebalance _ _ _) as [[r|e] s1]; exact R.
  - exact F.
  - exact F.
  - now apply allocation_keyed.
Qed.
Lemma keyed_run evs name : (forall ev, In ev evs -> good_event good_name ev) -> keyed (arun fn true evs (allocator_init name)).
Proof.
  induction evs as [|ev evs IH] using rev_ind; intros G; [right; right; now split|]. rewrite nrun_app. assert (G' : forall e, In e evs -> good_event good_name e) by (intros e H; apply G, in_or_app; now left).
  pose proof (arun_linv fn true good_name evs any_total G' [] [] _ (linv_init fn good_name name)) as L.
  apply keyed_step; [apply G, in_or_app; right; now left|apply L|apply L|now apply IH].
Qed.

Lemma has_given cl t p : has cl t p <-> In p (gives_to (a_mapping (g_alloc cl)) (a_name (g_alloc cl)) t).
Proof.
  unfold has, allocation, gives_to. destruct (dget (mp_tab (a_mapping (g_alloc cl))) (a_name (g_alloc cl))) as [tm|]; cbn [fst].
  - split; [intros (tm' & ps & E & H & Hp); injection E as <-; now rewrite H|]. destruct (dget tm t) as [ps|] eqn:E; [|intros []]. intros H. exists tm, ps. auto.
  - split; [|intros []]. intros (tm' & ps & E & H & Hp). destruct (mp_default _); [|discriminate E]. cbn in E. injection E as <-. discriminate H.
Qed.
Lemma share_any used g c cl : @ginv fn used g -> dget (g_clients g) c = Some cl -> settled cl -> g_children g <> [] ->
  exists mp, fn (sorted (members g)) (sorted (g_items g)) = Ok mp /\ (forall t p, has cl t p <-> In p (gives_to mp (member_name cl) t)) /\
    (In (member_name cl) (members g) -> exists tm, fst (allocation (g_alloc cl)) = Ok tm).
Proof.
  intros I D (WM & WP) NE. destruct (gi_c _ _ I c cl D) as (evs & E & G & M & P & _). rewrite WM in M. rewrite WP in P. cbn [watch_ok] in M, P.
  pose proof (arun_linv fn true good_name evs any_total G [] [] _ (linv_init fn good_name (a_name (g_alloc cl)))) as L. fold (last_members evs) in L. fold (last_partitions evs) in L. rewrite <- E in L.
  pose proof (keyed_run evs (a_name (g_alloc cl)) G) as F. rewrite <- E in F.
  assert (SM : sorted (a_members (g_alloc cl)) = sorted (members g)). { apply sorted_canonical; [apply L|apply I|]. intros x. rewrite (l_m _ _ _ _ _ L x). apply M. }
  assert (SP : sorted (a_partitions (g_alloc cl)) = sorted (g_items g)). { apply sorted_canonical; [apply L|apply I|]. intros x. rewrite (l_p _ _ _ _ _ L x). apply P. }
  assert (NN : a_members (g_alloc cl) <> []).
  { intros A. apply NE. destruct (g_children g) as [|[n s] ch] eqn:EC; [reflexivity|]. exfalso. apply (in_nil (a := n)). rewrite <- A. apply (l_m _ _ _ _ _ L n), M. now left. }
  destruct (l_map _ _ _ _ _ L) as [(A & _)|(mp & E1 & X)]; [now destruct NN|]. rewrite SM, SP in E1. exists mp. split; [exact E1|]. split; [intros t p; rewrite has_given, X; reflexivity|].
  intros H. assert (K : In (a_name (g_alloc cl)) (a_members (g_alloc cl))) by (apply (l_m _ _ _ _ _ L), M; exact H).
  unfold allocation. destruct (dget (mp_tab (a_mapping (g_alloc cl))) (a_name (g_alloc cl))) as [tm|] eqn:DG; [cbn; eauto|].
  destruct F as [F|[F|(F & _)]]; [rewrite F; cbn; eauto|now destruct (F _ K)|contradiction].
Qed.
Lemma cover_any used g : @ginv fn used g -> g_children g <> [] -> forall mp, fn (sorted (members g)) (sorted (g_items g)) = Ok mp ->
  (forall t p, In (partition_string (t, p)) (g_items g) -> exists m, In m (members g) /\ In p (gives_to mp m t) /\ forall m', In p (gives_to mp m' t) -> m' = m) /\
  (forall m t p, In p (gives_to mp m t) -> In m (members g) /\ In (partition_string (t, p)) (g_items g)).
Proof.
  intros I NE mp E. assert (NS : NoDup (sorted (g_items g))) by (eapply Permutation_NoDup; [symmetry; apply sorted_perm|apply I]). assert (NM : NoDup (sorted (members g))) by (eapply Permutation_NoDup; [symmetry; apply sorted_perm|apply I]).
  assert (NE' : sorted (members g) <> []). { destruct (g_children g) as [|[n s] ch] eqn:EC; [congruence|]. intros X. apply (in_nil (a := n)). rewrite <- X. apply in_sorted. unfold members. rewrite EC. now left. }
  assert (NA : forall p, In p (sorted (g_items g)) -> named p) by (intros q Hq; apply (proj2 (gi_items _ _ I)); now apply in_sorted). split.
  - intros t p H. destruct (so_each fn SO _ _ mp NM NE' NS NA E t p) as (m & Hm & Hp & U); [now apply in_sorted|]. exists m. split; [now apply in_sorted|]. auto.
  - intros m t p H. destruct (so_only fn SO _ _ mp NM NS NA E m t p H) as (Hm & Hp). split; now apply in_sorted.
Qed.
End Any.

(** * C107 Allocator functions of the user's *)
(** members that have noticed every change can read what they have, and no two clients that have have the same partition *)
Theorem C107_disjoint : forall fn, shares_out fn -> forall g, reaches fn g -> g_children g <> [] -> forall c1 c2 cl1 cl2,
  dget (g_clients g) c1 = Some cl1 -> settled cl1 -> dget (g_clients g) c2 = Some cl2 -> settled cl2 ->
  (In (member_name cl1) (members g) -> exists tm, fst (allocation (g_alloc cl1)) = Ok tm) /\
  forall t p, has cl1 t p -> In (partition_string (t, p)) (g_items g) /\ In (member_name cl1) (members g) /\ (has cl2 t p -> c1 = c2).
Proof.
  intros fn SO g R NE c1 c2 cl1 cl2 D1 S1 D2 S2. destruct (@reached_inv fn g R) as (used & I).
  destruct (share_any fn SO used g c1 cl1 I D1 S1 NE) as (mp & E & H1 & RD). destruct (share_any fn SO used g c2 cl2 I D2 S2 NE) as (mp2 & E2 & H2 & _).
  rewrite E in E2. injection E2 as <-. destruct (cover_any fn SO used g I NE mp E) as (A & B). split; [exact RD|].
  intros t p H. apply H1 in H. destruct (B _ _ _ H) as (M & P). split; [exact P|]. split; [exact M|]. intros H'. apply H2 in H'.
  apply (gi_names _ _ I c1 c2 cl1 cl2 D1 D2). destruct (A t p P) as (m & _ & _ & U). fold (member_name cl1) (member_name cl2). now rewrite (U _ H), (U _ H').
Qed.
(** and when all members have, every partition of the shared set has exactly one reader *)
Theorem C107_exact_cover : forall fn, shares_out fn -> forall g, reaches fn g -> g_children g <> [] ->
  (forall n, In n (members g) -> exists c cl, dget (g_clients g) c = Some cl /\ member_name cl = n /\ settled cl) ->
  forall t p, In (partition_string (t, p)) (g_items g) ->
  exists c cl, dget (g_clients g) c = Some cl /\ has cl t p /\
    forall c' cl', dget (g_clients g) c' = Some cl' -> settled cl' -> has cl' t p -> c' = c.
Proof.
  intros fn SO g R NE ALL t p P. destruct (@reached_inv fn g R) as (used & I). destruct (any_total fn SO (sorted (members g)) (sorted (g_items g))) as (mp & E).
  { intros q Hq. apply (proj2 (gi_items _ _ I)). now apply in_sorted. }
  destruct (cover_any fn SO used g I NE mp E) as (A & _). destruct (A t p P) as (m & M & G & _). destruct (ALL m M) as (c & cl & D & N & S). exists c, cl. split; [exact D|].
  destruct (share_any fn SO used g c cl I D S NE) as (mp' & E' & H & _). rewrite E in E'. injection E' as <-. assert (HC : has cl t p) by (apply H; now rewrite N). split; [exact HC|].
  intros c' cl' D' S' H'. destruct (C107_disjoint fn SO g R NE c c' cl cl' D S D' S') as (_ & U). symmetry. now apply (U t p HC).
Qed.
(** partial: if the function's results answer for every name, start() raises only what a call to ZooKeeper raised, and it
    returns if it goes on being connected *)
Theorem C107_start_partial : forall fn, shares_out fn -> answers_all fn -> forall evs, (forall ev, In ev evs -> fine ev) -> NoDup (new_names evs) ->
  forall c cl, dget (g_clients (grun fn evs group_init)) c = Some cl ->
  (forall e, g_at cl = Failed e -> In (GRaise c e) evs) /\
  ((exists s, g_sid cl = Some s) -> a_connected (g_alloc cl) = true -> (forall e, g_at cl <> Failed e) -> g_at cl <> Stopped ->
   exists n cl', dget (g_clients (grun fn (evs ++ repeat (GStep c) n) group_init)) c = Some cl' /\ g_at cl' = Started).
Proof.
  intros fn SO AA evs F N c cl D. split.
  - intros e E. exact (fails_only fn (any_total fn SO) AA evs F N c cl e D E).
  - intros S C NF NS. exists (left_to_do (g_at cl)). destruct (steps_down fn (any_total fn SO) AA _ (grun fn evs group_init) c cl (ex_intro _ evs (conj F (conj N eq_refl))) D (conj S C) eq_refl NF NS) as (cl' & D' & A).
    exists cl'. split; [|exact A]. unfold grun in *. rewrite fold_left_app. exact D'.
Qed.

(** ** the default function as a plain dict with every member in it, as the documentation shows one *)
Definition plain_allocator (ms ps : list text) : res mapping :=
  bind (naive_allocator ms ps) (fun mp => Ok (Mp false (map (fun m => (m, match dget (mp_tab mp) m with Some tm => tm | None => [] end)) ms))).
Lemma dget_plain (f : text -> dict text (list Z)) ms m : dget (map (fun x => (x, f x)) ms) m = if existsb (fun x => eqb x m) ms then Some (f m) else None.
Proof.
  induction ms as [|x ms IH]; [reflexivity|]. cbn [map dget existsb]. destruct (eqb x m) eqn:E; cbn [orb]; [|exact IH]. apply eqb_true in E. now subst.
Qed.
Lemma plain_gives ms ps mp mp' : naive_allocator ms ps = Ok mp -> plain_allocator ms ps = Ok mp' -> forall m t, In m ms -> gives_to mp' m t = gives_to mp m t.
Proof.
  intros E E' m t H. unfold plain_allocator in E'. rewrite E in E'. cbn [bind] in E'. injection E' as <-. unfold gives_to. cbn [mp_tab]. rewrite dget_plain.
  replace (existsb (fun x => eqb x m) ms) with true; [now destruct (dget (mp_tab mp) m)|]. symmetry. apply existsb_exists. exists m. split; [exact H|apply eqb_refl].
Qed.
Lemma plain_only ms ps mp' m t p : plain_allocator ms ps = Ok mp' -> In p (gives_to mp' m t) -> In m ms.
Proof.
  unfold plain_allocator. destruct (naive_allocator ms ps) as [mp|e]; [|discriminate]. cbn [bind]. intros [= <-]. unfold gives_to. cbn [mp_tab]. rewrite dget_plain.
  destruct (existsb (fun x => eqb x m) ms) eqn:E; [|intros []]. apply existsb_exists in E as (x & H & E). apply eqb_true in E. now subst.
Qed.
Lemma naive_shares : shares_out naive_allocator.
Proof.
  constructor.
  - exact naive_total.
  - intros ms ps mp _ E m _. right. unfold naive_allocator in E. destruct (allocate _ _ _ _) as [tab|]; [|discriminate E]. cbn in E. now injection E as <-.
  - intros ms ps mp NM NE NP G E t p H. destruct (good_pairs ps NP G) as (pairs & -> & ND & NC). destruct (C45_exact_even_cover ms pairs NM NE ND NC) as (mp' & E' & A & _). rewrite E in E'. injection E' as <-.
    apply in_map_iff in H as ((t' & p') & X & H). apply C56_names_distinct in X as (-> & ->). exact (A t p H).
  - intros ms ps mp NM NP G E m t p H. destruct (good_pairs ps NP G) as (pairs & -> & ND & NC). destruct ms as [|m0 ms].
    + exfalso. unfold naive_allocator in E. destruct pairs as [|q pairs]; cbn in E; injection E as <-; destruct H.
    + destruct (C45_exact_even_cover (m0 :: ms) pairs NM ltac:(discriminate) ND NC) as (mp' & E' & _ & _ & B & _). rewrite E in E'. injection E' as <-. destruct (B m t p H) as (X & Y). split; [exact X|]. now apply in_map.
Qed.
Lemma plain_shares : shares_out plain_allocator.
Proof.
  constructor.
  - intros ms ps G. destruct (naive_total ms ps G) as (mp & E). unfold plain_allocator. rewrite E. cbn [bind]. eauto.
  - intros ms ps mp _ E m H. left. unfold plain_allocator in E. destruct (naive_allocator ms ps) as [mp0|e]; [|discriminate E]. cbn [bind] in E. injection E as <-. cbn [mp_tab]. rewrite dget_plain.
    replace (existsb (fun x => eqb x m) ms) with true; [discriminate|]. symmetry. apply existsb_exists. exists m. split; [exact H|apply eqb_refl].
  - intros ms ps mp NM NE NP G E t p H. destruct (naive_total ms ps G) as (mp0 & E0). destruct (so_each _ naive_shares ms ps mp0 NM NE NP G E0 t p H) as (m & Hm & Hp & U). exists m. split; [exact Hm|]. split; [now rewrite (plain_gives ms ps mp0 mp E0 E m t Hm)|].
    intros m' H'. apply U. now rewrite <- (plain_gives ms ps mp0 mp E0 E m' t (plain_only _ _ _ _ _ _ E H')).
  - intros ms ps mp NM NP G E m t p H. destruct (naive_total ms ps G) as (mp0 & E0). apply (so_only _ naive_shares ms ps mp0 NM NP G E0). now rewrite <- (plain_gives ms ps mp0 mp E0 E m t (plain_only _ _ _ _ _ _ E H)).
Qed.

(** Two consumers with that function: start() of the first returns; the second finds the first as a member, allocates before it
    is a member itself, asks the dict for its own name, and its start() raises KeyError, although no call to ZooKeeper failed.
    It is never a member. *)
Definition pair_start : list gevent :=
  [GNew 1 (txt "a") [(txt "t", [0; 1])]; GNew 2 (txt "b") [(txt "t", [0; 1])]; GConnect 1; GConnect 2] ++ repeat (GStep 1) 9 ++ [GLookM 1; GCallM 1; GLookP 1; GCallP 1] ++ repeat (GStep 2) 3.
Theorem C107_start_refuted : exists fn, shares_out fn /\ exists evs c cl, (forall ev, In ev evs -> fine ev) /\ NoDup (new_names evs) /\
  (forall c' e, ~ In (GRaise c' e) evs) /\ dget (g_clients (grun fn evs group_init)) c = Some cl /\ g_at cl = Failed EKey /\
  members (grun fn evs group_init) = [txt "a"] /\ a_connected (g_alloc cl) = true.
Proof.
  exists plain_allocator. split; [exact plain_shares|]. exists pair_start, 2. eexists. split; [|split; [|split; [|vm_compute; repeat split]]].
  - intros ev H. repeat (destruct H as [<-|H]; [try exact I|]); [| |destruct H]; intros t ps [E|[]]; injection E as <- <-; unfold no_colon; cbn; intuition lia.
  - repeat constructor; cbn; intuition discriminate.
  - intros c' e H. repeat (destruct H as [H|H]; [discriminate H|]). destruct H.
Qed.
(** two consumers with that function that start at the same time, so that both look before either is a member: both start, and
    they share the partitions out *)
Definition at_once : list gevent :=
  [GNew 1 (txt "a") [(txt "t", [0; 1; 2])]; GNew 2 (txt "b") [(txt "t", [0; 1; 2])]; GConnect 1; GConnect 2] ++ repeat (GStep 1) 5 ++ repeat (GStep 2) 5 ++ repeat (GStep 1) 4 ++ repeat (GStep 2) 4 ++
  [GLookM 1; GCallM 1; GLookP 1; GCallP 1; GLookM 2; GCallM 2; GLookP 2; GCallP 2].
Example C107_example :
  shares_out plain_allocator /\ reaches plain_allocator (grun plain_allocator at_once group_init) /\
  let g := grun plain_allocator at_once group_init in
  members g = [txt "a"; txt "b"] /\
  map (fun c => match dget (g_clients g) c with Some cl => Some (g_at cl, (g_wm cl, g_wp cl), fst (allocation (g_alloc cl))) | None => None end) [1; 2] =
    [Some (Started, (Quiet, Quiet), Ok [(txt "t", [0; 2])]); Some (Started, (Quiet, Quiet), Ok [(txt "t", [1])])].
Proof.
  split; [exact plain_shares|]. split; [|vm_compute; split; reflexivity]. exists at_once. split; [|split; [|reflexivity]].
  - intros ev H. repeat (destruct H as [<-|H]; [try exact I|]); [| |destruct H]; intros t ps [E|[]]; injection E as <- <-; unfold no_colon; cbn; intuition lia.
  - repeat constructor; cbn; intuition discriminate.
Qed.
(** the default function is one of those [C107_start_partial] is about *)
Example C107_default : shares_out naive_allocator /\ answers_all naive_allocator.
Proof. split; [exact naive_shares|]. intros ms ps mp E. unfold naive_allocator in E. destruct (allocate _ _ _ _) as [tab|]; [|discriminate E]. cbn in E. now injection E as <-. Qed.

Print Assumptions C107_disjoint.
Print Assumptions C107_exact_cover.
Print Assumptions C107_start_partial.
Print Assumptions C107_start_refuted.
