(** Proofs for C79, and how even the shares of C78 are. *)
From Coq Require Import ZArith Lia String List Bool Permutation.
From Verif Require Import PyBase BaseLemmas Cluster Iterables Zookeeper SpecZk ZkProofs ZkAlloc PropsZk Group SpecGroupRun SpecGroupAny GroupRuns.
From Verif Require Export GroupOpen.
Import ListNotations.
Open Scope Z_scope.

(** ** how much a client has *)
Definition loaded (s : allocator) : Prop :=
  a_members s = [] /\ a_partitions s = [] \/ exists mp, naive_allocator (sorted (a_members s)) (sorted (a_partitions s)) = Ok mp /\ forall m, load (a_mapping s) m = load mp m.
Lemma allocation_load s m : load (a_mapping (snd (allocation s))) m = load (a_mapping s) m.
Proof.
  unfold allocation. destruct (dget _ _) as [tm|] eqn:E; [reflexivity|]. destruct (mp_default _); [|reflexivity]. cbn. unfold load. cbn.
  destruct (list_eq_dec Z.eq_dec m (a_name s)) as [->|N]; [now rewrite dget_dset_same, E|]. now rewrite dget_dset_other by congruence.
Qed.
Lemma rebalance_load s : (forall p, In p (a_partitions s) -> good_name p) -> loaded (snd (rebalance naive_allocator true s)).
Proof.
  intros G. pose proof (rebalance_spec naive_allocator true good_name s naive_total G) as R. cbv zeta in R. destruct R as (_ & M & P & _ & _ & mp & E & _).
  right. rewrite M, P. exists mp. split; [exact E|]. intros m. unfold rebalance. rewrite E. match goal with |- context[allocation ?x] => pose proof (allocation_load x m) as A; destruct (allocation x) as [[r|e] s2] end; exact A.
Qed.
Lemma loaded_step s ev : good_event good_name ev -> (forall p, In p (a_partitions s) -> good_name p) -> loaded s -> loaded (astep naive_allocator true s ev).
Proof.
  intros G GP F. destruct ev as [ms|[ps|]|st|]; cbn [astep].
  - unfold on_members. destruct (set_eqb _ _); [exact F|]. pose proof (rebalance_load (with_members (mkset ms) s) GP) as R. destruct (rebalance _ _ _) as [[r|e] s1]; exact R.
  - unfold on_partitions. destruct (set_eqb _ _); [exact F|]. pose proof (rebalance_load (with_partitions ps s) (proj2 G)) as R. destruct (rebalance _ _ _) as [[r|e] s1]; exact R.
  - exact F.
  - exact F.
  - unfold loaded. pose proof (allocation_gives s) as A. cbv zeta in A. destruct A as (_ & _ & -> & -> & _). destruct F as [F|(mp & E & L)]; [now left|]. right. exists mp. split; [exact E|]. intros m. now rewrite allocation_load.
Qed.
Lemma loaded_run evs name : (forall ev, In ev evs -> good_event good_name ev) -> loaded (nrun evs (allocator_init name)).
Proof.
  induction evs as [|ev evs IH] using rev_ind; intros G; [now left|]. rewrite nrun_app. apply loaded_step; [apply G, in_or_app; right; now left| |apply IH; intros e H; apply G, in_or_app; now left].
  pose proof (arun_linv naive_allocator true good_name evs naive_total (fun ev H => G ev (in_or_app _ _ _ (or_introl H))) [] [] _ (linv_init naive_allocator good_name name)) as L. apply L.
Qed.
Lemma share_load used g c cl : ginv used g -> dget (g_clients g) c = Some cl -> settled cl -> g_children g <> [] \/ g_items g <> [] ->
  exists mp, naive_allocator (sorted (members g)) (sorted (g_items g)) = Ok mp /\ share_size cl = load mp (member_name cl).
Proof.
  intros I D S NE. destruct (share used g c cl I D S NE) as (mp & EM & (tm & ET) & _). exists mp. split; [exact EM|]. destruct S as (WM & WP). destruct (gi_c _ _ I c cl D) as (evs & E & G & M & P & _). rewrite WM in M. rewrite WP in P. cbn [watch_ok] in M, P.
  pose proof (arun_linv naive_allocator true good_name evs naive_total G [] [] _ (linv_init naive_allocator good_name (a_name (g_alloc cl)))) as L. fold (last_members evs) in L. fold (last_partitions evs) in L. rewrite <- E in L.
  pose proof (loaded_run evs (a_name (g_alloc cl)) G) as F. rewrite <- E in F.
  assert (SM : sorted (a_members (g_alloc cl)) = sorted (members g)). { apply sorted_canonical; [apply L|apply I|]. intros x. rewrite (l_m _ _ _ _ _ L x). apply M. }
  assert (SP : sorted (a_partitions (g_alloc cl)) = sorted (g_items g)). { apply sorted_canonical; [apply L|apply I|]. intros x. rewrite (l_p _ _ _ _ _ L x). apply P. }
  destruct F as [(A & B)|(mp' & E' & LD)].
  - exfalso. destruct NE as [NE|NE]; apply NE.
    + destruct (g_children g) as [|[n s] ch] eqn:EC; [reflexivity|]. exfalso. apply (in_nil (a := n)). rewrite <- A. apply (l_m _ _ _ _ _ L n), M. now left.
    + destruct (g_items g) as [|n it] eqn:EC; [reflexivity|]. exfalso. apply (in_nil (a := n)). rewrite <- B. apply (l_p _ _ _ _ _ L n), P. now left.
  - rewrite SM, SP, EM in E'. injection E' as <-. rewrite <- (LD (member_name cl)). clear. unfold share_size, load, member_name, allocation. destruct (dget (mp_tab (a_mapping (g_alloc cl))) (a_name (g_alloc cl))) as [t|]; [reflexivity|]. now destruct (mp_default (a_mapping (g_alloc cl))).
Qed.

Lemma naive_open : answers_all naive_allocator.
Proof. intros ms ps mp E. unfold naive_allocator in E. destruct (allocate _ _ _ _) as [tab|]; [|discriminate E]. cbn in E. now injection E as <-. Qed.
Notation reach_flags := (GroupOpen.reach_flags naive_allocator).
Notation reach_step := (GroupOpen.reach_step naive_allocator).
Notation client_good := (GroupOpen.client_good naive_allocator naive_total).
Notation members_connected := (GroupOpen.members_connected naive_allocator naive_total).
Notation items_connected := (GroupOpen.items_connected naive_allocator naive_total).
Notation members_total := (GroupOpen.members_total naive_allocator naive_total naive_open).
Notation items_total := (GroupOpen.items_total naive_allocator naive_total naive_open).
Notation step_down := (GroupOpen.step_down naive_allocator naive_total naive_open).
Notation steps_down := (GroupOpen.steps_down naive_allocator naive_total naive_open).
Notation fails_only := (GroupOpen.fails_only naive_allocator naive_total naive_open).

(** ** nobody joins twice *)
Definition late (p : progress) : bool := match p with AtAdd | Waiting | Started | Failed _ | Stopped => true | _ => false end.
Definition from (g : group) (cl cl' : client) : Prop :=
  member_name cl' = member_name cl /\ (late (g_at cl) = true -> late (g_at cl') = true /\ g_joined cl' = g_joined cl) /\ (g_sid cl' = g_sid cl \/ g_sid cl' = None \/ g_sid cl' = Some (g_next g)).
Definition traced (g g' : group) (new : option (Z * text)) : Prop :=
  (forall c cl', dget (g_clients g') c = Some cl' -> (exists cl, dget (g_clients g) c = Some cl /\ from g cl cl') \/ new = Some (c, member_name cl')) /\
  (forall n, dget (g_children g) n = None -> dget (g_children g') n = None \/ exists c cl, dget (g_clients g) c = Some cl /\ member_name cl = n /\ late (g_at cl) = false) /\
  g_next g <= g_next g'.
Lemma from_refl g cl : from g cl cl.
Proof. repeat split; auto. Qed.
Lemma traced_refl g : traced g g None.
Proof. split; [|split; [auto|lia]]. intros c cl H. left. exists cl. split; [exact H|apply from_refl]. Qed.
Lemma traced_put g c cl cl' : dget (g_clients g) c = Some cl -> from g cl cl' -> traced g (put_client c cl' g) None.
Proof.
  intros D F. split; [|split; [auto|cbn; lia]]. intros c' k H. left. cbn in H. destruct (Z.eq_dec c' c) as [->|NE]; [rewrite dget_dset_same in H; injection H as <-; eauto|].
  rewrite dget_dset_other in H by congruence. exists k. split; [exact H|apply from_refl].
Qed.
Lemma traced_children g g' ch : traced g g' None -> (forall n, dget (g_children g) n = None -> dget ch n = None \/ exists c cl, dget (g_clients g) c = Some cl /\ member_name cl = n /\ late (g_at cl) = false) -> traced g (put_children ch g') None.
Proof.
  intros (A & _ & C) B. split; [|split; [exact B|exact C]]. intros c k H. cbn in H. unfold members_change in H. rewrite (dget_map (fun x => set_wm (fires (g_wm x)) x)) in H. destruct (dget (g_clients g') c) as [k0|] eqn:E; [|discriminate H]. injection H as <-. exact (A c k0 E).
Qed.
Lemma traced_items g g' it : traced g g' None -> traced g (put_items it g') None.
Proof.
  intros (A & B & C). split; [|split; [exact B|exact C]]. intros c k H. cbn in H. unfold items_change in H. rewrite (dget_map (fun x => set_wp (fires (g_wp x)) x)) in H. destruct (dget (g_clients g') c) as [k0|] eqn:E; [|discriminate H]. injection H as <-. exact (A c k0 E).
Qed.
Lemma members_name ms s : a_name (snd (on_members naive_allocator true ms s)) = a_name s.
Proof. exact (step_name naive_allocator true s (EvMembers ms)). Qed.
Lemma items_name ps s : a_name (snd (on_partitions naive_allocator true ps s)) = a_name s.
Proof. exact (step_name naive_allocator true s (EvPartitions ps)). Qed.
Lemma step_traced used g ev : ginv used g -> traced g (gstep naive_allocator g ev) (match ev with GNew c name _ => Some (c, name) | _ => None end).
Proof.
  intros I. destruct ev as [c name seed|c|c e|c|c|sid|c|c|c|c|c|items|c|c]; try (cbn [gstep]; destruct (dget (g_clients g) c) as [cl|] eqn:D; [|apply traced_refl]).
  - cbn [gstep]. destruct (dmem _ _); [split; [|split; [auto|lia]]; intros c' cl H; left; exists cl; split; [exact H|apply from_refl]|]. split; [|split; [auto|cbn; lia]]. intros c' k H. cbn in H.
    destruct (Z.eq_dec c' c) as [->|NE]; [rewrite dget_dset_same in H; injection H as <-; now right|]. rewrite dget_dset_other in H by congruence. left. exists k. split; [exact H|apply from_refl].
  - unfold start_step. pose proof (gi_j _ _ I c cl D) as J. destruct (g_sid cl) as [sid|] eqn:ES; [|apply traced_refl]. destruct (a_connected _); [|apply traced_refl]. unfold joined_ok in J.
    destruct (g_at cl) as [| | | | | |seen| | | |e|] eqn:EA; try apply traced_refl; try (apply (traced_put g c cl _ D); unfold from; cbn; rewrite ?EA; repeat split; auto; discriminate).
    + destruct (g_wm cl) as [| | |b ms]; try apply traced_refl. unfold saw_members. pose proof (members_name ms (g_alloc cl)) as N. destruct (on_members _ _ _ _) as [r a]. apply (traced_put g c cl _ D). unfold from. rewrite EA. repeat split; try exact N; try discriminate. now left.
    + destruct (g_wp cl) as [| | |b ps]; try apply traced_refl. unfold saw_items. pose proof (items_name (Some ps) (g_alloc cl)) as N. destruct (on_partitions _ _ _ _) as [r a]. apply (traced_put g c cl _ D). unfold from. rewrite EA. repeat split; try exact N; try discriminate. now left.
    + destruct seen as [owner|]; [destruct J as (_ & [])|]. destruct J as (_ & J & _). unfold dmem. rewrite J. apply traced_children.
      * apply (traced_put g c cl _ D). unfold from. rewrite EA. repeat split; try discriminate. now left.
      * intros n H. destruct (list_eq_dec Z.eq_dec n (a_name (g_alloc cl))) as [->|NE]; [right; exists c, cl; rewrite EA; auto|]. left. rewrite dget_dset_other by congruence. exact H.
    + assert (T : traced g (put_client c (set_at Waiting cl) g) None) by (apply (traced_put g c cl _ D); unfold from; cbn; repeat split; auto). destruct (subset _ _); [exact T|now apply traced_items].
    + destruct (_ && _); [|apply traced_refl]. apply (traced_put g c cl _ D). unfold from. cbn. repeat split; auto.
  - assert (T : traced g (put_client c (set_at (Failed e) cl) g) None) by (apply (traced_put g c cl _ D); unfold from; cbn; repeat split; auto). destruct (g_at cl); exact T || apply traced_refl.
  - assert (Q : forall s n, s = g_sid cl \/ s = Some (g_next g) -> g_next g <= n -> traced g (Grp (g_children g) (g_items g) (dset (g_clients g) c (set_wm (fires (g_wm cl)) (set_wp (fires (g_wp cl)) (on_state CONNECTED (set_sid s cl))))) n) None).
    { intros s n S L. destruct (traced_put g c cl (set_wm (fires (g_wm cl)) (set_wp (fires (g_wp cl)) (on_state CONNECTED (set_sid s cl)))) D) as (A & B & _); [|split; [exact A|split; [exact B|exact L]]]. unfold from. cbn. repeat split; auto. destruct S as [->| ->]; auto. }
    pose proof (Q (Some (g_next g)) (g_next g + 1) (or_intror eq_refl) ltac:(lia)) as Q1. pose proof (Q (g_sid cl) (g_next g) (or_introl eq_refl) ltac:(lia)) as Q2. destruct (g_at cl); try apply traced_refl; (destruct (g_sid cl) as [s|] eqn:ES; [|exact Q1]; cbv [on_state set_sid set_alloc g_sid g_alloc g_at g_seed g_wm g_wp g_joined set_wm set_wp put_client g_children g_items g_clients g_next] in Q2 |- *; destruct cl; cbn in *; subst; exact Q2).
  - apply (traced_put g c cl _ D). unfold from. cbn. repeat split; auto.
  - cbn [gstep]. cbv zeta. set (h := fun x => if match g_sid x with Some s => s =? sid | None => false end then on_state LOST (set_sid None x) else x).
    destruct (traced_children g g (without sid (g_children g)) (traced_refl g)) as (A & B & C). { intros n H. left. rewrite (dget_without _ _ _ (gi_ch _ _ I)), H. reflexivity. }
    split; [|split; [exact B|exact C]]. intros c k H. cbn [g_clients] in H. rewrite (dget_map h) in H. destruct (dget (g_clients (put_children (without sid (g_children g)) g)) c) as [k0|] eqn:E; [|discriminate H]. injection H as <-.
    destruct (A c k0 E) as [(k1 & D & F)|F]; [|discriminate F]. left. exists k1. split; [exact D|]. unfold h. destruct (match g_sid k0 with Some s => s =? sid | None => false end); [|exact F]. destruct F as (F1 & F2 & F3). split; [exact F1|]. split; [exact F2|]. cbn. auto.
  - destruct (a_connected _); [|apply traced_refl]. destruct (g_wm cl); try apply traced_refl. apply (traced_put g c cl _ D). unfold from. cbn. repeat split; auto.
  - destruct (in_party_call cl); [apply traced_refl|]. destruct (g_wm cl) as [| | |b ms]; try apply traced_refl. unfold saw_members. pose proof (members_name ms (g_alloc cl)) as N. destruct (on_members _ _ _ _) as [r a]. apply (traced_put g c cl _ D). unfold from. repeat split; try exact N; auto.
  - destruct (a_connected _); [|apply traced_refl]. destruct (g_wp cl); try apply traced_refl. apply (traced_put g c cl _ D). unfold from. cbn. repeat split; auto.
  - destruct (in_set_call cl); [apply traced_refl|]. destruct (g_wp cl) as [| | |b ps]; try apply traced_refl. unfold saw_items. pose proof (items_name (Some ps) (g_alloc cl)) as N. destruct (on_partitions _ _ _ _) as [r a]. apply (traced_put g c cl _ D). unfold from. repeat split; try exact N; auto.
  - apply (traced_put g c cl _ D). pose proof (step_name naive_allocator true (g_alloc cl) EvRead) as N. unfold from. repeat split; try exact N; auto.
  - cbn [gstep]. apply traced_items, traced_refl.
  - destruct (g_sid cl) as [sid|]; [|apply traced_refl]. destruct (a_connected _); [|apply traced_refl]. apply traced_children.
    + apply (traced_put g c cl _ D). unfold from. cbn. repeat split; auto.
    + intros n H. left. rewrite dget_without by (apply nodup_ddel, I). destruct (list_eq_dec Z.eq_dec n (a_name (g_alloc cl))) as [->|NE]; [now rewrite (dget_ddel_same _ _ (gi_ch _ _ I))|]. now rewrite dget_ddel_other, H by congruence.
  - cbn [gstep]. split; [|split; [auto|cbn; lia]]. intros c' k H. cbn in H. left. exists k. split; [|apply from_refl]. destruct (Z.eq_dec c' c) as [->|NE]; [rewrite dget_ddel_same in H by apply I; discriminate H|]. now rewrite dget_ddel_other in H by congruence.
Qed.
(** a client that joined in a session it no longer has *)
Definition lost (n : text) (s : Z) (g : group) : Prop :=
  dget (g_children g) n = None /\ s < g_next g /\ forall c cl, dget (g_clients g) c = Some cl -> member_name cl = n -> late (g_at cl) = true /\ g_joined cl = Some s /\ g_sid cl <> Some s.
Lemma lost_step used n s g ev : ginv used g -> (forall c seed, ev <> GNew c n seed) -> lost n s g -> lost n s (gstep naive_allocator g ev).
Proof.
  intros I NN (L1 & L2 & L3). destruct (step_traced used g ev I) as (A & B & C). split; [|split; [lia|]].
  - destruct (B n L1) as [H|(c & cl & D & N & X)]; [exact H|]. destruct (L3 c cl D N) as (Y & _). congruence.
  - intros c cl' H N. destruct (A c cl' H) as [(cl & D & F1 & F2 & F3)|X].
    + destruct (L3 c cl D) as (Y1 & Y2 & Y3); [congruence|]. destruct (F2 Y1) as (Z1 & Z2). split; [exact Z1|]. split; [congruence|]. destruct F3 as [F3|[F3|F3]]; rewrite F3; [exact Y3|discriminate|]. intros E. injection E as E. lia.
    + destruct ev as [c0 name seed| | | | | | | | | | | | |]; try discriminate X. injection X as -> X. destruct (NN c seed). congruence.
Qed.

Lemma never_back evs2 : forall evs1, (forall ev, In ev (evs1 ++ evs2) -> fine ev) -> NoDup (new_names (evs1 ++ evs2)) -> forall n s, In n (new_names evs1) ->
  lost n s (grun naive_allocator evs1 group_init) -> lost n s (grun naive_allocator (evs1 ++ evs2) group_init).
Proof.
  induction evs2 as [|ev evs2 IH]; intros evs1 F N n s U L; [now rewrite app_nil_r|]. replace (evs1 ++ ev :: evs2) with ((evs1 ++ [ev]) ++ evs2) in * by now rewrite <- app_assoc. apply IH; try assumption.
  - rewrite new_names_app. apply in_or_app. now left.
  - rewrite new_names_app in N. apply nodup_app_both in N as (N & _). rewrite new_names_app in N. apply nodup_app_both in N as (N1 & N2). unfold grun. rewrite fold_left_app. cbn [fold_left].
    apply (lost_step (new_names evs1)); [apply run_inv; [|exact N1]| |exact L].
    + intros e H. apply F, in_or_app. left. apply in_or_app. now left.
    + intros c seed ->. exact (N2 n (or_introl eq_refl) U).
Qed.
