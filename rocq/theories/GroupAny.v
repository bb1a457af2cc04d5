(** Invariants of a group of consumers, whatever its allocator function: proofs for C78, C79 and C107. *)
From Coq Require Import ZArith Lia String List Bool Permutation Sorting.Sorted.
From Verif Require Import PyBase BaseLemmas Cluster Iterables Zookeeper SpecZk ZkProofs ZkAlloc PropsZk Group SpecGroupRun SpecGroupAny.
Import ListNotations.
Open Scope Z_scope.

Section Any.
Context {fn : list text -> list text -> res mapping}.
Notation nrun := (arun fn true).
Lemma nrun_app a b s : nrun (a ++ b) s = nrun b (nrun a s).
Proof. unfold arun. apply fold_left_app. Qed.
Lemma last_m_app evs ev : last_members (evs ++ [ev]) = match ev with EvMembers ms => ms | _ => last_members evs end.
Proof. unfold last_members. now rewrite fold_left_app. Qed.
Lemma last_p_app evs ev : last_partitions (evs ++ [ev]) = match ev with EvPartitions (Some ps) => ps | _ => last_partitions evs end.
Proof. unfold last_partitions. now rewrite fold_left_app. Qed.

(** ** clients *)
Definition watch_ok (last now : list text) (w : watch) : Prop :=
  match w with Quiet => same_set last now | Got false s => same_set s now | _ => True end.
Definition got_ok (w : watch) : Prop := match w with Got _ s => NoDup s /\ forall p, In p s -> good_name p | _ => True end.
Definition client_ok (ch : dict text Z) (items : list text) (cl : client) : Prop :=
  exists evs, g_alloc cl = nrun evs (allocator_init (a_name (g_alloc cl))) /\ (forall ev, In ev evs -> good_event good_name ev) /\
    watch_ok (last_members evs) (dkeys ch) (g_wm cl) /\ watch_ok (last_partitions evs) items (g_wp cl) /\ got_ok (g_wp cl) /\
    (forall t ps, In (t, ps) (g_seed cl) -> no_colon t).
Definition joined_ok (ch : dict text Z) (cl : client) : Prop :=
  (forall s, dget ch (a_name (g_alloc cl)) = Some s -> g_joined cl = Some s /\ g_sid cl = Some s) /\
  match g_at cl with
  | Connecting | AtParty | AtPartyCall | AtSet | AtSetCall | AtJoin | AtJoinAct None => dget ch (a_name (g_alloc cl)) = None /\ g_joined cl = None
  | AtJoinAct (Some _) => False
  | AtAdd | Waiting | Started => exists s, g_joined cl = Some s /\ (g_sid cl = Some s -> dget ch (a_name (g_alloc cl)) = Some s)
  | Failed _ | Stopped => True
  end.
Record ginv (used : list text) (g : group) : Prop := {
  gi_c : forall c cl, dget (g_clients g) c = Some cl -> client_ok (g_children g) (g_items g) cl;
  gi_j : forall c cl, dget (g_clients g) c = Some cl -> joined_ok (g_children g) cl;
  gi_nd : NoDup (dkeys (g_clients g));
  gi_ch : NoDup (dkeys (g_children g));
  gi_items : NoDup (g_items g) /\ forall p, In p (g_items g) -> good_name p;
  gi_used : (forall n, In n (dkeys (g_children g)) -> In n used) /\ forall c cl, dget (g_clients g) c = Some cl -> In (a_name (g_alloc cl)) used;
  gi_names : forall c c' cl cl', dget (g_clients g) c = Some cl -> dget (g_clients g) c' = Some cl' -> a_name (g_alloc cl) = a_name (g_alloc cl') -> c = c';
  gi_sids : forall c c' cl cl' s, dget (g_clients g) c = Some cl -> dget (g_clients g) c' = Some cl' -> g_sid cl = Some s -> g_sid cl' = Some s -> c = c';
  gi_next : forall c cl s, dget (g_clients g) c = Some cl -> g_sid cl = Some s \/ g_joined cl = Some s -> s < g_next g
}.
Lemma dget_map {A} (f : A -> A) (cs : dict Z A) c : dget (map (fun kc => (fst kc, f (snd kc))) cs) c = option_map f (dget cs c).
Proof. induction cs as [|[k a] cs IH]; [reflexivity|]. cbn. destruct (k =? c); [reflexivity|exact IH]. Qed.
Lemma dkeys_map {A} (f : A -> A) (cs : dict Z A) : dkeys (map (fun kc => (fst kc, f (snd kc))) cs) = dkeys cs.
Proof. unfold dkeys. rewrite map_map. apply map_ext. reflexivity. Qed.

Lemma fires_ok ch ch' items cl : client_ok ch items cl -> client_ok ch' items (set_wm (fires (g_wm cl)) cl).
Proof. intros (evs & E & G & M & P & S). exists evs. split; [exact E|]. split; [exact G|]. split; [|exact (conj P S)]. destruct (g_wm cl); exact I. Qed.
Lemma fires_p_ok ch items items' cl : client_ok ch items cl -> client_ok ch items' (set_wp (fires (g_wp cl)) cl).
Proof.
  intros (evs & E & G & M & P & Q & S). exists evs. split; [exact E|]. split; [exact G|]. split; [exact M|]. split; [|split; [|exact S]].
  - cbn [set_wp g_wp]. destruct (g_wp cl); exact I.
  - cbn [set_wp g_wp]. destruct (g_wp cl); exact I || exact Q.
Qed.
Lemma other_ok ch items cl ev : client_ok ch items cl -> (match ev with EvState _ | EvRead => True | _ => False end) -> client_ok ch items (set_alloc (astep fn true (g_alloc cl) ev) cl).
Proof.
  intros (evs & E & G & M & P & Q & S) K. exists (evs ++ [ev]). cbn [set_alloc g_alloc g_wm g_wp g_seed]. rewrite step_name, nrun_app, <- E, last_m_app, last_p_app.
  split; [reflexivity|]. split; [|destruct ev as [ms|ps|st|]; try destruct K; repeat split; assumption || apply Q]. intros e H. apply in_app_or in H. destruct H as [H|[<-|[]]]; [now apply G|]. now destruct ev as [ms|ps|st|].
Qed.
Lemma saw_m_ok ch items cl b ms : client_ok ch items cl -> g_wm cl = Got b ms -> client_ok ch items (set_wm (called (g_wm cl)) (set_alloc (astep fn true (g_alloc cl) (EvMembers ms)) cl)).
Proof.
  intros (evs & E & G & M & P & Q & S) W. exists (evs ++ [EvMembers ms]). cbn [set_wm set_alloc g_alloc g_wm g_wp g_seed]. rewrite step_name, nrun_app, <- E, last_m_app, last_p_app.
  split; [reflexivity|]. split; [intros e H; apply in_app_or in H; destruct H as [H|[<-|[]]]; [now apply G|exact I]|]. split; [|repeat split; assumption || apply Q]. rewrite W in M |- *. destruct b; [exact I|exact M].
Qed.
Lemma saw_p_ok ch items cl b ps : client_ok ch items cl -> g_wp cl = Got b ps -> client_ok ch items (set_wp (called (g_wp cl)) (set_alloc (astep fn true (g_alloc cl) (EvPartitions (Some ps))) cl)).
Proof.
  intros (evs & E & G & M & P & Q & S) W. exists (evs ++ [EvPartitions (Some ps)]). cbn [set_wp set_alloc g_alloc g_wm g_wp g_seed]. rewrite step_name, nrun_app, <- E, last_m_app, last_p_app.
  rewrite W in P, Q |- *. split; [reflexivity|]. split; [intros e H; apply in_app_or in H; destruct H as [H|[<-|[]]]; [now apply G|exact Q]|]. split; [exact M|]. split; [|split; [|exact S]]; destruct b; exact I || exact P.
Qed.
Lemma look_m_ok ch items cl : client_ok ch items cl -> client_ok ch items (set_wm (Got false (dkeys ch)) cl).
Proof. intros (evs & E & G & M & P & S). exists evs. split; [exact E|]. split; [exact G|]. split; [intros x; reflexivity|exact (conj P S)]. Qed.
Lemma look_p_ok ch items cl : NoDup items /\ (forall p, In p items -> good_name p) -> client_ok ch items cl -> client_ok ch items (set_wp (Got false items) cl).
Proof. intros N (evs & E & G & M & P & Q & S). exists evs. split; [exact E|]. split; [exact G|]. split; [exact M|]. split; [intros x; reflexivity|]. split; [exact N|exact S]. Qed.
Lemma off_ok ch items cl : client_ok ch items cl -> client_ok ch items (set_wm Off (set_wp Off cl)).
Proof. intros (evs & E & G & M & P & Q & S). exists evs. repeat split; assumption. Qed.
(** fields that [client_ok] does not look at *)
Lemma same_ok ch items cl cl' : client_ok ch items cl -> g_alloc cl' = g_alloc cl -> g_wm cl' = g_wm cl -> g_wp cl' = g_wp cl -> g_seed cl' = g_seed cl -> client_ok ch items cl'.
Proof. intros (evs & H) A B C D. exists evs. now rewrite A, B, C, D. Qed.

(** ** groups *)
Lemma build used g g' : ginv used g -> g_next g' = g_next g -> NoDup (dkeys (g_clients g')) -> NoDup (dkeys (g_children g')) ->
  (NoDup (g_items g') /\ forall p, In p (g_items g') -> good_name p) -> (forall n, In n (dkeys (g_children g')) -> In n used) ->
  (forall c cl', dget (g_clients g') c = Some cl' -> exists cl, dget (g_clients g) c = Some cl /\ a_name (g_alloc cl') = a_name (g_alloc cl) /\ (g_sid cl' = g_sid cl \/ g_sid cl' = None) /\
     client_ok (g_children g') (g_items g') cl' /\ joined_ok (g_children g') cl' /\ (g_joined cl' = g_joined cl \/ g_joined cl' = g_sid cl)) ->
  ginv used g'.
Proof.
  intros I EN ND NC NI U F. constructor; try assumption.
  - intros c cl' H. destruct (F c cl' H) as (cl & _ & _ & _ & C & _). exact C.
  - intros c cl' H. destruct (F c cl' H) as (cl & _ & _ & _ & _ & J & _). exact J.
  - split; [exact U|]. intros c cl' H. destruct (F c cl' H) as (cl & D & N & _). rewrite N. exact (proj2 (gi_used _ _ I) c cl D).
  - intros c c' cl cl' H H' E. destruct (F c cl H) as (k & D & N & _). destruct (F c' cl' H') as (k' & D' & N' & _). rewrite N, N' in E. exact (gi_names _ _ I c c' k k' D D' E).
  - intros c c' cl cl' s H H' E E'. destruct (F c cl H) as (k & D & _ & [X|X] & _); [|congruence]. destruct (F c' cl' H') as (k' & D' & _ & [X'|X'] & _); [|congruence]. rewrite X in E. rewrite X' in E'. exact (gi_sids _ _ I c c' k k' s D D' E E').
  - intros c cl' s H E. rewrite EN. destruct (F c cl' H) as (k & D & _ & X & _ & _ & Y). apply (gi_next _ _ I c k s D). destruct E as [E|E]; [destruct X as [X|X]; [left|]; congruence|]. destruct Y as [Y|Y]; [right|left]; congruence.
Qed.
Lemma put_ok used g c cl cl' : ginv used g -> dget (g_clients g) c = Some cl -> a_name (g_alloc cl') = a_name (g_alloc cl) -> g_sid cl' = g_sid cl -> g_joined cl' = g_joined cl ->
  client_ok (g_children g) (g_items g) cl' -> joined_ok (g_children g) cl' -> ginv used (put_client c cl' g).
Proof.
  intros I D N S J C JO. apply (build used g); try apply I; [reflexivity|apply nodup_dset, I|]. intros c' k H. cbn [put_client g_clients g_children g_items] in *. destruct (Z.eq_dec c' c) as [->|NE].
  - rewrite dget_dset_same in H. injection H as <-. exists cl. auto 10.
  - rewrite dget_dset_other in H by congruence. exists k. split; [exact H|]. split; [reflexivity|]. split; [now left|]. split; [now apply (gi_c _ _ I c')|]. split; [now apply (gi_j _ _ I c')|]. now left.
Qed.
Lemma joined_same ch cl cl' : joined_ok ch cl -> a_name (g_alloc cl') = a_name (g_alloc cl) -> g_sid cl' = g_sid cl -> g_joined cl' = g_joined cl -> g_at cl' = g_at cl -> joined_ok ch cl'.
Proof. unfold joined_ok. intros H -> -> -> ->. exact H. Qed.
(** the znodes change as well *)
Lemma children_ok used g c cl cl' ch' : ginv used g -> dget (g_clients g) c = Some cl -> a_name (g_alloc cl') = a_name (g_alloc cl) -> (g_sid cl' = g_sid cl \/ g_sid cl' = None) -> (g_joined cl' = g_joined cl \/ g_joined cl' = g_sid cl) ->
  client_ok (g_children g) (g_items g) cl' -> joined_ok ch' cl' -> NoDup (dkeys ch') -> (forall n, In n (dkeys ch') -> In n used) ->
  (forall c' k, c' <> c -> dget (g_clients g) c' = Some k -> dget ch' (a_name (g_alloc k)) = dget (g_children g) (a_name (g_alloc k))) -> ginv used (put_children ch' (put_client c cl' g)).
Proof.
  intros I D N S J C JO ND U O. unfold put_children, members_change, put_client. cbn [g_children g_items g_clients g_next].
  apply (build used g); try apply I; cbn [g_children g_items g_clients g_next]; try assumption; [reflexivity|rewrite (dkeys_map (fun x => set_wm (fires (g_wm x)) x)); apply nodup_dset, I|].
  intros c' k H. rewrite (dget_map (fun x => set_wm (fires (g_wm x)) x)) in H. destruct (dget (dset (g_clients g) c cl') c') as [k0|] eqn:E; [|discriminate H]. injection H as <-. cbn [set_wm g_alloc g_sid g_joined].
  destruct (Z.eq_dec c' c) as [->|NE].
  - rewrite dget_dset_same in E. injection E as <-. exists cl. split; [exact D|]. split; [exact N|]. split; [exact S|]. split; [now apply (fires_ok (g_children g))|]. split; [|exact J]. now apply (joined_same _ cl').
  - rewrite dget_dset_other in E by congruence. exists k0. split; [exact E|]. split; [reflexivity|]. split; [now left|]. split; [apply (fires_ok (g_children g)), (gi_c _ _ I c' k0 E)|]. split; [|now left].
    apply (joined_same _ k0); try reflexivity. pose proof (gi_j _ _ I c' k0 E) as JK. unfold joined_ok in *. now rewrite (O c' k0 NE E).
Qed.
Lemma dget_without sid ch n : NoDup (dkeys ch) -> dget (without sid ch) n = match dget ch n with Some s => if s =? sid then None else Some s | None => None end.
Proof.
  induction ch as [|[k s] ch IH]; intros N; [reflexivity|]. inversion N as [|? ? N1 N2]; subst. cbn. fold (without sid ch). destruct (s =? sid) eqn:E; cbn [negb].
  - rewrite (IH N2). destruct (list_eqb k n) eqn:K; [|reflexivity]. apply list_eqb_spec in K. subst k. rewrite E. destruct (dget ch n) eqn:D; [|reflexivity]. exfalso. apply N1. eapply dget_Some_in, D.
  - cbn. destruct (list_eqb k n); [now rewrite E|apply IH, N2].
Qed.
Lemma without_keys sid ch n : In n (dkeys (without sid ch)) -> In n (dkeys ch).
Proof. unfold dkeys, without. rewrite !in_map_iff. intros (x & E & H). apply filter_In in H. exists x. tauto. Qed.
Lemma without_nodup sid ch : NoDup (dkeys ch) -> NoDup (dkeys (without sid ch)).
Proof.
  unfold dkeys, without. induction ch as [|[k s] ch IH]; intros N; [constructor|]. inversion N as [|? ? N1 N2]; subst. cbn. destruct (s =? sid); cbn; [now apply IH|]. constructor; [|now apply IH].
  intros H. apply N1. now apply (without_keys sid).
Qed.
Lemma join_seen used g c cl owner : ginv used g -> dget (g_clients g) c = Some cl -> g_at cl = AtJoinAct (Some owner) -> False.
Proof. intros I D E. pose proof (gi_j _ _ I c cl D) as (_ & J). now rewrite E in J. Qed.
Lemma in_seed_items seed : (forall t ps, In (t, ps) seed -> no_colon t) -> forall p, In p (add_items_of seed) -> good_name p.
Proof. intros H p I. apply C56_add_exact in I. destruct I as (t & ps & i & I1 & I2 & ->). exists t, i. split; [now apply (H t ps)|reflexivity]. Qed.

Lemma start_step_ok used g c cl : ginv used g -> dget (g_clients g) c = Some cl -> ginv used (start_step fn c cl g).
Proof.
  intros I D. pose proof (gi_c _ _ I c cl D) as C. pose proof (gi_j _ _ I c cl D) as J. unfold start_step.
  destruct (g_sid cl) as [sid|] eqn:ES; [|exact I]. destruct (a_connected (g_alloc cl)); [|exact I].
  destruct (g_at cl) as [| | | | | |seen| | | |e|] eqn:EA; try exact I.
  - refine (put_ok used g c cl _ I D _ _ _ _ _); [reflexivity|reflexivity|reflexivity|now apply (same_ok _ _ cl)|]. unfold joined_ok in *. rewrite EA in J. exact J.
  - refine (put_ok used g c cl _ I D _ _ _ _ _); [reflexivity|reflexivity|reflexivity|apply (same_ok _ _ (set_wm (Got false (dkeys (g_children g))) cl)); try reflexivity; now apply look_m_ok|]. unfold joined_ok in *. rewrite EA in J. exact J.
  - destruct (g_wm cl) as [| | |b ms] eqn:EW; try exact I. pose proof (saw_m_ok _ _ cl b ms C EW) as K. pose proof (step_name fn true (g_alloc cl) (EvMembers ms)) as N. unfold saw_members. cbn [astep] in K, N.
    destruct (on_members fn true ms (g_alloc cl)) as [r a]. cbn [snd] in K, N. rewrite EW in K. refine (put_ok used g c cl _ I D _ _ _ _ _); [exact N|reflexivity|reflexivity|now apply (same_ok _ _ _ _ K)|]. unfold joined_ok in *. rewrite EA in J. cbn [set_at set_wm set_alloc g_alloc g_at g_joined g_sid]. rewrite N. destruct r; cbn [next]; [exact J|]. split; [apply J|exact Logic.I].
  - refine (put_ok used g c cl _ I D _ _ _ _ _); [reflexivity|reflexivity|reflexivity|apply (same_ok _ _ (set_wp (Got false (g_items g)) cl)); try reflexivity; apply look_p_ok; [apply I|exact C]|]. unfold joined_ok in *. rewrite EA in J. exact J.
  - destruct (g_wp cl) as [| | |b ps] eqn:EW; try exact I. pose proof (saw_p_ok _ _ cl b ps C EW) as K. pose proof (step_name fn true (g_alloc cl) (EvPartitions (Some ps))) as N. unfold saw_items. cbn [astep] in K, N.
    destruct (on_partitions fn true (Some ps) (g_alloc cl)) as [r a]. cbn [snd] in K, N. rewrite EW in K. refine (put_ok used g c cl _ I D _ _ _ _ _); [exact N|reflexivity|reflexivity|now apply (same_ok _ _ _ _ K)|]. unfold joined_ok in *. rewrite EA in J. cbn [set_at set_wp set_alloc g_alloc g_at g_joined g_sid]. rewrite N. destruct r; cbn [next]; [exact J|]. split; [apply J|exact Logic.I].
  - unfold joined_ok in J. rewrite EA in J. destruct J as (J1 & J2 & J3). rewrite J2. refine (put_ok used g c cl _ I D _ _ _ _ _); [reflexivity|reflexivity|reflexivity|now apply (same_ok _ _ cl)|]. unfold joined_ok. cbn. now split.
  - destruct seen as [owner|]; [destruct (join_seen used g c cl owner I D EA)|]. unfold joined_ok in J. rewrite EA in J. destruct J as (J1 & J2 & J3). unfold dmem. rewrite J2.
    refine (children_ok used g c cl _ _ I D _ _ _ _ _ _ _ _); [reflexivity|now left|right; now rewrite ES|now apply (same_ok _ _ cl)| |apply nodup_dset, I| |].
    + unfold joined_ok. cbn. rewrite dget_dset_same. split; [intros s E; injection E as <-; now rewrite ES|]. exists sid. now split.
    + intros n H. rewrite (dset_new _ _ _ J2) in H. unfold dkeys in H. rewrite map_app in H. apply in_app_or in H. destruct H as [H|[<-|[]]]; [now apply (gi_used _ _ I)|]. now apply (proj2 (gi_used _ _ I) c cl).
    + intros c' k NE H. apply dget_dset_other. intros E. apply NE. symmetry. now apply (gi_names _ _ I c c' cl k D H).
  - assert (K : ginv used (put_client c (set_at Waiting cl) g)). { refine (put_ok used g c cl _ I D _ _ _ _ _); [reflexivity|reflexivity|reflexivity|now apply (same_ok _ _ cl)|]. unfold joined_ok in *. now rewrite EA in J. }
    destruct (subset _ _) eqn:SB; [exact K|]. set (g1 := put_client c (set_at Waiting cl) g) in *.
    apply (build used g1); try apply K; [reflexivity|unfold put_items, items_change; cbn [g_clients]; rewrite (dkeys_map (fun x => set_wp (fires (g_wp x)) x)); apply K| |].
    + destruct (gi_items _ _ I) as (N & G). cbn [put_items g_items]. split; [now apply nodup_fold_sadd|]. intros p H. apply in_union in H. destruct H as [H|H]; [now apply G|]. destruct C as (evs & _ & _ & _ & _ & _ & S). now apply (in_seed_items _ S).
    + intros c' k H. unfold put_items, items_change in H |- *. cbn [g_clients g_children g_items] in H |- *. rewrite (dget_map (fun x => set_wp (fires (g_wp x)) x)) in H. destruct (dget (g_clients g1) c') as [k0|] eqn:E; [|discriminate H]. injection H as <-.
      exists k0. split; [reflexivity|]. split; [reflexivity|]. split; [now left|]. split; [apply (fires_p_ok _ (g_items g)), (gi_c _ _ K c' k0 E)|]. split; [|now left]. apply (joined_same _ k0); try reflexivity. exact (gi_j _ _ K c' k0 E).
  - destruct (_ && _); [|exact I]. refine (put_ok used g c cl _ I D _ _ _ _ _); [reflexivity|reflexivity|reflexivity|now apply (same_ok _ _ cl)|]. unfold joined_ok in *. now rewrite EA in J.
Qed.
Lemma other_children_ok ch ch' cl : joined_ok ch cl -> dget ch' (a_name (g_alloc cl)) = dget ch (a_name (g_alloc cl)) -> joined_ok ch' cl.
Proof. unfold joined_ok. intros J ->. exact J. Qed.
Lemma state_ok ch items cl st : client_ok ch items cl -> client_ok ch items (on_state st cl).
Proof. intros C. exact (other_ok ch items cl (EvState st) C I). Qed.
Lemma ginv_more used more g : ginv used g -> ginv (used ++ more) g.
Proof. intros H. destruct H as [A B C D E (F1 & F2) G K L]. constructor; try assumption. split; [intros n Hn; apply in_or_app; left; auto|intros c cl Hc; apply in_or_app; left; eauto]. Qed.

Lemma new_ok used g c name seed : ginv used g -> dget (g_clients g) c = None -> ~ In name used -> (forall t ps, In (t, ps) seed -> no_colon t) ->
  ginv (used ++ [name]) (put_client c (Clt None (allocator_init name) Connecting seed Off Off None) g).
Proof.
  intros I D NU F. set (cl := Clt None (allocator_init name) Connecting seed Off Off None).
  assert (CN : dget (g_children g) name = None). { destruct (dget (g_children g) name) eqn:E; [|reflexivity]. exfalso. apply NU, (proj1 (gi_used _ _ I)). eapply dget_Some_in, E. }
  assert (OLD : forall c' k, dget (g_clients g) c' = Some k -> a_name (g_alloc k) <> name). { intros c' k Hk E. apply NU. rewrite <- E. exact (proj2 (gi_used _ _ I) c' k Hk). }
  assert (H : forall c' k, dget (dset (g_clients g) c cl) c' = Some k -> c' = c /\ k = cl \/ dget (g_clients g) c' = Some k).
  { intros c' k H. destruct (Z.eq_dec c' c) as [->|NE]; [rewrite dget_dset_same in H; injection H as <-; now left|]. rewrite dget_dset_other in H by congruence. now right. }
  constructor; cbn [put_client g_clients g_children g_items g_next]; try apply I.
  - intros c' k Hk. destruct (H c' k Hk) as [(-> & ->)|O]; [|now apply (gi_c _ _ I c')]. exists []. repeat split; try exact Logic.I; try exact F. intros ev [].
  - intros c' k Hk. destruct (H c' k Hk) as [(-> & ->)|O]; [|now apply (gi_j _ _ I c')]. split; cbn; rewrite CN; [discriminate|now split].
  - apply nodup_dset, I.
  - split; [intros n Hn; apply in_or_app; left; now apply (gi_used _ _ I)|]. intros c' k Hk. apply in_or_app. destruct (H c' k Hk) as [(-> & ->)|O]; [right; now left|left; now apply (proj2 (gi_used _ _ I) c')].
  - intros c1 c2 k1 k2 H1 H2 E. destruct (H c1 k1 H1) as [(-> & ->)|O1], (H c2 k2 H2) as [(-> & ->)|O2]; [reflexivity|now destruct (OLD _ _ O2)|now destruct (OLD _ _ O1)|now apply (gi_names _ _ I c1 c2 k1 k2)].
  - intros c1 c2 k1 k2 s H1 H2 E1 E2. destruct (H c1 k1 H1) as [(-> & ->)|O1], (H c2 k2 H2) as [(-> & ->)|O2]; try discriminate; now apply (gi_sids _ _ I c1 c2 k1 k2 s).
  - intros c' k s Hk. destruct (H c' k Hk) as [(-> & ->)|O]; [intros [E|E]; discriminate E|now apply (gi_next _ _ I c')].
Qed.
Lemma session_ok used g c cl : ginv used g -> dget (g_clients g) c = Some cl -> g_sid cl = None ->
  ginv used (let g1 := put_client c (set_wm (fires (g_wm cl)) (set_wp (fires (g_wp cl)) (on_state CONNECTED (set_sid (Some (g_next g)) cl)))) g in Grp (g_children g1) (g_items g1) (g_clients g1) (g_next g + 1)).
Proof.
  intros I D S. cbv zeta. set (cl' := set_wm _ _). pose proof (gi_c _ _ I c cl D) as C. pose proof (gi_j _ _ I c cl D) as J.
  assert (C' : client_ok (g_children g) (g_items g) cl'). { apply (fires_ok (g_children g) (g_children g) (g_items g) (set_wp (fires (g_wp cl)) (on_state CONNECTED (set_sid (Some (g_next g)) cl)))). apply (fires_p_ok (g_children g) (g_items g) (g_items g) (on_state CONNECTED (set_sid (Some (g_next g)) cl))). apply state_ok. now apply (same_ok _ _ cl). }
  assert (NN : dget (g_children g) (a_name (g_alloc cl)) = None). { destruct (dget (g_children g) (a_name (g_alloc cl))) as [s|] eqn:E; [|reflexivity]. destruct (proj1 J s E) as (_ & X). congruence. }
  assert (J' : joined_ok (g_children g) cl').
  { unfold joined_ok in *. cbn [cl' set_wm set_wp on_state set_alloc set_sid on_connection g_alloc g_at g_joined g_sid a_name]. rewrite NN in *. split; [discriminate|]. destruct J as (_ & J). destruct (g_at cl); try exact J;
      (destruct J as (s & E1 & E2); exists s; split; [exact E1|]; intros E; injection E as <-; pose proof (gi_next _ _ I c cl _ D (or_intror E1)); lia). }
  assert (H : forall c' k, dget (dset (g_clients g) c cl') c' = Some k -> c' = c /\ k = cl' \/ dget (g_clients g) c' = Some k /\ c' <> c).
  { intros c' k H. destruct (Z.eq_dec c' c) as [->|NE]; [rewrite dget_dset_same in H; injection H as <-; now left|]. rewrite dget_dset_other in H by congruence. now right. }
  constructor; cbn [put_client g_clients g_children g_items g_next]; try apply I.
  - intros c' k Hk. destruct (H c' k Hk) as [(-> & ->)|(O & _)]; [exact C'|now apply (gi_c _ _ I c')].
  - intros c' k Hk. destruct (H c' k Hk) as [(-> & ->)|(O & _)]; [exact J'|now apply (gi_j _ _ I c')].
  - apply nodup_dset, I.
  - split; [apply I|]. intros c' k Hk. destruct (H c' k Hk) as [(-> & ->)|(O & _)]; [exact (proj2 (gi_used _ _ I) c cl D)|now apply (proj2 (gi_used _ _ I) c')].
  - intros c1 c2 k1 k2 H1 H2 E. destruct (H c1 k1 H1) as [(-> & ->)|(O1 & _)], (H c2 k2 H2) as [(-> & ->)|(O2 & _)]; [reflexivity|now apply (gi_names _ _ I c c2 cl k2)|now apply (gi_names _ _ I c1 c k1 cl)|now apply (gi_names _ _ I c1 c2 k1 k2)].
  - intros c1 c2 k1 k2 s H1 H2 E1 E2. destruct (H c1 k1 H1) as [(-> & ->)|(O1 & _)], (H c2 k2 H2) as [(-> & ->)|(O2 & _)]; [reflexivity| | |now apply (gi_sids _ _ I c1 c2 k1 k2 s)].
    + cbn in E1. injection E1 as <-. pose proof (gi_next _ _ I c2 k2 _ O2 (or_introl E2)). lia.
    + cbn in E2. injection E2 as <-. pose proof (gi_next _ _ I c1 k1 _ O1 (or_introl E1)). lia.
  - intros c' k s Hk E. destruct (H c' k Hk) as [(-> & ->)|(O & _)]; [|pose proof (gi_next _ _ I c' k s O E); lia]. destruct E as [E|E]; [cbn in E; injection E as <-; lia|]. cbn in E. pose proof (gi_next _ _ I c cl s D (or_intror E)). lia.
Qed.
Lemma ends_ok used g sid : ginv used g -> ginv used (gstep fn g (GEnd sid)).
Proof.
  intros I. cbn [gstep]. cbv zeta. unfold put_children, members_change. cbn [g_children g_items g_clients g_next].
  set (f := fun x => set_wm (fires (g_wm x)) x). set (h := fun x => if match g_sid x with Some s => s =? sid | None => false end then on_state LOST (set_sid None x) else x).
  apply (build used g); cbn [g_children g_items g_clients g_next]; try apply I; [reflexivity|rewrite (dkeys_map h), (dkeys_map f); apply I|apply without_nodup, I|intros n H; apply (gi_used _ _ I), (without_keys _ _ _ H)|].
  intros c cl' H. rewrite (dget_map h), (dget_map f) in H. destruct (dget (g_clients g) c) as [cl|] eqn:D; [|discriminate H]. injection H as <-. exists cl. split; [reflexivity|].
  pose proof (gi_c _ _ I c cl D) as C. pose proof (gi_j _ _ I c cl D) as J. pose proof (fires_ok (g_children g) (without sid (g_children g)) (g_items g) cl C) as C1. fold (f cl) in C1.
  assert (JW : g_sid cl <> Some sid -> joined_ok (without sid (g_children g)) cl).
  { intros NE. apply (other_children_ok (g_children g)); [exact J|]. rewrite (dget_without _ _ _ (gi_ch _ _ I)). destruct (dget (g_children g) (a_name (g_alloc cl))) as [s|] eqn:E; [|reflexivity]. destruct (proj1 J s E) as (_ & X). destruct (s =? sid) eqn:Q; [|reflexivity]. apply Z.eqb_eq in Q. congruence. }
  unfold h. change (g_sid (f cl)) with (g_sid cl). destruct (match g_sid cl with Some s => s =? sid | None => false end) eqn:E.
  - assert (ES : g_sid cl = Some sid) by (destruct (g_sid cl); [apply Z.eqb_eq in E; congruence|discriminate E]). split; [reflexivity|]. split; [now right|]. split; [now apply state_ok, (same_ok _ _ (f cl))|]. split; [|now left].
    assert (NN : dget (without sid (g_children g)) (a_name (g_alloc cl)) = None). { rewrite (dget_without _ _ _ (gi_ch _ _ I)). destruct (dget (g_children g) (a_name (g_alloc cl))) as [s|] eqn:Q; [|reflexivity]. destruct (proj1 J s Q) as (_ & X). replace (s =? sid) with true; [reflexivity|]. symmetry. apply Z.eqb_eq. congruence. }
    unfold joined_ok. cbn [f set_wm on_state set_alloc set_sid on_connection g_alloc g_at g_joined g_sid a_name]. rewrite NN. split; [discriminate|]. destruct J as (_ & J). destruct (g_at cl) as [| | | | | |[]| | | | |]; try exact J; try (split; [reflexivity|apply J]); destruct J as (s & E1 & _); exists s; split; auto; discriminate.
  - split; [reflexivity|]. split; [now left|]. split; [exact C1|]. split; [|now left]. apply (joined_same _ cl); try reflexivity. apply JW. intros X. rewrite X, Z.eqb_refl in E. discriminate E.
Qed.

Lemma gstep_ok used g ev : ginv used g -> fine ev -> (forall n, In n (new_names [ev]) -> ~ In n used) -> ginv (used ++ new_names [ev]) (gstep fn g ev).
Proof.
  intros I F NN. destruct ev as [c name seed|c|c e|c|c|sid|c|c|c|c|c|items|c|c];
    try (cbn [new_names flat_map app]; rewrite app_nil_r); try (cbn [gstep]; destruct (dget (g_clients g) c) as [cl|] eqn:D; [|exact I]; pose proof (gi_c _ _ I c cl D) as C; pose proof (gi_j _ _ I c cl D) as J).
  - cbn [gstep]. unfold dmem. destruct (dget (g_clients g) c) as [cl|] eqn:D; [now apply ginv_more|]. apply new_ok; try assumption. apply NN. now left.
  - now apply start_step_ok.
  - destruct (g_at cl) eqn:EA; try exact I; (refine (put_ok used g c cl _ I D _ _ _ _ _); [reflexivity|reflexivity|reflexivity|now apply (same_ok _ _ cl)|split; [apply J|exact Logic.I]]).
  - destruct (g_sid cl) as [s|] eqn:ES.
    + assert (K : ginv used (put_client c (set_wm (fires (g_wm cl)) (set_wp (fires (g_wp cl)) (on_state CONNECTED cl))) g)).
      { refine (put_ok used g c cl _ I D _ _ _ _ _); [reflexivity|reflexivity|reflexivity| |now apply (joined_same _ cl)].
        apply (fires_ok (g_children g) (g_children g) (g_items g) (set_wp (fires (g_wp cl)) (on_state CONNECTED cl))). apply (fires_p_ok (g_children g) (g_items g) (g_items g) (on_state CONNECTED cl)). now apply state_ok. }
      destruct (g_at cl); exact K || exact I.
    + pose proof (session_ok used g c cl I D ES) as K. destruct (g_at cl); exact K || exact I.
  - refine (put_ok used g c cl _ I D _ _ _ _ _); [reflexivity|reflexivity|reflexivity|now apply state_ok|now apply (joined_same _ cl)].
  - now apply ends_ok.
  - destruct (a_connected (g_alloc cl)); [|exact I]. destruct (g_wm cl); try exact I. refine (put_ok used g c cl _ I D _ _ _ _ _); [reflexivity|reflexivity|reflexivity|now apply look_m_ok|now apply (joined_same _ cl)].
  - destruct (in_party_call cl); [exact I|]. destruct (g_wm cl) as [| | |b ms] eqn:EW; try exact I. pose proof (saw_m_ok _ _ cl b ms C EW) as K. pose proof (step_name fn true (g_alloc cl) (EvMembers ms)) as N. unfold saw_members. cbn [astep] in K, N.
    destruct (on_members fn true ms (g_alloc cl)) as [r a]. cbn [snd] in K, N. rewrite EW in K. refine (put_ok used g c cl _ I D _ _ _ _ _); [exact N|reflexivity|reflexivity|exact K|now apply (joined_same _ cl)].
  - destruct (a_connected (g_alloc cl)); [|exact I]. destruct (g_wp cl); try exact I. refine (put_ok used g c cl _ I D _ _ _ _ _); [reflexivity|reflexivity|reflexivity|apply look_p_ok; [apply I|exact C]|now apply (joined_same _ cl)].
  - destruct (in_set_call cl); [exact I|]. destruct (g_wp cl) as [| | |b ps] eqn:EW; try exact I. pose proof (saw_p_ok _ _ cl b ps C EW) as K. pose proof (step_name fn true (g_alloc cl) (EvPartitions (Some ps))) as N. unfold saw_items. cbn [astep] in K, N.
    destruct (on_partitions fn true (Some ps) (g_alloc cl)) as [r a]. cbn [snd] in K, N. rewrite EW in K. refine (put_ok used g c cl _ I D _ _ _ _ _); [exact N|reflexivity|reflexivity|exact K|now apply (joined_same _ cl)].
  - pose proof (step_name fn true (g_alloc cl) EvRead) as N. refine (put_ok used g c cl _ I D _ _ _ _ _); [exact N|reflexivity|reflexivity|exact (other_ok _ _ cl EvRead C Logic.I)|now apply (joined_same _ cl)].
  - cbn [gstep]. unfold put_items, items_change. apply (build used g); cbn [g_children g_items g_clients g_next]; try apply I; [reflexivity|rewrite (dkeys_map (fun x => set_wp (fires (g_wp x)) x)); apply I|exact F|].
    intros c' k H. rewrite (dget_map (fun x => set_wp (fires (g_wp x)) x)) in H. destruct (dget (g_clients g) c') as [k0|] eqn:E; [|discriminate H]. injection H as <-.
    exists k0. split; [reflexivity|]. split; [reflexivity|]. split; [now left|]. split; [apply (fires_p_ok _ (g_items g)), (gi_c _ _ I c' k0 E)|]. split; [|now left]. apply (joined_same _ k0); try reflexivity. exact (gi_j _ _ I c' k0 E).
  - destruct (g_sid cl) as [sid|] eqn:ES; [|exact I]. destruct (a_connected (g_alloc cl)); [|exact I].
    assert (ND : NoDup (dkeys (ddel (g_children g) (a_name (g_alloc cl))))) by apply nodup_ddel, I.
    refine (children_ok used g c cl _ _ I D _ _ _ _ _ _ _ _); [reflexivity|now right|now left| | |now apply without_nodup| |].
    + apply (same_ok _ _ (set_wm Off (set_wp Off (on_state LOST cl)))); try reflexivity. now apply off_ok, state_ok.
    + unfold joined_ok. cbn [set_at set_wm set_wp on_state set_alloc set_sid on_connection g_alloc g_at g_joined g_sid a_name]. rewrite (dget_without _ _ _ ND), (dget_ddel_same _ _ (gi_ch _ _ I)). split; [discriminate|exact Logic.I].
    + intros n H. apply without_keys in H. apply (proj1 (gi_used _ _ I)). apply in_dkeys_ddel_iff in H; [tauto|apply I].
    + intros c' k NE H. rewrite (dget_without _ _ _ ND), dget_ddel_other by (intros E; apply NE; symmetry; now apply (gi_names _ _ I c c' cl k D H)).
      destruct (dget (g_children g) (a_name (g_alloc k))) as [s|] eqn:E; [|reflexivity]. destruct (proj1 (gi_j _ _ I c' k H) s E) as (_ & X). destruct (s =? sid) eqn:Q; [|reflexivity]. apply Z.eqb_eq in Q. subst s. exfalso. apply NE. exact (gi_sids _ _ I c' c k cl sid H D X ES).
  - cbn [gstep]. apply (build used g); cbn [g_children g_items g_clients g_next]; try apply I; [reflexivity|apply nodup_ddel, I|].
    intros c' k H. destruct (Z.eq_dec c' c) as [->|NE]; [rewrite dget_ddel_same in H by apply I; discriminate H|]. rewrite dget_ddel_other in H by congruence.
    exists k. split; [exact H|]. split; [reflexivity|]. split; [now left|]. split; [now apply (gi_c _ _ I c')|]. split; [now apply (gi_j _ _ I c')|now left].
Qed.
Lemma ginv_init : ginv [] group_init.
Proof. constructor; cbn; try (intros; discriminate); try exact (NoDup_nil _); [split; [exact (NoDup_nil _)|intros p []]|split; [intros n []|intros; discriminate]]. Qed.
Lemma new_names_app a b : new_names (a ++ b) = new_names a ++ new_names b.
Proof. unfold new_names. apply flat_map_app. Qed.
Lemma nodup_app_both {A} (a b : list A) : NoDup (a ++ b) -> NoDup a /\ forall x, In x b -> ~ In x a.
Proof.
  induction a as [|y a IH]; intros N; [split; [constructor|intros x _ []]|]. inversion N as [|? ? N1 N2]; subst. destruct (IH N2) as (H1 & H2). split.
  - constructor; [|exact H1]. intros H. apply N1, in_or_app. now left.
  - intros x Hx [->|H]; [|now apply (H2 x)]. apply N1, in_or_app. now right.
Qed.
Lemma run_inv evs : (forall ev, In ev evs -> fine ev) -> NoDup (new_names evs) -> ginv (new_names evs) (grun fn evs group_init).
Proof.
  induction evs as [|ev evs IH] using rev_ind; intros F N; [exact ginv_init|].
  unfold grun. rewrite fold_left_app. cbn [fold_left]. rewrite new_names_app in *. apply nodup_app_both in N as (N1 & N2). apply gstep_ok; [apply IH|apply F, in_or_app; right; now left|exact N2].
  - intros e H. apply F, in_or_app. now left.
  - exact N1.
Qed.
Lemma reached_inv g : reaches fn g -> exists used, ginv used g.
Proof. intros (evs & F & N & ->). exists (new_names evs). now apply run_inv. Qed.
End Any.
