(** Property theorems C78 and C79: a group of consumers.  Specification: SpecGroupRun.v. *)
From Coq Require Import ZArith Lia String List Bool Permutation.
From Verif Require Import PyBase BaseLemmas Cluster Zookeeper SpecZk ZkProofs ZkAlloc PropsZk Group SpecGroupRun GroupRuns GroupStart.
Import ListNotations.
Open Scope Z_scope.

(** * C78 Each partition has one reader *)
(** clients that have noticed every change can read what they have, and no two of them have the same partition *)
Theorem C78_disjoint : forall g, greachable g -> g_children g <> [] -> forall c1 c2 cl1 cl2,
  dget (g_clients g) c1 = Some cl1 -> settled cl1 -> dget (g_clients g) c2 = Some cl2 -> settled cl2 ->
  (exists tm, fst (allocation (g_alloc cl1)) = Ok tm) /\
  forall t p, has cl1 t p -> In (partition_string (t, p)) (g_items g) /\ In (member_name cl1) (members g) /\ (has cl2 t p -> c1 = c2).
Proof.
  intros g R NE c1 c2 cl1 cl2 D1 S1 D2 S2. destruct (reach_inv g R) as (used & I). destruct (share used g c1 cl1 I D1 S1 (or_introl NE)) as (mp & E & RD & H1). destruct (share used g c2 cl2 I D2 S2 (or_introl NE)) as (mp2 & E2 & _ & H2).
  rewrite E in E2. injection E2 as <-. destruct (cover g used I NE) as (mp3 & E3 & A & B & _). rewrite E in E3. injection E3 as <-. split; [exact RD|].
  intros t p H. apply H1 in H. destruct (B _ _ _ H) as (M & P). split; [exact P|]. split; [exact M|]. intros H'. apply H2 in H'.
  apply (gi_names _ _ I c1 c2 cl1 cl2 D1 D2). destruct (proj2 (gi_items _ _ I) _ P) as (t' & i & NC & X). apply C56_names_distinct in X as (-> & ->). destruct (A t' i P NC) as (m & _ & _ & U). fold (member_name cl1) (member_name cl2). now rewrite (U _ H), (U _ H').
Qed.
(** and when all members have, every partition of the shared set has exactly one reader *)
Theorem C78_exact_cover : forall g, greachable g -> g_children g <> [] ->
  (forall n, In n (members g) -> exists c cl, dget (g_clients g) c = Some cl /\ member_name cl = n /\ settled cl) ->
  forall t p, In (partition_string (t, p)) (g_items g) ->
  exists c cl, dget (g_clients g) c = Some cl /\ has cl t p /\
    forall c' cl', dget (g_clients g) c' = Some cl' -> settled cl' -> has cl' t p -> c' = c.
Proof.
  intros g R NE ALL t p P. destruct (reach_inv g R) as (used & I). destruct (cover g used I NE) as (mp & E & A & _ & _).
  destruct (proj2 (gi_items _ _ I) _ P) as (t' & i & NC & X). apply C56_names_distinct in X as (-> & ->). destruct (A t' i P NC) as (m & M & G & _). destruct (ALL m M) as (c & cl & D & N & S). exists c, cl. split; [exact D|].
  destruct (share used g c cl I D S (or_introl NE)) as (mp' & E' & _ & H). rewrite E in E'. injection E' as <-. assert (HC : has cl t' i) by (apply H; now rewrite N). split; [exact HC|].
  intros c' cl' D' S' H'. destruct (C78_disjoint g R NE c c' cl cl' D S D' S') as (_ & U). symmetry. now apply (U t' i HC).
Qed.
(** no member has two partitions more than another *)
Theorem C78_even : forall g, greachable g -> forall c1 c2 cl1 cl2,
  dget (g_clients g) c1 = Some cl1 -> settled cl1 -> In (member_name cl1) (members g) -> dget (g_clients g) c2 = Some cl2 -> settled cl2 -> In (member_name cl2) (members g) ->
  (share_size cl1 <= share_size cl2 + 1)%nat.
Proof.
  intros g R c1 c2 cl1 cl2 D1 S1 M1 D2 S2 M2. destruct (reach_inv g R) as (used & I). assert (NE : g_children g <> []) by (intros E; unfold members in M1; now rewrite E in M1).
  destruct (share_load used g c1 cl1 I D1 S1 (or_introl NE)) as (mp & E & ->). destruct (share_load used g c2 cl2 I D2 S2 (or_introl NE)) as (mp2 & E2 & ->). rewrite E in E2. injection E2 as <-.
  destruct (cover g used I NE) as (mp3 & E3 & _ & _ & L). rewrite E in E3. injection E3 as <-. now apply L.
Qed.

(** * C79 Starting *)
(** a start() that goes on being connected returns *)
Theorem C79_start_returns : forall g, greachable g -> forall c cl, dget (g_clients g) c = Some cl ->
  (exists s, g_sid cl = Some s) -> a_connected (g_alloc cl) = true -> (forall e, g_at cl <> Failed e) -> g_at cl <> Stopped ->
  exists n cl', dget (g_clients (grun naive_allocator (repeat (GStep c) n) g)) c = Some cl' /\ g_at cl' = Started.
Proof. intros g R c cl D S C F X. exists (left_to_do (g_at cl)). apply (steps_down _ g c cl R D (conj S C) eq_refl F X). Qed.
(** and raises only what a call to ZooKeeper raised *)
Theorem C79_raises_only : forall evs, (forall ev, In ev evs -> fine ev) -> NoDup (new_names evs) ->
  forall c cl e, dget (g_clients (grun naive_allocator evs group_init)) c = Some cl -> g_at cl = Failed e -> In (GRaise c e) evs.
Proof. exact fails_only. Qed.
(** partial: it is a member as long as it has the session it joined in *)
Theorem C79_member_partial : forall g, greachable g -> forall c cl, dget (g_clients g) c = Some cl -> g_at cl = Started ->
  exists s, g_joined cl = Some s /\ (g_sid cl = Some s -> dget (g_children g) (member_name cl) = Some s).
Proof.
  intros g R c cl D S. destruct (reach_inv g R) as (used & I). pose proof (gi_j _ _ I c cl D) as (_ & J). rewrite S in J. exact J.
Qed.
(** partial: then it can read its allocation once it has noticed the last change *)
Theorem C79_readable_partial : forall g, greachable g -> forall c cl, dget (g_clients g) c = Some cl -> g_at cl = Started ->
  g_sid cl = g_joined cl -> settled cl -> exists tm, fst (allocation (g_alloc cl)) = Ok tm.
Proof.
  intros g R c cl D S E ST. destruct (C79_member_partial g R c cl D S) as (s & J & M). assert (NE : g_children g <> []) by (intros X; rewrite E in M; specialize (M J); rewrite X in M; discriminate M).
  now apply (C78_disjoint g R NE c c cl cl D ST D ST).
Qed.
(** the one consumer of a new group: what its two watches found was nothing, so nothing has been allocated when start()
    returns, and reading the allocation raises *)
Definition lone_start : list gevent := [GNew 1 (txt "a") [(txt "t", [0; 1])]; GConnect 1] ++ repeat (GStep 1) 9.
Theorem C79_started_unreadable_refuted : exists g c cl, greachable g /\ dget (g_clients g) c = Some cl /\ g_at cl = Started /\
  a_connected (g_alloc cl) = true /\ dget (g_children g) (member_name cl) = g_sid cl /\ g_items g = [partition_string (txt "t", 0); partition_string (txt "t", 1)] /\
  fst (allocation (g_alloc cl)) = Err EKey.
Proof.
  exists (grun naive_allocator lone_start group_init), 1. eexists. split; [|vm_compute; repeat split].
  exists lone_start. split; [|split; [|reflexivity]].
  - intros ev H. repeat (destruct H as [<-|H]; [try exact I|]); [|destruct H]. intros t ps [E|[]]. injection E as <- <-. unfold no_colon. cbn. intuition lia.
  - repeat constructor; cbn; intuition.
Qed.
(** a session that expires takes the membership with it; the consumer reconnects, notices every change, is not a member and
    has no partition, although it is connected and its start() returned *)
Definition expire : list gevent := lone_start ++ [GLookM 1; GCallM 1; GLookP 1; GCallP 1; GEnd 0; GConnect 1; GLookM 1; GCallM 1; GLookP 1; GCallP 1].
Theorem C79_expired_refuted : exists g c cl, greachable g /\ dget (g_clients g) c = Some cl /\ g_at cl = Started /\ settled cl /\
  a_connected (g_alloc cl) = true /\ g_sid cl <> None /\ members g = [] /\ g_items g = [partition_string (txt "t", 0); partition_string (txt "t", 1)] /\
  fst (allocation (g_alloc cl)) = Ok [].
Proof.
  exists (grun naive_allocator expire group_init), 1. eexists. split; [|vm_compute; repeat split; discriminate].
  exists expire. split; [|split; [|reflexivity]].
  - intros ev H. repeat (destruct H as [<-|H]; [try exact I|]); [|destruct H]. intros t ps [E|[]]. injection E as <- <-. unfold no_colon. cbn. intuition lia.
  - repeat constructor; cbn; intuition.
Qed.
(** whatever happens afterwards it is never a member again *)
Theorem C79_never_back : forall evs1 evs2, (forall ev, In ev (evs1 ++ evs2) -> fine ev) -> NoDup (new_names (evs1 ++ evs2)) ->
  forall c cl, dget (g_clients (grun naive_allocator evs1 group_init)) c = Some cl -> g_at cl = Started -> g_sid cl <> g_joined cl ->
  ~ In (member_name cl) (members (grun naive_allocator (evs1 ++ evs2) group_init)).
Proof.
  intros evs1 evs2 F N c cl D S NE. assert (F1 : forall ev, In ev evs1 -> fine ev) by (intros e H; apply F, in_or_app; now left). assert (N1 : NoDup (new_names evs1)) by (rewrite new_names_app in N; now apply nodup_app_both in N as (N & _)).
  pose proof (run_inv evs1 F1 N1) as I. pose proof (gi_j _ _ I c cl D) as (J1 & J2). rewrite S in J2. destruct J2 as (s & J & _). pose proof (never_back evs2 evs1 F N (member_name cl) s (proj2 (gi_used _ _ I) c cl D)) as L.
  destruct L as (L & _); [|now apply dget_None_notin in L]. split; [|split].
  - destruct (dget (g_children (grun naive_allocator evs1 group_init)) (member_name cl)) as [s'|] eqn:E; [|reflexivity]. destruct (J1 s' E) as (X & Y). congruence.
  - apply (gi_next _ _ I c cl s D). now right.
  - intros c' cl' D' M. pose proof (gi_names _ _ I c c' cl cl' D D' (eq_sym M)) as <-. rewrite D in D'. injection D' as <-. rewrite S. repeat split; congruence.
Qed.

(** ** three consumers: all start, settle, and one dies *)
Definition settle (c : Z) : list gevent := [GLookM c; GCallM c; GLookP c; GCallP c].
Definition trio : list gevent :=
  [GNew 1 (txt "a") [(txt "t", [0; 1; 2; 3])]; GNew 2 (txt "b") [(txt "t", [0; 1; 2; 3])]; GNew 3 (txt "c") [(txt "u", [0])]; GConnect 1; GConnect 2; GConnect 3] ++
  repeat (GStep 1) 4 ++ repeat (GStep 2) 9 ++ repeat (GStep 1) 5 ++ repeat (GStep 3) 9 ++ settle 1 ++ settle 2 ++ settle 3.
Definition less : list gevent := trio ++ [GDie 2; GEnd 1; GRead 1; GSuspend 3; GConnect 3] ++ settle 1 ++ settle 3.
Lemma trio_reachable : greachable (grun naive_allocator trio group_init).
Proof.
  exists trio. split; [|split; [|reflexivity]].
  - intros ev H. repeat (destruct H as [<-|H]; [try exact I|]); [| | |destruct H]; intros t ps [E|[]]; injection E as <- <-; unfold no_colon; cbn; intuition lia.
  - repeat constructor; cbn; intuition discriminate.
Qed.
Example C78_example :
  let g := grun naive_allocator trio group_init in
  map (fun c => match dget (g_clients g) c with Some cl => Some (g_at cl, (g_wm cl, g_wp cl), fst (allocation (g_alloc cl))) | None => None end) [1; 2; 3] =
    [Some (Started, (Quiet, Quiet), Ok [(txt "t", [0; 3])]); Some (Started, (Quiet, Quiet), Ok [(txt "t", [1]); (txt "u", [0])]); Some (Started, (Quiet, Quiet), Ok [(txt "t", [2])])] /\
  (forall n, In n (members g) -> exists c cl, dget (g_clients g) c = Some cl /\ member_name cl = n /\ settled cl).
Proof.
  cbv zeta. split; [vm_compute; reflexivity|]. assert (M : members (grun naive_allocator trio group_init) = [txt "b"; txt "a"; txt "c"]) by (vm_compute; reflexivity). rewrite M.
  intros n [<-|[<-|[<-|[]]]]; [exists 2|exists 1|exists 3]; eexists; (split; [vm_compute; reflexivity|]); repeat split.
Qed.
(** the names must differ, as those made of the host name and id(self) (consumer.py:36) need not when two processes of a host
    are consumers: then both have every partition, and when one stops the other is no member any more *)
Definition twins : list gevent :=
  [GNew 1 (txt "a") [(txt "t", [0; 1])]; GNew 2 (txt "a") [(txt "t", [0; 1])]; GConnect 1; GConnect 2] ++ repeat (GStep 1) 9 ++ repeat (GStep 2) 9 ++ settle 1 ++ settle 2.
Example C78_same_name :
  let g := grun naive_allocator twins group_init in
  map (fun c => match dget (g_clients g) c with Some cl => Some (g_at cl, (g_wm cl, g_wp cl), fst (allocation (g_alloc cl))) | None => None end) [1; 2] =
    [Some (Started, (Quiet, Quiet), Ok [(txt "t", [0; 1])]); Some (Started, (Quiet, Quiet), Ok [(txt "t", [0; 1])])] /\
  members (gstep naive_allocator g (GStop 1)) = [].
Proof. vm_compute. split; reflexivity. Qed.
Example C79_example :
  let g := grun naive_allocator less group_init in
  members g = [txt "a"; txt "c"] /\
  map (fun c => match dget (g_clients g) c with Some cl => Some (g_at cl, (g_wm cl, g_wp cl), fst (allocation (g_alloc cl))) | None => None end) [1; 2; 3] =
    [Some (Started, (Quiet, Quiet), Ok [(txt "t", [0; 2]); (txt "u", [0])]); None; Some (Started, (Quiet, Quiet), Ok [(txt "t", [1; 3])])].
Proof. vm_compute. split; reflexivity. Qed.

Print Assumptions C78_disjoint.
Print Assumptions C78_exact_cover.
Print Assumptions C78_even.
Print Assumptions C79_start_returns.
Print Assumptions C79_raises_only.
Print Assumptions C79_member_partial.
Print Assumptions C79_readable_partial.
Print Assumptions C79_started_unreadable_refuted.
Print Assumptions C79_expired_refuted.
Print Assumptions C79_never_back.
