(** How start() goes, whatever the allocator function: proofs for C79 and C107. *)
From Coq Require Import ZArith Lia String List Bool Permutation Sorting.Sorted.
From Verif Require Import PyBase BaseLemmas Cluster Iterables Zookeeper SpecZk ZkProofs ZkAlloc PropsZk Group SpecGroupRun SpecGroupAny GroupAny.
Import ListNotations.
Open Scope Z_scope.
(** ** the flags start() waits for *)
Definition past_party (p : progress) : bool := match p with Connecting | AtParty | AtPartyCall | Failed _ | Stopped => false | _ => true end.
Definition past_set (p : progress) : bool := match p with Connecting | AtParty | AtPartyCall | AtSet | AtSetCall | Failed _ | Stopped => false | _ => true end.
Definition flags_ok (cl : client) : Prop :=
  (past_party (g_at cl) = true -> a_members_collected (g_alloc cl) = true) /\ (past_set (g_at cl) = true -> a_partitions_collected (g_alloc cl) = true) /\
  match g_at cl with AtPartyCall => exists b s, g_wm cl = Got b s | AtSetCall => exists b s, g_wp cl = Got b s | _ => True end.
Section Flags.
  Variable fn : list text -> list text -> res mapping.
  Lemma allocation_flags s : a_members_collected (snd (allocation s)) = a_members_collected s /\ a_partitions_collected (snd (allocation s)) = a_partitions_collected s.
  Proof. unfold allocation. destruct (dget _ _); [now split|]. now destruct (mp_default _). Qed.
  Lemma rebalance_flags s : a_members_collected (snd (rebalance fn true s)) = a_members_collected s /\ a_partitions_collected (snd (rebalance fn true s)) = a_partitions_collected s.
  Proof. unfold rebalance. destruct (fn _ _) as [mp|e]; [|now split]. match goal with |- context[allocation ?x] => pose proof (allocation_flags x) as A; destruct (allocation x) as [[r|e] s2] end; exact A. Qed.
  Lemma members_flags ms s : (fst (on_members fn true ms s) = Ok tt -> a_members_collected (snd (on_members fn true ms s)) = true) /\
    (a_members_collected s = true -> a_members_collected (snd (on_members fn true ms s)) = true) /\ a_partitions_collected (snd (on_members fn true ms s)) = a_partitions_collected s.
  Proof.
    unfold on_members. destruct (set_eqb _ _); [repeat split|]. pose proof (rebalance_flags (with_members (mkset ms) s)) as (A & B). destruct (rebalance fn true _) as [[u|e] s1]; cbn [fst snd] in *; [repeat split; exact B|].
    split; [discriminate|]. split; [now rewrite A|exact B].
  Qed.
  Lemma items_flags ps s : (fst (on_partitions fn true (Some ps) s) = Ok tt -> a_partitions_collected (snd (on_partitions fn true (Some ps) s)) = true) /\
    (a_partitions_collected s = true -> a_partitions_collected (snd (on_partitions fn true (Some ps) s)) = true) /\ a_members_collected (snd (on_partitions fn true (Some ps) s)) = a_members_collected s.
  Proof.
    unfold on_partitions. destruct (set_eqb _ _); [repeat split|]. pose proof (rebalance_flags (with_partitions ps s)) as (A & B). destruct (rebalance fn true _) as [[u|e] s1]; cbn [fst snd] in *; [repeat split; exact A|].
    split; [discriminate|]. split; [now rewrite B|exact A].
  Qed.
  Definition all_flags (g : group) : Prop := forall c cl, dget (g_clients g) c = Some cl -> flags_ok cl.
  Lemma put_flags g c cl : all_flags g -> flags_ok cl -> all_flags (put_client c cl g).
  Proof. intros A F c' k H. cbn in H. destruct (Z.eq_dec c' c) as [->|N]; [rewrite dget_dset_same in H; injection H as <-; exact F|]. rewrite dget_dset_other in H by congruence. exact (A c' k H). Qed.
  Lemma fires_m_flags cl : flags_ok cl -> flags_ok (set_wm (fires (g_wm cl)) cl).
  Proof. intros (A & B & C). split; [exact A|]. split; [exact B|]. cbn. destruct (g_at cl); try exact C. destruct C as (b & s & ->). cbn. eauto. Qed.
  Lemma fires_p_flags cl : flags_ok cl -> flags_ok (set_wp (fires (g_wp cl)) cl).
  Proof. intros (A & B & C). split; [exact A|]. split; [exact B|]. cbn. destruct (g_at cl); try exact C. destruct C as (b & s & ->). cbn. eauto. Qed.
  Lemma children_flags g ch : all_flags g -> all_flags (put_children ch g).
  Proof. intros A c cl H. cbn in H. unfold members_change in H. rewrite (dget_map (fun x => set_wm (fires (g_wm x)) x)) in H. destruct (dget (g_clients g) c) as [k|] eqn:E; [|discriminate H]. injection H as <-. apply fires_m_flags, (A c k E). Qed.
  Lemma put_items_flags g it : all_flags g -> all_flags (put_items it g).
  Proof. intros A c cl H. cbn in H. unfold items_change in H. rewrite (dget_map (fun x => set_wp (fires (g_wp x)) x)) in H. destruct (dget (g_clients g) c) as [k|] eqn:E; [|discriminate H]. injection H as <-. apply fires_p_flags, (A c k E). Qed.
  Lemma ok_tt (r : res unit) (u : unit) : r = Ok u -> r = Ok tt.
  Proof. now destruct u. Qed.
  Lemma start_flags g c cl : all_flags g -> dget (g_clients g) c = Some cl -> all_flags (start_step fn c cl g).
  Proof.
    intros A D. pose proof (A c cl D) as (F1 & F2 & F3). unfold start_step. destruct (g_sid cl) as [sid|]; [|exact A]. destruct (a_connected (g_alloc cl)); [|exact A].
    destruct (g_at cl) as [| | | | | |seen| | | |e|] eqn:EA; try exact A; cbn in F1, F2.
    - apply put_flags; [exact A|]. repeat split; cbn; discriminate.
    - apply put_flags; [exact A|]. repeat split; cbn; try discriminate. eauto.
    - destruct (g_wm cl) as [| | |b ms] eqn:EW; try exact A. unfold saw_members. pose proof (members_flags ms (g_alloc cl)) as (M1 & M2 & M3). destruct (on_members fn true ms (g_alloc cl)) as [r a]. apply put_flags; [exact A|].
      unfold flags_ok. cbn. destruct r as [u|e]; cbn [next past_party past_set fst snd] in *; repeat split; try discriminate. intros _. apply M1. now destruct u.
    - apply put_flags; [exact A|]. repeat split; cbn; try discriminate; eauto.
    - destruct (g_wp cl) as [| | |b ps] eqn:EW; try exact A. unfold saw_items. pose proof (items_flags ps (g_alloc cl)) as (M1 & M2 & M3). destruct (on_partitions fn true (Some ps) (g_alloc cl)) as [r a]. apply put_flags; [exact A|].
      unfold flags_ok. cbn. destruct r as [u|e]; cbn [next past_party past_set fst snd] in *; repeat split; try discriminate; intros _; [rewrite M3; now apply F1|apply M1; now destruct u].
    - apply put_flags; [exact A|]. repeat split; cbn; intros _; auto.
    - assert (F : flags_ok (set_at AtAdd (set_joined (Some sid) cl))) by (repeat split; cbn; intros _; auto). destruct seen as [owner|].
      + destruct (owner =? sid); [now apply put_flags|]. destruct (dmem _ _); [|now apply put_flags]. now apply children_flags, put_flags.
      + destruct (dmem _ _); [|now apply children_flags, put_flags]. apply put_flags; [exact A|]. repeat split; cbn; discriminate.
    - assert (F : flags_ok (set_at Waiting cl)) by (repeat split; cbn; intros _; auto). destruct (subset _ _); [now apply put_flags|]. now apply put_items_flags, put_flags.
    - destruct (_ && _); [|exact A]. apply put_flags; [exact A|]. repeat split; cbn; intros _; auto.
  Qed.
  Lemma same_flags cl cl' : flags_ok cl -> g_at cl' = g_at cl -> g_wm cl' = g_wm cl -> g_wp cl' = g_wp cl -> a_members_collected (g_alloc cl') = a_members_collected (g_alloc cl) ->
    a_partitions_collected (g_alloc cl') = a_partitions_collected (g_alloc cl) -> flags_ok cl'.
  Proof. unfold flags_ok. intros F -> -> -> -> ->. exact F. Qed.
  Lemma step_flags g ev : NoDup (dkeys (g_clients g)) -> all_flags g -> all_flags (gstep fn g ev).
  Proof.
    intros ND A. destruct ev as [c name seed|c|c e|c|c|sid|c|c|c|c|c|items|c|c]; try (cbn [gstep]; destruct (dget (g_clients g) c) as [cl|] eqn:D; [|exact A]; pose proof (A c cl D) as F).
    - cbn [gstep]. destruct (dmem _ _); [exact A|]. apply put_flags; [exact A|]. repeat split; cbn; discriminate.
    - now apply start_flags.
    - assert (P : flags_ok (set_at (Failed e) cl)) by (repeat split; cbn; discriminate). destruct (g_at cl); try exact A; now apply put_flags.
    - assert (P : all_flags (put_client c (set_wm (fires (g_wm cl)) (set_wp (fires (g_wp cl)) (on_state CONNECTED cl))) g)).
      { apply put_flags; [exact A|]. apply (fires_m_flags (set_wp (fires (g_wp cl)) (on_state CONNECTED cl))). apply (fires_p_flags (on_state CONNECTED cl)). now apply (same_flags cl). }
      assert (Q : forall s n, all_flags (Grp (g_children g) (g_items g) (dset (g_clients g) c (set_wm (fires (g_wm cl)) (set_wp (fires (g_wp cl)) (on_state CONNECTED (set_sid s cl))))) n)).
      { intros s n. refine (put_flags g c _ A _). apply (fires_m_flags (set_wp (fires (g_wp cl)) (on_state CONNECTED (set_sid s cl)))). apply (fires_p_flags (on_state CONNECTED (set_sid s cl))). now apply (same_flags cl). }
      destruct (g_at cl); try exact A; (destruct (g_sid cl); [exact P|apply Q]).
    - apply put_flags; [exact A|]. now apply (same_flags cl).
    - cbn [gstep]. cbv zeta. intros c cl H. cbn [g_clients] in H. set (h := fun x => if match g_sid x with Some s => s =? sid | None => false end then on_state LOST (set_sid None x) else x) in H. rewrite (dget_map h) in H.
      destruct (dget (g_clients (put_children (without sid (g_children g)) g)) c) as [k|] eqn:E; [|discriminate H]. injection H as <-. pose proof (children_flags g _ A c k E) as F. unfold h. destruct (match g_sid k with Some s => s =? sid | None => false end); [now apply (same_flags k)|exact F].
    - destruct (a_connected _); [|exact A]. destruct (g_wm cl) eqn:EW; try exact A. apply put_flags; [exact A|]. destruct F as (F1 & F2 & F3). split; [exact F1|]. split; [exact F2|]. cbn. destruct (g_at cl); try exact F3. eauto.
    - unfold in_party_call. destruct (g_at cl) eqn:EA; try exact A; (destruct (g_wm cl) as [| | |b ms] eqn:EW; try exact A; unfold saw_members; pose proof (members_flags ms (g_alloc cl)) as (M1 & M2 & M3); destruct (on_members fn true ms (g_alloc cl)) as [r a]; apply put_flags; [exact A|];
        destruct F as (F1 & F2 & F3); unfold flags_ok; cbn in *; rewrite EA in *; cbn in *; repeat split; try discriminate; try exact F3; intros X; rewrite ?M3; auto).
    - destruct (a_connected _); [|exact A]. destruct (g_wp cl) eqn:EW; try exact A. apply put_flags; [exact A|]. destruct F as (F1 & F2 & F3). split; [exact F1|]. split; [exact F2|]. cbn. destruct (g_at cl); try exact F3. eauto.
    - unfold in_set_call. destruct (g_at cl) eqn:EA; try exact A; (destruct (g_wp cl) as [| | |b ps] eqn:EW; try exact A; unfold saw_items; pose proof (items_flags ps (g_alloc cl)) as (M1 & M2 & M3); destruct (on_partitions fn true (Some ps) (g_alloc cl)) as [r a]; apply put_flags; [exact A|];
        destruct F as (F1 & F2 & F3); unfold flags_ok; cbn in *; rewrite EA in *; cbn in *; repeat split; try discriminate; try exact F3; intros X; rewrite ?M3; auto).
    - apply put_flags; [exact A|]. pose proof (allocation_flags (g_alloc cl)) as (X & Y). now apply (same_flags cl).
    - cbn [gstep]. now apply put_items_flags.
    - destruct (g_sid cl) as [sid|]; [|exact A]. destruct (a_connected _); [|exact A]. apply children_flags, put_flags; [exact A|]. repeat split; cbn; discriminate.
    - cbn [gstep]. intros c' k H. cbn [g_clients] in H. destruct (Z.eq_dec c' c) as [->|NE]; [rewrite dget_ddel_same in H by exact ND; discriminate H|]. rewrite dget_ddel_other in H by congruence. exact (A c' k H).
  Qed.
End Flags.
Section Open.
Variable fn : list text -> list text -> res mapping.
Hypothesis TOT : ZkAlloc.total fn good_name.
Hypothesis DEF : answers_all fn.
Lemma reach_flags g : reaches fn g -> all_flags g.
Proof.
  intros (evs & F & N & ->). revert F N. induction evs as [|ev evs IH] using rev_ind; intros F N; [intros c cl H; discriminate H|].
  unfold grun. rewrite fold_left_app. cbn [fold_left]. rewrite new_names_app in N. apply nodup_app_both in N as (N1 & _). assert (F' : forall e, In e evs -> fine e) by (intros e H; apply F, in_or_app; now left).
  destruct (@reached_inv fn (grun fn evs group_init)) as (used & I); [exists evs; auto|]. apply step_flags; [apply I|now apply IH].
Qed.
Lemma reach_step g ev : reaches fn g -> fine ev -> new_names [ev] = [] -> reaches fn (gstep fn g ev).
Proof.
  intros (evs & F & N & ->) FE NE. exists (evs ++ [ev]). split; [|split].
  - intros e H. apply in_app_or in H. destruct H as [H|[<-|[]]]; [now apply F|exact FE].
  - now rewrite new_names_app, NE, app_nil_r.
  - unfold grun. now rewrite fold_left_app.
Qed.

(** ** start() comes to an end *)
Definition left_to_do (p : progress) : nat :=
  match p with Connecting => 9 | AtParty => 8 | AtPartyCall => 7 | AtSet => 6 | AtSetCall => 5 | AtJoin => 4 | AtJoinAct _ => 3 | AtAdd => 2 | Waiting => 1 | Started | Failed _ | Stopped => 0 end.
Lemma members_total ms s : (forall p, In p (a_partitions s) -> good_name p) -> fst (on_members fn true ms s) = Ok tt.
Proof.
  intros G. unfold on_members. destruct (set_eqb _ _); [reflexivity|]. pose proof (rebalance_spec fn true good_name (with_members (mkset ms) s) TOT G) as R. cbv zeta in R. destruct R as (_ & _ & _ & _ & _ & mp & E & _ & H & _).
  destruct H as (H & _). { left. eapply DEF, E. }
  destruct (rebalance fn true _) as [[u|e] s1]; [reflexivity|discriminate H].
Qed.
Lemma items_total ps s : (forall p, In p ps -> good_name p) -> fst (on_partitions fn true (Some ps) s) = Ok tt.
Proof.
  intros G. unfold on_partitions. destruct (set_eqb _ _); [reflexivity|]. pose proof (rebalance_spec fn true good_name (with_partitions ps s) TOT G) as R. cbv zeta in R. destruct R as (_ & _ & _ & _ & _ & mp & E & _ & H & _).
  destruct H as (H & _). { left. eapply DEF, E. }
  destruct (rebalance fn true _) as [[u|e] s1]; [reflexivity|discriminate H].
Qed.
Lemma client_good ch items cl : @client_ok fn ch items cl -> forall p, In p (a_partitions (g_alloc cl)) -> good_name p.
Proof. intros (evs & E & G & _). pose proof (arun_linv fn true good_name evs TOT G [] [] _ (linv_init fn good_name (a_name (g_alloc cl)))) as L. rewrite <- E in L. apply L. Qed.
Definition going (cl : client) : Prop := (exists s, g_sid cl = Some s) /\ a_connected (g_alloc cl) = true.
Lemma members_connected ms s : (forall p, In p (a_partitions s) -> good_name p) -> a_connected (snd (on_members fn true ms s)) = a_connected s.
Proof.
  intros G. unfold on_members. destruct (set_eqb _ _); [reflexivity|]. pose proof (rebalance_spec fn true good_name (with_members (mkset ms) s) TOT G) as R. cbv zeta in R. destruct R as (_ & _ & _ & C & _). destruct (rebalance fn true _) as [[u|e] s1]; exact C.
Qed.
Lemma items_connected ps s : (forall p, In p ps -> good_name p) -> a_connected (snd (on_partitions fn true (Some ps) s)) = a_connected s.
Proof.
  intros G. unfold on_partitions. destruct (set_eqb _ _); [reflexivity|]. pose proof (rebalance_spec fn true good_name (with_partitions ps s) TOT G) as R. cbv zeta in R. destruct R as (_ & _ & _ & C & _). destruct (rebalance fn true _) as [[u|e] s1]; exact C.
Qed.
Lemma dget_put c cl g : dget (g_clients (put_client c cl g)) c = Some cl.
Proof. apply dget_dset_same. Qed.
Lemma dget_children ch c cl g : dget (g_clients g) c = Some cl -> dget (g_clients (put_children ch g)) c = Some (set_wm (fires (g_wm cl)) cl).
Proof. intros H. cbn. unfold members_change. rewrite (dget_map (fun x => set_wm (fires (g_wm x)) x)), H. reflexivity. Qed.
Lemma dget_items it c cl g : dget (g_clients g) c = Some cl -> dget (g_clients (put_items it g)) c = Some (set_wp (fires (g_wp cl)) cl).
Proof. intros H. cbn. unfold items_change. rewrite (dget_map (fun x => set_wp (fires (g_wp x)) x)), H. reflexivity. Qed.
Lemma step_down g c cl : reaches fn g -> dget (g_clients g) c = Some cl -> going cl -> g_at cl <> Started -> (forall e, g_at cl <> Failed e) -> g_at cl <> Stopped ->
  exists cl', dget (g_clients (gstep fn g (GStep c))) c = Some cl' /\ going cl' /\ S (left_to_do (g_at cl')) = left_to_do (g_at cl) /\ (forall e, g_at cl' <> Failed e) /\ g_at cl' <> Stopped.
Proof.
  intros R D ((sid & ES) & CO) N1 N2 N3. destruct (@reached_inv fn g R) as (used & I). pose proof (reach_flags g R c cl D) as (F1 & F2 & F3). pose proof (gi_c _ _ I c cl D) as C. pose proof (gi_j _ _ I c cl D) as J. cbn [gstep]. rewrite D. unfold start_step. rewrite ES, CO.
  unfold joined_ok in J. destruct (g_at cl) as [| | | | | |seen| | | |e|] eqn:EA; cbn in F1, F2; try congruence; try (now destruct (N2 e)).
  - eexists. rewrite dget_put. split; [reflexivity|]. repeat split; cbn; try discriminate; eauto.
  - eexists. rewrite dget_put. split; [reflexivity|]. repeat split; cbn; try discriminate; eauto.
  - destruct F3 as (b & ms & EW). rewrite EW. unfold saw_members. pose proof (members_total ms (g_alloc cl) (client_good _ _ cl C)) as OK. pose proof (members_connected ms (g_alloc cl) (client_good _ _ cl C)) as CC. destruct (on_members fn true ms (g_alloc cl)) as [r a]. cbn in OK, CC. subst r. cbn [next].
    eexists. rewrite dget_put. split; [reflexivity|]. split; [split; cbn; [eauto|congruence]|]. repeat split; cbn; discriminate.
  - eexists. rewrite dget_put. split; [reflexivity|]. repeat split; cbn; try discriminate; eauto.
  - destruct F3 as (b & ps & EW). rewrite EW. unfold saw_items. assert (GP : forall p, In p ps -> good_name p). { destruct C as (evs & _ & _ & _ & _ & Q & _). rewrite EW in Q. apply Q. }
    pose proof (items_total ps (g_alloc cl) GP) as OK. pose proof (items_connected ps (g_alloc cl) GP) as CC. destruct (on_partitions fn true (Some ps) (g_alloc cl)) as [r a]. cbn in OK, CC. subst r. cbn [next].
    eexists. rewrite dget_put. split; [reflexivity|]. split; [split; cbn; [eauto|congruence]|]. repeat split; cbn; discriminate.
  - eexists. rewrite dget_put. split; [reflexivity|]. repeat split; cbn; try discriminate; eauto.
  - destruct seen as [owner|]; [destruct J as (_ & [])|]. destruct J as (_ & J & _). unfold dmem. rewrite J. eexists. rewrite (dget_children _ c _ _ (dget_put _ _ _)). split; [reflexivity|]. repeat split; cbn; try discriminate; eauto.
  - destruct (subset _ _).
    + eexists. rewrite dget_put. split; [reflexivity|]. repeat split; cbn; try discriminate; eauto.
    + eexists. rewrite (dget_items _ c _ _ (dget_put _ _ _)). split; [reflexivity|]. repeat split; cbn; try discriminate; eauto.
  - rewrite (F1 eq_refl), (F2 eq_refl). cbn [andb]. eexists. rewrite dget_put. split; [reflexivity|]. repeat split; cbn; try discriminate; eauto.
Qed.
Lemma steps_down n : forall g c cl, reaches fn g -> dget (g_clients g) c = Some cl -> going cl -> left_to_do (g_at cl) = n -> (forall e, g_at cl <> Failed e) -> g_at cl <> Stopped ->
  exists cl', dget (g_clients (grun fn (repeat (GStep c) n) g)) c = Some cl' /\ g_at cl' = Started.
Proof.
  induction n as [|n IH]; intros g c cl R D G L N2 N3.
  - exists cl. split; [exact D|]. destruct (g_at cl) as [| | | | | | | | | |e|]; try discriminate L; [reflexivity|now destruct (N2 e)|congruence].
  - destruct (step_down g c cl R D G) as (cl' & D' & G' & L' & N2' & N3'); try assumption; [intros E; rewrite E in L; discriminate L|]. cbn [repeat grun fold_left]. unfold grun. cbn [fold_left]. apply (IH _ c cl'); try assumption; [now apply reach_step|lia].
Qed.

(** ** start() fails only when a call to ZooKeeper does *)
Lemma fails_only evs : (forall ev, In ev evs -> fine ev) -> NoDup (new_names evs) -> forall c cl e, dget (g_clients (grun fn evs group_init)) c = Some cl -> g_at cl = Failed e -> In (GRaise c e) evs.
Proof.
  induction evs as [|ev evs IH] using rev_ind; intros F N c cl e H E; [discriminate H|]. unfold grun in H. rewrite fold_left_app in H. cbn [fold_left] in H. fold (grun fn evs group_init) in H. rewrite new_names_app in N. apply nodup_app_both in N as (N1 & _).
  assert (F' : forall e, In e evs -> fine e) by (intros e0 H0; apply F, in_or_app; now left). specialize (IH F' N1). set (g := grun fn evs group_init) in *.
  assert (R : reaches fn g) by (exists evs; auto). destruct (@reached_inv fn g R) as (used & I). apply in_or_app.
  assert (OLD : forall k, dget (g_clients g) c = Some k -> g_at k = Failed e -> In (GRaise c e) evs \/ In (GRaise c e) [ev]) by (intros k Hk Ek; left; now apply (IH c k e)).
  assert (PUT : forall c' k x, dget (g_clients (put_client c' k g)) c = Some x -> c' = c /\ x = k \/ dget (g_clients g) c = Some x).
  { intros c' k x Hk. cbn in Hk. destruct (Z.eq_dec c c') as [->|NE]; [rewrite dget_dset_same in Hk; injection Hk as <-; now left|]. rewrite dget_dset_other in Hk by congruence. now right. }
  assert (CH : forall ch g', dget (g_clients (put_children ch g')) c = Some cl -> exists k, dget (g_clients g') c = Some k /\ g_at k = g_at cl).
  { intros ch g' Hk. cbn in Hk. unfold members_change in Hk. rewrite (dget_map (fun x => set_wm (fires (g_wm x)) x)) in Hk. destruct (dget (g_clients g') c) as [k|]; [|discriminate Hk]. injection Hk as <-. eauto. }
  assert (IT : forall it g', dget (g_clients (put_items it g')) c = Some cl -> exists k, dget (g_clients g') c = Some k /\ g_at k = g_at cl).
  { intros it g' Hk. cbn in Hk. unfold items_change in Hk. rewrite (dget_map (fun x => set_wp (fires (g_wp x)) x)) in Hk. destruct (dget (g_clients g') c) as [k|]; [|discriminate Hk]. injection Hk as <-. eauto. }
  assert (PUTS : forall c' cl0 k, dget (g_clients g) c' = Some cl0 -> g_at k = g_at cl0 \/ (forall e', g_at k <> Failed e') -> dget (g_clients (put_client c' k g)) c = Some cl -> In (GRaise c e) evs \/ In (GRaise c e) [ev]).
  { intros c' cl0 k D Q Hk. destruct (PUT c' k cl Hk) as [(-> & ->)|O]; [|now apply (OLD cl)]. destruct Q as [Q|Q]; [apply (OLD cl0); [exact D|congruence]|now destruct (Q e)]. }
  destruct ev as [c0 name seed|c0|c0 e0|c0|c0|sid|c0|c0|c0|c0|c0|items|c0|c0]; try (cbn [gstep] in H; destruct (dget (g_clients g) c0) as [cl0|] eqn:D; [|now apply (OLD cl)]).
  - cbn [gstep] in H. destruct (dmem _ _); [now apply (OLD cl)|]. destruct (PUT _ _ _ H) as [(_ & ->)|O]; [discriminate E|now apply (OLD cl)].
  - unfold start_step in H. pose proof (gi_c _ _ I c0 cl0 D) as C. pose proof (gi_j _ _ I c0 cl0 D) as J. destruct (g_sid cl0) as [sid|] eqn:ES; [|now apply (OLD cl)]. destruct (a_connected (g_alloc cl0)) eqn:CO; [|now apply (OLD cl)].
    unfold joined_ok in J. destruct (g_at cl0) as [| | | | | |seen| | | |e0|] eqn:EA; try (now apply (OLD cl)); try (apply (PUTS _ _ _ D) in H; [exact H|right; discriminate]).
    + destruct (g_wm cl0) as [| | |b ms] eqn:EW; try (now apply (OLD cl)). unfold saw_members in H. pose proof (members_total ms (g_alloc cl0) (client_good _ _ cl0 C)) as OK. destruct (on_members fn true ms (g_alloc cl0)) as [r a]. cbn in OK. subst r. apply (PUTS _ _ _ D) in H; [exact H|right; discriminate].
    + destruct (g_wp cl0) as [| | |b ps] eqn:EW; try (now apply (OLD cl)). unfold saw_items in H. assert (GP : forall p, In p ps -> good_name p). { destruct C as (evs0 & _ & _ & _ & _ & Q & _). rewrite EW in Q. apply Q. }
      pose proof (items_total ps (g_alloc cl0) GP) as OK. destruct (on_partitions fn true (Some ps) (g_alloc cl0)) as [r a]. cbn in OK. subst r. apply (PUTS _ _ _ D) in H; [exact H|right; discriminate].
    + destruct seen as [owner|]; [destruct J as (_ & [])|]. destruct J as (_ & J & _). unfold dmem in H. rewrite J in H. destruct (CH _ _ H) as (k & Hk & Ek). destruct (PUT _ _ _ Hk) as [(_ & ->)|O]; [rewrite E in Ek; discriminate Ek|apply (OLD k O); congruence].
    + destruct (subset _ _); [apply (PUTS _ _ _ D) in H; [exact H|right; discriminate]|]. destruct (IT _ _ H) as (k & Hk & Ek). destruct (PUT _ _ _ Hk) as [(_ & ->)|O]; [rewrite E in Ek; discriminate Ek|apply (OLD k O); congruence].
    + destruct (_ && _); [|now apply (OLD cl)]. apply (PUTS _ _ _ D) in H; [exact H|right; discriminate].
  - assert (Q : dget (g_clients (put_client c0 (set_at (Failed e0) cl0) g)) c = Some cl -> In (GRaise c e) evs \/ In (GRaise c e) [GRaise c0 e0]).
    { intros Hk. destruct (PUT _ _ _ Hk) as [(-> & ->)|O]; [cbn in E; injection E as ->; right; now left|now apply (OLD cl)]. }
    destruct (g_at cl0); try (now apply Q); now apply (OLD cl).
  - assert (Q : forall s n, dget (g_clients (Grp (g_children g) (g_items g) (dset (g_clients g) c0 (set_wm (fires (g_wm cl0)) (set_wp (fires (g_wp cl0)) (on_state CONNECTED (set_sid s cl0))))) n)) c = Some cl -> In (GRaise c e) evs \/ In (GRaise c e) [GConnect c0]).
    { intros s n Hk. refine (PUTS c0 cl0 _ D _ Hk). now left. }
    destruct (g_at cl0) eqn:EA; try (now apply (OLD cl)); (destruct (g_sid cl0); [refine (PUTS c0 cl0 _ D _ H); left; reflexivity|exact (Q _ _ H)]).
  - refine (PUTS c0 cl0 _ D _ H). now left.
  - cbn [gstep] in H. cbv zeta in H. cbn [g_clients] in H. set (h := fun x => if match g_sid x with Some s => s =? sid | None => false end then on_state LOST (set_sid None x) else x) in H. rewrite (dget_map h) in H.
    destruct (dget (g_clients (put_children (without sid (g_children g)) g)) c) as [k|] eqn:EK; [|discriminate H]. injection H as <-. assert (A : g_at (h k) = g_at k) by (unfold h; now destruct (match g_sid k with Some s => s =? sid | None => false end)).
    cbn in EK. unfold members_change in EK. rewrite (dget_map (fun x => set_wm (fires (g_wm x)) x)) in EK. destruct (dget (g_clients g) c) as [k0|] eqn:E0; [|discriminate EK]. injection EK as <-. apply (OLD k0 eq_refl). rewrite A in E. exact E.
  - destruct (a_connected _); [|now apply (OLD cl)]. destruct (g_wm cl0); try (now apply (OLD cl)). refine (PUTS c0 cl0 _ D _ H). now left.
  - destruct (in_party_call cl0); [now apply (OLD cl)|]. destruct (g_wm cl0); try (now apply (OLD cl)). unfold saw_members in H. destruct (on_members _ _ _ _) as [r a]. refine (PUTS c0 cl0 _ D _ H). now left.
  - destruct (a_connected _); [|now apply (OLD cl)]. destruct (g_wp cl0); try (now apply (OLD cl)). refine (PUTS c0 cl0 _ D _ H). now left.
  - destruct (in_set_call cl0); [now apply (OLD cl)|]. destruct (g_wp cl0); try (now apply (OLD cl)). unfold saw_items in H. destruct (on_partitions _ _ _ _) as [r a]. refine (PUTS c0 cl0 _ D _ H). now left.
  - refine (PUTS c0 cl0 _ D _ H). now left.
  - cbn [gstep] in H. destruct (IT _ _ H) as (k & Hk & Ek). apply (OLD k Hk). congruence.
  - destruct (g_sid cl0) as [sid|]; [|now apply (OLD cl)]. destruct (a_connected _); [|now apply (OLD cl)]. destruct (CH _ _ H) as (k & Hk & Ek). destruct (PUT _ _ _ Hk) as [(_ & ->)|O]; [rewrite E in Ek; discriminate Ek|apply (OLD k O); congruence].
  - cbn [gstep] in H. cbn [g_clients] in H. destruct (Z.eq_dec c c0) as [->|NE]; [rewrite dget_ddel_same in H by apply I; discriminate H|]. rewrite dget_ddel_other in H by congruence. now apply (OLD cl).
Qed.
End Open.
