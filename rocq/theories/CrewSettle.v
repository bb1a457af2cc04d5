(** Proofs for C95: notifications that are due can be delivered, and then a group is settled. *)
From Coq Require Import ZArith Lia String List Bool Permutation.
From Verif Require Import PyBase BaseLemmas Cluster Iterables Zookeeper SpecZk ZkProofs ZkAlloc PropsZk Consumer Group SpecGroupRun SpecGroupAny GroupAny GroupOpen Crew SpecCrew CrewProofs.
Import ListNotations.
Open Scope Z_scope.

Section Any.
Variable fn : list text -> list text -> res mapping.
Hypothesis TOT : ZkAlloc.total fn good_name.
Notation nrun := (arun fn true).
(** ** a started client has its watches *)
Definition has_m (p : progress) : bool := match p with AtPartyCall => true | _ => past_party p end.
Definition has_p (p : progress) : bool := match p with AtSetCall => true | _ => past_set p end.
Definition watching (cl : client) : Prop := (has_m (g_at cl) = true -> g_wm cl <> Off) /\ (has_p (g_at cl) = true -> g_wp cl <> Off).
Definition all_watch (g : group) : Prop := forall c cl, dget (g_clients g) c = Some cl -> watching cl.
Lemma put_watch g c cl : all_watch g -> watching cl -> all_watch (put_client c cl g).
Proof. intros A F c' k H. cbn in H. destruct (Z.eq_dec c' c) as [->|N]; [rewrite dget_dset_same in H; injection H as <-; exact F|]. rewrite dget_dset_other in H by congruence. exact (A c' k H). Qed.
Lemma fires_off w : w <> Off -> fires w <> Off.
Proof. now destruct w. Qed.
Lemma called_off w : w <> Off -> called w <> Off.
Proof. now destruct w as [| | |[] ?]. Qed.
Lemma fires_m_watch cl : watching cl -> watching (set_wm (fires (g_wm cl)) cl).
Proof. intros (A & B). split; [intros X; apply fires_off, A, X|exact B]. Qed.
Lemma fires_p_watch cl : watching cl -> watching (set_wp (fires (g_wp cl)) cl).
Proof. intros (A & B). split; [exact A|intros X; apply fires_off, B, X]. Qed.
Lemma children_watch g ch : all_watch g -> all_watch (put_children ch g).
Proof. intros A c cl H. cbn in H. unfold members_change in H. rewrite (dget_mapped (fun x => set_wm (fires (g_wm x)) x)) in H. destruct (dget (g_clients g) c) as [k|] eqn:E; [|discriminate H]. injection H as <-. apply fires_m_watch, (A c k E). Qed.
Lemma items_watch g it : all_watch g -> all_watch (put_items it g).
Proof. intros A c cl H. cbn in H. unfold items_change in H. rewrite (dget_mapped (fun x => set_wp (fires (g_wp x)) x)) in H. destruct (dget (g_clients g) c) as [k|] eqn:E; [|discriminate H]. injection H as <-. apply fires_p_watch, (A c k E). Qed.
Lemma next_watch r p : p <> AtPartyCall -> next r p = p \/ exists e, next r p = Failed e.
Proof. destruct r; cbn; eauto. Qed.
Lemma start_watch g c cl : all_watch g -> dget (g_clients g) c = Some cl -> all_watch (start_step fn c cl g).
Proof.
  intros A D. pose proof (A c cl D) as (F1 & F2). unfold start_step. destruct (g_sid cl) as [sid|]; [|exact A]. destruct (a_connected (g_alloc cl)); [|exact A].
  destruct (g_at cl) as [| | | | | |seen| | | |e|] eqn:EA; try exact A; cbn in F1, F2.
  - apply put_watch; [exact A|]. split; cbn; discriminate.
  - apply put_watch; [exact A|]. split; cbn; discriminate.
  - destruct (g_wm cl) as [| | |b ms] eqn:EW; try exact A. unfold saw_members. destruct (on_members fn true ms (g_alloc cl)) as [[u|e] a]; (apply put_watch; [exact A|]); split; cbn; try discriminate. intros _. now destruct b.
  - apply put_watch; [exact A|]. split; cbn; [exact F1|discriminate].
  - destruct (g_wp cl) as [| | |b ps] eqn:EW; try exact A. unfold saw_items. destruct (on_partitions fn true (Some ps) (g_alloc cl)) as [[u|e] a]; (apply put_watch; [exact A|]); split; cbn; try discriminate; [exact F1|]. intros _. now destruct b.
  - apply put_watch; [exact A|]. split; cbn; auto.
  - assert (F : watching (set_at AtAdd (set_joined (Some sid) cl))) by (split; cbn; auto). destruct seen as [owner|].
    + destruct (owner =? sid); [now apply put_watch|]. destruct (dmem _ _); [|now apply put_watch]. now apply children_watch, put_watch.
    + destruct (dmem _ _); [|now apply children_watch, put_watch]. apply put_watch; [exact A|]. split; cbn; discriminate.
  - assert (F : watching (set_at Waiting cl)) by (split; cbn; auto). destruct (subset _ _); [now apply put_watch|]. now apply items_watch, put_watch.
  - destruct (_ && _); [|exact A]. apply put_watch; [exact A|]. split; cbn; auto.
Qed.
Lemma same_watch cl cl' : watching cl -> g_at cl' = g_at cl -> g_wm cl' = g_wm cl -> g_wp cl' = g_wp cl -> watching cl'.
Proof. unfold watching. intros F -> -> ->. exact F. Qed.
Lemma step_watch g ev : NoDup (dkeys (g_clients g)) -> all_watch g -> all_watch (gstep fn g ev).
Proof.
  intros ND A. destruct ev as [c name seed|c|c e|c|c|sid|c|c|c|c|c|items|c|c]; try (cbn [gstep]; destruct (dget (g_clients g) c) as [cl|] eqn:D; [|exact A]; pose proof (A c cl D) as F).
  - cbn [gstep]. destruct (dmem _ _); [exact A|]. apply put_watch; [exact A|]. split; cbn; discriminate.
  - now apply start_watch.
  - assert (P : watching (set_at (Failed e) cl)) by (split; cbn; discriminate). destruct (g_at cl); try exact A; now apply put_watch.
  - assert (Q : forall s n, all_watch (Grp (g_children g) (g_items g) (dset (g_clients g) c (set_wm (fires (g_wm cl)) (set_wp (fires (g_wp cl)) (on_state CONNECTED (set_sid s cl))))) n)).
    { intros s n. refine (put_watch g c _ A _). apply (fires_m_watch (set_wp (fires (g_wp cl)) (on_state CONNECTED (set_sid s cl)))). apply (fires_p_watch (on_state CONNECTED (set_sid s cl))). now apply (same_watch cl). }
    assert (P : all_watch (put_client c (set_wm (fires (g_wm cl)) (set_wp (fires (g_wp cl)) (on_state CONNECTED cl))) g)).
    { apply put_watch; [exact A|]. apply (fires_m_watch (set_wp (fires (g_wp cl)) (on_state CONNECTED cl))). apply (fires_p_watch (on_state CONNECTED cl)). now apply (same_watch cl). }
    destruct (g_at cl); try exact A; (destruct (g_sid cl); [exact P|apply Q]).
  - apply put_watch; [exact A|]. now apply (same_watch cl).
  - cbn [gstep]. cbv zeta. intros c cl H. cbn [g_clients] in H. set (h := fun x => if match g_sid x with Some s => s =? sid | None => false end then on_state LOST (set_sid None x) else x) in H. rewrite (dget_mapped h) in H.
    destruct (dget (g_clients (put_children (without sid (g_children g)) g)) c) as [k|] eqn:E; [|discriminate H]. injection H as <-. pose proof (children_watch g _ A c k E) as F. unfold h. destruct (match g_sid k with Some s => s =? sid | None => false end); [now apply (same_watch k)|exact F].
  - destruct (a_connected _); [|exact A]. destruct (g_wm cl) eqn:EW; try exact A. apply put_watch; [exact A|]. split; cbn; [discriminate|apply F].
  - destruct (in_party_call cl); [exact A|]. destruct (g_wm cl) as [| | |b ms] eqn:EW; try exact A. unfold saw_members. destruct (on_members fn true ms (g_alloc cl)) as [r a]. apply put_watch; [exact A|]. split; cbn; [intros _; now destruct b|apply F].
  - destruct (a_connected _); [|exact A]. destruct (g_wp cl) eqn:EW; try exact A. apply put_watch; [exact A|]. split; cbn; [apply F|discriminate].
  - destruct (in_set_call cl); [exact A|]. destruct (g_wp cl) as [| | |b ps] eqn:EW; try exact A. unfold saw_items. destruct (on_partitions fn true (Some ps) (g_alloc cl)) as [r a]. apply put_watch; [exact A|]. split; cbn; [apply F|intros _; now destruct b].
  - apply put_watch; [exact A|]. now apply (same_watch cl).
  - cbn [gstep]. now apply items_watch.
  - destruct (g_sid cl) as [sid|]; [|exact A]. destruct (a_connected _); [|exact A]. apply children_watch, put_watch; [exact A|]. split; cbn; discriminate.
  - cbn [gstep]. intros c' k H. cbn [g_clients] in H. destruct (Z.eq_dec c' c) as [->|NE]; [rewrite dget_ddel_same in H by exact ND; discriminate H|]. rewrite dget_ddel_other in H by congruence. exact (A c' k H).
Qed.
Lemma reach_watch g : reaches fn g -> all_watch g.
Proof.
  intros (evs & F & N & ->). revert F N. induction evs as [|ev evs IH] using rev_ind; intros F N; [intros c cl H; discriminate H|].
  rewrite grun_snoc. rewrite new_names_app in N. apply nodup_app_both in N as (N1 & _). assert (F1 : forall e, In e evs -> fine e) by (intros e H; apply F, in_or_app; now left).
  apply step_watch; [|now apply IH]. exact (gi_nd _ _ (@run_inv fn evs F1 N1)).
Qed.

(** ** delivering what is due to one client *)
Definition deliver (c : Z) : list gevent := [GCallM c; GLookM c; GCallM c; GCallP c; GLookP c; GCallP c].
Definition keeps (c : Z) (g g' : group) : Prop :=
  g_children g' = g_children g /\ g_items g' = g_items g /\ (forall c', c' <> c -> dget (g_clients g') c' = dget (g_clients g) c').
Lemma keeps_refl c g : keeps c g g.
Proof. repeat split. Qed.
Lemma keeps_trans c g1 g2 g3 : keeps c g1 g2 -> keeps c g2 g3 -> keeps c g1 g3.
Proof. intros (A & B & C) (A' & B' & C'). split; [congruence|]. split; [congruence|]. intros c' N. now rewrite C', C. Qed.
Lemma keeps_put c cl g : keeps c g (put_client c cl g).
Proof. repeat split. intros c' N. apply put_other. congruence. Qed.
Definition good_client (cl : client) : Prop := g_at cl = Started /\ a_connected (g_alloc cl) = true /\ forall p, In p (a_partitions (g_alloc cl)) -> good_name p.
Definition bare (w : watch) : Prop := w = Quiet \/ w = Due \/ exists b s, w = Got b s.
Lemma not_off w : w <> Off -> bare w.
Proof. unfold bare. destruct w as [| | |b s]; [easy|eauto..]. Qed.
Lemma members_partitions ms s : a_partitions (snd (on_members fn true ms s)) = a_partitions s.
Proof.
  unfold on_members. destruct (set_eqb _ _); [reflexivity|]. unfold rebalance. destruct (fn _ _) as [mp|e]; [|reflexivity].
  match goal with |- context[allocation ?x] => pose proof (allocation_gives x) as A; cbv zeta in A; destruct (allocation x) as [[r|e] s2] end; cbn [snd] in *; destruct A as (_ & _ & _ & A & _); exact A.
Qed.
Lemma call_m g c cl b ms : dget (g_clients g) c = Some cl -> good_client cl -> g_wm cl = Got b ms ->
  exists cl', gstep fn g (GCallM c) = put_client c cl' g /\ good_client cl' /\ g_wm cl' = called (Got b ms) /\ g_wp cl' = g_wp cl.
Proof.
  intros D (EA & EC & GP) EW. cbn [gstep]. rewrite D. unfold in_party_call. rewrite EA, EW. unfold saw_members. pose proof (members_connected fn TOT ms (g_alloc cl) GP) as C. pose proof (members_partitions ms (g_alloc cl)) as P.
  destruct (on_members fn true ms (g_alloc cl)) as [r a]. cbn [snd] in *. eexists. split; [reflexivity|]. split; [|split; reflexivity]. split; [exact EA|]. split; [now rewrite <- EC|]. cbn [set_wm Group.set_alloc g_alloc]. now rewrite P.
Qed.
Lemma idle_m g c cl : dget (g_clients g) c = Some cl -> (forall b ms, g_wm cl <> Got b ms) -> gstep fn g (GCallM c) = g.
Proof. intros D N. cbn [gstep]. rewrite D. destruct (in_party_call cl); [reflexivity|]. destruct (g_wm cl) as [| | |b ms]; try reflexivity. now destruct (N b ms). Qed.
Lemma look_m g c cl : dget (g_clients g) c = Some cl -> good_client cl -> g_wm cl = Due ->
  exists cl', gstep fn g (GLookM c) = put_client c cl' g /\ good_client cl' /\ g_wm cl' = Got false (dkeys (g_children g)) /\ g_wp cl' = g_wp cl.
Proof. intros D (EA & EC & GP) EW. cbn [gstep]. rewrite D, EC, EW. eexists. split; [reflexivity|]. repeat split; assumption. Qed.
Lemma idle_lm g c cl : dget (g_clients g) c = Some cl -> g_wm cl <> Due -> gstep fn g (GLookM c) = g.
Proof. intros D N. cbn [gstep]. rewrite D. destruct (a_connected _); [|reflexivity]. now destruct (g_wm cl). Qed.
Lemma call_p g c cl b ps : dget (g_clients g) c = Some cl -> good_client cl -> (forall p, In p ps -> good_name p) -> g_wp cl = Got b ps ->
  exists cl', gstep fn g (GCallP c) = put_client c cl' g /\ good_client cl' /\ g_wp cl' = called (Got b ps) /\ g_wm cl' = g_wm cl.
Proof.
  intros D (EA & EC & GP) G EW. cbn [gstep]. rewrite D. unfold in_set_call. rewrite EA, EW. unfold saw_items. pose proof (items_connected fn TOT ps (g_alloc cl) G) as C.
  assert (P : forall p, In p (a_partitions (snd (on_partitions fn true (Some ps) (g_alloc cl)))) -> good_name p).
  { unfold on_partitions. destruct (set_eqb _ _); [exact GP|]. unfold rebalance. destruct (fn _ _) as [mp|e]; [|exact G].
    match goal with |- context[allocation ?x] => pose proof (allocation_gives x) as A; cbv zeta in A; destruct (allocation x) as [[r|e] s2] end; cbn [snd] in *; destruct A as (_ & _ & _ & A & _).
    - intros p H. apply G. cbn [set_pcoll a_partitions] in H. now rewrite A in H.
    - intros p H. apply G. now rewrite A in H. }
  destruct (on_partitions fn true (Some ps) (g_alloc cl)) as [r a]. cbn [snd] in *. eexists. split; [reflexivity|]. split; [|split; reflexivity]. split; [exact EA|]. split; [now rewrite <- EC|]. exact P.
Qed.
Lemma idle_p g c cl : dget (g_clients g) c = Some cl -> (forall b ms, g_wp cl <> Got b ms) -> gstep fn g (GCallP c) = g.
Proof. intros D N. cbn [gstep]. rewrite D. destruct (in_set_call cl); [reflexivity|]. destruct (g_wp cl) as [| | |b ms]; try reflexivity. now destruct (N b ms). Qed.
Lemma look_p g c cl : dget (g_clients g) c = Some cl -> good_client cl -> g_wp cl = Due ->
  exists cl', gstep fn g (GLookP c) = put_client c cl' g /\ good_client cl' /\ g_wp cl' = Got false (g_items g) /\ g_wm cl' = g_wm cl.
Proof. intros D (EA & EC & GP) EW. cbn [gstep]. rewrite D, EC, EW. eexists. split; [reflexivity|]. repeat split; assumption. Qed.
Lemma idle_lp g c cl : dget (g_clients g) c = Some cl -> g_wp cl <> Due -> gstep fn g (GLookP c) = g.
Proof. intros D N. cbn [gstep]. rewrite D. destruct (a_connected _); [|reflexivity]. now destruct (g_wp cl). Qed.

Definition at_client (c : Z) (g : group) (Q : client -> Prop) : Prop := exists cl, dget (g_clients g) c = Some cl /\ good_client cl /\ Q cl.
Lemma one_m g c cl : dget (g_clients g) c = Some cl -> good_client cl -> bare (g_wm cl) ->
  let g' := gstep fn g (GCallM c) in keeps c g g' /\ at_client c g' (fun k => (g_wm k = Quiet \/ g_wm k = Due) /\ g_wp k = g_wp cl).
Proof.
  intros D G [E|[E|(b & s & E)]]; cbv zeta.
  - rewrite (idle_m g c cl D) by (rewrite E; discriminate). split; [apply keeps_refl|]. exists cl. auto 6.
  - rewrite (idle_m g c cl D) by (rewrite E; discriminate). split; [apply keeps_refl|]. exists cl. auto 6.
  - destruct (call_m g c cl b s D G E) as (k & -> & Gk & W & P). split; [apply keeps_put|]. exists k. split; [apply dget_put|]. split; [exact Gk|]. split; [|exact P]. rewrite W. destruct b; cbn; auto.
Qed.
Lemma all_m g c cl : dget (g_clients g) c = Some cl -> good_client cl -> bare (g_wm cl) ->
  let g' := grun fn [GCallM c; GLookM c; GCallM c] g in keeps c g g' /\ at_client c g' (fun k => g_wm k = Quiet /\ g_wp k = g_wp cl).
Proof.
  intros D G B. cbv zeta. cbn [grun fold_left]. destruct (one_m g c cl D G B) as (K1 & k1 & D1 & G1 & W1 & P1). set (g1 := gstep fn g (GCallM c)) in *. clearbody g1. destruct W1 as [W1|W1].
  - rewrite (idle_lm g1 c k1 D1) by (rewrite W1; discriminate). rewrite (idle_m g1 c k1 D1) by (rewrite W1; discriminate). split; [exact K1|]. exists k1. auto.
  - destruct (look_m g1 c k1 D1 G1 W1) as (k2 & -> & G2 & W2 & P2). pose proof (keeps_put c k2 g1) as K2. pose proof (dget_put c k2 g1) as D2. set (g2 := put_client c k2 g1) in *. clearbody g2.
    destruct (call_m g2 c k2 false _ D2 G2 W2) as (k3 & -> & G3 & W3 & P3). split; [exact (keeps_trans _ _ _ _ K1 (keeps_trans _ _ _ _ K2 (keeps_put c k3 g2)))|]. exists k3. split; [apply dget_put|]. split; [exact G3|]. split; [exact W3|congruence].
Qed.
Lemma all_p g c cl : dget (g_clients g) c = Some cl -> good_client cl -> bare (g_wp cl) -> (forall b s, g_wp cl = Got b s -> forall p, In p s -> good_name p) -> (forall p, In p (g_items g) -> good_name p) ->
  let g' := grun fn [GCallP c; GLookP c; GCallP c] g in keeps c g g' /\ at_client c g' (fun k => g_wp k = Quiet /\ g_wm k = g_wm cl).
Proof.
  intros D G B GW GI. cbv zeta. cbn [grun fold_left].
  assert (X : keeps c g (gstep fn g (GCallP c)) /\ at_client c (gstep fn g (GCallP c)) (fun k => (g_wp k = Quiet \/ g_wp k = Due) /\ g_wm k = g_wm cl)).
  { destruct B as [E|[E|(b & s & E)]].
    - rewrite (idle_p g c cl D) by (rewrite E; discriminate). split; [apply keeps_refl|]. exists cl. auto 6.
    - rewrite (idle_p g c cl D) by (rewrite E; discriminate). split; [apply keeps_refl|]. exists cl. auto 6.
    - destruct (call_p g c cl b s D G (GW b s E) E) as (k & -> & Gk & W & P). split; [apply keeps_put|]. exists k. split; [apply dget_put|]. split; [exact Gk|]. split; [|exact P]. rewrite W. destruct b; cbn; auto. }
  destruct X as (K1 & k1 & D1 & G1 & W1 & P1). set (g1 := gstep fn g (GCallP c)) in *. clearbody g1. destruct W1 as [W1|W1].
  - rewrite (idle_lp g1 c k1 D1) by (rewrite W1; discriminate). rewrite (idle_p g1 c k1 D1) by (rewrite W1; discriminate). split; [exact K1|]. exists k1. auto.
  - destruct (look_p g1 c k1 D1 G1 W1) as (k2 & -> & G2 & W2 & P2). pose proof (keeps_put c k2 g1) as K2. pose proof (dget_put c k2 g1) as D2. set (g2 := put_client c k2 g1) in *. clearbody g2.
    assert (GI' : forall p, In p (g_items g1) -> good_name p) by (destruct K1 as (_ & -> & _); exact GI).
    destruct (call_p g2 c k2 false _ D2 G2 GI' W2) as (k3 & -> & G3 & W3 & P3). split; [exact (keeps_trans _ _ _ _ K1 (keeps_trans _ _ _ _ K2 (keeps_put c k3 g2)))|]. exists k3. split; [apply dget_put|]. split; [exact G3|]. split; [exact W3|congruence].
Qed.
Lemma delivered g c cl : reaches fn g -> dget (g_clients g) c = Some cl -> g_at cl = Started -> a_connected (g_alloc cl) = true ->
  let g' := grun fn (deliver c) g in keeps c g g' /\ exists cl', dget (g_clients g') c = Some cl' /\ settled cl' /\ g_at cl' = Started /\ a_connected (g_alloc cl') = true.
Proof.
  intros R D EA EC. cbv zeta. destruct (@reached_inv fn g R) as (used & I). pose proof (gi_c _ _ I c cl D) as C. pose proof (reach_watch g R c cl D) as (W1 & W2). rewrite EA in W1, W2. cbn in W1, W2.
  assert (G : good_client cl) by (split; [exact EA|]; split; [exact EC|]; exact (client_good fn TOT _ _ _ C)).
  destruct (all_m g c cl D G (not_off _ (W1 eq_refl))) as (K1 & k1 & D1 & G1 & Q1 & P1). change (deliver c) with ([GCallM c; GLookM c; GCallM c] ++ [GCallP c; GLookP c; GCallP c]). unfold grun. rewrite fold_left_app. fold (grun fn [GCallM c; GLookM c; GCallM c] g).
  set (g1 := grun fn [GCallM c; GLookM c; GCallM c] g) in *. clearbody g1.
  assert (GI : forall p, In p (g_items g1) -> good_name p) by (destruct K1 as (_ & -> & _); apply I).
  assert (GW : forall b s, g_wp k1 = Got b s -> forall p, In p s -> good_name p). { intros b s E. rewrite P1 in E. destruct C as (evs & _ & _ & _ & _ & X & _). rewrite E in X. apply X. }
  destruct (all_p g1 c k1 D1 G1) as (K2 & k2 & D2 & G2 & Q2 & P2); [rewrite P1; now apply not_off, W2|exact GW|exact GI|]. fold (grun fn [GCallP c; GLookP c; GCallP c] g1).
  split; [exact (keeps_trans _ _ _ _ K1 K2)|]. exists k2. split; [exact D2|]. split; [split; [congruence|exact Q2]|]. split; apply G2.
Qed.
End Any.
