(** Proofs for C95. *)
From Coq Require Import ZArith Lia String List Bool Permutation.
From Verif Require Import PyBase BaseLemmas Constants Cluster Iterables Zookeeper SpecZk ZkProofs ZkAlloc PropsZk Consumer SpecConsumer SpecGroup SpecShare ConsumerProofs ConsumerSteps ConsumerRuns AllocRuns PropsConsumer PropsGroup PropsShare Group SpecGroupRun SpecGroupAny GroupAny GroupOpen Crew SpecCrew.
Import ListNotations.
Open Scope Z_scope.

Section Any.
Context {fn : list text -> list text -> res mapping}.
Notation nrun := (arun fn true).
(** ** what a step of the group tells a client *)
Lemma dget_mapped {A B} (f : A -> B) (d : dict Z A) c : dget (map (fun kc => (fst kc, f (snd kc))) d) c = option_map f (dget d c).
Proof. induction d as [|[k v] d IH]; [reflexivity|]. cbn. destruct (k =? c); [reflexivity|exact IH]. Qed.
Lemma put_other c c' cl g : c <> c' -> dget (g_clients (put_client c cl g)) c' = dget (g_clients g) c'.
Proof. intros N. cbn. apply dget_dset_other. congruence. Qed.
Definition told_by (c : Z) (g g' : group) (evs : list aevent) : Prop :=
  forall cl, dget (g_clients g) c = Some cl -> exists cl', dget (g_clients g') c = Some cl' /\ g_alloc cl' = nrun evs (g_alloc cl).
Lemma told_same c g : told_by c g g [].
Proof. intros cl D. now exists cl. Qed.
Lemma told_put c g cl cl' evs : dget (g_clients g) c = Some cl -> g_alloc cl' = nrun evs (g_alloc cl) -> told_by c g (put_client c cl' g) evs.
Proof. intros D E k Dk. rewrite D in Dk. injection Dk as <-. exists cl'. split; [apply dget_put|exact E]. Qed.
Lemma told_put_other c c' g cl' : c' <> c -> told_by c g (put_client c' cl' g) [].
Proof. intros N cl D. exists cl. split; [rewrite put_other by exact N; exact D|reflexivity]. Qed.
Lemma told_children c g g' ch evs : told_by c g g' evs -> told_by c g (put_children ch g') evs.
Proof. intros T cl D. destruct (T cl D) as (cl' & D' & E). exists (set_wm (fires (g_wm cl')) cl'). split; [now apply dget_children|exact E]. Qed.
Lemma told_items c g g' it evs : told_by c g g' evs -> told_by c g (put_items it g') evs.
Proof. intros T cl D. destruct (T cl D) as (cl' & D' & E). exists (set_wp (fires (g_wp cl')) cl'). split; [now apply dget_items|exact E]. Qed.
Lemma told_next c g g' n evs : told_by c g g' evs -> told_by c g (Grp (g_children g') (g_items g') (g_clients g') n) evs.
Proof. intros T cl D. destruct (T cl D) as (cl' & D' & E). now exists cl'. Qed.

Lemma start_told c cl g : dget (g_clients g) c = Some cl -> told_by c g (start_step fn c cl g) (hears_client g (GStep c) c cl).
Proof.
  intros D. unfold start_step, hears_client. rewrite Z.eqb_refl. destruct (g_sid cl) as [sid|]; [|apply told_same]. destruct (a_connected (g_alloc cl)); [|apply told_same].
  destruct (g_at cl) as [| | | | | |[o|]| | | | |] eqn:EA; try apply told_same;
    try (destruct (g_wm cl) as [| | |b ms] eqn:EW; destruct (g_wp cl) as [| | |b' ps] eqn:EP);
    try apply told_same;
    repeat match goal with
    | |- told_by _ _ (if ?x then _ else _) _ => destruct x
    | |- told_by _ _ (put_children _ _) _ => apply told_children
    | |- told_by _ _ (put_items _ _) _ => apply told_items
    end; try apply told_same;
    try (apply (told_put c g cl); [exact D|reflexivity]).
  all: try (unfold saw_members; destruct (on_members fn true ms (g_alloc cl)) as [r a] eqn:E; apply (told_put c g cl); [exact D|]; cbn [arun fold_left astep]; now rewrite E).
  all: try (unfold saw_items; destruct (on_partitions fn true (Some ps) (g_alloc cl)) as [r a] eqn:E; apply (told_put c g cl); [exact D|]; cbn [arun fold_left astep]; now rewrite E).
Qed.
Lemma start_told_other c c' cl g : c' <> c -> told_by c g (start_step fn c' cl g) [].
Proof.
  intros N. unfold start_step, saw_members, saw_items. destruct (g_sid cl) as [sid|]; [|apply told_same]. destruct (a_connected (g_alloc cl)); [|apply told_same].
  destruct (g_at cl) as [| | | | | |[o|]| | | | |] eqn:EA; try apply told_same;
    repeat match goal with
    | |- told_by _ _ (if ?x then _ else _) _ => destruct x
    | |- told_by _ _ (let '(_, _) := ?x in _) _ => destruct x
    | |- told_by _ _ (match ?x with _ => _ end) _ => destruct x
    | |- told_by _ _ (put_children _ _) _ => apply told_children
    | |- told_by _ _ (put_items _ _) _ => apply told_items
    end; try apply told_same; try (now apply told_put_other).
Qed.

Lemma hears_right c g ev : ev <> GDie c -> NoDup (dkeys (g_clients g)) -> told_by c g (gstep fn g ev) (hears g ev c).
Proof.
  intros ND NK cl D. revert cl D. unfold hears. destruct (dget (g_clients g) c) as [cl|] eqn:D; [|intros cl D'; congruence].
  intros k Dk. assert (k = cl) by congruence. subst k. revert cl Dk D.
  enough (X : forall cl, dget (g_clients g) c = Some cl -> told_by c g (gstep fn g ev) (hears_client g ev c cl)) by (intros cl _ D; exact (X cl D cl D)).
  intros cl D. destruct ev as [c' name seed|c'|c' e|c'|c'|sid|c'|c'|c'|c'|c'|items|c'|c']; cbn [gstep hears_client].
  - destruct (dmem (g_clients g) c') eqn:M; [apply told_same|]. destruct (Z.eq_dec c' c) as [->|N]; [unfold dmem in M; rewrite D in M; discriminate M|]. now apply told_put_other.
  - destruct (Z.eqb_spec c' c) as [->|N]; [rewrite D; pose proof (start_told c cl g D) as X; unfold hears_client in X; rewrite Z.eqb_refl in X; exact X|].
    destruct (dget (g_clients g) c') as [k|]; [now apply start_told_other|apply told_same].
  - destruct (dget (g_clients g) c') as [k|] eqn:Dk; [|apply told_same]. destruct (Z.eq_dec c' c) as [->|N].
    + destruct (g_at k); try apply told_same; (apply (told_put c g k); [exact Dk|reflexivity]).
    + destruct (g_at k); try apply told_same; now apply told_put_other.
  - destruct (Z.eqb_spec c' c) as [->|N].
    + rewrite D. destruct (g_at cl) eqn:EA, (g_sid cl) eqn:ES; try apply told_same; try (apply (told_put c g cl); [exact D|reflexivity]); (apply (told_next c g (put_client c _ g)), (told_put c g cl); [exact D|reflexivity]).
    + destruct (dget (g_clients g) c') as [k|]; [|apply told_same].
      destruct (g_at k), (g_sid k); try apply told_same; try (now apply told_put_other); apply (told_next c g (put_client c' _ g)); now apply told_put_other.
  - destruct (Z.eqb_spec c' c) as [->|N]; [rewrite D; apply (told_put c g cl); [exact D|reflexivity]|]. destruct (dget (g_clients g) c'); [now apply told_put_other|apply told_same].
  - intros k Dk. assert (k = cl) by congruence. subst k. cbv zeta. unfold put_children, members_change. cbn [g_clients g_children g_items].
    rewrite (dget_mapped (fun x => if match g_sid x with Some s => s =? sid | None => false end then on_state LOST (set_sid None x) else x)), (dget_mapped (fun x => set_wm (fires (g_wm x)) x)), D. cbn [option_map].
    change (g_sid (set_wm (fires (g_wm cl)) cl)) with (g_sid cl). destruct (g_sid cl) as [s|]; [destruct (s =? sid)|]; eexists; split; reflexivity.
  - destruct (dget (g_clients g) c') as [k|] eqn:Dk; [|apply told_same]. destruct (a_connected _); [|apply told_same]. destruct (g_wm k); try apply told_same.
    destruct (Z.eq_dec c' c) as [->|N]; [apply (told_put c g k); [exact Dk|reflexivity]|now apply told_put_other].
  - destruct (Z.eqb_spec c' c) as [->|N].
    + rewrite D. destruct (in_party_call cl); [apply told_same|]. destruct (g_wm cl) as [| | |b ms]; try apply told_same. unfold saw_members. destruct (on_members fn true ms (g_alloc cl)) as [r a] eqn:E. apply (told_put c g cl); [exact D|]. cbn [arun fold_left astep]. now rewrite E.
    + destruct (dget (g_clients g) c') as [k|]; [|apply told_same]. destruct (in_party_call k); [apply told_same|]. destruct (g_wm k) as [| | |b ms]; try apply told_same. destruct (saw_members _ _ _). now apply told_put_other.
  - destruct (dget (g_clients g) c') as [k|] eqn:Dk; [|apply told_same]. destruct (a_connected _); [|apply told_same]. destruct (g_wp k); try apply told_same.
    destruct (Z.eq_dec c' c) as [->|N]; [apply (told_put c g k); [exact Dk|reflexivity]|now apply told_put_other].
  - destruct (Z.eqb_spec c' c) as [->|N].
    + rewrite D. destruct (in_set_call cl); [apply told_same|]. destruct (g_wp cl) as [| | |b ps]; try apply told_same. unfold saw_items. destruct (on_partitions fn true (Some ps) (g_alloc cl)) as [r a] eqn:E. apply (told_put c g cl); [exact D|]. cbn [arun fold_left astep]. now rewrite E.
    + destruct (dget (g_clients g) c') as [k|]; [|apply told_same]. destruct (in_set_call k); [apply told_same|]. destruct (g_wp k) as [| | |b ps]; try apply told_same. destruct (saw_items _ _ _). now apply told_put_other.
  - destruct (Z.eqb_spec c' c) as [->|N]; [rewrite D; apply (told_put c g cl); [exact D|reflexivity]|]. destruct (dget (g_clients g) c'); [now apply told_put_other|apply told_same].
  - now apply told_items, told_same.
  - destruct (Z.eqb_spec c' c) as [->|N].
    + rewrite D. destruct (g_sid cl); [|apply told_same]. destruct (a_connected (g_alloc cl)) eqn:EC; [|apply told_same]. apply told_children, (told_put c g cl); [exact D|reflexivity].
    + destruct (dget (g_clients g) c') as [k|]; [|apply told_same]. destruct (g_sid k); [|apply told_same]. destruct (a_connected _); [|apply told_same]. now apply told_children, told_put_other.
  - destruct (Z.eq_dec c' c) as [->|N]; [now destruct ND|]. intros k Dk. exists k. split; [cbn; rewrite dget_ddel_other by congruence; exact Dk|reflexivity].
Qed.

(** no client comes from nowhere *)
Definition none_stays (c : Z) (g g' : group) : Prop := dget (g_clients g) c = None -> dget (g_clients g') c = None.
Lemma none_put c c' g cl k : dget (g_clients g) c' = Some k -> none_stays c g (put_client c' cl g).
Proof. intros D H. rewrite put_other; [exact H|]. intros ->. congruence. Qed.
Lemma none_children c g g' ch : none_stays c g g' -> none_stays c g (put_children ch g').
Proof. intros N H. unfold put_children, members_change. cbn [g_clients]. rewrite (dget_mapped (fun x => set_wm (fires (g_wm x)) x)), (N H). reflexivity. Qed.
Lemma none_items c g g' it : none_stays c g g' -> none_stays c g (put_items it g').
Proof. intros N H. unfold put_items, items_change. cbn [g_clients]. rewrite (dget_mapped (fun x => set_wp (fires (g_wp x)) x)), (N H). reflexivity. Qed.
Lemma none_step c g ev : NoDup (dkeys (g_clients g)) -> (forall name seed, ev <> GNew c name seed) -> none_stays c g (gstep fn g ev).
Proof.
  intros NK NN. destruct ev as [c' name seed|c'|c' e|c'|c'|sid|c'|c'|c'|c'|c'|items|c'|c']; cbn [gstep]; try (destruct (dget (g_clients g) c') as [k|] eqn:Dk; [|exact (fun H => H)]).
  - destruct (dmem (g_clients g) c'); [exact (fun H => H)|]. intros H. rewrite put_other; [exact H|]. intros ->. now apply (NN name seed).
  - unfold start_step, saw_members, saw_items.
    repeat match goal with
    | |- none_stays _ ?g ?g => exact (fun H => H)
    | |- none_stays _ _ (if ?x then _ else _) => destruct x
    | |- none_stays _ _ (let '(_, _) := ?x in _) => destruct x
    | |- none_stays _ _ (match ?x with _ => _ end) => destruct x
    | |- none_stays _ _ (put_children _ _) => apply none_children
    | |- none_stays _ _ (put_items _ _) => apply none_items
    end; now apply (none_put c c' g _ k).
  - destruct (g_at k); try exact (fun H => H); now apply (none_put c c' g _ k).
  - destruct (g_at k), (g_sid k); try exact (fun H => H); now apply (none_put c c' g _ k).
  - now apply (none_put c c' g _ k).
  - intros H. cbv zeta. unfold put_children, members_change. cbn [g_clients g_children g_items].
    rewrite (dget_mapped (fun x => if match g_sid x with Some s => s =? sid | None => false end then on_state LOST (set_sid None x) else x)), (dget_mapped (fun x => set_wm (fires (g_wm x)) x)), H. reflexivity.
  - destruct (a_connected _); [|exact (fun H => H)]. destruct (g_wm k); try exact (fun H => H); now apply (none_put c c' g _ k).
  - destruct (in_party_call k); [exact (fun H => H)|]. destruct (g_wm k); try exact (fun H => H). destruct (saw_members _ _ _). now apply (none_put c c' g _ k).
  - destruct (a_connected _); [|exact (fun H => H)]. destruct (g_wp k); try exact (fun H => H); now apply (none_put c c' g _ k).
  - destruct (in_set_call k); [exact (fun H => H)|]. destruct (g_wp k); try exact (fun H => H). destruct (saw_items _ _ _). now apply (none_put c c' g _ k).
  - now apply (none_put c c' g _ k).
  - now apply none_items.
  - destruct (g_sid k); [|exact (fun H => H)]. destruct (a_connected _); [|exact (fun H => H)]. apply none_children. now apply (none_put c c' g _ k).
  - intros H. cbn [g_clients]. destruct (Z.eq_dec c' c) as [->|N]; [now apply dget_ddel_same|]. now rewrite dget_ddel_other by congruence.
Qed.
(** what clients hear is well formed *)
Lemma hears_good used g ev c e : @ginv fn used g -> In e (hears g ev c) -> good_event good_name e.
Proof.
  intros I H. unfold hears in H. destruct (dget (g_clients g) c) as [cl|] eqn:D; [|destruct H]. destruct (gi_c _ _ I c cl D) as (evs & _ & _ & _ & _ & G & _).
  unfold hears_client in H.
  repeat match type of H with
  | In _ (if ?x then _ else _) => destruct x
  | In _ (match ?x with _ => _ end) => destruct x eqn:?
  end; try (destruct H; fail); destruct H as [<-|[]]; try exact Logic.I; exact G.
Qed.

(** ** the crew *)
Section Crew.
  Context {V : Type}.
  Variable cf : Z -> config V.
  Variable gname : text.
  Hypothesis OG : one_group fn cf gname.
  Lemma cf_md c : exists ac, md (cf c) = Grouped gname fn ac (own_name cf c).
  Proof using OG. destruct (proj1 OG c) as (ac & name & E). exists ac. unfold own_name. now rewrite E. Qed.
  Definition follows (w : crew V) (c : Z) : Prop :=
    match dget (w_cons w) c, dget (g_clients (w_group w)) c with
    | Some s, Some cl => exists k ls, s = crun (cf c) ls (consumer_init k (own_name cf c)) /\ well_named ls /\ g_alloc cl = nrun (notified ls) (allocator_init (own_name cf c))
    | None, None => True
    | _, _ => False
    end.
  Record winv (w : crew V) (seen : list Z) : Prop := {
    wi_group : exists evs, (forall ev, In ev evs -> fine ev) /\ NoDup (new_names evs) /\ incl (new_names evs) (map (own_name cf) seen) /\ w_group w = grun fn evs group_init;
    wi_cons : forall c, follows w c;
    wi_keys : NoDup (dkeys (w_cons w)) }.
  Lemma winv_init : winv crew_init [].
  Proof using. constructor; [|intros c; exact Logic.I|constructor]. exists []. repeat split; [intros ev []|constructor|intros x []]. Qed.
  Lemma wi_g w seen : winv w seen -> reaches fn (w_group w).
  Proof using. intros [(evs & F & N & _ & E) _ _]. now exists evs. Qed.
  Lemma notified_app (a b : list label) : notified (a ++ b) = notified a ++ notified b.
  Proof using. apply flat_map_app. Qed.
  Lemma notified_map evs : notified (map Alloc evs) = evs.
  Proof using. induction evs as [|e evs IH]; [reflexivity|]. change (e :: notified (map Alloc evs) = e :: evs). now rewrite IH. Qed.
  Lemma grun_snoc evs ev g : grun fn (evs ++ [ev]) g = gstep fn (grun fn evs g) ev.
  Proof using. unfold grun. now rewrite fold_left_app. Qed.
  Lemma crun_both c (a b : list label) (s : consumer V) : crun (cf c) (a ++ b) s = crun (cf c) b (crun (cf c) a s).
  Proof using. unfold crun. now rewrite fold_left_app. Qed.

  (** a step of the group that makes and removes no client *)
  Lemma group_step w seen ev : winv w seen -> fine ev -> new_names [ev] = [] -> (forall c, ev <> GDie c) ->
    winv (Crew_ (gstep fn (w_group w) ev) (map (fun cs => (fst cs, tell cf (fst cs) (hears (w_group w) ev (fst cs)) (snd cs))) (w_cons w))) seen.
  Proof using OG.
    intros I F NN ND. destruct (@reached_inv fn _ (wi_g w seen I)) as (used & GI). destruct I as [(evs & FE & NE & IN & EG) WC WK].
    constructor; cbn [w_group w_cons].
    - exists (evs ++ [ev]). rewrite new_names_app, NN, app_nil_r, grun_snoc, <- EG. split; [|auto]. intros e H. apply in_app_or in H as [H|[<-|[]]]; auto.
    - intros c. specialize (WC c). unfold follows in *. cbn [w_group w_cons].
      assert (DM : dget (map (fun cs => (fst cs, tell cf (fst cs) (hears (w_group w) ev (fst cs)) (snd cs))) (w_cons w)) c = option_map (tell cf c (hears (w_group w) ev c)) (dget (w_cons w) c)).
      { clear. induction (w_cons w) as [|[k v] d IH]; [reflexivity|]. cbn. destruct (Z.eqb_spec k c) as [->|N]; [reflexivity|exact IH]. }
      rewrite DM. destruct (dget (w_cons w) c) as [s|]; cbn [option_map]; destruct (dget (g_clients (w_group w)) c) as [cl|] eqn:D; try contradiction.
      + destruct WC as (k & ls & -> & W & E). destruct (hears_right c (w_group w) ev (ND c) (gi_nd _ _ GI) cl D) as (cl' & D' & E'). rewrite D'. exists k, (ls ++ map Alloc (hears (w_group w) ev c)). split; [|split].
        * unfold tell. now rewrite crun_both.
        * intros e H. apply in_app_or in H as [H|H]; [now apply W|]. apply in_map_iff in H as (e' & X & H). injection X as <-. exact (hears_good used _ _ _ _ GI H).
        * rewrite notified_app, notified_map, nrun_app, E', E. reflexivity.
      + rewrite (none_step c _ _ (gi_nd _ _ GI)); [exact Logic.I| |exact D]. intros name seed ->. discriminate NN.
    - unfold dkeys in *. rewrite map_map. cbn [fst]. exact WK.
  Qed.
  Lemma wstep_ok w seen e : winv w seen -> fine_event e -> (forall c, In c (news [e]) -> ~ In c seen) -> winv (wstep fn cf w e) (seen ++ news [e]).
  Proof using OG.
    intros I F NS. destruct e as [c k|ev|c l]; cbn [news flat_map app]; try rewrite app_nil_r; cbn [wstep].
    - destruct (dmem (g_clients (w_group w)) c || dmem (w_cons w) c) eqn:M.
      + destruct I as [(evs & FE & NE & IN & EG) WC WK]. constructor; [|exact WC|exact WK]. exists evs. repeat split; auto. rewrite map_app. intros x H. apply in_or_app. left. now apply IN.
      + apply orb_false_iff in M as (M1 & M2). unfold dmem in M1, M2. destruct (dget (g_clients (w_group w)) c) eqn:D1; [discriminate M1|]. destruct (dget (w_cons w) c) eqn:D2; [discriminate M2|]. clear M1 M2.
        destruct I as [(evs & FE & NE & IN & EG) WC WK]. constructor; cbn [w_group w_cons].
        * exists (evs ++ [GNew c (own_name cf c) (k_topics k)]). rewrite new_names_app. cbn [new_names flat_map app]. rewrite grun_snoc, <- EG. split; [|split; [|split; [|reflexivity]]].
          -- intros e H. apply in_app_or in H as [H|[<-|[]]]; [now apply FE|exact F].
          -- apply Permutation_NoDup with (l := own_name cf c :: new_names evs); [apply Permutation_cons_append|]. constructor; [|exact NE]. intros H. apply IN in H. apply in_map_iff in H as (c' & E & H). apply (proj2 OG) in E. subst c'. apply (NS c); [now left|exact H].
          -- rewrite map_app. intros x H. apply in_app_or in H as [H|H]; apply in_or_app; [left; now apply IN|right; exact H].
        * intros c'. unfold follows. cbn [w_cons w_group gstep]. unfold dmem. rewrite D1. destruct (Z.eq_dec c' c) as [->|N].
          -- rewrite dget_dset_same, dget_put. exists k, []. split; [reflexivity|]. split; [intros e []|reflexivity].
          -- rewrite dget_dset_other by congruence. rewrite put_other by congruence. exact (WC c').
        * apply nodup_dset. exact WK.
    - destruct (match ev with GNew _ _ _ => 0 | GDie _ => 1 | _ => 2 end) as [|[| |]|] eqn:K; destruct ev; try discriminate K; try exact I; try (apply group_step; [exact I|exact F|reflexivity|discriminate]).
      destruct (@reached_inv fn _ (wi_g w seen I)) as (used & GI). destruct I as [(evs & FE & NE & IN & EG) WC WK]. constructor; cbn [w_group w_cons].
      + exists (evs ++ [GDie c]). rewrite new_names_app. cbn [new_names flat_map app]. rewrite app_nil_r, grun_snoc, <- EG. split; [|auto]. intros e H. apply in_app_or in H as [H|[<-|[]]]; auto.
      + intros c'. unfold follows. cbn [w_cons w_group gstep g_clients]. destruct (Z.eq_dec c' c) as [->|N]; [rewrite !dget_ddel_same by (exact WK || apply GI); exact Logic.I|]. rewrite !dget_ddel_other by congruence. exact (WC c').
      + now apply nodup_ddel.
    - destruct I as [G WC WK]. destruct (match l with Alloc _ => true | _ => false end) eqn:L; [destruct l; try discriminate L; now constructor|].
      assert (E : wstep fn cf w (WDo c l) = match dget (g_clients (w_group w)) c, dget (w_cons w) c with Some cl, Some s => if free cl then Crew_ (w_group w) (dset (w_cons w) c (cstep (cf c) s l)) else w | _, _ => w end) by (cbn [wstep]; destruct l; try reflexivity; discriminate L).
      cbn [wstep] in E. rewrite E. clear E. pose proof (WC c) as W. unfold follows in W. destruct (dget (g_clients (w_group w)) c) as [cl|] eqn:D1; [|now constructor]. destruct (dget (w_cons w) c) as [s|] eqn:D2; [|now constructor]. destruct (free cl); [|now constructor].
      destruct W as (k & ls & -> & WN & E). constructor; cbn [w_group w_cons]; [exact G| |now apply nodup_dset].
      intros c'. unfold follows. cbn [w_group w_cons]. destruct (Z.eq_dec c' c) as [->|N]; [|rewrite dget_dset_other by congruence; exact (WC c')].
      rewrite dget_dset_same, D1. exists k, (ls ++ [l]). split; [now rewrite crun_both|]. split.
      + intros e H. apply in_app_or in H as [H|[H|[]]]; [now apply WN|]. subst l. discriminate L.
      + rewrite notified_app. replace (notified [l]) with (@nil aevent) by (destruct l; reflexivity || discriminate L). now rewrite app_nil_r.
  Qed.
  Lemma wrun_ok es : (forall e, In e es -> fine_event e) -> NoDup (news es) -> winv (wrun fn cf es crew_init) (news es).
  Proof using OG.
    induction es as [|e es IH] using rev_ind; intros F N; [exact winv_init|]. unfold wrun. rewrite fold_left_app. cbn [fold_left]. unfold news in *. rewrite flat_map_app in *. apply nodup_app_both in N as (N1 & N2).
    apply wstep_ok; [apply IH; [intros e' H; apply F, in_or_app; now left|exact N1]|apply F, in_or_app; right; now left|exact N2].
  Qed.
  Lemma wreach_inv w : wreachable fn cf w -> exists seen, winv w seen.
  Proof using OG. intros (es & F & N & ->). exists (news es). now apply wrun_ok. Qed.
End Crew.
End Any.
