(** Proofs for C97: callbacks that keep apart from each other and from consume(). *)
From Coq Require Import ZArith Lia String List Bool Permutation.
From Verif Require Import PyBase BaseLemmas Cluster Zookeeper SpecZk ZkProofs ZkAlloc PropsZk Threads SpecThreads ThreadProofs.
Import ListNotations.
Open Scope Z_scope.

Section Calm.
  Variable name : text.
  Definition knows (s : shared) : Prop := forall t p, smem (h_synced s) t = true -> In p (allots s name t) -> In (t, p) (h_known s).
  Definition calm_at (a : at_line) (s : shared) : Prop :=
    match a with
    | Compare _ | Assign _ | ReadMembers | ReadPartitions _ | Compute _ _ => knows s
    | Iterate => mp_default (cur_map s) = true
    | Next id n i => id = current s /\ exists tm, dget (mp_tab (cur_map s)) name = Some tm /\ length tm = n
    | Show id n i t => id = current s /\ exists tm, dget (mp_tab (cur_map s)) name = Some tm /\ length tm = n /\ dmem tm t = true
    | Callback => True
    end.
  Definition calm_consumer (s : shared) : Prop :=
    match h_consumer s with
    | Wait t ps => ps = allots s name t
    | Test t _ | Test2 t _ | Plan t => smem (h_synced s) t = true
    | _ => True
    end.
  Record calm_inv (s : shared) : Prop := {
    k_single : single_inv s; k_raised : h_raised s = [];
    k_idle : h_threads s <> [] -> h_consumer s = Idle;
    k_at : match h_threads s with [] => knows s | [(k, (w, a))] => calm_at a s | _ => True end;
    k_cons : calm_consumer s }.
  Lemma cur_put s mp : h_maps s <> [] -> cur_map (put_cur mp s) = mp /\ current (put_cur mp s) = current s.
  Proof. intros N. unfold cur_map, current, put_cur. cbn [set_maps h_maps]. rewrite put_at_length. split; [now apply put_at_last|reflexivity]. Qed.
  Lemma knows_like s s' : like s s' -> h_synced s' = h_synced s -> h_known s' = h_known s -> knows s -> knows s'.
  Proof. intros (_ & _ & L & _) A B K t p. rewrite A, B, L. apply K. Qed.
  Lemma calm_consumer_step s c mp : calm_inv s -> h_threads s = [] -> (forall m t, gives_to mp m t = gives_to (cur_map s) m t) ->
    calm_consumer (set_consumer c (put_cur mp s)) -> calm_inv (set_consumer c (put_cur mp s)).
  Proof.
    intros [A B C D E] T G CC. pose proof (proj1 A) as N. pose proof (like_put s mp N G) as L. constructor.
    - apply (like_single s); [exact (like_trans _ _ _ L (like_consumer _ c))|reflexivity|exact A].
    - exact B.
    - cbn [set_consumer put_cur set_maps h_threads]. now rewrite T.
    - cbn [set_consumer put_cur set_maps h_threads]. rewrite T in *. apply (knows_like s); [exact (like_trans _ _ _ L (like_consumer _ c))|reflexivity|reflexivity|exact D].
    - exact CC.
  Qed.
  Lemma calm_consumer_idle s : calm_inv s -> h_threads s = [] -> calm_inv (set_consumer Idle s).
  Proof. intros [A B C D E] T. constructor; [exact A|exact B|intros _; reflexivity|exact D|exact Logic.I]. Qed.
  Lemma calm_step s ev : calm_inv s -> good_call good_name ev -> apart_from_consume s ev -> calm_inv (tstep naive_allocator name s ev).
  Proof.
    intros V GC AP. pose proof V as [A B C D E]. pose proof (proj1 A) as N.
    assert (SS : single_inv (tstep naive_allocator name s ev)). { apply single_step; auto. destruct ev; cbn in *; try exact Logic.I. apply AP. }
    destruct ev as [k w new|k|t| |].
    - destruct AP as [T I]. rewrite T in D. unfold tstep, busy_watch in *. rewrite T in *. cbn [existsb dmem dget orb] in *. constructor; [exact SS|exact B|intros _; exact I| |exact E]. unfold move. cbn [set_threads h_threads]. rewrite T. cbn [dset calm_at]. exact D.
    - cbn [tstep] in *. destruct (dget (h_threads s) k) as [[w a]|] eqn:G; [|exact V]. pose proof A as (_ & GP & H). destruct (h_threads s) as [|[k0 [w0 a0]] [|x l]] eqn:T; [discriminate G| |destruct H]. cbn [dget] in G. change (eqb k0 k) with (k0 =? k) in G. destruct (Z.eqb_spec k0 k) as [->|]; [|discriminate G]. injection G as <- <-.
      assert (I : h_consumer s = Idle) by (apply C; discriminate).
      assert (DS : forall y, dset [(k, (w0, a0))] k y = [(k, y)]) by (intros y; cbn; now rewrite Z.eqb_refl). assert (DD : ddel [(k, (w0, a0))] k = []) by (cbn; now rewrite Z.eqb_refl).
      assert (MV : forall s' a, h_threads s' = h_threads s -> h_consumer s' = Idle -> h_raised s' = [] -> calm_at a (move k w0 a s') -> single_inv (move k w0 a s') -> calm_inv (move k w0 a s')).
      { intros s' a T' I' R' K S'. constructor; [exact S'|exact R'|intros _; exact I'| |unfold calm_consumer, move; cbn [set_threads h_consumer]; rewrite I'; exact Logic.I]. unfold move in *. cbn [set_threads h_threads] in *. rewrite T', T, DS. exact K. }
      destruct a0 as [new|new| |ms|ms ps| |id n i|id n i t|]; cbn [run_callback] in *.
      + destruct (set_eqb new (view w0 s)).
        * constructor; [exact SS|exact B|intros _; exact I| |unfold calm_consumer, ends; cbn [set_threads h_consumer]; rewrite I; exact Logic.I]. unfold ends. cbn [set_threads h_threads]. rewrite T, DD. exact D.
        * apply MV; auto.
      + apply MV; auto; destruct w0; auto.
      + apply MV; auto.
      + apply MV; auto.
      + destruct H as [-> ->]. destruct (naive_total (sorted (h_members s)) (sorted (h_partitions s))) as [mp X]; [intros p HP; exact (proj2 GP p (proj1 (in_sorted _ _) HP))|]. rewrite X in *. apply MV; auto. cbn [calm_at]. unfold cur_map, move. cbn [set_threads set_maps h_maps]. rewrite last_snoc.
        unfold naive_allocator in X. destruct (allocate _ [] _ []) as [tab|]; [|discriminate X]. cbn [bind] in X. now injection X as <-.
      + cbn [calm_at] in D. destruct (alloc_in name (cur_map s)) as [[tm mp]|e] eqn:X.
        2: { exfalso. unfold alloc_in in X. destruct (dget (mp_tab (cur_map s)) name); [discriminate X|]. rewrite D in X. discriminate X. }
        apply MV; auto. cbn [calm_at]. destruct (cur_put s mp N) as [P1 P2]. destruct (alloc_in_gives _ _ _ _ X) as (_ & Y & _). unfold move. split; [symmetry; exact P2|]. exists tm. split; [|reflexivity]. change (dget (mp_tab (cur_map (put_cur mp s))) name = Some tm). now rewrite P1.
      + destruct D as (-> & tm & D & L). unfold current in *. rewrite (nth_last (h_maps s)) in * by exact N. change (last (h_maps s) (Mp false [])) with (cur_map s) in *. rewrite D in *. rewrite L in *. rewrite Nat.eqb_refl in *. cbn [negb] in *.
        destruct (nth_error (dkeys tm) i) as [t|] eqn:NT; (apply MV; [reflexivity|exact I|exact B| |exact SS]).
        * split; [reflexivity|]. exists tm. split; [exact D|]. split; [exact L|]. apply nth_error_In in NT. unfold dmem. destruct (dget tm t) eqn:DT; [reflexivity|]. now apply dget_None_notin in DT.
        * exact Logic.I.
      + destruct D as (-> & tm & D & L & M). destruct (alloc_topic name (cur_map s) t) as [[ps mp]|e] eqn:X.
        2: { exfalso. unfold alloc_topic, alloc_in in X. rewrite D in X. cbn [bind] in X. unfold dmem in M. destruct (dget tm t); discriminate. }
        destruct (alloc_topic_gives _ _ _ _ _ X) as (_ & _ & _ & Y). pose proof (Y tm D M) as ->. apply MV; auto. destruct (cur_put s (cur_map s) N) as [P1 P2]. split; [symmetry; exact P2|]. exists tm. split; [|exact L]. change (dget (mp_tab (cur_map (put_cur (cur_map s) s))) name = Some tm). now rewrite P1.
      + constructor; [exact SS|exact B|intros _; exact I| |unfold calm_consumer, ends, cleared; cbn [set_threads h_consumer]; rewrite I; exact Logic.I]. unfold ends, cleared. cbn [set_threads h_threads]. rewrite T, DD. intros t p X. discriminate X.
    - cbn [apart_from_consume] in AP. cbn [tstep] in *. destruct (h_consumer s) eqn:I; try exact V. constructor; [exact SS|exact B|cbn; rewrite AP; easy|exact D|]. unfold calm_consumer. cbn [set_consumer h_consumer h_synced]. destruct (smem (h_synced s) t) eqn:Y; [exact Y|exact Logic.I].
    - cbn [apart_from_consume] in AP. cbn [tstep] in *. unfold run_consumer in *. unfold calm_consumer in E. destruct (h_consumer s) as [|t|t ps|t n|t n|t] eqn:I; try exact V.
      + destruct (alloc_topic name (cur_map s) t) as [[ps mp]|e] eqn:X; [|now apply calm_consumer_idle]. destruct (alloc_topic_gives _ _ _ _ _ X) as (Y & G & _). apply calm_consumer_step; [exact V|exact AP|exact G|]. unfold calm_consumer. cbn [set_consumer h_consumer]. rewrite Y. symmetry. apply (proj1 (proj2 (proj2 (like_put s mp N G)))).
      + destruct (alloc_in name (cur_map s)) as [[tm mp]|e] eqn:X; [|now apply calm_consumer_idle]. destruct (alloc_in_gives _ _ _ _ X) as (G & _). destruct (dmem tm t); (apply calm_consumer_step; [exact V|exact AP|exact G|]); unfold calm_consumer; cbn [set_consumer h_consumer]; [exact E|]. destruct n; [exact E|exact Logic.I].
      + destruct (alloc_topic name (cur_map s) t) as [[ps mp]|e] eqn:X; [|now apply calm_consumer_idle]. destruct (alloc_topic_gives _ _ _ _ _ X) as (Y & G & _). destruct ps; (apply calm_consumer_step; [exact V|exact AP|exact G|]); unfold calm_consumer; cbn [set_consumer h_consumer]; [|exact E]. destruct n; [exact E|exact Logic.I].
      + destruct (alloc_topic name (cur_map s) t) as [[ps mp]|e] eqn:X; [|now apply calm_consumer_idle]. destruct (alloc_topic_gives _ _ _ _ _ X) as (Y & G & _). pose proof (calm_consumer_step s Idle mp V AP G Logic.I) as [A' B' C' D' E']. constructor; auto.
    - cbn [apart_from_consume] in AP. cbn [tstep] in *. unfold calm_consumer in E. destruct (h_consumer s) as [|t|t ps|t n|t n|t] eqn:I; try exact V. constructor; [exact SS|exact B|cbn; rewrite AP; easy| |].
      + cbn [set_consumer set_synced h_threads]. rewrite AP in *. intros t' p X Y. cbn [set_consumer set_synced h_synced h_known] in *. apply in_app_iff. apply smem_In in X. apply in_sadd in X as [->|X].
        * right. subst ps. apply in_map. exact Y.
        * left. apply D; [now apply smem_In|exact Y].
      + unfold calm_consumer. cbn [set_consumer set_synced h_consumer h_synced]. apply smem_In, in_sadd. now left.
  Qed.
  Lemma calm_init : calm_inv threads_init.
  Proof. constructor; [apply single_init|reflexivity|easy| |exact Logic.I]. intros t p X. discriminate X. Qed.
  Lemma steps_app P evs1 evs2 s : steps name P (evs1 ++ evs2) s <-> steps name P evs1 s /\ steps name P evs2 (trun naive_allocator name evs1 s).
  Proof. revert s. induction evs1 as [|ev evs1 IH]; intros s; cbn; [tauto|]. rewrite IH. tauto. Qed.
  Lemma calm_run evs : forall s, calm_inv s -> (forall ev, In ev evs -> good_call good_name ev) -> steps name apart_from_consume evs s -> calm_inv (trun naive_allocator name evs s).
  Proof. induction evs as [|ev evs IH]; intros s V G S; [exact V|]. destruct S as [S1 S2]. apply IH; [|intros e H; apply G; now right|exact S2]. apply calm_step; auto. apply G, in_eq. Qed.
  Lemma single_run evs : forall s, single_inv s -> (forall ev, In ev evs -> good_call good_name ev) -> steps name alone evs s -> single_inv (trun naive_allocator name evs s).
  Proof. induction evs as [|ev evs IH]; intros s V G S; [exact V|]. destruct S as [S1 S2]. apply IH; [|intros e H; apply G; now right|exact S2]. apply single_step; auto. apply G, in_eq. Qed.
End Calm.
