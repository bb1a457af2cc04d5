(** Proofs for C96 and C97: what every mix of the threads' steps keeps. *)
From Coq Require Import ZArith Lia String List Bool Permutation.
From Verif Require Import PyBase BaseLemmas Cluster Zookeeper SpecZk ZkProofs ZkAlloc PropsZk Threads SpecThreads.
Import ListNotations.
Open Scope Z_scope.

Lemma put_at_length {A} (l : list A) i x : length (put_at l i x) = length l.
Proof. revert i. induction l as [|y l IH]; intros [|i]; cbn; auto. Qed.
Lemma put_at_in {A} (l : list A) i x y : In y (put_at l i x) -> y = x \/ In y l.
Proof. revert i. induction l as [|z l IH]; intros [|i]; cbn; [tauto|tauto|intuition auto|]. intros [->|H]; [auto|]. apply IH in H as [->|H]; auto. Qed.
Lemma put_at_last {A} (l : list A) x d : l <> [] -> last (put_at l (pred (length l)) x) d = x.
Proof.
  induction l as [|y l IH]; intros N; [easy|]. destruct l as [|z l]; [reflexivity|]. change (put_at (y :: z :: l) (pred (length (y :: z :: l))) x) with (y :: put_at (z :: l) (pred (length (z :: l))) x).
  specialize (IH ltac:(discriminate)). assert (X : put_at (z :: l) (pred (length (z :: l))) x <> []) by (intros E; apply (f_equal (@length A)) in E; rewrite put_at_length in E; discriminate E).
  destruct (put_at (z :: l) (pred (length (z :: l))) x) as [|a r]; [easy|exact IH].
Qed.
Lemma nth_last {A} (l : list A) d : l <> [] -> nth (pred (length l)) l d = last l d.
Proof. induction l as [|y l IH]; intros N; [easy|]. destruct l as [|z l]; [reflexivity|]. change (nth (pred (length (z :: l))) (z :: l) d = last (z :: l) d). apply IH. discriminate. Qed.
Lemma last_in {A} (l : list A) d : l <> [] -> In (last l d) l.
Proof. induction l as [|y l IH]; intros N; [easy|]. destruct l as [|z l]; [now left|]. right. apply IH. discriminate. Qed.
Lemma last_snoc {A} (l : list A) x d : last (l ++ [x]) d = x.
Proof. induction l as [|y l IH]; [reflexivity|]. cbn [app]. destruct (l ++ [x]) eqn:E; [destruct l; discriminate E|]. rewrite <- IH. reflexivity. Qed.

Lemma eqb_same (x : text) : eqb x x = true.
Proof. now apply list_eqb_spec. Qed.
Lemma gives_dset tab d nm tm m t : gives_to (Mp d (dset tab nm tm)) m t = if eqb m nm then match dget tm t with Some ps => ps | None => [] end else gives_to (Mp d tab) m t.
Proof.
  unfold gives_to. cbn [mp_tab]. destruct (eqb m nm) eqn:E.
  - apply list_eqb_spec in E. subst m. now rewrite dget_dset_same.
  - rewrite dget_dset_other; [reflexivity|]. intros ->. rewrite (eqb_same nm) in E. discriminate E.
Qed.
Section Threads.
  Variable name : text.
  Lemma alloc_in_gives mp tm mp' : alloc_in name mp = Ok (tm, mp') ->
    (forall m t, gives_to mp' m t = gives_to mp m t) /\ dget (mp_tab mp') name = Some tm /\ mp_default mp' = mp_default mp /\ forall t, gives_to mp name t = match dget tm t with Some ps => ps | None => [] end.
  Proof.
    unfold alloc_in. destruct mp as [df tab]. cbn [mp_tab mp_default]. destruct (dget tab name) as [tm0|] eqn:G.
    - intros E. injection E as <- <-. cbn [mp_tab]. split; [auto|]. split; [exact G|]. split; [auto|]. intros t. unfold gives_to. cbn [mp_tab]. now rewrite G.
    - destruct df; [|discriminate]. intros E. injection E as <- <-. cbn [mp_tab]. split; [|split; [apply dget_dset_same|split; [reflexivity|]]].
      + intros m t. rewrite gives_dset. destruct (eqb m name) eqn:E; [|reflexivity]. apply list_eqb_spec in E. subst m. unfold gives_to. cbn [mp_tab]. now rewrite G.
      + intros t. unfold gives_to. cbn [mp_tab]. now rewrite G.
  Qed.
  Lemma alloc_topic_gives mp t ps mp' : alloc_topic name mp t = Ok (ps, mp') ->
    ps = gives_to mp name t /\ (forall m t', gives_to mp' m t' = gives_to mp m t') /\ mp_default mp' = mp_default mp /\
    (forall tm, dget (mp_tab mp) name = Some tm -> dmem tm t = true -> mp' = mp).
  Proof.
    unfold alloc_topic. destruct (alloc_in name mp) as [[tm mp1]|e] eqn:A; [|discriminate]. cbn [bind]. destruct (alloc_in_gives _ _ _ A) as (G & D & F & H).
    destruct (dget tm t) as [ps0|] eqn:DT.
    - intros E. injection E as <- <-. split; [rewrite H, DT; reflexivity|]. split; [exact G|]. split; [exact F|]. intros tm' D' _. unfold alloc_in in A. rewrite D' in A. now injection A as _ <-.
    - destruct (mp_default mp) eqn:DF; [|discriminate]. intros E. injection E as <- <-. split; [rewrite H, DT; reflexivity|]. split; [|split; [auto|]].
      + intros m t'. rewrite gives_dset. destruct (eqb m name) eqn:E.
        * apply list_eqb_spec in E. subst m. rewrite H. destruct (eqb t' t) eqn:E'; [apply list_eqb_spec in E'; subst t'; now rewrite dget_dset_same, DT|]. rewrite dget_dset_other; [reflexivity|]. intros ->. rewrite (eqb_same t) in E'. discriminate E'.
        * rewrite <- G. destruct mp1 as [d1 tab1]. unfold gives_to. reflexivity.
      + intros tm' D' M. unfold alloc_in in A. rewrite D' in A. injection A as <- <-. unfold dmem in M. rewrite DT in M. discriminate M.
  Qed.

  (** ** any mix *)
  Section Any.
    Variables Ms Ps : list (list text).
    Definition made (f : text -> text -> list Z) : Prop := exists M P mp, In M Ms /\ In P Ps /\ naive_allocator (sorted M) (sorted P) = Ok mp /\ forall m t, f m t = gives_to mp m t.
    Definition seen_at (w : which) (a : at_line) : Prop :=
      match a with
      | Compare new | Assign new => In new (match w with Members => Ms | Partitions => Ps end)
      | ReadPartitions ms => exists M, In M Ms /\ ms = sorted M
      | Compute ms ps => exists M P, In M Ms /\ In P Ps /\ ms = sorted M /\ ps = sorted P
      | _ => True
      end.
    Record whole_inv (s : shared) : Prop := {
      v_m : In (h_members s) Ms; v_p : In (h_partitions s) Ps; v_ne : h_maps s <> [];
      v_maps : forall mp, In mp (h_maps s) -> made (gives_to mp);
      v_th : forall k w a, In (k, (w, a)) (h_threads s) -> seen_at w a;
      v_f : forall t ps, In (t, ps) (h_fetched s) -> exists f, made f /\ ps = f name t }.
  End Any.
  Lemma whole_mono Ms Ps Ms' Ps' s : incl Ms Ms' -> incl Ps Ps' -> whole_inv Ms Ps s -> whole_inv Ms' Ps' s.
  Proof.
    intros IM IP [A B C D E F]. assert (MM : forall f, made Ms Ps f -> made Ms' Ps' f) by (intros f (M & P & mp & H1 & H2 & H); exists M, P, mp; auto). constructor; auto.
    - intros k w a H. specialize (E k w a H). destruct a; cbn in *; auto; try (destruct w; auto; fail).
      + destruct E as (M & H1 & H2). eauto.
      + destruct E as (M & P & H1 & H2 & H3). exists M, P. auto.
    - intros t ps H. destruct (F t ps H) as (f & H1 & H2). eauto.
  Qed.
  Lemma in_dset {A} (d : dict Z A) k x y : In y (dset d k x) -> y = (k, x) \/ In y d.
  Proof. induction d as [|[k' x'] d IH]; cbn [dset]; [intros [<-|[]]; auto|]. change (eqb k' k) with (k' =? k). destruct (Z.eqb_spec k' k) as [->|]; intros [<-|H]; cbn; auto. apply IH in H as [->|H]; auto. Qed.
  Lemma put_cur_whole Ms Ps s mp : whole_inv Ms Ps s -> (forall m t, gives_to mp m t = gives_to (cur_map s) m t) -> whole_inv Ms Ps (put_cur mp s).
  Proof.
    intros [A B C D E F] G. constructor; cbn; auto.
    - intros X. apply (f_equal (@length _)) in X. rewrite put_at_length in X. destruct (h_maps s); [easy|discriminate X].
    - intros mp' H. apply put_at_in in H as [->|H]; [|auto]. destruct (D (cur_map s) (last_in _ _ C)) as (M & P & mp0 & H1 & H2 & H3 & H4). exists M, P, mp0. split; [auto|]. split; [auto|]. split; [auto|]. intros m t. rewrite G. apply H4.
  Qed.
  Lemma move_whole Ms Ps s k w a : whole_inv Ms Ps s -> seen_at Ms Ps w a -> whole_inv Ms Ps (move k w a s).
  Proof. intros [A B C D E F] S. constructor; cbn; auto. intros k' w' a' H. apply in_dset in H as [H|H]; [injection H as -> -> ->; exact S|eauto]. Qed.
  Lemma ends_whole Ms Ps s k : whole_inv Ms Ps s -> whole_inv Ms Ps (ends k s).
  Proof. intros [A B C D E F]. constructor; cbn; auto. intros k' w' a' H. apply in_ddel in H. eauto. Qed.
  Lemma raises_whole Ms Ps s k w e : whole_inv Ms Ps s -> whole_inv Ms Ps (raises k w e s).
  Proof. intros [A B C D E F]. constructor; cbn; auto. intros k' w' a' H. apply in_ddel in H. eauto. Qed.
  Lemma consumer_whole Ms Ps s c : whole_inv Ms Ps s -> whole_inv Ms Ps (set_consumer c s).
  Proof. intros [A B C D E F]. constructor; cbn; auto. Qed.
  Lemma callback_whole Ms Ps s k w a : whole_inv Ms Ps s -> seen_at Ms Ps w a -> whole_inv Ms Ps (run_callback naive_allocator name k w a s).
  Proof.
    intros V S. pose proof V as [A B C D E F]. destruct a as [new|new| |ms|ms ps| |id n i|id n i t|]; cbn [run_callback].
    - destruct (set_eqb _ _); [now apply ends_whole|now apply move_whole].
    - apply move_whole; [|exact Logic.I]. destruct w; constructor; cbn; auto.
    - apply move_whole; [exact V|]. exists (h_members s). auto.
    - apply move_whole; [exact V|]. destruct S as (M & H & ->). exists M, (h_partitions s). auto.
    - destruct S as (M & P & HM & HP & -> & ->). destruct (naive_allocator (sorted M) (sorted P)) as [mp|e] eqn:N; [|now apply raises_whole]. apply move_whole; [|exact Logic.I]. constructor; cbn; auto.
      + intros X. now destruct (app_cons_not_nil (h_maps s) [] mp).
      + intros mp' H. apply in_app_iff in H as [H|[<-|[]]]; [auto|]. exists M, P, mp. auto.
    - destruct (alloc_in name (cur_map s)) as [[tm mp]|e] eqn:N; [|now apply raises_whole]. apply move_whole; [|exact Logic.I]. apply put_cur_whole; [exact V|]. apply (alloc_in_gives _ _ _ N).
    - destruct (dget _ name) as [tm|]; [|exact V]. destruct (negb _); [now apply raises_whole|]. destruct (nth_error _ _); apply move_whole; auto; exact Logic.I.
    - destruct (alloc_topic name (cur_map s) t) as [[ps mp]|e] eqn:N; [|now apply raises_whole]. apply move_whole; [|exact Logic.I]. apply put_cur_whole; [exact V|]. apply (alloc_topic_gives _ _ _ _ N).
    - apply ends_whole. constructor; cbn; auto.
  Qed.
  Lemma step_whole Ms Ps s ev : whole_inv Ms Ps s -> (forall k new, ev = TCall k Members new -> In (mkset new) Ms) -> (forall k new, ev = TCall k Partitions new -> In new Ps) -> whole_inv Ms Ps (tstep naive_allocator name s ev).
  Proof.
    intros V HM HP. pose proof V as [A B C D E F]. destruct ev as [k w new|k|t| |]; cbn [tstep].
    - destruct (_ || _); [exact V|]. apply move_whole; [exact V|]. cbn. destruct w; eauto.
    - destruct (dget (h_threads s) k) as [[w a]|] eqn:G; [|exact V]. apply callback_whole; [exact V|]. apply (E k). now apply dget_In.
    - destruct (h_consumer s); auto. now apply consumer_whole.
    - unfold run_consumer. destruct (h_consumer s) as [|t|t ps|t n|t n|t]; auto.
      + destruct (alloc_topic name (cur_map s) t) as [[ps mp]|e] eqn:N; apply consumer_whole; [|exact V]. apply put_cur_whole; [exact V|]. apply (alloc_topic_gives _ _ _ _ N).
      + destruct (alloc_in name (cur_map s)) as [[tm mp]|e] eqn:N; [|now apply consumer_whole]. destruct (dmem tm t); apply consumer_whole; (apply put_cur_whole; [exact V|]); apply (alloc_in_gives _ _ _ N).
      + destruct (alloc_topic name (cur_map s) t) as [[ps mp]|e] eqn:N; [|now apply consumer_whole]. destruct ps; apply consumer_whole; (apply put_cur_whole; [exact V|]); apply (alloc_topic_gives _ _ _ _ N).
      + destruct (alloc_topic name (cur_map s) t) as [[ps mp]|e] eqn:N; [|now apply consumer_whole]. destruct (alloc_topic_gives _ _ _ _ N) as (E1 & E2 & _).
        pose proof (consumer_whole _ _ _ Idle (put_cur_whole _ _ _ _ V E2)) as [A' B' C' D' E' F']. constructor; cbn; auto. intros t' ps' H. apply in_app_iff in H as [H|[H|[]]]; [now apply F|]. injection H as <- <-. exists (gives_to (cur_map s)). split; [|exact E1]. apply D. now apply last_in.
    - destruct (h_consumer s); auto. apply consumer_whole. constructor; cbn; auto.
  Qed.
  Lemma run_whole evs : whole_inv (told_of Members evs) (told_of Partitions evs) (trun naive_allocator name evs threads_init).
  Proof.
    assert (G : forall l Ms Ps s, whole_inv Ms Ps s -> (forall k new, In (TCall k Members new) l -> In (mkset new) Ms) -> (forall k new, In (TCall k Partitions new) l -> In new Ps) -> whole_inv Ms Ps (trun naive_allocator name l s)).
    { induction l as [|ev l IH]; intros Ms Ps s V HM HP; [exact V|]. change (trun naive_allocator name (ev :: l) s) with (trun naive_allocator name l (tstep naive_allocator name s ev)). apply IH.
      - apply step_whole; [exact V| |]; intros k new ->; [apply (HM k)|apply (HP k)]; apply in_eq.
      - intros k new H. apply (HM k). now right.
      - intros k new H. apply (HP k). now right. }
    apply G.
    - constructor; cbn; auto; [discriminate| |intros ? ? ? []|intros ? ? []]. intros mp [<-|[]]. exists [], [], (Mp true []). repeat split; try apply in_eq.
    - intros k new H. right. apply in_flat_map. exists (TCall k Members new). split; [exact H|apply in_eq].
    - intros k new H. right. apply in_flat_map. exists (TCall k Partitions new). split; [exact H|apply in_eq].
  Qed.

  (** ** one callback at a time *)
  Definition good_set (ps : list text) : Prop := NoDup ps /\ forall p, In p ps -> good_name p.
  Definition one_at (w : which) (a : at_line) (s : shared) : Prop :=
    match a with
    | Compare new => right s /\ (w = Partitions -> good_set new)
    | Assign new => w = Partitions -> good_set new
    | ReadMembers => True
    | ReadPartitions ms => ms = sorted (h_members s)
    | Compute ms ps => ms = sorted (h_members s) /\ ps = sorted (h_partitions s)
    | _ => right s
    end.
  Definition single_inv (s : shared) : Prop :=
    h_maps s <> [] /\ good_set (h_partitions s) /\
    match h_threads s with [] => right s | [(k, (w, a))] => one_at w a s | _ => False end.
  (** the same members, partitions and allocation *)
  Definition like (s s' : shared) : Prop := h_members s' = h_members s /\ h_partitions s' = h_partitions s /\ (forall m t, allots s' m t = allots s m t) /\ (h_maps s <> [] -> h_maps s' <> []).
  Lemma like_refl s : like s s.
  Proof. repeat split; auto. Qed.
  Lemma like_put s mp : h_maps s <> [] -> (forall m t, gives_to mp m t = gives_to (cur_map s) m t) -> like s (put_cur mp s).
  Proof.
    intros N G. split; [reflexivity|]. split; [reflexivity|]. split.
    - intros m t. unfold allots, cur_map, put_cur, current. cbn [set_maps h_maps]. rewrite put_at_last by exact N. apply G.
    - intros _ X. cbn in X. apply (f_equal (@length _)) in X. rewrite put_at_length in X. destruct (h_maps s); [easy|discriminate X].
  Qed.
  Lemma like_right s s' : like s s' -> right s -> right s'.
  Proof. intros (A & B & C & _) (mp & E & G). exists mp. rewrite A, B. split; [exact E|]. intros m t. now rewrite C. Qed.
  Lemma like_one w a s s' : like s s' -> one_at w a s -> one_at w a s'.
  Proof. intros L. pose proof (like_right _ _ L) as R. destruct L as (A & B & _). destruct a; cbn; rewrite ?A, ?B; intuition auto. Qed.
  Lemma like_single s s' : like s s' -> h_threads s' = h_threads s -> single_inv s -> single_inv s'.
  Proof.
    intros L T (N & G & H). pose proof L as (A & B & _ & C). split; [now apply C|]. split; [now rewrite B|]. rewrite T. destruct (h_threads s) as [|[k [w a]] [|x l]]; [now apply (like_right s)|now apply (like_one w a s)|exact H].
  Qed.
  Lemma like_consumer s c : like s (set_consumer c s).
  Proof. repeat split; auto. Qed.
  Lemma like_trans a b c : like a b -> like b c -> like a c.
  Proof. intros (A & B & C & D) (A' & B' & C' & D'). split; [congruence|]. split; [congruence|]. split; [intros m t; now rewrite C', C|auto]. Qed.
  Lemma like_run s : h_maps s <> [] -> like s (run_consumer name s) /\ h_threads (run_consumer name s) = h_threads s.
  Proof.
    intros N. unfold run_consumer. destruct (h_consumer s) as [|t|t ps|t n|t n|t]; try (split; [apply like_refl|reflexivity]).
    - destruct (alloc_topic name (cur_map s) t) as [[ps mp]|e] eqn:E; [|split; [apply like_consumer|reflexivity]]. split; [|reflexivity]. eapply like_trans; [|apply like_consumer]. apply like_put; [exact N|]. apply (alloc_topic_gives _ _ _ _ E).
    - destruct (alloc_in name (cur_map s)) as [[tm mp]|e] eqn:E; [|split; [apply like_consumer|reflexivity]]. destruct (dmem tm t); (split; [|reflexivity]); (eapply like_trans; [|apply like_consumer]); (apply like_put; [exact N|]); apply (alloc_in_gives _ _ _ E).
    - destruct (alloc_topic name (cur_map s) t) as [[ps mp]|e] eqn:E; [|split; [apply like_consumer|reflexivity]]. destruct ps; (split; [|reflexivity]); (eapply like_trans; [|apply like_consumer]); (apply like_put; [exact N|]); apply (alloc_topic_gives _ _ _ _ E).
    - destruct (alloc_topic name (cur_map s) t) as [[ps mp]|e] eqn:E; [|split; [apply like_consumer|reflexivity]]. split; [|reflexivity]. apply (like_trans s (put_cur mp s)); [apply like_put; [exact N|apply (alloc_topic_gives _ _ _ _ E)]|repeat split; auto].
  Qed.
  Lemma set_same a b : set_eqb a b = true -> forall x, In x a <-> In x b.
  Proof. unfold set_eqb, subset. intros H x. apply andb_prop in H as [H1 H2]. rewrite forallb_forall in H1, H2. split; intros X; [apply H1 in X|apply H2 in X]; now apply smem_In in X. Qed.
  Lemma right_made s mp : h_maps s <> [] -> naive_allocator (sorted (h_members s)) (sorted (h_partitions s)) = Ok mp -> right (set_maps (h_maps s ++ [mp]) s).
  Proof. intros N E. exists mp. split; [exact E|]. intros m t. unfold allots, cur_map. cbn [set_maps h_maps]. now rewrite last_snoc. Qed.
  Lemma single_step s ev : single_inv s -> good_call good_name ev -> alone s ev -> single_inv (tstep naive_allocator name s ev).
  Proof.
    intros V GC AL. pose proof V as (N & G & H). destruct ev as [k w new|k|t| |]; cbn [tstep].
    - cbn in AL. rewrite AL in *. unfold busy_watch. rewrite AL. cbn [existsb dmem dget orb]. unfold single_inv, move. cbn [set_threads h_threads h_maps h_partitions]. rewrite AL. split; [exact N|]. split; [exact G|]. cbn [dset one_at]. split; [exact H|]. intros ->. exact GC.
    - destruct (h_threads s) as [|[k0 [w0 a0]] [|x l]] eqn:T; [exact V| |destruct H]. cbn [dget]. change (eqb k0 k) with (k0 =? k). destruct (Z.eqb_spec k0 k) as [->|NE]; [|exact V].
      assert (D : forall y, dset [(k, (w0, a0))] k y = [(k, y)]) by (intros y; cbn; now rewrite Z.eqb_refl). assert (X : ddel [(k, (w0, a0))] k = []) by (cbn; now rewrite Z.eqb_refl).
      assert (EN : right s -> single_inv (ends k s)) by (intros R; unfold single_inv, ends; cbn [set_threads h_threads h_maps h_partitions]; rewrite T, X; auto).
      assert (RA : forall e, right s -> single_inv (raises k w0 e s)) by (intros e R; unfold single_inv, raises; cbn [h_threads h_maps h_partitions]; rewrite T, X; auto).
      assert (MV : forall s' a, like s s' -> h_threads s' = h_threads s -> one_at w0 a s' -> single_inv (move k w0 a s')).
      { intros s' a L T' O. unfold single_inv, move. cbn [set_threads h_threads h_maps h_partitions]. rewrite T', T, D. destruct L as (_ & B & _ & C). rewrite B. split; [now apply C|]. split; [exact G|exact O]. }
      destruct a0 as [new|new| |ms|ms ps| |id n i|id n i t|]; cbn [run_callback one_at] in *.
      + destruct H as [R GN]. destruct (set_eqb new (view w0 s)); [now apply EN|]. apply MV; [apply like_refl|reflexivity|exact GN].
      + destruct w0; cbn [set_view]; unfold single_inv, move; cbn [set_threads h_threads h_maps h_partitions]; rewrite T, D; cbn [one_at]; split; auto.
      + apply MV; [apply like_refl|reflexivity|reflexivity].
      + apply MV; [apply like_refl|reflexivity|]. cbn. auto.
      + destruct H as [-> ->]. destruct (naive_total (sorted (h_members s)) (sorted (h_partitions s))) as [mp E]; [intros p HP; exact (proj2 G p (proj1 (in_sorted _ _) HP))|]. rewrite E. unfold single_inv, move. cbn [set_threads set_maps h_threads h_maps h_partitions]. rewrite T, D. split; [intros X'; now destruct (app_cons_not_nil (h_maps s) [] mp)|]. split; [exact G|]. cbn [one_at]. exact (right_made s mp N E).
      + destruct (alloc_in name (cur_map s)) as [[tm mp]|e] eqn:E; [|now apply RA]. pose proof (like_put s mp N (proj1 (alloc_in_gives _ _ _ E))) as L. apply MV; [exact L|reflexivity|]. exact (like_right s _ L H).
      + destruct (dget _ name) as [tm|]; [|exact V]. destruct (negb _); [now apply RA|]. destruct (nth_error _ _); (apply MV; [apply like_refl|reflexivity|exact H]).
      + destruct (alloc_topic name (cur_map s) t) as [[ps mp]|e] eqn:E; [|now apply RA]. pose proof (like_put s mp N (proj1 (proj2 (alloc_topic_gives _ _ _ _ E)))) as L. apply MV; [exact L|reflexivity|]. exact (like_right s _ L H).
      + unfold single_inv, ends, cleared. cbn [set_threads h_threads h_maps h_partitions]. rewrite T, X. split; [exact N|]. split; [exact G|exact H].
    - destruct (h_consumer s); exact V.
    - destruct (like_run s N) as [L T]. now apply (like_single s).
    - destruct (h_consumer s); exact V.
  Qed.
  Lemma single_init : single_inv threads_init.
  Proof. split; [discriminate|]. split; [split; [constructor|intros p []]|]. exists (Mp true []). split; reflexivity. Qed.
End Threads.
