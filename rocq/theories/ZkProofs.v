(** Proofs about the zookeeper package, naive_allocator and drain. *)
From Coq Require Import ZArith String List Bool Lia Permutation Sorting.Sorted.
From Verif Require Import PyBase BaseLemmas Cluster Json Iterables Zookeeper SpecJson JsonProofs SpecZk.
Import ListNotations.
Open Scope Z_scope.
Set Default Proof Using "Type".

(** * JSON round trip *)
Lemma unhex_hexd n : 0 <= n < 16 -> unhex (hexd n) = Some n.
Proof.
  intros H. unfold hexd, unhex. destruct (Z.ltb_spec n 10).
  - replace ((48 <=? 48 + n) && (48 + n <=? 57)) with true by (symmetry; apply andb_true_iff; lia). f_equal; lia.
  - replace ((48 <=? 87 + n) && (87 + n <=? 57)) with false by (symmetry; apply andb_false_iff; lia).
    replace ((97 <=? 87 + n) && (87 + n <=? 102)) with true by (symmetry; apply andb_true_iff; lia). f_equal; lia.
Qed.
Lemma take_hex4 n r : 0 <= n < 65536 -> take_hex (hex4 n ++ r) = Some (n, r).
Proof.
  intros H. unfold hex4. cbn [app take_hex]. rewrite !unhex_hexd by (apply Z.mod_pos_bound; lia).
  f_equal. f_equal. 
  assert (E1 : n = 16 * (n / 16) + n mod 16) by (apply Z.div_mod; lia).
  assert (E2 : n / 16 = 16 * (n / 256) + n / 16 mod 16) by (replace (n / 256) with (n / 16 / 16) by (rewrite Z.div_div by lia; reflexivity); apply Z.div_mod; lia).
  assert (E3 : n / 256 = 16 * (n / 4096) + n / 256 mod 16) by (replace (n / 4096) with (n / 256 / 16) by (rewrite Z.div_div by lia; reflexivity); apply Z.div_mod; lia).
  assert (0 <= n / 4096 < 16) by (split; [apply Z.div_pos; lia|apply Z.div_lt_upper_bound; lia]).
  rewrite (Z.mod_small (n / 4096)) by assumption. lia.
Qed.
Lemma eat_same c r : eat c (c :: r) = Some r.
Proof. cbn. now rewrite Z.eqb_refl. Qed.

Ltac zif := match goal with
  | |- context [?a =? ?b] => first [rewrite (proj2 (Z.eqb_neq a b)) by lia | rewrite (proj2 (Z.eqb_eq a b)) by lia]
  end.
Lemma scan_jchar c r : scalar c -> scan_char (jchar c ++ r) = Some (Some c, r).
Proof.
  intros [R S]. unfold jchar.
  destruct (Z.eqb_spec c 92) as [->|N1]; [reflexivity|]. destruct (Z.eqb_spec c 34) as [->|N2]; [reflexivity|].
  destruct (Z.eqb_spec c 8) as [->|N3]; [reflexivity|]. destruct (Z.eqb_spec c 12) as [->|N4]; [reflexivity|].
  destruct (Z.eqb_spec c 10) as [->|N5]; [reflexivity|]. destruct (Z.eqb_spec c 13) as [->|N6]; [reflexivity|].
  destruct (Z.eqb_spec c 9) as [->|N7]; [reflexivity|].
  destruct ((32 <=? c) && (c <=? 126)) eqn:P.
  - apply andb_true_iff in P as [P1 P2]. apply Z.leb_le in P1, P2. cbn [app scan_char].
    rewrite (proj2 (Z.eqb_neq c 34)), (proj2 (Z.eqb_neq c 92)) by assumption. destruct (Z.ltb_spec c 32); [lia|reflexivity].
  - destruct (Z.ltb_spec c 65536).
    + unfold u_escape. cbn [app scan_char]. cbn [Z.eqb Pos.eqb]. change ((92 =? 34)) with false. change (92 =? 92) with true. change (117 =? 117) with true.
      cbn [app]. rewrite (take_hex4 c r) by lia.
      destruct ((55296 <=? c) && (c <=? 56319)) eqn:Q; [|reflexivity]. apply andb_true_iff in Q as [Q1 Q2]. apply Z.leb_le in Q1, Q2. lia.
    + set (hi := 55296 + (c - 65536) / 1024 mod 1024). set (lo := 56320 + (c - 65536) mod 1024).
      assert (D : 0 <= (c - 65536) / 1024 < 1024) by (split; [apply Z.div_pos; lia|apply Z.div_lt_upper_bound; lia]).
      assert (Hh : hi = 55296 + (c - 65536) / 1024) by (unfold hi; rewrite Z.mod_small by assumption; reflexivity).
      assert (L : 0 <= (c - 65536) mod 1024 < 1024) by (apply Z.mod_pos_bound; lia).
      unfold u_escape. rewrite <- app_assoc. cbn [app]. cbn [scan_char]. change ((92 =? 34)) with false. change (92 =? 92) with true. change (117 =? 117) with true.
      cbv iota. rewrite (take_hex4 hi) by lia.
      replace ((55296 <=? hi) && (hi <=? 56319)) with true by (symmetry; apply andb_true_iff; lia).
      rewrite eat_same, eat_same. rewrite (take_hex4 lo) by (unfold lo; lia).
      replace ((56320 <=? lo) && (lo <=? 57343)) with true by (symmetry; apply andb_true_iff; unfold lo; lia).
      f_equal. f_equal. f_equal. pose proof (Z.div_mod (c - 65536) 1024 ltac:(lia)). unfold lo. lia.
Qed.
Lemma jchar_len c : (1 <= length (jchar c))%nat.
Proof. unfold jchar. repeat match goal with |- context [if ?b then _ else _] => destruct b end; cbn; lia. Qed.
Lemma scan_body t r : clean t -> forall fuel, (length (flat_map jchar t ++ 34%Z :: r) <= fuel)%nat -> scan_string fuel (flat_map jchar t ++ 34 :: r) = Some (t, r).
Proof.
  induction t as [|c t IH]; intros C fuel L.
  - destruct fuel; [cbn in L; lia|]. reflexivity.
  - cbn [flat_map] in *. rewrite <- app_assoc in *. rewrite app_length in L. pose proof (jchar_len c).
    destruct fuel; [lia|]. cbn [scan_string]. rewrite scan_jchar by (apply C; now left). rewrite IH; [reflexivity|intros x Hx; apply C; now right|lia].
Qed.
Lemma skip_quote r : skip_ws (34 :: r) = 34 :: r.
Proof. reflexivity. Qed.
Lemma scan_jitems ts : forall r fuel, (forall t, In t ts -> clean t) -> ts <> [] -> (length ts <= fuel)%nat ->
  scan_items fuel (jitems ts ++ 93 :: r) = Some (ts, r).
Proof.
  induction ts as [|t ts IH]; intros r fuel C N L; [congruence|].
  destruct fuel; [cbn in L; lia|]. destruct ts as [|t' ts].
  - cbn [jitems]. unfold jstring. cbn [app]. rewrite <- app_assoc. cbn [app scan_items]. rewrite skip_quote, eat_same.
    rewrite scan_body; [|apply C; now left|lia]. reflexivity.
  - assert (E : jitems (t :: t' :: ts) ++ 93 :: r = 34 :: flat_map jchar t ++ 34 :: 44 :: 32 :: jitems (t' :: ts) ++ 93 :: r).
    { change (jitems (t :: t' :: ts)) with (jstring t ++ [44; 32] ++ jitems (t' :: ts)). unfold jstring. cbn [app]. rewrite <- !app_assoc. reflexivity. }
    rewrite E. cbn [scan_items]. rewrite skip_quote, eat_same. rewrite scan_body; [|apply C; now left|lia].
    change (eat 44 (skip_ws (44 :: 32 :: jitems (t' :: ts) ++ 93 :: r))) with (Some (32 :: jitems (t' :: ts) ++ 93 :: r)). cbv iota beta.
    assert (SK : forall f s, scan_items f (32 :: s) = scan_items f s) by (intros f s; destruct f; reflexivity).
    rewrite SK, IH; [reflexivity|intros x Hx; apply C; now right|discriminate|cbn [length] in *; lia].
Qed.
Lemma jitems_len ts : (length ts <= length (jitems ts))%nat.
Proof.
  induction ts as [|t ts IH]; [cbn; lia|]. destruct ts as [|t' ts]; [cbn; lia|].
  change (jitems (t :: t' :: ts)) with (jstring t ++ [44; 32] ++ jitems (t' :: ts)). rewrite !app_length. cbn [length] in *. lia.
Qed.
Theorem json_roundtrip ts : (forall t, In t ts -> clean t) -> json_loads (json_dumps ts) = Ok ts.
Proof.
  intros C. unfold json_dumps, json_loads. change (skip_ws (91 :: jitems ts ++ [93])) with (91 :: jitems ts ++ [93]). rewrite eat_same.
  destruct ts as [|t ts]; [reflexivity|].
  assert (E : eat 93 (skip_ws (jitems (t :: ts) ++ [93])) = None) by (destruct ts; reflexivity). rewrite E.
  rewrite scan_jitems; [reflexivity|exact C|discriminate|]. pose proof (jitems_len (t :: ts)). rewrite app_length. cbn [length] in *. lia.
Qed.

(** * sets *)
Lemma in_fold_sadd (l : list text) : forall (s : list text) x, In x (fold_left sadd l s) <-> In x s \/ In x l.
Proof.
  induction l as [|y l IH]; intros s x; cbn [fold_left]; [cbn; tauto|]. rewrite IH, in_sadd. cbn [In]. intuition congruence.
Qed.
Lemma nodup_fold_sadd (l : list text) : forall s : list text, NoDup s -> NoDup (fold_left sadd l s).
Proof. induction l as [|y l IH]; intros s N; cbn [fold_left]; [exact N|]. apply IH, nodup_sadd, N. Qed.
Lemma in_mkset l x : In x (mkset l) <-> In x l.
Proof. unfold mkset. rewrite in_fold_sadd. cbn. tauto. Qed.
Lemma nodup_mkset l : NoDup (mkset l).
Proof. apply nodup_fold_sadd. constructor. Qed.
Lemma in_union a b x : In x (set_union a b) <-> In x a \/ In x b.
Proof. apply in_fold_sadd. Qed.
Lemma in_minus a b x : In x (set_minus a b) <-> In x a /\ ~ In x b.
Proof. unfold set_minus. rewrite filter_In, negb_true_iff, smem_false. tauto. Qed.
Lemma subset_spec a b : subset a b = true <-> incl a b.
Proof. unfold subset. rewrite forallb_forall. split; intros H x Hx; apply smem_In, H, Hx. Qed.
Lemma set_eqb_spec a b : set_eqb a b = true <-> same_set a b.
Proof.
  unfold set_eqb, same_set. rewrite andb_true_iff, !subset_spec. split; [intros [H1 H2] x; split; auto|intros H; split; intros x Hx; apply H, Hx].
Qed.
Lemma disjointb_spec a b : disjointb a b = true <-> forall x, In x a -> ~ In x b.
Proof.
  unfold disjointb. rewrite negb_true_iff. split.
  - intros H x Ha Hb. assert (E : existsb (smem b) a = true) by (apply existsb_exists; exists x; split; [exact Ha|now apply smem_In]). congruence.
  - intros H. destruct (existsb (smem b) a) eqn:E; [|reflexivity]. apply existsb_exists in E as (x & Ha & Hb). apply smem_In in Hb. exfalso. exact (H x Ha Hb).
Qed.

(** * the shared set *)
Lemma through_app l c op b : through (l ++ [(c, op, b)]) = l ++ [(c, op, true)].
Proof. unfold through. rewrite rev_app_distr. cbn [rev app]. now rewrite rev_involutive. Qed.
Lemma subseq_snoc {A} (l1 l2 : list A) x : subseq l1 l2 -> subseq l1 (l2 ++ [x]).
Proof. induction 1; cbn; constructor; assumption. Qed.
Lemma subseq_snoc2 {A} (l1 l2 : list A) x : subseq l1 l2 -> subseq (l1 ++ [x]) (l2 ++ [x]).
Proof.
  induction 1 as [l|y l1 l2 H IH|y l1 l2 H IH]; cbn.
  - induction l as [|z l IH]; cbn; [apply sub_take, sub_nil|apply sub_skip, IH].
  - now apply sub_skip.
  - now apply sub_take.
Qed.
Lemma after_snoc ops op P x : after (ops ++ [op]) P x <-> match op with Add items => after ops P x \/ In x items | Remove items => after ops P x /\ ~ In x items end.
Proof.
  revert P. induction ops as [|o ops IH]; intros P; cbn [app after]; [destruct op; reflexivity|]. destruct o; apply IH.
Qed.

Section Shared.
  Variable set_order : list text -> list text.
  Hypothesis order_perm : forall l, Permutation (set_order l) l.
  Lemma deserialize_serialize l : (forall t, In t l -> clean t) ->
    exists l', deserialize (serialize set_order l) = Ok l' /\ forall x, In x l' <-> In x l.
  Proof using order_perm.
    intros C. unfold serialize. assert (E : deserialize (json_dumps (set_order l)) = (r <- json_loads (json_dumps (set_order l)) ;; Ok (mkset r))).
    { unfold json_dumps. reflexivity. }
    rewrite E, json_roundtrip.
    - cbn [bind]. eexists. split; [reflexivity|]. intros x. rewrite in_mkset. split; apply Permutation_in; [|symmetry]; apply order_perm.
    - intros t Ht. apply C. revert Ht. apply Permutation_in, order_perm.
  Qed.
  Definition phase_op (p : phase) : option sop :=
    match p with Idle => None | Wanting op | Holding op | Got op _ | Leaving op => Some op end.
  Definition clean_op (op : sop) : Prop := match op with Add items => forall t, In t items -> clean t | Remove _ => True end.
  Record sinv (P0 : text -> Prop) (s : shared) : Prop := {
    v_data : exists items, deserialize (z_data s) = Ok items /\ (forall x, In x items <-> after (map snd (effective s)) P0 x) /\
                           forall t, In t items -> clean t;
    v_clean : forall c op, phase_op (z_phase s c) = Some op -> clean_op op;
    v_lock : forall c, match z_phase s c with
             | Idle | Wanting _ => z_lock s <> Some c
             | Holding op => z_lock s = Some c /\ (exists pre, z_order s = pre ++ [(c, op, false)]) /\ subseq (z_returned s) (effective s)
             | Got op ex => z_lock s = Some c /\ (exists pre, z_order s = pre ++ [(c, op, false)]) /\ subseq (z_returned s) (effective s) /\
                            forall items, deserialize (z_data s) = Ok items -> forall x, In x ex <-> In x items
             | Leaving op => z_lock s = Some c /\ exists pre, effective s = pre ++ [(c, op)] /\ subseq (z_returned s) pre
             end;
    v_free : z_lock s = None -> subseq (z_returned s) (effective s)
  }.
  Lemma upd_same f c p : upd f c p c = p.
  Proof. unfold upd. now rewrite Z.eqb_refl. Qed.
  Lemma upd_other f c p x : x <> c -> upd f c p x = f x.
  Proof. intros N. unfold upd. now rewrite (proj2 (Z.eqb_neq x c) N). Qed.
  Lemma effective_false s pre c op : z_order s = pre ++ [(c, op, false)] -> effective s = map fst (filter snd pre).
  Proof. intros E. unfold effective. rewrite E, filter_app. cbn [filter snd]. now rewrite app_nil_r. Qed.
  Lemma holds_reads data P : holds data P -> exists items, deserialize data = Ok items /\ (forall x, In x items <-> P x) /\ forall t, In t items -> clean t.
  Proof.
    intros [[-> N]|(items & J & X)].
    - exists []. split; [reflexivity|]. split; [intros x; cbn; split; [intros []|apply N]|intros t []].
    - exists (mkset items). assert (D : data <> []) by (destruct J as (w1 & w2 & b & _ & _ & -> & _); destruct w1; discriminate).
      split; [|split; [intros x; rewrite in_mkset; apply X|intros t; rewrite in_mkset; apply (array_clean _ _ J)]].
      unfold deserialize. destruct data; [congruence|]. now rewrite (json_loads_complete _ _ J).
  Qed.
  Lemma reads_holds data (P : text -> Prop) items : deserialize data = Ok items -> (forall x, In x items <-> P x) -> (forall t, In t items -> clean t) -> holds data P.
  Proof.
    unfold deserialize. destruct data as [|c d]; intros E X C.
    - left. split; [reflexivity|]. injection E as <-. intros x H. apply X in H. destruct H.
    - destruct (json_loads (c :: d)) as [l|e] eqn:J; [|discriminate E]. injection E as <-. right. exists l. split.
      + apply json_loads_sound; [exact J|]. intros t Ht. apply C. now rewrite in_mkset.
      + intros x. rewrite <- X. symmetry. apply in_mkset.
  Qed.
  Lemma sinv_init data P0 : holds data P0 -> sinv P0 (shared_init data).
  Proof.
    intros HD. constructor.
    - destruct (holds_reads _ _ HD) as (items & E & X & C). exists items. split; [exact E|]. split; [intros x; cbn; apply X|exact C].
    - intros c op H. discriminate H.
    - intros c. cbn. discriminate.
    - intros _. cbn. constructor.
  Qed.
  (** only one client is past the lock *)
  Lemma sinv_holder P0 s c c' : sinv P0 s -> z_lock s = Some c -> c' <> c -> z_phase s c' = Idle \/ exists op, z_phase s c' = Wanting op.
  Proof.
    intros I L N. pose proof (v_lock _ _ I c') as V. destruct (z_phase s c') as [|op|op|op ex|op]; eauto; destruct V as (V & _); congruence.
  Qed.
  Lemma sstep_inv P0 s l : sinv P0 s -> clean_label l -> sinv P0 (sstep set_order s l).
  Proof using order_perm.
    intros I CL. pose proof (v_data _ _ I) as VD. pose proof (v_clean _ _ I) as VC. pose proof (v_lock _ _ I) as VL. pose proof (v_free _ _ I) as VF.
    destruct l as [c op|c|c|c|c|c]; cbn [sstep].
    - (* Call *) destruct (z_phase s c) eqn:P; try exact I. constructor.
      + exact VD.
      + intros c' op'. cbn [z_phase]. destruct (Z.eq_dec c' c) as [->|N]; [rewrite upd_same|rewrite upd_other by exact N; apply VC].
        cbn [phase_op]. intros E. injection E as <-. exact CL.
      + intros c'. cbn [z_phase z_lock z_order z_returned z_data]. specialize (VL c'). destruct (Z.eq_dec c' c) as [->|N]; [rewrite upd_same; rewrite P in VL; exact VL|].
        rewrite upd_other by exact N. exact VL.
      + exact VF.
    - (* Acquire *) destruct (z_phase s c) as [|op|op|op ex|op] eqn:P; try exact I. destruct (z_lock s) as [h|] eqn:L; [exact I|].
      specialize (VF eq_refl).
      assert (EF : effective (Sh (z_data s) (z_writes s) (Some c) (upd (z_phase s) c (Holding op)) (z_order s ++ [(c, op, false)]) (z_returned s)) = effective s).
      { unfold effective. cbn [z_order]. rewrite filter_app. cbn [filter snd]. now rewrite app_nil_r. }
      constructor.
      + rewrite EF. exact VD.
      + intros c' op'. cbn [z_phase]. destruct (Z.eq_dec c' c) as [->|N]; [rewrite upd_same|rewrite upd_other by exact N; apply VC].
        intros E. apply (VC c). rewrite P. exact E.
      + intros c'. rewrite EF. cbn [z_phase z_lock z_order z_returned z_data]. destruct (Z.eq_dec c' c) as [->|N].
        * rewrite upd_same. split; [reflexivity|]. split; [eauto|exact VF].
        * rewrite upd_other by exact N. specialize (VL c'). destruct (z_phase s c'); try (destruct VL as (VL & _); discriminate VL); congruence.
      + discriminate.
    - (* Get *) destruct (z_phase s c) as [|op|op|op ex|op] eqn:P; try exact I. pose proof (VL c) as Vc. rewrite P in Vc. destruct Vc as (L & OR & SU).
      destruct VD as (items & D & Din & Dc). rewrite D.
      assert (EF : effective (Sh (z_data s) (z_writes s) (z_lock s) (upd (z_phase s) c (Got op items)) (z_order s) (z_returned s)) = effective s) by reflexivity.
      constructor.
      + exists items. auto.
      + intros c' op'. cbn [z_phase]. destruct (Z.eq_dec c' c) as [->|N]; [rewrite upd_same|rewrite upd_other by exact N; apply VC].
        intros E. apply (VC c). rewrite P. exact E.
      + intros c'. rewrite EF. cbn [z_phase z_lock z_order z_returned z_data]. destruct (Z.eq_dec c' c) as [->|N].
        * rewrite upd_same. split; [exact L|]. split; [exact OR|]. split; [exact SU|]. intros it E x. rewrite D in E. injection E as <-. reflexivity.
        * rewrite upd_other by exact N. exact (VL c').
      + cbn [z_lock]. rewrite L. discriminate.
    - (* Update *) destruct (z_phase s c) as [|op|op|op ex|op] eqn:P; try exact I. pose proof (VL c) as Vc. rewrite P in Vc. destruct Vc as (L & (pre & OR) & SU & GX).
      destruct VD as (items & D & Din & Dc). specialize (GX items D).
      pose proof (effective_false s pre c op OR) as EF0.
      assert (CO : clean_op op) by (apply (VC c); now rewrite P).
      (* the two cases share everything but the data *)
      assert (G : forall data w,
        (exists items', deserialize data = Ok items' /\
           (forall x, In x items' <-> match op with Add its => In x items \/ In x its | Remove its => In x items /\ ~ In x its end)) ->
        sinv P0 (Sh data w (z_lock s) (upd (z_phase s) c (Leaving op)) (through (z_order s)) (z_returned s))).
      { intros data w (items' & D' & Din'). rewrite OR, through_app.
        assert (EF : effective (Sh data w (z_lock s) (upd (z_phase s) c (Leaving op)) (pre ++ [(c, op, true)]) (z_returned s)) = effective s ++ [(c, op)]).
        { unfold effective at 1. cbn [z_order]. rewrite filter_app, map_app. cbn [filter snd map fst]. now rewrite <- EF0. }
        constructor.
        - exists items'. split; [exact D'|]. rewrite EF, map_app. cbn [map snd]. split.
          + intros x. rewrite after_snoc, Din'. destruct op; rewrite <- Din; reflexivity.
          + intros t Ht. apply Din' in Ht. destruct op as [its|its]; [|apply Dc; tauto]. destruct Ht as [Ht|Ht]; [now apply Dc|now apply CO].
        - intros c' op'. cbn [z_phase]. destruct (Z.eq_dec c' c) as [->|N]; [rewrite upd_same|rewrite upd_other by exact N; apply VC].
          intros E. apply (VC c). rewrite P. exact E.
        - intros c'. rewrite EF. cbn [z_phase z_lock z_order z_returned z_data]. destruct (Z.eq_dec c' c) as [->|N].
          + rewrite upd_same. split; [exact L|]. exists (effective s). split; [reflexivity|exact SU].
          + rewrite upd_other by exact N. destruct (sinv_holder P0 s c c' I L N) as [E|(op' & E)]; rewrite E; congruence.
        - cbn [z_lock]. rewrite L. discriminate. }
      destruct op as [its|its]; cbn [update].
      + destruct (subset its ex) eqn:SB.
        * apply G. exists items. split; [exact D|]. intros x. apply subset_spec in SB. split; [now left|]. intros [H|H]; [exact H|]. apply GX, SB, H.
        * apply G. destruct (deserialize_serialize (set_union ex its)) as (l' & E1 & E2).
          { intros t Ht. apply in_union in Ht as [Ht|Ht]; [apply Dc, GX, Ht|now apply CO]. }
          exists l'. split; [exact E1|]. intros x. rewrite E2, in_union, GX. reflexivity.
      + destruct (disjointb its ex) eqn:SB.
        * apply G. exists items. split; [exact D|]. intros x. pose proof (proj1 (disjointb_spec its ex) SB) as SB'. split; [|tauto].
          intros H. split; [exact H|]. intros Hx. apply (SB' x Hx). now apply GX.
        * apply G. destruct (deserialize_serialize (set_minus ex its)) as (l' & E1 & E2).
          { intros t Ht. apply in_minus in Ht as [Ht _]. apply Dc, GX, Ht. }
          exists l'. split; [exact E1|]. intros x. rewrite E2, in_minus, GX. reflexivity.
    - (* Release *) destruct (z_phase s c) as [|op|op|op ex|op] eqn:P; try exact I. pose proof (VL c) as Vc. rewrite P in Vc. destruct Vc as (L & pre & EF & SU).
      constructor.
      + exact VD.
      + intros c' op'. cbn [z_phase]. destruct (Z.eq_dec c' c) as [->|N]; [rewrite upd_same; discriminate|rewrite upd_other by exact N; apply VC].
      + intros c'. cbn [z_phase z_lock z_order z_returned z_data]. destruct (Z.eq_dec c' c) as [->|N]; [rewrite upd_same; discriminate|].
        rewrite upd_other by exact N. destruct (sinv_holder P0 s c c' I L N) as [E|(op' & E)]; rewrite E; discriminate.
      + intros _. cbn [z_returned]. change (effective (Sh (z_data s) (z_writes s) None (upd (z_phase s) c Idle) (z_order s) (z_returned s ++ [(c, op)]))) with (effective s).
        rewrite EF. now apply subseq_snoc2.
    - (* Die *)
      assert (VR : subseq (z_returned s) (effective s)).
      { destruct (z_lock s) as [h|] eqn:L; [|now apply VF]. pose proof (VL h) as Vh. destruct (z_phase s h) as [|op|op|op ex|op]; try congruence; try tauto.
        destruct Vh as (_ & pre & EF & SU). rewrite EF. now apply subseq_snoc. }
      set (lk := match z_lock s with Some h => if h =? c then None else Some h | None => None end).
      assert (LK : forall c', c' <> c -> (lk = Some c' <-> z_lock s = Some c')).
      { intros c' N. unfold lk. destruct (z_lock s) as [h|]; [|reflexivity]. destruct (Z.eqb_spec h c) as [->|]; [|reflexivity]. split; intros E; [discriminate E|congruence]. }
      constructor.
      + exact VD.
      + intros c' op'. cbn [z_phase]. destruct (Z.eq_dec c' c) as [->|N]; [rewrite upd_same; discriminate|rewrite upd_other by exact N; apply VC].
      + intros c'. cbn [z_phase z_lock z_order z_returned z_data]. destruct (Z.eq_dec c' c) as [->|N].
        * rewrite upd_same. unfold lk. destruct (z_lock s) as [h|]; [|discriminate]. destruct (Z.eqb_spec h c); congruence.
        * rewrite upd_other by exact N. specialize (VL c'). specialize (LK c' N).
          change (effective (Sh (z_data s) (z_writes s) lk (upd (z_phase s) c Idle) (z_order s) (z_returned s))) with (effective s).
          destruct (z_phase s c'); rewrite LK; exact VL.
      + intros _. exact VR.
  Qed.
  Lemma srun_inv P0 ls : forall s, sinv P0 s -> (forall l, In l ls -> clean_label l) -> sinv P0 (srun set_order ls s).
  Proof using order_perm.
    induction ls as [|l ls IH]; intros s I C; [exact I|]. cbn [srun fold_left]. apply IH; [apply sstep_inv; [exact I|apply C; now left]|].
    intros x Hx. apply C. now right.
  Qed.
  (** without deaths *)
  Definition alive (l : slabel) : Prop := match l with Die _ => False | _ => True end.
  Record ainv (s : shared) : Prop := {
    w_free : z_lock s = None -> (forall x, In x (z_order s) -> snd x = true) /\ z_returned s = effective s;
    w_busy : forall c, match z_phase s c with
             | Holding op | Got op _ => exists pre, z_order s = pre ++ [(c, op, false)] /\ (forall x, In x pre -> snd x = true) /\ z_returned s = effective s
             | Leaving op => (forall x, In x (z_order s) -> snd x = true) /\ exists pre, effective s = pre ++ [(c, op)] /\ z_returned s = pre
             | _ => True
             end
  }.
  Lemma ainv_step P0 s l : sinv P0 s -> ainv s -> alive l -> ainv (sstep set_order s l).
  Proof.
    intros I A AL. pose proof (w_free _ A) as WF. pose proof (w_busy _ A) as WB. pose proof (v_lock _ _ I) as VL.
    destruct l as [c op|c|c|c|c|c]; cbn [sstep]; [| | | | |destruct AL].
    - destruct (z_phase s c) eqn:P; try exact A. constructor; [exact WF|]. intros c'. cbn [z_phase z_order z_returned].
      destruct (Z.eq_dec c' c) as [->|N]; [now rewrite upd_same|rewrite upd_other by exact N; exact (WB c')].
    - destruct (z_phase s c) as [|op|op|op ex|op] eqn:P; try exact A. destruct (z_lock s) as [h|] eqn:L; [exact A|].
      specialize (WF eq_refl) as (W1 & W2). constructor; [discriminate|]. intros c'. cbn [z_phase z_order z_returned].
      assert (EF : effective (Sh (z_data s) (z_writes s) (Some c) (upd (z_phase s) c (Holding op)) (z_order s ++ [(c, op, false)]) (z_returned s)) = effective s).
      { unfold effective. cbn [z_order]. rewrite filter_app. cbn [filter snd]. now rewrite app_nil_r. }
      rewrite EF. destruct (Z.eq_dec c' c) as [->|N]; [rewrite upd_same; eauto|]. rewrite upd_other by exact N.
      specialize (VL c'). destruct (z_phase s c'); try exact Logic.I; destruct VL as (VL & _); congruence.
    - destruct (z_phase s c) as [|op|op|op ex|op] eqn:P; try exact A. pose proof (VL c) as Vc. rewrite P in Vc. destruct Vc as (L & _).
      pose proof (v_data _ _ I) as (items & D & _). rewrite D. constructor; [cbn [z_lock]; rewrite L; discriminate|].
      intros c'. cbn [z_phase z_order z_returned]. destruct (Z.eq_dec c' c) as [->|N]; [rewrite upd_same|rewrite upd_other by exact N; exact (WB c')].
      specialize (WB c). rewrite P in WB. exact WB.
    - destruct (z_phase s c) as [|op|op|op ex|op] eqn:P; try exact A. pose proof (VL c) as Vc. rewrite P in Vc. destruct Vc as (L & _).
      pose proof (WB c) as Wc. rewrite P in Wc. destruct Wc as (pre & OR & W1 & W2).
      assert (G : forall data w, ainv (Sh data w (z_lock s) (upd (z_phase s) c (Leaving op)) (through (z_order s)) (z_returned s))).
      { intros data w. rewrite OR, through_app. constructor; [cbn [z_lock]; rewrite L; discriminate|]. intros c'. cbn [z_phase z_order z_returned].
        assert (EF : effective (Sh data w (z_lock s) (upd (z_phase s) c (Leaving op)) (pre ++ [(c, op, true)]) (z_returned s)) = effective s ++ [(c, op)]).
        { unfold effective at 1. cbn [z_order]. rewrite filter_app, map_app. cbn [filter snd map fst]. now rewrite <- (effective_false s pre c op OR). }
        rewrite EF. destruct (Z.eq_dec c' c) as [->|N].
        - rewrite upd_same. split; [|eauto]. intros x Hx. apply in_app_or in Hx as [Hx|[<-|[]]]; [now apply W1|reflexivity].
        - rewrite upd_other by exact N. destruct (sinv_holder P0 s c c' I L N) as [E|(op' & E)]; now rewrite E. }
      destruct (update op ex); apply G.
    - destruct (z_phase s c) as [|op|op|op ex|op] eqn:P; try exact A. pose proof (VL c) as Vc. rewrite P in Vc. destruct Vc as (L & _).
      pose proof (WB c) as Wc. rewrite P in Wc. destruct Wc as (W1 & pre & EF & W2). constructor.
      + intros _. cbn [z_order z_returned]. split; [exact W1|]. rewrite W2.
        change (effective (Sh (z_data s) (z_writes s) None (upd (z_phase s) c Idle) (z_order s) (pre ++ [(c, op)]))) with (effective s). now rewrite EF.
      + intros c'. cbn [z_phase z_order z_returned]. destruct (Z.eq_dec c' c) as [->|N]; [now rewrite upd_same|].
        rewrite upd_other by exact N. destruct (sinv_holder P0 s c c' I L N) as [E|(op' & E)]; now rewrite E.
  Qed.
  Lemma srun_alive P0 ls : forall s, sinv P0 s -> ainv s -> (forall l, In l ls -> clean_label l /\ alive l) -> ainv (srun set_order ls s).
  Proof using order_perm.
    induction ls as [|l ls IH]; intros s I A C; [exact A|]. cbn [srun fold_left]. apply IH.
    - apply sstep_inv; [exact I|apply C; now left].
    - apply (ainv_step P0); [exact I|exact A|apply C; now left].
    - intros x Hx. apply C. now right.
  Qed.
End Shared.
