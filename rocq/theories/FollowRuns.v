(** Runs of a consumer followed with books about what was delivered: shared by C37, C76 and C81. *)
From Coq Require Import ZArith String List Bool Lia Permutation Sorting.Sorted.
From Verif Require Import PyBase BaseLemmas Constants Cluster Zookeeper Consumer SpecConsumer ConsumerProofs ConsumerSteps ConsumerRuns ConsumerSync PropsConsumer SpecLog.
Import ListNotations.
Open Scope Z_scope.
Set Default Proof Using "Type".

(** ** logs *)
Section Logs.
  Context {V : Type}.
  Variable cfg : config V.
  Notation rd := (readable cfg).
  Lemma rd_app a b : rd (a ++ b) = rd a ++ rd b.
  Proof. apply flat_map_app. Qed.
  Lemma ss_app (l1 l2 : list Z) : StronglySorted Z.lt (l1 ++ l2) -> StronglySorted Z.lt l2 /\ forall x y, In x l1 -> In y l2 -> x < y.
  Proof.
    induction l1 as [|a l1 IH]; intros H; [split; [exact H|intros x y []]|]. inversion H as [|? ? S F]; subst. destruct (IH S) as [S2 L]. split; [exact S2|]. intros x y [->|I] J; [|now apply L].
    rewrite Forall_forall in F. apply F, in_app_iff. now right.
  Qed.
  Lemma ss_filter (f : Z * pymsg -> bool) l : StronglySorted Z.lt (map fst l) -> StronglySorted Z.lt (map fst (filter f l)).
  Proof.
    induction l as [|a l IH]; intros H; [exact H|]. inversion H as [|? ? S F]; subst. cbn. destruct (f a); [|auto]. cbn. constructor; [auto|]. rewrite Forall_forall in *. intros x I. apply F.
    apply in_map_iff in I as (y & <- & I). apply filter_In in I as [I _]. now apply in_map.
  Qed.
  Lemma filter_all {A} (f : A -> bool) l : (forall x, In x l -> f x = true) -> filter f l = l.
  Proof. induction l as [|a l IH]; intros H; [reflexivity|]. cbn. rewrite H by now left. f_equal. apply IH. intros x I. apply H. now right. Qed.
  Lemma filter_none {A} (f : A -> bool) l : (forall x, In x l -> f x = false) -> filter f l = [].
  Proof. induction l as [|a l IH]; intros H; [reflexivity|]. cbn. rewrite H by now left. apply IH. intros x I. apply H. now right. Qed.
  Lemma between_split a b c l : StronglySorted Z.lt (map fst l) -> a <= b -> b <= c -> between a c l = between a b l ++ between b c l.
  Proof.
    intros S AB BC. unfold between. induction l as [|[o m] l IH]; [reflexivity|]. inversion S as [|? ? S' F]; subst. rewrite Forall_forall in F. specialize (IH S'). cbn [filter fst].
    destruct (Z.leb_spec a o), (Z.ltb_spec o c), (Z.ltb_spec o b), (Z.leb_spec b o); cbn [andb]; try lia; rewrite ?IH; try reflexivity.
    - replace (filter (fun om => (a <=? fst om) && (fst om <? b)) l) with (@nil (Z * pymsg)); [reflexivity|]. symmetry. apply filter_none. intros x I. apply (in_map fst) in I. apply F in I. cbn in I.
      destruct (Z.ltb_spec (fst x) b); [lia|]. now rewrite andb_false_r.
  Qed.
  Lemma between_from a b l : between a b l = filter (fun om => fst om <? b) (from a l).
  Proof. unfold between, from. induction l as [|x l IH]; [reflexivity|]. cbn. destruct (a <=? fst x); cbn; [destruct (fst x <? b)|]; now rewrite IH. Qed.
  Lemma rd_last l g o v : rd l = g ++ [(o, v)] -> exists A m B, l = A ++ (o, m) :: B /\ rd B = [] /\ rd (A ++ [(o, m)]) = g ++ [(o, v)].
  Proof.
    revert g. induction l as [|[o1 m1] l IH] using rev_ind; intros g E; [now destruct g|]. rewrite rd_app in E. cbn [readable flat_map fst snd] in E. rewrite app_nil_r in E. destruct (deser cfg (msg_value m1)) as [v1|e] eqn:D.
    - apply app_inj_tail in E as [E1 E2]. injection E2 as <- <-. exists l, m1, []. split; [reflexivity|]. split; [reflexivity|]. rewrite rd_app, E1. cbn. now rewrite D.
    - rewrite app_nil_r in E. destruct (IH g E) as (A & m & B & -> & RB & R). exists A, m, (B ++ [(o1, m1)]). split; [now rewrite <- app_assoc|]. split; [|exact R]. rewrite rd_app, RB. cbn. now rewrite D.
  Qed.
  Lemma in_firstn {A} (x : A) n l : In x (firstn n l) -> In x l.
  Proof. intros H. rewrite <- (firstn_skipn n l). apply in_app_iff. now left. Qed.
  Lemma rd_offsets l o : In o (map fst (rd l)) -> In o (map fst l).
  Proof.
    intros H. apply in_map_iff in H as ([o' v] & <- & H). apply in_flat_map in H as ([o1 m] & I & H). cbn in *. destruct (deser cfg (msg_value m)); [|destruct H]. destruct H as [H|[]]. injection H as <- <-. now apply (in_map fst) in I.
  Qed.
  Lemma from_offsets a l o : In o (map fst (from a l)) -> a <= o /\ In o (map fst l).
  Proof. intros H. apply in_map_iff in H as (x & <- & H). apply filter_In in H as [H1 H2]. split; [now apply Z.leb_le|now apply in_map]. Qed.
  Lemma log_step L a pos n : is_log L -> a <= pos ->
    let got := rd (firstn n (from pos L)) in
    let pos' := one_past_last (map fst got) pos in
    pos <= pos' /\ rd (between a pos' L) = rd (between a pos L) ++ got /\ filter (fun o => 0 <=? o) (map fst got) = map fst got.
  Proof.
    intros [S P] AP got pos'.
    assert (G : forall o, In o (map fst got) -> pos <= o /\ In o (map fst L)).
    { intros o H. apply rd_offsets in H. apply in_map_iff in H as (x & <- & H). apply in_firstn in H. apply (in_map fst) in H. now apply from_offsets in H. }
    assert (LE : pos <= pos').
    { subst pos'. unfold one_past_last. destruct (rev (map fst got)) as [|o r] eqn:R; [lia|]. assert (In o (map fst got)) as I by (apply in_rev; rewrite R; now left). apply G in I. lia. }
    split; [exact LE|]. split; [|apply filter_all; intros o H; apply G in H as [_ H]; apply P in H; now apply Z.leb_le].
    rewrite (between_split a pos pos' L S AP LE), rd_app. f_equal. rewrite between_from. set (M := from pos L) in *.
    assert (SM : StronglySorted Z.lt (map fst M)) by now apply ss_filter.
    destruct (rev got) as [|[o v] r'] eqn:EG; apply (f_equal (@rev _)) in EG; rewrite rev_involutive in EG; cbn [rev] in EG.
    - replace pos' with pos by (subst pos'; now rewrite EG). rewrite EG, filter_none; [reflexivity|]. intros x I. apply (in_map fst) in I. apply from_offsets in I as [I _]. now apply Z.ltb_ge.
    - assert (PE : pos' = o + 1) by (subst pos'; rewrite EG; unfold one_past_last; rewrite map_app, rev_app_distr; reflexivity). rewrite PE. clearbody pos'.
      destruct (rd_last _ _ _ _ EG) as (A & m & B & F & RB & RA). rewrite EG, <- RA. f_equal. rewrite <- (firstn_skipn n M), F. rewrite <- app_assoc. cbn [app].
      rewrite <- (firstn_skipn n M), F, <- app_assoc in SM. cbn [app] in SM. rewrite map_app in SM. cbn [map fst] in SM. destruct (ss_app _ _ SM) as [S1 L1]. inversion S1 as [|? ? S2 F2]; subst. rewrite Forall_forall in F2.
      rewrite filter_app. cbn [filter fst]. replace (o <? o + 1) with true by (symmetry; apply Z.ltb_lt; lia). f_equal; [|f_equal].
      + apply filter_all. intros x I. apply Z.ltb_lt. apply (in_map fst) in I. specialize (L1 (fst x) o I (or_introl eq_refl)). lia.
      + apply filter_none. intros x I. apply Z.ltb_ge. apply (in_map fst) in I. apply F2 in I. lia.
  Qed.
End Logs.

(** ** what a response delivers *)
Section Got.
  Context {V : Type}.
  Variable cfg : config V.
  Definition got_of (parts : list (Z * (Z * list (Z * pymsg)))) : list (Z * (Z * V)) :=
    flat_map (fun part => if fst (snd part) =? no_error then map (pair (fst part)) (readable cfg (snd (snd part))) else []) parts.
  Lemma values_got parts : values (got_of parts) = flat_map (part_values cfg) parts.
  Proof.
    induction parts as [|[p [code ms]] parts IH]; [reflexivity|]. unfold values, got_of in *. cbn [flat_map fst snd]. rewrite map_app, IH. f_equal. unfold part_values. destruct (code =? no_error); [|reflexivity]. now rewrite map_map.
  Qed.
  Lemma of_partition_app p a b : of_partition p (a ++ b) = of_partition p a ++ @of_partition V p b.
  Proof. unfold of_partition. now rewrite filter_app, map_app. Qed.
  Lemma of_partition_pair p q (l : list (Z * V)) : of_partition p (map (pair q) l) = if q =? p then l else [].
  Proof.
    unfold of_partition. destruct (q =? p) eqn:E; [rewrite filter_all|rewrite filter_none; [reflexivity|]]; [rewrite map_map; apply map_id|..]; intros x H; apply in_map_iff in H as (y & <- & _); exact E.
  Qed.
  Lemma accepted_got p parts : accepted cfg parts p = filter (fun o => 0 <=? o) (map fst (of_partition p (got_of parts))).
  Proof.
    induction parts as [|[q [code ms]] parts IH]; [reflexivity|]. unfold accepted, got_of in *. cbn [flat_map fst snd]. rewrite of_partition_app, map_app, filter_app, IH. f_equal.
    destruct (code =? no_error); [|now rewrite andb_false_r]. rewrite andb_true_r, of_partition_pair. destruct (q =? p); reflexivity.
  Qed.
  Lemma got_absent p parts : ~ In p (map fst parts) -> of_partition p (got_of parts) = [].
  Proof.
    induction parts as [|[q [code ms]] parts IH]; intros N; [reflexivity|]. cbn in N. unfold got_of in *. cbn [flat_map fst snd]. rewrite of_partition_app, IH by tauto. rewrite app_nil_r.
    destruct (code =? no_error); [|reflexivity]. rewrite of_partition_pair. destruct (q =? p) eqn:E; [|reflexivity]. apply Z.eqb_eq in E. tauto.
  Qed.
  Lemma got_present p parts : NoDup (map fst parts) -> of_partition p (got_of parts) = [] \/ exists ms, In (p, (no_error, ms)) parts /\ of_partition p (got_of parts) = readable cfg ms.
  Proof.
    induction parts as [|[q [code ms]] parts IH]; intros N; [now left|]. inversion N as [|? ? N1 N2]; subst. specialize (IH N2). cbn [fst] in N1. unfold got_of in *. cbn [flat_map fst snd]. rewrite of_partition_app.
    destruct (Z.eqb_spec code no_error) as [->|NE].
    - rewrite of_partition_pair. destruct (Z.eqb_spec q p) as [->|NQ].
      + right. exists ms. split; [now left|]. fold (got_of parts). rewrite (got_absent p parts N1). apply app_nil_r.
      + destruct IH as [IH|(ms' & I & IH)]; [left; exact IH|right; exists ms'; split; [now right|exact IH]].
    - destruct IH as [IH|(ms' & I & IH)]; [left; exact IH|right; exists ms'; split; [now right|exact IH]].
  Qed.
End Got.

(** ** the books *)
Section Follow.
  Context {V : Type}.
  Variable cfg : config V.
  Variable t : text.
  Variable s0 : consumer V.
  (** which responses a broker may give *)
  Variable serves_ : request -> response -> Prop.
  (** what is said about the deliveries and the positions *)
  Variable books : list (Z * (Z * V)) -> (Z -> Z) -> Prop.
  Definition orderly_ (s : consumer V) (l : label) : Prop :=
    match l with
    | Call _ (OpConsume t' _) => t' = t -> ~ busy s t
    | Arrive i b (Ok r) => forall rq, waits_for s i b rq -> answers rq r = true -> serves_ rq r
    | _ => True
    end.
  (** and no rebalance makes the consumer look its positions up again *)
  Definition steady_ (s : consumer V) (l : label) : Prop :=
    orderly_ s l /\ match l with Alloc _ => In t (c_synced s) -> In t (c_synced (cstep cfg s l)) | _ => True end.
  Variable ALIKE : forall D f g, (forall p, g p = f p) -> books D f -> books D g.
  Variable SFETCH : forall x mw mb t' asked t'' parts rest, serves_ (RFetch x mw mb t' asked) (PFetch ((t'', parts) :: rest)) -> t'' = t' /\
    (t' = t -> NoDup (map fst parts) /\ forall p code ms, In (p, (code, ms)) parts -> code <> offset_out_of_range /\ (code = no_error -> In p (map fst asked))).
  Variable SOFFSET : forall x t' asked t'' parts rest, serves_ (ROffset x t' asked) (POffset ((t'', parts) :: rest)) -> t'' = t'.
  Variable SGROUP : md cfg = Single \/ forall g t' asked t'' parts rest, serves_ (ROffsetFetch g t' asked) (POffsetFetch ((t'', parts) :: rest)) -> t'' = t'.
  Variable STEP : forall D f f' x mw mb asked parts rest, books D f -> (forall p o limit, In (p, (o, limit)) asked -> o = f p) -> serves_ (RFetch x mw mb t asked) (PFetch ((t, parts) :: rest)) ->
    (forall p, f' p = one_past_last (filter (fun o => 0 <=? o) (map fst (of_partition p (got_of cfg parts)))) (f p)) -> books (D ++ got_of cfg parts) f'.
  Notation st := (consumer V).

  Definition aligned (s : st) (w : dict Z request) : Prop :=
    (forall b rq, In (b, rq) w -> exists parts, rq = RFetch CONSUMER_REPLICA_ID (max_wait cfg) (min_bytes cfg) t parts /\ forall p o mb, In (p, (o, mb)) parts -> o = position s t p) /\
    (forall b b' rq rq' p, In (b, rq) w -> In (b', rq') w -> In p (asked [(b, rq)]) -> In p (asked [(b', rq')]) -> b = b').
  Definition waiting_at (s : st) (p : pc V) : Prop :=
    match p with PSend (KFetch _) w _ => aligned s w | PHeal (KFetch _) _ => True | PTopicHeal _ => True | PSend (KCommit _ _) _ _ | PHeal (KCommit _ _) _ => True | _ => False end.
  Definition gives (v : rv V) : list V := match v with RvList l => l | RvNone => [] end.
  Definition held (p : pc V) : list V :=
    match p with
    | PSend (KFetch _) _ rs | PHeal (KFetch _) rs => filter (truthy cfg) (vals_of rs)
    | PSend (KCommit _ ret) _ _ | PHeal (KCommit _ ret) _ => gives ret
    | _ => []
    end.
  Definition logged (D : list (Z * (Z * V))) (s : st) : Prop := books D (position s t).
  Notation got D := (filter (truthy cfg) (values D)).
  Record follows (D : list (Z * (Z * V))) (s : st) : Prop := {
    f_inv : inv cfg s;
    f_sync : In t (c_synced s);
    f_one : forall i j o o' p p', dget (c_calls s) i = Some (o, p) -> on_topic t o -> dget (c_calls s) j = Some (o', p') -> on_topic t o' -> i = j;
    f_pc : forall i o p, dget (c_calls s) i = Some (o, p) -> on_topic t o -> waiting_at s p /\ got D = returned t s0 s ++ held p;
    f_free : ~ busy s t -> got D = returned t s0 s;
    f_ended : exists l, c_ended s = c_ended s0 ++ l;
    f_log : logged D s }.

  Lemma since_app s s' l : (exists l0, c_ended s = c_ended s0 ++ l0) -> c_ended s' = c_ended s ++ l -> ended_since s0 s' = ended_since s0 s ++ l.
  Proof. intros (l0 & E) E'. unfold ended_since. rewrite E', E, <- app_assoc, !skipn_app, !skipn_all, Nat.sub_diag. reflexivity. Qed.
  Lemma logged_pos D s s' : (forall p, position s' t p = position s t p) -> logged D s -> logged D s'.
  Proof using ALIKE. intros E. now apply ALIKE. Qed.
  Lemma aligned_pos s s' w : (forall p, position s' t p = position s t p) -> aligned s w -> aligned s' w.
  Proof. intros E [A B]. split; [|exact B]. intros b rq H. destruct (A b rq H) as (parts & -> & P). exists parts. split; [reflexivity|]. intros p o mb I. rewrite E. eapply P, I. Qed.
  Lemma waiting_pos s s' p : (forall q, position s' t q = position s t q) -> waiting_at s p -> waiting_at s' p.
  Proof. intros E. destruct p as [k w rs|k rs|t']; [|auto..]. destruct k; auto. now apply aligned_pos. Qed.

  (** a step that changes nothing of interest *)
  Lemma follows_same D s s' : follows D s -> inv cfg s' -> In t (c_synced s') -> c_calls s' = c_calls s -> c_ended s' = c_ended s -> (forall p, position s' t p = position s t p) -> follows D s'.
  Proof using ALIKE.
    intros [] I' SY C E P. assert (R : returned t s0 s' = returned t s0 s) by (unfold returned, ended_since; now rewrite E). constructor; auto; rewrite ?C; auto.
    - intros i o p D1 O. destruct (f_pc0 i o p D1 O) as [W G]. split; [eapply waiting_pos; eassumption|now rewrite R].
    - intros NB. rewrite R. apply f_free0. intros (i & o & p & D1 & O). apply NB. exists i, o, p. now rewrite C.
    - rewrite E. exact f_ended0.
    - eapply logged_pos; eassumption.
  Qed.
  (** a piece of a call on something else *)
  Lemma follows_other D s i o ns : follows D s -> inv cfg (continue i o ns) -> ~ on_topic t o -> (forall o' p, dget (c_calls s) i = Some (o', p) -> o' = o) ->
    c_calls (snd ns) = c_calls s -> c_ended (snd ns) = c_ended s -> In t (c_synced (snd ns)) -> (forall p, position (snd ns) t p = position s t p) -> follows D (continue i o ns).
  Proof using ALIKE.
    intros [] I' NT SAMEC C E SY P. destruct (continue_same i o ns) as (_ & CS & _). destruct (continue_views cfg i o ns) as (CP & _). pose proof (continue_ended i o ns) as CE. rewrite E in CE.
    assert (CC : forall j o' p, on_topic t o' -> dget (c_calls (continue i o ns)) j = Some (o', p) <-> dget (c_calls s) j = Some (o', p)).
    { intros j o' p OT. destruct (continue_calls i o ns j) as [_ H]; [rewrite C; apply f_inv0|]. rewrite H, C. destruct (j =? i) eqn:JI; [|reflexivity]. apply Z.eqb_eq in JI. subst j. split; intros X.
      - destruct (fst ns); try discriminate X. injection X as <- _. contradiction.
      - apply SAMEC in X. subst o'. contradiction. }
    assert (R : returned t s0 (continue i o ns) = returned t s0 s).
    { unfold returned. rewrite (since_app s _ _ f_ended0 CE), flat_map_app. rewrite <- app_nil_r. f_equal. destruct (fst ns) as [p|v|e]; [reflexivity| |]; cbn; rewrite ?app_nil_r; destruct o as [t' start|x|]; try reflexivity.
      cbn in NT. destruct v; [reflexivity|]. replace (list_eqb t' t) with (eqb t' t) by reflexivity. destruct (eqb t' t) eqn:ET; [|reflexivity]. apply eqb_true in ET. contradiction. }
    assert (PP : forall p, position (continue i o ns) t p = position s t p) by (intros p; now rewrite CP).
    constructor; [exact I'|now rewrite CS|intros a b o1 o2 p1 p2 A1 O1 A2 O2; apply CC in A1, A2; [eauto|assumption..]| | | |eapply logged_pos; eassumption].
    - intros j o' p A OT. apply CC in A; [|exact OT]. destruct (f_pc0 j o' p A OT) as [W G]. split; [eapply waiting_pos; eassumption|now rewrite R].
    - intros NB. rewrite R. apply f_free0. intros (j & o' & p & A & OT). apply NB. exists j, o', p. split; [now apply CC|exact OT].
    - destruct f_ended0 as (l0 & E0). rewrite CE, E0. rewrite <- app_assoc. eauto.
  Qed.
  (** a piece of a call on the topic *)
  Lemma follows_mine D D' s i start ns : follows D s -> inv cfg (continue i (OpConsume t start) ns) -> (forall j o p, dget (c_calls s) j = Some (o, p) -> on_topic t o -> j = i) ->
    c_calls (snd ns) = c_calls s -> c_ended (snd ns) = c_ended s -> In t (c_synced (snd ns)) -> logged D' (snd ns) -> none_raised t s0 (continue i (OpConsume t start) ns) ->
    match fst ns with
    | Await p => waiting_at (snd ns) p /\ got D' = returned t s0 s ++ held p
    | Return v => got D' = returned t s0 s ++ gives v
    | Raise_ _ => True
    end -> follows D' (continue i (OpConsume t start) ns).
  Proof using ALIKE.
    intros [] I' ALONE C E SY L NR H. set (o := OpConsume t start) in *. destruct (continue_same i o ns) as (_ & CS & _). destruct (continue_views cfg i o ns) as (CP & _). pose proof (continue_ended i o ns) as CE. rewrite E in CE.
    assert (CC : forall j o' p, on_topic t o' -> dget (c_calls (continue i o ns)) j = Some (o', p) -> j = i /\ o' = o /\ fst ns = Await p).
    { intros j o' p OT. destruct (continue_calls i o ns j) as [_ X]; [rewrite C; apply f_inv0|]. rewrite X, C. destruct (j =? i) eqn:JI; intros Y.
      - apply Z.eqb_eq in JI. subst j. destruct (fst ns); try discriminate Y. injection Y as <- <-. auto.
      - apply Z.eqb_neq in JI. destruct JI. eapply ALONE; eassumption. }
    assert (EN : exists l, c_ended (continue i o ns) = c_ended s0 ++ l) by (destruct f_ended0 as (l0 & E0); rewrite CE, E0, <- app_assoc; eauto).
    pose proof (since_app s _ _ f_ended0 CE) as SA.
    assert (R : returned t s0 (continue i o ns) = returned t s0 s ++ match fst ns with Return v => gives v | _ => [] end).
    { unfold returned. rewrite SA, flat_map_app. f_equal. destruct (fst ns) as [p|v|e]; [reflexivity| |reflexivity]. cbn. rewrite app_nil_r. destruct v; [reflexivity|]. replace (list_eqb t t) with (eqb t t) by reflexivity. now rewrite eqb_refl. }
    constructor; [exact I'|now rewrite CS|intros a b o1 o2 p1 p2 A1 O1 A2 O2; apply CC in A1 as (-> & _); [|exact O1]; apply CC in A2 as (-> & _); [reflexivity|exact O2]| | |exact EN|eapply logged_pos; [intros p; apply CP|exact L]].
    - intros j o' p A OT. apply CC in A as (-> & -> & F); [|exact OT]. rewrite F in H, R. rewrite R, app_nil_r. destruct H as [W G]. split; [|exact G]. eapply waiting_pos; [|exact W]. intros q. apply CP.
    - intros NB. rewrite R. destruct (fst ns) as [p|v|e] eqn:F; [|exact H|].
      + destruct NB. exists i, o, p. split; [|reflexivity]. destruct (continue_calls i o ns i) as [_ X]; [rewrite C; apply f_inv0|]. rewrite X, Z.eqb_refl, F. reflexivity.
      + exfalso. apply (NR i o e); [|reflexivity]. rewrite SA. apply in_app_iff. right. now left.
  Qed.

  (** ** what a consume() that has its positions does *)
  Lemma fetching_aligned s rqs : fetching cfg s t rqs -> aligned s rqs.
  Proof.
    intros (NE & ND & _ & A). split.
    - intros b rq H. destruct (A b rq H) as (parts & _ & -> & P). exists parts. split; [reflexivity|]. intros p o mb I. now apply P in I.
    - intros b b' rq rq' p H H' I I'. destruct (A b rq H) as (parts & _ & -> & P). destruct (A b' rq' H') as (parts' & _ & -> & P'). cbn in I, I'. rewrite app_nil_r in I, I'.
      apply in_map_iff in I as ([p1 [o mb]] & E & I), I' as ([p2 [o' mb']] & E' & I'). cbn in E, E'. subst. apply P in I as (I & _). apply P' in I' as (I' & _). congruence.
  Qed.
  Definition starts (ns : next V * st) : Prop :=
    match fst ns with
    | Await p => waiting_at (snd ns) p /\ held p = []
    | Return v => gives v = []
    | Raise_ _ => True
    end.
  (** what a piece has when it ends or waits *)
  Definition ends_with (l : list V) (ns : next V * st) : Prop :=
    match fst ns with
    | Await p => waiting_at (snd ns) p /\ held p = l
    | Return v => gives v = l
    | Raise_ _ => True
    end.
  Lemma commit_ends m ret s : ends_with (gives ret) (commit_offsets cfg m ret s).
  Proof.
    clear SGROUP. unfold commit_offsets, ends_with. destruct (md cfg) as [|g fn ac name]; [exact I|]. destruct (alloc_map cfg s) as [[al|e] s1]; [|exact I]. destruct (commit_topics al _ s1) as [topics s2]. unfold send_one.
    destruct (c_coord s2) as [b|]; [|exact I]. destruct (send_all cfg _ s2) as [[u|e] s3]; [|exact I]. cbn. auto.
  Qed.
  Lemma base_ends v s : In t (c_synced s) \/ gives v = [] -> ends_with (gives v) (base_done cfg t v s).
  Proof.
    intros H. clear SGROUP. unfold base_done. destruct (md cfg) as [|g fn ac name] eqn:M; [reflexivity|]. destruct (smem (c_synced s) t) eqn:SM; cbn [negb].
    - destruct ac; [apply commit_ends|reflexivity].
    - destruct H as [H|H]; [apply smem_In in H; congruence|]. now rewrite H.
  Qed.
  Lemma fetch_starts s : starts (fetch cfg t s).
  Proof.
    destruct (fetch_spec cfg t s) as [(e & ex & E & _)|[(_ & s1 & Q & ->)|(_ & rqs & ex & E & Q & X & F & C)]]; unfold starts.
    - now rewrite E.
    - exact (base_ends (RvList []) s1 (or_intror eq_refl)).
    - rewrite E. cbn. split; [now apply fetching_aligned|reflexivity].
  Qed.
  Lemma after_starts s : starts (after_offsets cfg t s).
  Proof.
    destruct (after_offsets_spec cfg t s) as [(s1 & Q & _ & ->)|[(e & ex & E & Q)|(E & Q)]]; [apply fetch_starts|unfold starts; now rewrite E..].
  Qed.

  (** ** an answer *)
  Lemma answer_follows D s b rq r w rs : logged D s -> In t (c_synced s) -> aligned s w -> NoDup (dkeys w) -> dget w b = Some rq -> is_answer rq r = true -> handler_fails cfg r s = None ->
    (forall resp, r = Ok resp -> serves_ rq resp) ->
    let s1 := answer_state cfg r s in
    exists D', logged D' s1 /\ In t (c_synced s1) /\ aligned s1 (ddel w b) /\ got D' = got D ++ answer_vals cfg r /\ filter (truthy cfg) (vals_of (answer_results cfg b r rs s)) = filter (truthy cfg) (vals_of rs) ++ answer_vals cfg r.
  Proof using ALIKE SFETCH STEP.
    intros L SY AL ND W IA HF SV. cbv zeta.
    assert (SUB : forall x, In x (ddel w b) -> In x w) by (intros [b' rq'] H; eapply in_ddel, H).
    destruct r as [resp|e].
    2: { assert (P : forall p, position (answer_state cfg (Err e) s) t p = position s t p) by (intros p; cbn; destruct (sets_heal e); reflexivity).
         exists D. split; [eapply logged_pos; eassumption|]. split; [cbn; destruct (sets_heal e); exact SY|]. split; [eapply aligned_pos; [exact P|]; split; [intros b' rq' H; now apply (proj1 AL b'), SUB|intros b1 b2 r1 r2 p H1 H2; apply (proj2 AL); now apply SUB]|].
         cbn. rewrite !app_nil_r. auto. }
    specialize (SV resp eq_refl). cbn [is_answer handler_fails answer_state answer_vals answer_results] in *. pose proof (dget_In _ _ _ W) as IW. destruct (proj1 AL b rq IW) as (asked_ & -> & POS).
    destruct resp as [ts|ts|ts|ts|c id]; cbn [answers] in IA; try discriminate IA. destruct ts as [|[t' parts] ts]; [discriminate HF|]. pose proof SV as SVF. apply SFETCH in SV as (-> & SV). destruct (SV eq_refl) as [NDP PARTS]. clear SV.
    pose proof (handle_fetch_spec cfg t parts s) as HS. cbn [handle] in *. destruct HS as (done & rest & PD & RE & FR & SYN & _ & PO & OT).
    destruct (handle_fetch_parts cfg t parts s) as [[vs|e] s1]; cbn [fst snd] in *; [|discriminate HF]. destruct RE as (-> & ->). rewrite app_nil_r in PD. subst done.
    exists (D ++ got_of cfg parts).
    assert (PG : forall p, position s1 t p = one_past_last (filter (fun o => 0 <=? o) (map fst (of_partition p (got_of cfg parts)))) (position s t p)) by (intros p; rewrite PO, pos_parts_eq, accepted_got; reflexivity).
    split; [|split; [|split; [|split]]].
    - eapply STEP; [exact L|exact POS|exact SVF|exact PG].
    - apply SYN. split; [exact SY|]. intros (_ & p & ms & I). apply PARTS in I as [I _]. now apply I.
    - split.
      + intros b' rq' H. pose proof (SUB _ H) as H'. destruct (proj1 AL b' rq' H') as (parts' & -> & P'). exists parts'. split; [reflexivity|]. intros p o mb I. rewrite (P' p o mb I). rewrite PG.
        destruct (got_present cfg p parts NDP) as [G|(ms & I2 & G)]; [rewrite G; reflexivity|]. exfalso. destruct (PARTS _ _ _ I2) as [_ S]. specialize (S eq_refl). rename S into I3.
        assert (b' = b). { eapply (proj2 AL b' b _ _ p H' IW); cbn; rewrite app_nil_r; [apply (in_map fst) in I; exact I|exact I3]. }
        subst b'. apply (in_map fst) in H. apply in_dkeys_ddel_iff in H as [H _]; [now apply H|exact ND].
      + intros b1 b2 r1 r2 p H1 H2. apply (proj2 AL); now apply SUB.
    - unfold values. rewrite map_app, filter_app. f_equal. fold (values (got_of cfg parts)). now rewrite values_got.
    - rewrite vals_of_app, filter_app. f_equal. cbn. now rewrite app_nil_r.
  Qed.

  Lemma answer_other s o b rq r k w rs : ~ on_topic t o -> fits cfg o (PSend k w rs) -> dget w b = Some rq -> is_answer rq r = true -> (forall resp, r = Ok resp -> serves_ rq resp) -> In t (c_synced s) ->
    In t (c_synced (answer_state cfg r s)) /\ forall p, position (answer_state cfg r s) t p = position s t p.
  Proof using SGROUP SFETCH SOFFSET.
    intros NT [FC WS] W IA SV SY. destruct r as [resp|e]; [|cbn; destruct (sets_heal e); auto]. specialize (SV resp eq_refl). cbn [answer_state is_answer] in *.
    assert (N : named resp <> Some t).
    { pose proof (ws_asks _ _ _ _ WS b rq (dget_In _ _ _ W)) as A. destruct o as [t' start|m|]; destruct k as [t1 rq1|t1|m1 ret|a1 rest]; cbn in FC; try contradiction.
      - destruct FC as [-> FC]. destruct (md cfg) as [|g fn ac name] eqn:M; [subst rq1; destruct A as (parts & ->); destruct resp as [ts|ts|ts|ts|c id]; try discriminate IA; (destruct ts as [|[t2 parts2] ts]; [discriminate|]); apply SOFFSET in SV|
          destruct FC as (ps & ->); cbn in A; subst rq; destruct resp as [ts|ts|ts|ts|c id]; try discriminate IA; (destruct ts as [|[t2 parts2] ts]; [discriminate|]); destruct SGROUP as [X|SG]; [congruence|]; apply SG in SV]; subst t2; cbn; intros X; injection X as ->; now apply NT.
      - subst t1. destruct A as (parts & ->). destruct resp as [ts|ts|ts|ts|c id]; try discriminate IA. destruct ts as [|[t2 parts2] ts]; [discriminate|]. apply SFETCH in SV as [-> _]. cbn. intros X. injection X as ->. now apply NT.
      - destruct A as (g' & topics & ->). destruct resp as [ts|ts|ts|ts|c id]; try discriminate IA. discriminate.
      - destruct A as (g' & topics & ->). destruct resp as [ts|ts|ts|ts|c id]; try discriminate IA. discriminate.
      - destruct A as (_ & g' & ->). destruct resp as [ts|ts|ts|ts|c id]; try discriminate IA. discriminate. }
    destruct (handle_handled cfg resp s). auto.
  Qed.
  Lemma not_busy_alone (s : st) i : ~ busy s t -> forall j o p, dget (c_calls s) j = Some (o, p) -> on_topic t o -> j = i.
  Proof. intros NB j o p D O. destruct NB. now exists j, o, p. Qed.

  Lemma answer_commit s b rq r m ret w rs : wf_send cfg (KCommit m ret) w rs -> dget w b = Some rq -> is_answer rq r = true -> In t (c_synced s) ->
    In t (c_synced (answer_state cfg r s)) /\ forall p, position (answer_state cfg r s) t p = position s t p.
  Proof.
    intros WS W IA SY. destruct r as [resp|e]; [|cbn; destruct (sets_heal e); auto]. cbn [answer_state is_answer] in *. destruct (ws_asks _ _ _ _ WS b rq (dget_In _ _ _ W)) as (g & topics & ->).
    destruct resp as [ts|ts|ts|ts|c id]; try discriminate IA. destruct (handle_handled cfg (PCommit ts) s). split; [apply h_synced_other; [discriminate|exact SY]|intros p; apply h_pos; discriminate].
  Qed.
  Lemma resume_commit_ends m ret rs s : ends_with (gives ret) (resume cfg (KCommit m ret) rs s).
  Proof.
    cbn [resume]. destruct (coord_result rs s) as [v|e]; [|exact I]. destruct v as [|l|x|retry adjust]; try exact I. destruct retry; [apply commit_ends|reflexivity].
  Qed.
  Lemma mine_ends D' s l ns : got D' = returned t s0 s ++ l -> ends_with l ns ->
    match fst ns with Await p => waiting_at (snd ns) p /\ got D' = returned t s0 s ++ held p | Return v => got D' = returned t s0 s ++ gives v | Raise_ _ => True end.
  Proof. unfold ends_with. intros G E. destruct (fst ns); [destruct E as [W ->]; auto|now rewrite E|exact I]. Qed.

  Lemma follows_step D s l : follows D s -> steady_ s l -> none_raised t s0 (cstep cfg s l) -> exists D', follows D' (cstep cfg s l).
  Proof using SGROUP ALIKE SFETCH SOFFSET STEP.
    intros FO [OR UN] NR. pose proof (f_inv _ _ FO) as I0. pose proof (inv_step cfg s l I0) as I1. pose proof (f_sync _ _ FO) as SY.
    assert (MV : forall look o ex s1 (ns : next V * st), moves cfg look o ex s1 (snd ns) -> c_calls (snd ns) = c_calls s1 /\ c_ended (snd ns) = c_ended s1 /\ (In t (c_synced s1) -> In t (c_synced (snd ns))) /\ forall p, position (snd ns) t p = position s1 t p).
    { intros look o ex s1 ns []. repeat split; auto. intros H. destruct p_synced as [->|(_ & t' & start & _ & ->)]; [exact H|]. apply in_sadd. now right. }
    assert (LM : forall look o ex s1 (ns : next V * st) D1, moves cfg look o ex s1 (snd ns) -> logged D1 s1 -> logged D1 (snd ns)) by (intros look o ex s1 ns D1 []; apply logged_pos; auto).
    assert (SE : forall i o p, dget (c_calls s) i = Some (o, p) -> forall o' p', dget (c_calls s) i = Some (o', p') -> o' = o) by (intros; congruence).
    pose proof (cstep_did cfg s l I0) as DI.
    destruct DI as [l ID|i o ns DD E P|i b r o k w rs rq DD F W IA HF NE F'|i b r o k w rs rq ns DD F W IA E P|i r o k rs s1 ns DD F E P|i r t1 start ns DD E P|k|g fn ac name ev M|].
    - eauto.
    - (* a call *)
      destruct (pi_moves _ _ _ _ _ _ P) as (ex & M & _). destruct (MV _ _ _ _ _ M) as (C & EN & S & PO). destruct (on_topic_dec t o) as [OT|NT].
      + destruct o as [t' start|m|]; try contradiction. cbn in OT. subst t'. exists D. cbn [orderly_] in OR. specialize (OR eq_refl).
        apply (follows_mine D _ s); auto; [now apply not_busy_alone|eapply LM; [exact M|apply FO]|].
        assert (ST : starts ns).
        { subst ns. cbn [begin]. unfold consume. destruct (c_closing s); [exact (base_ends RvNone s (or_intror eq_refl))|]. apply smem_In in SY. rewrite SY. apply after_starts. }
        pose proof (f_free _ _ FO OR) as G. unfold starts in ST. destruct (fst ns) as [p|v|e]; [|rewrite ST, app_nil_r; exact G|exact I]. destruct ST as [WA ->]. rewrite app_nil_r. auto.
      + exists D. apply (follows_other D s); auto. intros o' p X. congruence.
    - (* an answer, others are due *)
      assert (SV : forall resp, r = Ok resp -> serves_ rq resp) by (intros resp ->; apply OR; [exists o, k, w, rs; auto|exact IA]).
      destruct (answer_state_same cfg r s) as (C & EN & _). destruct (on_topic_dec t o) as [OT|NT].
      + destruct o as [t' start|m|]; try contradiction. cbn in OT. subst t'. destruct (f_pc _ _ FO _ _ _ DD eq_refl) as [WA G]. destruct k as [? ?|t1|m1 ret|? ?]; cbn [waiting_at] in WA; try contradiction.
        2: { destruct (answer_commit s b rq r m1 ret w rs (proj2 F) W IA SY) as [S PO]. exists D.
             apply (follows_mine D _ s); auto; [intros j o p X Y; apply (f_one _ _ FO j i o (OpConsume t start) p (PSend (KCommit m1 ret) w rs) X Y DD eq_refl)|eapply logged_pos; [exact PO|apply FO]|]. cbn [fst snd waiting_at held] in *. auto. }
        destruct (answer_follows D s b rq r w rs (f_log _ _ FO) SY WA (ws_nodup _ _ _ _ (proj2 F)) W IA HF SV) as (D' & L & S & AL & GD & VA). exists D'.
        apply (follows_mine D _ s); auto; [intros j o p X Y; apply (f_one _ _ FO j i o (OpConsume t start) p (PSend (KFetch t1) w rs) X Y DD eq_refl)|].
        cbn [fst snd waiting_at held] in *. split; [exact AL|]. rewrite GD, G, VA. now rewrite app_assoc.
      + destruct (answer_other s o b rq r k w rs NT F W IA SV SY) as [S PO]. exists D. apply (follows_other D s); auto. eapply SE, DD.
    - (* the last answer *)
      assert (SV : forall resp, r = Ok resp -> serves_ rq resp) by (intros resp ->; apply OR; [exists o, k, w, rs; auto|exact IA]).
      destruct (answer_state_same cfg r s) as (C & EN & _). destruct (paid_some cfg k rs) as (lv & PL). destruct (pi_moves _ _ _ _ _ _ (P lv PL)) as (ex & M & _). destruct (MV _ _ _ _ _ M) as (C2 & EN2 & S2 & PO2). rewrite C in C2. rewrite EN in EN2.
      destruct (on_topic_dec t o) as [OT|NT].
      + destruct o as [t' start|m|]; try contradiction. cbn in OT. subst t'. destruct (f_pc _ _ FO _ _ _ DD eq_refl) as [WA G]. destruct k as [? ?|t1|m1 ret|? ?]; cbn [waiting_at] in WA; try contradiction.
        2: { destruct (answer_commit s b rq r m1 ret w rs (proj2 F) W IA SY) as [S PO]. exists D.
             apply (follows_mine D _ s); auto; [intros j o p X Y; apply (f_one _ _ FO j i o (OpConsume t start) p (PSend (KCommit m1 ret) w rs) X Y DD eq_refl)|eapply LM; [exact M|eapply logged_pos; [exact PO|apply FO]]|].
             apply (mine_ends _ _ (gives ret)); [exact G|]. destruct E as [(HF & NE & ->)|(e & HF & ->)]; [|exact I]. unfold send_end. destruct (c_heal (answer_state cfg r s)); [split; [exact I|reflexivity]|]. apply resume_commit_ends. }
        destruct E as [(HF & NE & E)|(e & HF & E)].
        * destruct (answer_follows D s b rq r w rs (f_log _ _ FO) SY WA (ws_nodup _ _ _ _ (proj2 F)) W IA HF SV) as (D' & L & S & AL & GD & VA). exists D'.
          apply (follows_mine D _ s); auto; [intros j o p X Y; apply (f_one _ _ FO j i o (OpConsume t start) p (PSend (KFetch t1) w rs) X Y DD eq_refl)|eapply LM; eassumption|].
          cbn [held] in G. rewrite G, <- app_assoc, <- VA in GD. subst ns. unfold send_end. destruct (c_heal (answer_state cfg r s)); cbn [fst snd waiting_at held]; [auto|]. eapply mine_ends; [exact GD|]. pose proof (proj1 F) as T1. cbn in T1. subst t1. exact (base_ends (RvList _) _ (or_introl S)).
        * exfalso. subst ns. pose proof (continue_ended i (OpConsume t start) (raised cfg (KFetch t1) e (answer_state cfg r s))) as CE. cbn [raised fst snd] in CE.
          apply (NR i (OpConsume t start) e); [|reflexivity]. cbn [raised fst snd] in *. rewrite EN in CE. rewrite (since_app s _ _ (f_ended _ _ FO) CE). apply in_app_iff. right. now left.
      + destruct (answer_other s o b rq r k w rs NT F W IA SV SY) as [S PO]. exists D. apply (follows_other D s); auto; [eapply SE, DD|intros p; now rewrite PO2].
    - (* healed *)
      destruct (paid_some cfg k rs) as (lv & PL). destruct (pi_moves _ _ _ _ _ _ (P lv PL)) as (ex & M & _). destruct (MV _ _ _ _ _ M) as (C2 & EN2 & S2 & PO2).
      assert (S1 : c_calls s1 = c_calls s /\ c_ended s1 = c_ended s /\ c_synced s1 = c_synced s /\ forall p, position s1 t p = position s t p) by (destruct E as [(u & _ & -> & _)|(e & _ & -> & _)]; repeat split).
      destruct S1 as (C & EN & S & PO). rewrite C in C2. rewrite EN in EN2. rewrite S in S2. exists D. destruct (on_topic_dec t o) as [OT|NT].
      + destruct o as [t' start|m|]; try contradiction. cbn in OT. subst t'. destruct (f_pc _ _ FO _ _ _ DD eq_refl) as [WA G]. destruct k as [? ?|t1|m1 ret|? ?]; cbn [waiting_at] in WA; try contradiction.
        2: { apply (follows_mine D _ s); auto; [intros j o p X Y; apply (f_one _ _ FO j i o (OpConsume t start) p (PHeal (KCommit m1 ret) rs) X Y DD eq_refl)|eapply LM; [exact M|eapply logged_pos; [exact PO|apply FO]]|].
             destruct E as [(u & _ & _ & ->)|(e & _ & _ & ->)]; [|exact I]. eapply mine_ends; [exact G|]. apply resume_commit_ends. }
        apply (follows_mine D _ s); auto; [intros j o p X Y; apply (f_one _ _ FO j i o (OpConsume t start) p (PHeal (KFetch t1) rs) X Y DD eq_refl)|eapply LM; [exact M|eapply logged_pos; [exact PO|apply FO]]|].
        destruct E as [(u & _ & E1 & ->)|(e & _ & _ & ->)]; [|exact I]. eapply mine_ends; [exact G|]. pose proof (proj1 F) as T1. cbn in T1. subst t1. apply (base_ends (RvList _)). left. rewrite S. exact SY.
      + apply (follows_other D s); auto; [eapply SE, DD|intros p; now rewrite PO2].
    - (* the topic is known now *)
      destruct (pi_moves _ _ _ _ _ _ P) as (ex & M & _). destruct (MV _ _ _ _ _ M) as (C & EN & S & PO). exists D. destruct (on_topic_dec t (OpConsume t1 start)) as [OT|NT].
      + cbn in OT. subst t1. destruct (f_pc _ _ FO _ _ _ DD eq_refl) as [_ G]. cbn [held] in G. rewrite app_nil_r in G.
        apply (follows_mine D _ s); auto; [intros j o p X Y; apply (f_one _ _ FO j i o (OpConsume t start) p (PTopicHeal t) X Y DD eq_refl)|eapply LM; [exact M|apply FO]|].
        destruct E as [(u & _ & ->)|(e & _ & ->)]; [|exact I]. pose proof (fetch_starts s) as ST. unfold starts in ST. destruct (fst (fetch cfg t s)) as [p|v|e]; [|rewrite ST, app_nil_r; exact G|exact I]. destruct ST as [WA ->]. rewrite app_nil_r. auto.
      + apply (follows_other D s); auto. eapply SE, DD.
    - exists D. eapply follows_same; [exact FO|exact I1|exact SY|reflexivity..].
    - exists D. eapply follows_same; [exact FO|exact I1|exact (UN SY)|reflexivity..].
    - exists D. eapply follows_same; [exact FO|exact I1|exact SY|reflexivity..].
  Qed.

  Lemma ended_step s l : inv cfg s -> exists x, c_ended (cstep cfg s l) = c_ended s ++ x.
  Proof.
    intros I0. destruct (step_cases cfg s l I0) as [(i & o & look & s1 & ns & ex & A)|C].
    - destruct (acts_before _ _ _ _ _ _ _ _ _ A) as (_ & E1 & _). destruct A as [E M _ _ _]. rewrite E, (continue_ended i o ns), (p_ended _ _ _ _ _ _ M), E1. eauto.
    - exists []. rewrite app_nil_r. destruct C as [(-> & _)|[(k & -> & ->)|[(-> & ->)|(g & fn & ac & name & ev & M & -> & X)]]]; try reflexivity. cbn [cstep]. rewrite M. reflexivity.
  Qed.
  Lemma ended_run ls : forall s, inv cfg s -> exists x, c_ended (crun cfg ls s) = c_ended s ++ x.
  Proof.
    induction ls as [|l ls IH]; intros s I0; [exists []; now rewrite app_nil_r|]. destruct (ended_step s l I0) as (x & E). destruct (IH (cstep cfg s l) (inv_step cfg s l I0)) as (y & E'). cbn. unfold crun in E'. rewrite E', E, <- app_assoc. eauto.
  Qed.
  Lemma follows_runs ls : forall D s, follows D s -> each_step cfg steady_ ls s -> none_raised t s0 (crun cfg ls s) -> exists D', follows D' (crun cfg ls s).
  Proof using SGROUP ALIKE SFETCH SOFFSET STEP.
    induction ls as [|l ls IH]; intros D s F OR NR; [exists D; exact F|]. destruct OR as [O1 O2].
    assert (NR1 : none_raised t s0 (cstep cfg s l)).
    { intros i o e H. apply (NR i o e). pose proof (inv_step cfg s l (f_inv _ _ F)) as I1. destruct (ended_step s l (f_inv _ _ F)) as (y & E1). destruct (f_ended _ _ F) as (z & E0).
      destruct (ended_run ls (cstep cfg s l) I1) as (x & E). rewrite (since_app (cstep cfg s l) _ x); [apply in_app_iff; now left| |exact E]. rewrite E1, E0, <- app_assoc. eauto. }
    destruct (follows_step D s l F O1 NR1) as (D1 & F1). exact (IH D1 _ F1 O2 NR).
  Qed.
  Lemma single_steady ls : md cfg = Single -> forall s, each_step cfg orderly_ ls s -> each_step cfg steady_ ls s.
  Proof.
    intros SG. induction ls as [|l ls IH]; intros s H; [exact I|]. destruct H as [H1 H2]. split; [|now apply IH]. split; [exact H1|]. destruct l; try exact I. cbn [cstep]. now rewrite SG.
  Qed.
  Lemma follows_run ls : md cfg = Single -> forall D s, follows D s -> each_step cfg orderly_ ls s -> none_raised t s0 (crun cfg ls s) -> exists D', follows D' (crun cfg ls s).
  Proof using SGROUP ALIKE SFETCH SOFFSET STEP. intros SG D s F OR NR. apply (follows_runs ls D s F); [now apply single_steady|exact NR]. Qed.
  Lemma busy_dec s : inv cfg s -> busy s t \/ ~ busy s t.
  Proof.
    intros [ND _]. destruct (existsb (fun x => match fst (snd x) with OpConsume t' _ => eqb t' t | _ => false end) (c_calls s)) eqn:E.
    - left. apply existsb_exists in E as ([i [o p]] & H & E). cbn in E. exists i, o, p. split; [now apply In_dget_nodup|]. destruct o as [t' start|m|]; try discriminate E. now apply list_eqb_spec in E.
    - right. intros (i & o & p & D & OT). apply dget_In in D. apply Bool.not_true_iff_false in E. apply E. apply existsb_exists. exists (i, (o, p)). split; [exact D|]. cbn. destruct o as [t' start|m|]; try contradiction. cbn in OT. subst t'. now apply list_eqb_spec.
  Qed.
  Lemma follows_start : books [] (position s0 t) -> inv cfg s0 -> In t (c_synced s0) -> ~ busy s0 t -> follows [] s0.
  Proof.
    intros B0 I0 SY NB. assert (R : returned t s0 s0 = []) by (unfold returned, ended_since; now rewrite skipn_all).
    constructor; auto.
    - intros i j o o' p p' D O. destruct NB. now exists i, o, p.
    - intros i o p D O. destruct NB. now exists i, o, p.
    - exists []. now rewrite app_nil_r.
  Qed.
End Follow.

