(** Answers, failures and calm runs of the producer (proof file). *)
From Coq Require Import ZArith String List Bool Lia Permutation.
From Verif Require Import PyBase BaseLemmas Constants Cluster ClusterProofs Producer SpecProducer ProducerProofs ProducerOrder.
Import ListNotations.
Open Scope Z_scope.

Lemma flat_map_ext_in {A B} (f g : A -> list B) l : (forall x, In x l -> f x = g x) -> flat_map f l = flat_map g l.
Proof. induction l as [|x l IH]; intros H; [reflexivity|]. cbn. rewrite IH, H; [reflexivity|now left|]. intros; apply H; now right. Qed.
Lemma is_retriable_code c : is_retriable c = retriable_code c.
Proof. reflexivity. Qed.
Lemma sent_for_olook s c t p : sent_for s c t p = olook (p_sent s) c t p.
Proof.
  unfold sent_for, olook, slook, getd. destruct (dget (p_sent s) c) as [b|]; [|reflexivity]. destruct (dget b t) as [d|]; [|reflexivity].
  now destruct (dget d p).
Qed.
Lemma content_slook s c t p ms : content s c t p ms <-> dget (slook (p_sent s) c t) p = Some ms.
Proof.
  unfold content, slook, getd. split.
  - intros (b & d & E1 & E2 & E3). now rewrite E1, E2.
  - destruct (dget (p_sent s) c) as [b|]; [|discriminate]. destruct (dget b t) as [d|] eqn:E; [|discriminate]. intros H. eauto.
Qed.
Lemma known_name code : dmem ERROR_CODES code = true -> exists n, error_name code = Ok n.
Proof. unfold dmem, error_name, dindex. destruct (dget ERROR_CODES code) as [n|]; [eauto|discriminate]. Qed.
Lemma no_error_fine code : code = no_error -> retriable_code code = false.
Proof. intros ->. reflexivity. Qed.

Definition retry_part (s : producer) (c : Z) (t : text) (ps : list (Z * Z)) : list pmsg :=
  flat_map (fun p => sent_for s c t p) (map fst (filter (fun pc => retriable_code (snd pc)) ps)).

Lemma handle_partitions_exact c name ps : forall s, nd_ordered (p_sent s) -> NoDup (dkeys ps) ->
  (forall p code, In (p, code) ps -> dmem ERROR_CODES code = true /\ exists ms, dget (slook (p_sent s) c name) p = Some ms) ->
  exists s', handle_partitions c name ps s = (Ok tt, s') /\
    (forall t, queue_of s' t = queue_of s t ++ (if list_eqb t name then retry_part s c name ps else [])) /\
    p_heal s' = p_heal s || existsb (fun pc => retriable_code (snd pc)) ps /\
    (forall t p, dget (slook (p_sent s') c t) p =
       if list_eqb t name && match dget ps p with Some code => retriable_code code | None => false end
       then None else dget (slook (p_sent s) c t) p) /\
    nd_ordered (p_sent s').
Proof.
  induction ps as [|[p code] ps IH]; intros s N ND H; cbn [handle_partitions].
  - exists s. split; [reflexivity|]. cbn. split; [intros t; destruct (list_eqb t name); now rewrite app_nil_r|].
    split; [now rewrite orb_false_r|]. split; [intros; now rewrite andb_false_r|exact N].
  - cbn [dkeys map fst] in ND. inversion ND as [|? ? N1 N2]; subst.
    destruct (H p code) as (Hk & ms & Hms); [now left|].
    assert (DG : forall p', (match dget ((p, code) :: ps) p' with Some cd => retriable_code cd | None => false end) =
      if p =? p' then retriable_code code else match dget ps p' with Some cd => retriable_code cd | None => false end).
    { intros p'. cbn [dget]. change (eqb p p') with (p =? p'). now destruct (p =? p'). }
    apply (dget_None_notin ps p) in N1.
    assert (SKIP : retriable_code code = false -> forall s', 
      handle_partitions c name ps s = (Ok tt, s') ->
      (forall t, queue_of s' t = queue_of s t ++ (if list_eqb t name then retry_part s c name ps else [])) /\
      p_heal s' = p_heal s || existsb (fun pc => retriable_code (snd pc)) ps /\
      (forall t p, dget (slook (p_sent s') c t) p =
         if list_eqb t name && match dget ps p with Some code => retriable_code code | None => false end
         then None else dget (slook (p_sent s) c t) p) /\ nd_ordered (p_sent s') ->
      (forall t, queue_of s' t = queue_of s t ++ (if list_eqb t name then retry_part s c name ((p, code) :: ps) else [])) /\
      p_heal s' = p_heal s || existsb (fun pc => retriable_code (snd pc)) ((p, code) :: ps) /\
      (forall t p', dget (slook (p_sent s') c t) p' =
         if list_eqb t name && match dget ((p, code) :: ps) p' with Some code => retriable_code code | None => false end
         then None else dget (slook (p_sent s) c t) p') /\ nd_ordered (p_sent s')).
    { intros Rc s' E (A1 & A2 & A3 & A4). split; [intros t; rewrite A1; unfold retry_part; cbn [filter snd]; now rewrite Rc|].
      split; [cbn [existsb snd]; now rewrite Rc, A2|]. split; [|exact A4]. intros t p'. rewrite DG, A3.
      destruct (Z.eqb_spec p p') as [<-|Ne]; [|reflexivity]. now rewrite N1, Rc. }
    destruct (Z.eqb_spec code no_error) as [En|En].
    { destruct (IH s N N2) as (s' & E & R); [intros; apply H; now right|]. exists s'. split; [exact E|].
      apply SKIP; [now apply no_error_fine|exact E|exact R]. }
    rewrite is_retriable_code. destruct (retriable_code code) eqn:Rc.
    2:{ destruct (known_name code Hk) as [n ->]. destruct (IH s N N2) as (s' & E & R); [intros; apply H; now right|]. exists s'. split; [exact E|].
        apply SKIP; [reflexivity|exact E|exact R]. }
    clear SKIP. destruct (pop_sent (p_sent s) c name p) as [r1 sent] eqn:EP.
    destruct (pop_sent_spec _ _ _ _ _ _ EP) as (A & B & C & D & E). rewrite Hms in D.
    destruct r1 as [ms'|e]; [|destruct D; discriminate]. destruct D as [D _]. injection D as <-.
    destruct (queue_retries_spec name ms (with_sent sent s)) as (_ & A2 & A3 & _ & _ & _ & _ & _ & _ & _ & _ & _ & AQ). cbv zeta in *.
    set (s1 := queue_retries name ms (with_sent sent s)) in *. clearbody s1. cbn [with_sent p_sent] in A2.
    assert (NS : NoDup (dkeys (slook (p_sent s) c name))) by (apply nd_getd_part, nd_getd_batch, N).
    assert (SL : forall t p', dget (slook (p_sent s1) c t) p' = if list_eqb t name && (p =? p') then None else dget (slook (p_sent s) c t) p').
    { intros t p'. rewrite A2, E. destruct (list_eqb t name) eqn:Et; cbn [andb]; [|reflexivity].
      apply list_eqb_spec in Et. subst t. destruct (Z.eqb_spec p p') as [<-|Ne]; [now apply dget_ddel_same|apply dget_ddel_other; congruence]. }
    destruct (IH s1) as (s' & E1 & R1 & R2 & R3 & R4).
    + rewrite A2. now apply A.
    + exact N2.
    + intros p' code' Hp. destruct (H p' code') as (Hk' & ms' & Hms'); [now right|]. split; [exact Hk'|]. exists ms'.
      rewrite SL, text_eqb_refl. cbn [andb]. destruct (Z.eqb_spec p p') as [<-|Ne]; [|exact Hms'].
      exfalso. apply (dget_None_notin ps p) in N1. apply N1. apply (in_map fst) in Hp. exact Hp.
    + exists s'. split; [exact E1|]. split; [|split; [|split; [|exact R4]]].
      * intros t. rewrite R1, AQ. unfold retry_part. cbn [filter snd fst map flat_map]. rewrite Rc. cbn [map flat_map fst].
        destruct (list_eqb t name) eqn:Et.
        -- apply list_eqb_spec in Et. subst t. change (queue_of (with_sent sent s) name) with (queue_of s name). rewrite <- app_assoc. f_equal. f_equal.
           ++ rewrite sent_for_olook. unfold olook, getd. now rewrite Hms.
           ++ apply flat_map_ext_in. intros p' Hp. rewrite !sent_for_olook. unfold olook, getd. rewrite SL, text_eqb_refl. cbn [andb].
              destruct (Z.eqb_spec p p') as [<-|Ne]; [|reflexivity]. exfalso.
              apply in_map_iff in Hp as ([q cd] & Eq & Hp). cbn in Eq. subst q. apply filter_In in Hp as [Hp _].
              apply (dget_None_notin ps p) in N1. apply N1. apply (in_map fst) in Hp. exact Hp.
        -- rewrite !app_nil_r. reflexivity.
      * rewrite R2, A3. cbn [existsb snd]. rewrite Rc. now rewrite !orb_true_r.
      * intros t p'. rewrite R3, SL, DG. destruct (list_eqb t name) eqn:Et; cbn [andb]; [|reflexivity].
        destruct (Z.eqb_spec p p') as [<-|Ne]; [|reflexivity]. now rewrite N1.
Qed.

Lemma handle_partitions_other c name ps s r s' t : handle_partitions c name ps s = (r, s') -> t <> name -> slook (p_sent s') c t = slook (p_sent s) c t.
Proof.
  revert s r s'. induction ps as [|[p code] ps IH]; intros s r s' H N; cbn [handle_partitions] in H; [now injection H as <- <-|].
  destruct (code =? no_error); [eauto|]. destruct (is_retriable code).
  - destruct (pop_sent (p_sent s) c name p) as [[ms|e] sent] eqn:EP; destruct (pop_sent_spec _ _ _ _ _ _ EP) as (_ & _ & _ & _ & E).
    + apply IH in H; [|exact N]. rewrite H.
      destruct (queue_retries_spec name ms (with_sent sent s)) as (_ & A2 & _). rewrite A2. cbn [with_sent p_sent]. rewrite E.
      now rewrite (proj2 (text_eqb_neq t name) N).
    + injection H as <- <-. cbn [with_sent p_sent]. rewrite E. now rewrite (proj2 (text_eqb_neq t name) N).
  - destruct (error_name code); [eauto|now injection H as <- <-].
Qed.

Definition well_formed (resp : presponse) : Prop := NoDup (dkeys resp) /\ forall t ps, In (t, ps) resp -> NoDup (dkeys ps).
Definition retry_all (s : producer) (c : Z) (t : text) (resp : presponse) : list pmsg := flat_map (sent_for s c t) (retried resp t).
Lemma handle_topics_exact c resp : forall s, nd_ordered (p_sent s) -> well_formed resp ->
  (forall t ps p code, In (t, ps) resp -> In (p, code) ps -> dmem ERROR_CODES code = true /\ exists ms, dget (slook (p_sent s) c t) p = Some ms) ->
  exists s', handle_topics c resp s = (Ok tt, s') /\
    (forall t, queue_of s' t = queue_of s t ++ retry_all s c t resp) /\
    p_heal s' = p_heal s || any_retriable resp /\
    (forall t p, dget (slook (p_sent s') c t) p =
       if match code_for resp t p with Some code => retriable_code code | None => false end
       then None else dget (slook (p_sent s) c t) p) /\
    nd_ordered (p_sent s').
Proof.
  induction resp as [|[name ps] resp IH]; intros s N [W1 W2] H; cbn [handle_topics].
  - exists s. split; [reflexivity|]. split; [intros; now rewrite app_nil_r|]. split; [now rewrite orb_false_r|]. split; [reflexivity|exact N].
  - cbn [dkeys map fst] in W1. inversion W1 as [|? ? N1 N2]; subst. apply (dget_None_notin resp name) in N1.
    destruct (handle_partitions_exact c name ps s N) as (s1 & E1 & A1 & A2 & A3 & A4).
    + apply (W2 name). now left.
    + intros p code Hp. apply (H name ps); [now left|exact Hp].
    + rewrite E1. destruct (IH s1 A4) as (s' & E2 & B1 & B2 & B3 & B4).
      * split; [exact N2|]. intros; apply (W2 t). now right.
      * intros t ps' p code Ht Hp. assert (t <> name) as Ne.
        { intros ->. apply (dget_None_notin resp name) in N1. apply N1. apply (in_map fst) in Ht. exact Ht. }
        rewrite (handle_partitions_other _ _ _ _ _ _ _ E1 Ne). apply (H t ps'); [now right|exact Hp].
      * exists s'. split; [exact E2|].
        assert (DR : forall t, dget ((name, ps) :: resp) t = if list_eqb t name then Some ps else dget resp t).
        { intros t. cbn [dget]. change (eqb name t) with (list_eqb name t). destruct (list_eqb name t) eqn:E.
          - apply list_eqb_spec in E. subst. now rewrite text_eqb_refl.
          - destruct (list_eqb t name) eqn:E'; [|reflexivity]. apply list_eqb_spec in E'. subst. now rewrite text_eqb_refl in E. }
        split; [|split; [|split; [|exact B4]]].
        -- intros t. rewrite B1, A1. unfold retry_all, retried. rewrite DR. destruct (list_eqb t name) eqn:Et.
           ++ apply list_eqb_spec in Et. subst t. rewrite N1. cbn [flat_map]. now rewrite app_nil_r.
           ++ rewrite app_nil_r. f_equal. destruct (dget resp t); [|reflexivity]. apply flat_map_ext. intros p.
              rewrite !sent_for_olook. unfold olook. apply text_eqb_neq in Et. now rewrite (handle_partitions_other _ _ _ _ _ _ _ E1 Et).
        -- rewrite B2, A2. unfold any_retriable. cbn [existsb snd]. now rewrite orb_assoc.
        -- intros t p. rewrite B3, A3. unfold code_for. rewrite DR. destruct (list_eqb t name) eqn:Et; cbn [andb]; [|reflexivity].
           apply list_eqb_spec in Et. subst t. rewrite N1. reflexivity.
Qed.

Lemma sane_entries s c resp : sane_answer s c resp -> well_formed resp /\
  (forall t ps p code, In (t, ps) resp -> In (p, code) ps -> dmem ERROR_CODES code = true /\ exists ms, dget (slook (p_sent s) c t) p = Some ms).
Proof.
  intros (A & B & C). split; [split; assumption|]. intros t ps p code Ht Hp.
  destruct (C t p code) as (D & ms & E).
  - exists ps. split; [now apply In_dget_nodup|]. apply In_dget_nodup; [|exact Hp]. now apply (B t).
  - split; [exact D|]. exists ms. now apply content_slook.
Qed.

Lemma settle_in resp b m oc : nd_batch b -> (In (m, oc) (settle resp b) <->
  exists t p ms, dget (@getd text (dict Z (list pmsg)) _ [] b t) p = Some ms /\ In m ms /\ oc = code_for resp t p).
Proof.
  intros N. unfold settle. rewrite in_flat_map. split.
  - intros ([t d] & Ht & Hm). cbn [fst snd] in Hm. apply in_flat_map in Hm as ([p ms] & Hp & Hm). cbn [fst snd] in Hm.
    apply in_map_iff in Hm as (m' & E & Hm). injection E as -> <-. exists t, p, ms. split; [|auto].
    unfold getd. rewrite (In_dget_nodup b t d (proj1 N) Ht). apply In_dget_nodup; [apply (proj2 N t d Ht)|exact Hp].
  - intros (t & p & ms & E & Hm & ->). unfold getd in E. destruct (dget b t) as [d|] eqn:Eb; [|discriminate E].
    exists (t, d). split; [now apply dget_In|]. cbn [fst snd]. apply in_flat_map. exists (p, ms). split; [now apply dget_In|].
    cbn [fst snd]. apply in_map_iff. eauto.
Qed.

(** the whole handler on a sane answer *)
Lemma handle_exact c resp s : nd_ordered (p_sent s) -> dmem (p_sent s) c = true -> sane_answer s c resp ->
  exists s' st, handle_produce_response c resp s = (Ok tt, s') /\
    (forall t, queue_of s' t = queue_of s t ++ retry_all s c t resp) /\
    p_heal s' = p_heal s || any_retriable resp /\
    dmem (p_sent s') c = false /\
    p_settled s' = p_settled s ++ st /\
    (forall m oc, In (m, oc) st <-> exists t p ms, content s c t p ms /\ In m ms /\ oc = code_for resp t p /\
       match oc with Some code => retriable_code code = false | None => True end).
Proof.
  intros N M SA. destruct (sane_entries _ _ _ SA) as [W H].
  destruct (handle_topics_exact c resp s N W H) as (s1 & E & A1 & A2 & A3 & A4).
  assert (M1 : dmem (p_sent s1) c = true).
  { apply handle_topics_moves in E as (_ & _ & _ & _ & B & _). now apply B. }
  assert (ST : p_settled s1 = p_settled s) by (apply handle_topics_moves in E as ((_ & _ & _ & _ & _ & _ & B & _) & _); exact B).
  unfold handle_produce_response. rewrite E. unfold dmem in M1. destruct (dget (p_sent s1) c) as [b|] eqn:Eb; [|discriminate M1].
  eexists. exists (settle resp b). split; [reflexivity|]. cbn [p_heal p_sent p_settled].
  split; [exact A1|]. split; [exact A2|]. split; [unfold dmem; now rewrite dget_ddel_same by apply A4|].
  split; [now rewrite ST|]. intros m oc.
  assert (Nb : nd_batch b) by (apply (proj2 A4 c); now apply dget_In).
  rewrite settle_in by exact Nb.
  assert (SB : forall t, slook (p_sent s1) c t = @getd text (dict Z (list pmsg)) _ [] b t).
  { intros t. unfold slook. unfold getd at 2. now rewrite Eb. }
  split; intros (t & p & ms & F & Hm & R); exists t, p, ms.
  - rewrite <- SB, A3 in F. subst oc. destruct (code_for resp t p) as [code|].
    + destruct (retriable_code code) eqn:Rc; [discriminate F|]. rewrite content_slook. auto.
    + rewrite content_slook. auto.
  - destruct R as [-> R]. apply content_slook in F. rewrite <- SB, A3. destruct (code_for resp t p) as [code|].
    + rewrite R. auto.
    + auto.
Qed.

Lemma gives_code resp t p code : gives resp t p code <-> code_for resp t p = Some code.
Proof.
  unfold gives, code_for. split.
  - intros (ps & E & F). now rewrite E.
  - destruct (dget resp t) as [ps|]; [|discriminate]. eauto.
Qed.

Lemma content_same s s' c t p ms : p_sent s' = p_sent s -> content s' c t p ms <-> content s c t p ms.
Proof. unfold content. now intros ->. Qed.
Lemma sane_same s s' c resp : p_sent s' = p_sent s -> sane_answer s c resp -> sane_answer s' c resp.
Proof.
  intros E (A & B & C). split; [exact A|]. split; [exact B|]. intros t p code Hg. destruct (C t p code Hg) as (D & ms & F). split; [exact D|].
  exists ms. now rewrite (content_same s s').
Qed.

(** ** a flush whose lookups succeed does not raise *)
Section Calm.
  Variable batch_size : option Z.
  Variables acks timeout : Z.
  Variable compress_fails : list pmsg -> option exn.
  Variable serialize_fails : prequest -> option exn.
  Hypothesis no_compress : forall ms, compress_fails ms = None.
  Hypothesis no_serialize : forall rq, serialize_fails rq = None.
  Notation flush := (flush acks timeout compress_fails serialize_fails).
  Notation pstep := (pstep batch_size acks timeout compress_fails serialize_fails).
  Notation prun := (prun batch_size acks timeout compress_fails serialize_fails).

  Lemma build_partitions_ok c t parts : forall acc sent, exists ps sent', build_partitions compress_fails c t parts acc sent = (Ok ps, sent').
  Proof. induction parts as [|[p ms] parts IH]; intros acc sent; cbn [build_partitions]; [eauto|]. rewrite no_compress. apply IH. Qed.
  Lemma build_topics_ok c topics : forall acc sent, exists ts sent', build_topics compress_fails c topics acc sent = (Ok ts, sent').
  Proof.
    induction topics as [|[t ps] topics IH]; intros acc sent; cbn [build_topics]; [eauto|].
    destruct (build_partitions_ok c t ps [] sent) as (x & y & ->). apply IH.
  Qed.
  Lemma build_requests_ok o : forall corr acc sent, exists rqs corr' sent', build_requests acks timeout compress_fails o corr acc sent = (Ok rqs, corr', sent').
  Proof.
    induction o as [|[l b] o IH]; intros corr acc sent; cbn [build_requests]; [eauto|].
    destruct (build_topics_ok (corr + 1) b [] sent) as (x & y & ->). apply IH.
  Qed.
  Lemma write_all_ok rqs k : (forall rq, In rq rqs -> dmem (k_conns k) (pq_leader rq) = true) -> forall wire,
    exists wire', write_all serialize_fails rqs k wire = (Ok tt, wire').
  Proof.
    induction rqs as [|rq rqs IH]; intros H wire; cbn [write_all]; [eauto|].
    pose proof (H rq (or_introl eq_refl)) as D. unfold dmem in D. destruct (dget (k_conns k) (pq_leader rq)) as [c|]; [|discriminate D].
    rewrite no_serialize. destruct (cc_closing c); apply IH; intros; apply H; now right.
  Qed.
  Lemma in_keys_add o l t p m x : In x (dkeys (add_ordered o l t p m)) -> In x (dkeys o) \/ x = l.
  Proof.
    unfold add_ordered. pose proof (ddefault_set ([] : batch) o l) as S1. destruct (@ddefault Z batch _ [] o l) as [b o1]. cbn [fst snd] in S1.
    destruct (@ddefault text (dict Z (list pmsg)) _ [] b t) as [d b1]. destruct (@ddefault Z (list pmsg) _ [] d p) as [ms d1].
    rewrite (proj1 (S1 _)). intros H. apply in_dkeys_dset in H. tauto.
  Qed.
  Lemma order_msgs_conn part t msgs : forall o retry k o' retry' k',
    order_msgs part t msgs o retry k = (Ok (o', retry'), k') ->
    (forall l, In l (dkeys o) -> connected k l = true) -> forall l, In l (dkeys o') -> connected k l = true.
  Proof.
    induction msgs as [|m msgs IH]; intros o retry k o' retry' k' H C; cbn [order_msgs] in H.
    - injection H as <- <- <-. exact C.
    - destruct (topic_partitions_tabs t k) as [_ T1]. destruct (topic_partitions t k) as [ps k1]. cbn [snd] in T1.
      destruct (part m ps) as [p|e]; [|discriminate H].
      destruct (get_leader_tabs t p k1) as [_ T2]. destruct (get_leader t p k1) as [[l|e] k2]; [|discriminate H]. cbn [snd] in T2.
      assert (EC : k_conns k2 = k_conns k) by (now rewrite (proj1 T2), (proj1 T1)).
      assert (CC : forall l, connected k2 l = connected k l) by (intros; unfold connected; now rewrite EC).
      destruct (dmem (k_conns k2) l) eqn:El; cbn [negb] in H.
      + intros x Hx. rewrite <- CC. apply (IH _ _ _ _ _ _ H); [|exact Hx]. intros y Hy. rewrite CC. apply in_keys_add in Hy as [Hy| ->]; [auto|].
        unfold connected. now rewrite <- EC.
      + destruct (@ddefault text (list pmsg) _ [] retry t) as [q r1]. intros x Hx. rewrite <- CC. apply (IH _ _ _ _ _ _ H); [|exact Hx].
        intros y Hy. rewrite CC. auto.
  Qed.
  Lemma order_topics_conn part items : forall o retry k o' retry' rest k',
    order_topics part items o retry k = (Ok (o', retry'), rest, k') ->
    (forall l, In l (dkeys o) -> connected k l = true) -> forall l, In l (dkeys o') -> connected k l = true.
  Proof.
    induction items as [|[t msgs] items IH]; intros o retry k o' retry' rest k' H C; cbn [order_topics] in H.
    - injection H as <- <- <- <-. exact C.
    - destruct (order_msgs part t msgs o retry k) as [[[o1 r1]|e] k1] eqn:E; [|discriminate H].
      pose proof (order_msgs_conn _ _ _ _ _ _ _ _ _ E C) as C1. apply order_msgs_look in E as [T _].
      assert (CC : forall l, connected k1 l = connected k l) by (intros; unfold connected; now rewrite (proj1 T)).
      intros l Hl. rewrite <- CC. apply (IH _ _ _ _ _ _ _ H); [|exact Hl]. intros y Hy. rewrite CC. auto.
  Qed.

  Lemma flush_total part s : pinv s -> lookups_succeed part s -> exists rqs s', flush part s = (Ok rqs, s').
  Proof.
    intros I L. unfold Producer.flush. destruct (p_unsent s) as [|u0 us] eqn:EU; [eauto|]. rewrite <- EU in *. clear u0 us EU.
    destruct (order_topics part (drain_items (p_unsent s)) [] [] (p_cluster s)) as [[r1 rest] k1] eqn:EO.
    assert (NI : NoDup (dkeys (drain_items (p_unsent s)))) by (unfold drain_items; rewrite dkeys_rev; apply nodup_rev, I).
    destruct (order_topics_look _ _ _ _ _ _ _ _ NI EO) as [T R].
    destruct r1 as [[o retry]|e].
    2:{ exfalso. apply R. intros t m Hm. unfold drain_items in Hm. rewrite rlook_rev in Hm by apply I. now apply L. }
    unfold with_cluster, with_unsent.
    cbn [p_unsent p_sent p_heal p_closing p_cluster p_corr p_next p_open p_wire p_settled p_lost].
    destruct (build_requests_ok o (p_corr s) [] (p_sent s)) as (rqs & corr & sent & EB). rewrite EB.
    pose proof (order_topics_nd _ _ _ _ _ _ _ _ _ EO) as NO.
    assert (NO' : nd_ordered o) by (apply NO; split; [constructor|intros ? ? []]).
    destruct (build_requests_spec _ _ _ _ _ _ _ _ _ _ EB (proj2 NO') (i_bound s I)) as (_ & _ & _ & _ & dn & rst & _ & _ & _ & new & -> & E1 & _).
    cbn [app]. match goal with |- context [write_all _ _ (p_cluster ?x)] => set (s3 := x) end.
    assert (K3 : p_cluster s3 = k1).
    { unfold s3. match goal with |- p_cluster (fold_left _ _ ?x) = _ => destruct (retries_spec retry x) as (_ & _ & _ & B5 & _) end. exact B5. }
    destruct (write_all_ok new (p_cluster s3)) with (wire := p_wire s3) as [wire ->].
    - intros rq Hr. rewrite K3, (proj1 T). apply (order_topics_conn _ _ _ _ _ _ _ _ _ EO); [intros ? []|].
      rewrite <- E1. unfold dkeys. rewrite map_map. now apply in_map with (f := pq_leader).
    - eauto.
  Qed.

  (** ** calm runs *)
  Record calm_inv (s : producer) : Prop := {
    j_inv : pinv s;
    j_lost : p_lost s = [];
    j_open : forall c, dmem (p_sent s) c = true -> In c (p_open s);
    j_code : forall m oc, In (m, oc) (p_settled s) -> exists c, oc = Some c /\ retriable_code c = false }.

  Lemma calm_flush part s rqs s' : flush part s = (Ok rqs, s') -> calm_inv s -> calm_inv s'.
  Proof.
    intros F J. pose proof F as F0. apply flush_spec in F as (I' & _ & _ & B & _ & _ & _ & C1 & _ & C3 & C4 & _); [|apply J].
    split; [exact I'|now rewrite C1, (j_lost s J)| |rewrite B; apply J].
    intros c Hc. rewrite C3. apply in_or_app.
    apply flush_ok_inv in F0 as [(E & -> & ->)|(o & retry & rest & k1 & corr & sent & s3 & wire & EO & EB & E3 & EW & ->)].
    - left. now apply J.
    - pose proof (order_topics_nd _ _ _ _ _ _ _ _ _ EO) as NO.
      assert (NO' : nd_ordered o) by (apply NO; split; [constructor|intros ? ? []]).
      destruct (build_requests_spec _ _ _ _ _ _ _ _ _ _ EB (proj2 NO') (i_bound s (j_inv s J))) as (_ & _ & _ & _ & dn & rst & _ & _ & _ & new & -> & E1 & _ & _ & E4).
      cbn [p_sent] in Hc. rewrite E3 in Hc.
      destruct (retries_spec retry (Prod (rev rest) sent (p_heal s) (p_closing s) k1 corr (p_next s) (p_open s) (p_wire s) (p_settled s) (p_lost s)))
        as (_ & B2 & _). cbv zeta in B2. rewrite B2 in Hc. cbn [p_sent] in Hc. apply E4 in Hc as [Hc|Hc]; [left; now apply J|now right].
  Qed.

  Lemma calm_same s s' : pinv s' -> p_sent s' = p_sent s -> p_open s' = p_open s -> p_settled s' = p_settled s -> p_lost s' = p_lost s ->
    calm_inv s -> calm_inv s'.
  Proof. intros I E1 E2 E3 E4 J. split; [exact I|now rewrite E4; apply J|rewrite E1, E2; apply J|rewrite E3; apply J]. Qed.

  Lemma lookups_enqueue part topic mk s s1 u : enqueue topic mk s = (Ok u, s1) -> pinv s -> lookups_succeed part s ->
    (forall m, mk = Ok m -> lookup_ok part (p_cluster s) topic (PM (p_next s) m)) -> lookups_succeed part s1.
  Proof.
    intros E I L M. apply enqueue_spec in E as (_ & _ & _ & _ & E2 & _ & _ & _ & _ & _ & E3); [|exact I].
    destruct mk as [m|e]; [|destruct E3; discriminate]. destruct E3 as (_ & _ & Q). intros t x Hx. rewrite Q in Hx. rewrite E2.
    apply in_app_or in Hx as [Hx|Hx]; [now apply L|]. destruct (list_eqb t topic) eqn:Et; [|destruct Hx].
    apply list_eqb_spec in Et. subst t. destruct Hx as [<-|[]]. now apply M.
  Qed.
  Lemma calm_resume part topic mk s : calm_inv s -> lookups_succeed part s ->
    (forall m, mk = Ok m -> lookup_ok part (p_cluster s) topic (PM (p_next s) m)) ->
    calm_inv (snd (produce_resume batch_size acks timeout compress_fails serialize_fails part topic mk s)).
  Proof.
    intros J L M. unfold produce_resume. destruct (negb _); [exact J|]. destruct (enqueue topic mk s) as [[u|e] s1] eqn:E.
    - pose proof (lookups_enqueue _ _ _ _ _ _ E (j_inv s J) L M) as L1.
      apply enqueue_spec in E as (I1 & A1 & _ & _ & _ & _ & A2 & _ & A3 & A4 & _); [|apply J].
      assert (J1 : calm_inv s1) by (now apply calm_same with s). destruct (flush_due batch_size s1); [|exact J1].
      destruct (flush_total part s1 I1 L1) as (rqs & s2 & F). rewrite F. now apply calm_flush with (1 := F).
    - apply enqueue_spec in E as (I1 & A1 & _ & _ & _ & _ & A2 & _ & A3 & A4 & _); [|apply J]. now apply calm_same with s.
  Qed.
  Lemma calm_response c resp s : calm_inv s -> (In c (p_open s) -> full_answer s c resp) -> calm_inv (pstep s (EvResponse c resp)).
  Proof.
    intros J H. cbn [Producer.pstep]. destruct (smem (p_open s) c) eqn:M; [|exact J]. apply smem_In in M. destruct (H M) as [SA FA].
    destruct (handle_exact c resp (answered c s)) as (s' & st & E & _ & _ & D1 & D2 & D3).
    - apply J.
    - apply (i_open s (j_inv s J)). exact M.
    - now apply (sane_same s).
    - rewrite E. cbn [snd]. pose proof E as E0. apply handle_inv in E; [|now apply answered_inv, J|apply not_open_answered|apply (i_open s (j_inv s J)); exact M].
      apply handle_spec in E0 as (_ & _ & _ & _ & A5 & _ & A7 & _ & _ & A10 & _).
      split; [exact E|rewrite A7; apply J| |].
      + intros x Hx. rewrite A5. cbn [answered p_open]. apply filter_In. destruct (Z.eq_dec x c) as [->|Ne]; [congruence|].
        split; [|apply negb_true_iff; now apply Z.eqb_neq]. apply J. unfold dmem in *. rewrite A10 in Hx by assumption. exact Hx.
      + intros m oc Hm. rewrite D2 in Hm. apply in_app_or in Hm as [Hm|Hm]; [now apply (j_code s J m)|].
        apply D3 in Hm as (t & p & ms & F & Hms & -> & R). destruct (FA t p ms F) as [code G]. apply gives_code in G. rewrite G in R |- *. eauto.
  Qed.
  Lemma calm_step s ev : calm_inv s -> calm_event s ev -> calm_inv (pstep s ev).
  Proof.
    intros J C. destruct ev; cbn [calm_event] in C.
    - cbn [Producer.pstep]. unfold produce. destruct (p_closing s); [exact J|]. destruct (negb _) eqn:E; [exact J|].
      apply calm_resume; [exact J|apply C|apply C].
    - apply calm_resume; [exact J|apply C|apply C].
    - cbn [Producer.pstep]. destruct (flush_total part s (j_inv s J) C) as (rqs & s2 & F). rewrite F. now apply calm_flush with (1 := F).
    - cbn [Producer.pstep]. unfold close_begin. match goal with |- context [Producer.flush _ _ _ _ part ?x] => set (s0 := x) end.
      assert (I0 : pinv s0).
      { refine (pinv_same s _ _ _ _ _ _ _ _ _ _ (j_inv s J)); try reflexivity; [intros x Hx; exact Hx|apply J]. }
      assert (J0 : calm_inv s0) by (now apply calm_same with s).
      destruct (flush_total part s0 I0 C) as (rqs & s2 & F). rewrite F. now apply calm_flush with (1 := F).
    - now apply calm_response.
    - destruct C.
    - apply calm_same with s; try reflexivity; [now apply pstep_inv, J|exact J].
    - apply calm_same with s; try reflexivity; [now apply pstep_inv, J|exact J].
    - apply calm_same with s; try reflexivity; [now apply pstep_inv, J|exact J].
  Qed.
  Lemma calm_run evs : forall s, calm_inv s -> calm batch_size acks timeout compress_fails serialize_fails evs s -> calm_inv (prun evs s).
  Proof.
    induction evs as [|ev evs IH]; intros s J C; [exact J|]. destruct C as [C1 C2]. cbn. apply IH; [now apply calm_step|exact C2].
  Qed.
  Lemma calm_init k corr : calm_inv (producer_init k corr).
  Proof. split; [apply pinv_init|reflexivity|intros c; discriminate|intros ? ? []]. Qed.
End Calm.

(** ** a failed request stays where it is *)
Section Fail.
  Variable batch_size : option Z.
  Variables acks timeout : Z.
  Variable compress_fails : list pmsg -> option exn.
  Variable serialize_fails : prequest -> option exn.
  Notation flush := (flush acks timeout compress_fails serialize_fails).
  Notation pstep := (pstep batch_size acks timeout compress_fails serialize_fails).
  Notation prun := (prun batch_size acks timeout compress_fails serialize_fails).

  Definition stuck (c : Z) (s0 s : producer) : Prop :=
    pinv s /\ ~ In c (p_open s) /\ c <= p_corr s /\ (forall t, slook (p_sent s) c t = slook (p_sent s0) c t) /\
    exists w, p_wire s = p_wire s0 ++ w /\
      forall rq m, In rq w -> In m (request_msgs rq) -> ~ (exists t p, In m (olook (p_sent s0) c t p)).
  Lemma olook_in_flight (o : ordered) c t p m : In m (olook o c t p) -> In m (ordered_msgs o).
  Proof.
    unfold olook, slook, getd. destruct (dget o c) as [b|] eqn:E1; [|intros []]. destruct (dget b t) as [d|] eqn:E2; [|intros []].
    destruct (dget d p) as [ms|] eqn:E3; [|intros []]. intros H. apply dget_In in E1, E2, E3.
    unfold ordered_msgs. apply in_flat_map. exists (c, b). split; [exact E1|]. apply in_flat_map. exists (t, d). split; [exact E2|].
    apply in_flat_map. exists (p, ms). auto.
  Qed.
  Lemma queued_not_in_flight s m : pinv s -> In m (queued s) -> In m (in_flight s) -> False.
  Proof.
    intros I A B. pose proof (accounted_nodup s (i_acc s I)) as ND.
    apply (nodup_ids_disjoint (queued s) (in_flight s ++ settled_msgs s ++ p_lost s) m m ND A); [|reflexivity].
    apply in_or_app. now left.
  Qed.
  Lemma settled_not_in_flight s m : pinv s -> In m (in_flight s) -> In m (settled_msgs s) -> False.
  Proof.
    intros I A B. pose proof (accounted_nodup s (i_acc s I)) as ND. rewrite app_assoc in ND.
    apply (nodup_ids_disjoint (queued s ++ in_flight s) (settled_msgs s ++ p_lost s) m m ND); [| |reflexivity].
    - apply in_or_app. now right.
    - apply in_or_app. now left.
  Qed.
  Lemma stuck_flush c s0 part s r s' : flush part s = (r, s') -> stuck c s0 s -> stuck c s0 s'.
  Proof.
    intros F (I & O & B & Q & w & W1 & W2). pose proof F as F0. apply flush_spec in F as (I' & _ & _ & _ & C1 & C2 & (w' & C3 & C4 & _) & C5); [|exact I].
    split; [exact I'|]. split; [|split; [lia|split; [intros t; rewrite C2 by lia; apply Q|]]].
    - destruct r as [rqs|e].
      + destruct C5 as (_ & _ & E & R & _). rewrite E. intros Hc. apply in_app_or in Hc as [Hc|Hc]; [contradiction|].
        apply in_map_iff in Hc as (rq & <- & Hr). destruct (R rq Hr). lia.
      + assert (p_open s' = p_open s) as ->; [|exact O]. clear -F0 I. unfold Producer.flush in F0.
        destruct (p_unsent s) as [|u0 us] eqn:EU; [discriminate F0|]. rewrite <- EU in *.
        destruct (order_topics part (drain_items (p_unsent s)) [] [] (p_cluster s)) as [[[[o retry]|e1] rest] k1]; [|now injection F0 as _ <-].
        unfold with_cluster, with_unsent in F0.
        cbn [p_unsent p_sent p_heal p_closing p_cluster p_corr p_next p_open p_wire p_settled p_lost] in F0.
        destruct (build_requests _ _ _ o (p_corr s) [] (p_sent s)) as [[[rqs|e2] corr] sent]; [|now injection F0 as _ <-].
        match type of F0 with context [write_all _ _ (p_cluster ?x)] => set (s3 := x) in * end.
        assert (O3 : p_open s3 = p_open s).
        { unfold s3. match goal with |- p_open (fold_left _ _ ?x) = _ => destruct (retries_spec retry x) as (_ & _ & _ & _ & _ & _ & B8 & _) end. exact B8. }
        destruct (write_all serialize_fails rqs (p_cluster s3) (p_wire s3)) as [[u|e3] wire]; [discriminate F0|]. injection F0 as _ <-. exact O3.
    - exists (w ++ w'). rewrite C3, W1, app_assoc. split; [reflexivity|]. intros rq m Hr Hm. apply in_app_or in Hr as [Hr|Hr]; [now apply (W2 rq)|].
      intros (t & p & Hp). apply (queued_not_in_flight s m I); [now apply (C4 rq)|].
      apply (olook_in_flight _ c t p). unfold olook in *. now rewrite Q.
  Qed.
  Lemma stuck_same c s0 s s' : pinv s' -> incl (p_open s') (p_open s) -> p_corr s <= p_corr s' -> p_sent s' = p_sent s -> p_wire s' = p_wire s ->
    stuck c s0 s -> stuck c s0 s'.
  Proof.
    intros I' E1 E2 E3 E4 (I & O & B & Q & W). split; [exact I'|]. split; [intros Hc; apply O, E1, Hc|]. split; [lia|]. rewrite E3, E4. split; assumption.
  Qed.
  Lemma stuck_resume c s0 part topic mk s : stuck c s0 s -> stuck c s0 (snd (produce_resume batch_size acks timeout compress_fails serialize_fails part topic mk s)).
  Proof.
    intros J. unfold produce_resume. destruct (negb _); [exact J|]. destruct (enqueue topic mk s) as [r s1] eqn:E.
    apply enqueue_spec in E as (I1 & A1 & _ & _ & _ & A0 & A2 & A3 & _); [|apply J].
    assert (J1 : stuck c s0 s1) by (apply stuck_same with s; try assumption; [rewrite A2; intros x Hx; exact Hx|lia]).
    destruct r as [u|e]; [|exact J1]. destruct (flush_due batch_size s1); [|exact J1].
    destruct (flush part s1) as [[rqs|e] s2] eqn:F; now apply stuck_flush with (1 := F).
  Qed.
  Lemma stuck_step c s0 s ev : stuck c s0 s -> stuck c s0 (pstep s ev).
  Proof.
    intros J. pose proof (pstep_inv batch_size acks timeout compress_fails serialize_fails s ev (proj1 J)) as I'.
    destruct ev; cbn [Producer.pstep] in *.
    - unfold produce in *. destruct (p_closing s); [exact J|]. destruct (negb _); [exact J|]. now apply stuck_resume.
    - now apply stuck_resume.
    - destruct (flush part s) as [r s2] eqn:F. now apply stuck_flush with (1 := F).
    - unfold close_begin in *. match goal with |- context [Producer.flush _ _ _ _ part ?x] => set (s1 := x) in * end.
      destruct (flush part s1) as [r s2] eqn:F. apply stuck_flush with (1 := F).
      apply stuck_same with s; try reflexivity; [|intros x Hx; exact Hx|exact J].
      refine (pinv_same s _ _ _ _ _ _ _ _ _ _ (proj1 J)); try reflexivity; [intros x Hx; exact Hx|apply (proj1 J)].
    - destruct (smem (p_open s) corr) eqn:M; [|exact J]. apply smem_In in M.
      destruct (handle_produce_response corr resp (answered corr s)) as [r s2] eqn:F. cbn [snd] in *.
      apply handle_spec in F as (_ & _ & A3 & _ & A5 & A6 & _ & _ & _ & A10 & _).
      destruct J as (I & O & B & Q & W). assert (c <> corr) as Ne by congruence.
      split; [exact I'|]. split; [rewrite A5; cbn; intros Hc; apply filter_In in Hc as [Hc _]; contradiction|].
      split; [rewrite A3; exact B|]. split; [|rewrite A6; exact W]. intros t. rewrite <- Q. unfold slook. unfold getd at 2. rewrite A10 by assumption. reflexivity.
    - destruct (smem (p_open s) corr) eqn:M; [|exact J]. apply stuck_same with s; try reflexivity; [exact I'| |exact J].
      cbn. intros x Hx. now apply filter_In in Hx as [Hx _].
    - apply stuck_same with s; try reflexivity; [exact I'|intros x Hx; exact Hx|exact J].
    - apply stuck_same with s; try reflexivity; [exact I'|intros x Hx; exact Hx|exact J].
    - apply stuck_same with s; try reflexivity; [exact I'|intros x Hx; exact Hx|cbn; lia|exact J].
  Qed.
  Lemma stuck_run c s0 evs : forall s, stuck c s0 s -> stuck c s0 (prun evs s).
  Proof. induction evs as [|ev evs IH]; intros s J; [exact J|]. cbn. apply IH. now apply stuck_step. Qed.
  Lemma fail_stuck c e s : pinv s -> In c (p_open s) -> stuck c s (pstep s (EvFail c e)).
  Proof.
    intros I O. pose proof (pstep_inv batch_size acks timeout compress_fails serialize_fails s (EvFail c e) I) as I'.
    cbn [Producer.pstep] in *. rewrite (proj2 (smem_In (p_open s) c) O) in *. split; [exact I'|].
    split; [apply (not_open_answered c s)|]. split; [apply (i_bound s I), (i_open s I), O|]. split; [reflexivity|].
    exists []. rewrite app_nil_r. split; [reflexivity|]. intros ? ? [].
  Qed.
End Fail.

(** ** a flush that raises while ordering *)
Lemma order_topics_err part items : forall o retry k e rest k',
  order_topics part items o retry k = (Err e, rest, k') -> exists pre, items = pre ++ rest /\ pre <> [].
Proof.
  induction items as [|[t msgs] items IH]; intros o retry k e rest k' H; cbn [order_topics] in H; [discriminate H|].
  destruct (order_msgs part t msgs o retry k) as [[[o1 r1]|e1] k1].
  - apply IH in H as (pre & -> & _). exists ((t, msgs) :: pre). split; [reflexivity|discriminate].
  - injection H as _ <- _. exists [(t, msgs)]. split; [reflexivity|discriminate].
Qed.
Lemma queued_nil s : (forall t, queue_of s t = []) -> NoDup (dkeys (p_unsent s)) -> queued s = [].
Proof.
  intros Q N. unfold queued, queue_msgs. 
  assert (G : forall t q, In (t, q) (p_unsent s) -> q = []).
  { intros t q H. specialize (Q t). unfold queue_of in Q. now rewrite (In_dget_nodup _ _ _ N H) in Q. }
  clear -G. induction (p_unsent s) as [|[t q] u IH]; [reflexivity|]. cbn [flat_map snd]. rewrite (G t q) by now left. apply IH.
  intros; eapply G; right; eassumption.
Qed.
Lemma any_retriable_none s c t resp : any_retriable resp = false -> retry_all s c t resp = [].
Proof.
  intros H. unfold retry_all, retried. destruct (dget resp t) as [ps|] eqn:E; [|reflexivity]. apply dget_In in E.
  assert (F : filter (fun pc => retriable_code (snd pc)) ps = []); [|now rewrite F].
  assert (G : existsb (fun pc => retriable_code (snd pc)) ps = false).
  { destruct (existsb _ ps) eqn:X; [|reflexivity]. unfold any_retriable in H. rewrite <- H. symmetry. apply existsb_exists. exists (t, ps). auto. }
  clear -G. induction ps as [|x ps IH]; [reflexivity|]. cbn in *. apply orb_false_iff in G as [-> G]. auto.
Qed.

Section Close.
  Variable batch_size : option Z.
  Variables acks timeout : Z.
  Variable compress_fails : list pmsg -> option exn.
  Variable serialize_fails : prequest -> option exn.
  Hypothesis no_compress : forall ms, compress_fails ms = None.
  Hypothesis no_serialize : forall rq, serialize_fails rq = None.
  Notation flush := (flush acks timeout compress_fails serialize_fails).
  Notation pstep := (pstep batch_size acks timeout compress_fails serialize_fails).
  Notation prun := (prun batch_size acks timeout compress_fails serialize_fails).

  Lemma flush_raises part s e s' : flush part s = (Err e, s') -> pinv s ->
    exists kept dropped, p_unsent s = kept ++ dropped /\ dropped <> [] /\ p_unsent s' = kept /\ p_sent s' = p_sent s /\ p_wire s' = p_wire s /\
      p_open s' = p_open s /\ Permutation (p_lost s') (p_lost s ++ queue_msgs dropped) /\ ~ lookups_succeed part s.
  Proof.
    intros F I. assert (NL : ~ lookups_succeed part s).
    { intros L. destruct (flush_total acks timeout compress_fails serialize_fails no_compress no_serialize part s I L) as (rqs & s2 & F').
      rewrite F' in F. discriminate F. }
    pose proof F as F1. apply flush_spec in F1 as (I' & _ & EN & ES & _); [|exact I].
    unfold Producer.flush in F. destruct (p_unsent s) as [|u0 us] eqn:EU; [discriminate F|]. rewrite <- EU in *. clear u0 us EU.
    destruct (order_topics part (drain_items (p_unsent s)) [] [] (p_cluster s)) as [[r1 rest] k1] eqn:EO.
    destruct r1 as [[o retry]|e1].
    { exfalso. apply NL. assert (NI : NoDup (dkeys (drain_items (p_unsent s)))) by (unfold drain_items; rewrite dkeys_rev; apply nodup_rev, I).
      apply order_topics_look in EO as (_ & L & _); [|exact NI]. intros t m Hm. apply L. unfold drain_items. rewrite rlook_rev by apply I. exact Hm. }
    injection F as <- <-. apply order_topics_err in EO as (pre & EP & NP).
    exists (rev rest), (rev pre). unfold with_cluster, with_unsent.
    cbn [p_unsent p_sent p_heal p_closing p_cluster p_corr p_next p_open p_wire p_settled p_lost].
    assert (EU : p_unsent s = rev rest ++ rev pre).
    { rewrite <- rev_app_distr, <- EP. unfold drain_items. symmetry. apply rev_involutive. }
    split; [exact EU|]. split; [intros E; apply NP; rewrite <- (rev_involutive pre), E; reflexivity|].
    do 4 (split; [reflexivity|]). split; [|exact NL]. apply Permutation_app_head.
    assert (PQ : Permutation (queue_msgs (p_unsent s)) (queue_msgs rest ++ queue_msgs (rev pre))).
    { rewrite EU. unfold queue_msgs. rewrite flat_map_app. apply Permutation_app_tail. apply (flat_rev (fun l : list pmsg => l)). }
    assert (ND : NoDup (map pm_id (queue_msgs (p_unsent s)))).
    { pose proof (accounted_nodup s (i_acc s I)) as ND. rewrite map_app in ND. now apply NoDup_app_left in ND. }
    apply without_spec with (x := queue_msgs rest); [exact PQ|exact ND|intros m Hm; now apply in_map|].
    intros m Hm Hi. apply in_map_iff in Hi as (n & En & Hn).
    apply (nodup_ids_disjoint (queue_msgs rest) (queue_msgs (rev pre)) n m); [|exact Hn|exact Hm|exact En].
    exact (Permutation_NoDup (Permutation_map pm_id PQ) ND).
  Qed.

  Lemma answer_all answers : forall s, calm_inv s -> (forall t, queue_of s t = []) -> Permutation (map fst answers) (p_open s) ->
    (forall c resp, In (c, resp) answers -> full_answer s c resp /\ any_retriable resp = false) ->
    let s' := prun (map (fun cr => EvResponse (fst cr) (snd cr)) answers) s in
    calm_inv s' /\ queued s' = [] /\ in_flight s' = [] /\ p_next s' = p_next s.
  Proof.
    induction answers as [|[c resp] answers IH]; intros s J Q P H.
    - cbn [map Producer.prun fold_left]. cbv zeta. split; [exact J|]. split; [apply queued_nil; [exact Q|apply J]|]. split; [|reflexivity].
      cbn in P. apply Permutation_nil in P. unfold in_flight. destruct (p_sent s) as [|[c b] st] eqn:E; [reflexivity|].
      exfalso. assert (Hc : In c (p_open s)); [|now rewrite P in Hc]. apply (j_open s J). rewrite E. unfold dmem. cbn [dget].
      change (eqb c c) with (c =? c). now rewrite Z.eqb_refl.
    - cbn [map fst snd] in *. destruct (H c resp (or_introl eq_refl)) as [FA NR].
      assert (Hc : In c (p_open s)) by (apply (Permutation_in _ P); now left).
      pose proof (calm_response batch_size acks timeout compress_fails serialize_fails c resp s J (fun _ => FA)) as J1.
      destruct (handle_exact c resp (answered c s)) as (s1 & st & E & A1 & _ & A3 & _).
      { apply J. } { apply (i_open s (j_inv s J)). exact Hc. } { now apply (sane_same s), FA. }
      assert (ES : pstep s (EvResponse c resp) = s1) by (cbn [Producer.pstep]; rewrite (proj2 (smem_In (p_open s) c) Hc), E; reflexivity).
      apply handle_spec in E as (_ & _ & _ & E4 & E5 & _ & _ & _ & _ & E10 & _).
      unfold Producer.prun. cbn [fold_left]. fold (prun (map (fun cr => EvResponse (fst cr) (snd cr)) answers) (pstep s (EvResponse c resp))).
      rewrite ES in *.
      assert (NDo : ~ In c (map fst answers)).
      { apply Permutation_sym, (Permutation_NoDup) in P; [|apply J]. now inversion P. }
      destruct (IH s1 J1) as (B1 & B2 & B3 & B4).
      + intros t. rewrite A1. change (queue_of (answered c s) t) with (queue_of s t). rewrite Q. now apply any_retriable_none.
      + rewrite E5. cbn [answered p_open]. apply NoDup_Permutation.
        * apply Permutation_sym, (Permutation_NoDup) in P; [|apply J]. now inversion P.
        * apply nodup_filter, J.
        * intros x. rewrite filter_In. split.
          -- intros Hx. split; [apply (Permutation_in _ P); now right|]. apply negb_true_iff, Z.eqb_neq. intros ->. contradiction.
          -- intros [Hx Hn]. apply (Permutation_in _ (Permutation_sym P)) in Hx as [Hx|Hx]; [|exact Hx]. subst. now rewrite Z.eqb_refl in Hn.
      + intros c' resp' Hi. destruct (H c' resp') as [[SA' FA'] NR']; [now right|]. split; [|exact NR'].
        assert (c' <> c) as Ne by (intros ->; apply NDo; apply (in_map fst) in Hi; exact Hi).
        assert (EC : forall t p ms, content s1 c' t p ms <-> content s c' t p ms).
        { intros. unfold content. now rewrite E10 by assumption. }
        split.
        * destruct SA' as (X & Y & W). split; [exact X|]. split; [exact Y|]. intros t p code G. destruct (W t p code G) as (V & ms & U).
          split; [exact V|]. exists ms. now apply EC.
        * intros t p ms U. apply EC in U. now apply (FA' t p ms).
      + cbv zeta in *. split; [exact B1|]. split; [exact B2|]. split; [exact B3|]. rewrite B4, E4. reflexivity.
  Qed.
End Close.
