(** Property C94: a consumer gets past what is in the log.  Specification: SpecProgress.v. *)
From Coq Require Import ZArith String List Bool Lia Sorting.Sorted.
From Verif Require Import PyBase BaseLemmas Utf8 Crc32 Primitives Constants Messages Protocol Schemas SpecWire Cluster Zookeeper Producer Consumer SpecConsumer SpecHistory SpecKafka ResponseRead KafkaProofs ConsumerRuns PropsWire PropsKafka SpecAttr AttrProofs PropsAttr SpecBytes SpecProgress PropsConsumer PropsHistory PropsLog PropsBytes.
Import ListNotations.
Open Scope Z_scope.

(** ** answers without a message for the partition *)
Lemma oversized_fetch C t p limit parts raw : oversized C t p limit parts raw ->
  kw_fetch C 12 [(t, parts)] raw /\ forall code ms, In (p, (code, ms)) parts -> ms = [].
Proof.
  intros (ND & nb & pb & Kn & (xs0 & x & bs & bx & -> & F & (-> & pb' & cb & hw & hb & s & Kp & Kc & Kh & (o & a & m & e & E & Fa & L & ->) & Ls & ->) & LL & ->) & ->). split.
  - right. exists [], (t, xs0 ++ [(p, (0, []))]). eexists [], _. split; [reflexivity|]. split; [constructor|]. split; [|split; [vm_compute; reflexivity|cbn [app concat]; reflexivity]].
    exists nb. eexists. split; [exact Kn|]. split; [|reflexivity]. exists xs0, (p, (0, [])), bs. eexists. split; [reflexivity|]. split; [exact F|]. split; [|split; [exact LL|reflexivity]].
    exists pb', cb, hw, hb. eexists. split; [exact Kp|]. split; [exact Kc|]. split; [exact Kh|]. split; [|split; [exact Ls|reflexivity]].
    exists [], o, a, m, (firstn (Z.to_nat limit) e), (skipn (Z.to_nat limit) e). split; [constructor|]. split; [rewrite firstn_skipn; exact E|]. split; [|split; [exact Fa|reflexivity]].
    intros N. apply (f_equal (@length Z)) in N. rewrite skipn_length in N. cbn [length] in N. unfold zlen in L. lia.
  - intros code ms I. rewrite map_app in ND. cbn [map fst] in ND. apply in_app_or in I as [I|[I|[]]]; [|now injection I as <- <-].
    exfalso. apply NoDup_remove_2 in ND. rewrite app_nil_r in ND. apply ND. apply in_map_iff. exists (p, (code, ms)). auto.
Qed.
Lemma nothing_accepted {V} (cfg : config V) parts p : (forall code ms, In (p, (code, ms)) parts -> ms = []) -> accepted cfg parts p = [].
Proof.
  intros H. unfold accepted. induction parts as [|[q [code ms]] parts IH]; [reflexivity|]. cbn [flat_map fst snd]. rewrite IH by (intros c m I; apply (H c m); now right). rewrite app_nil_r.
  destruct (Z.eqb_spec q p) as [->|NE]; [|reflexivity]. rewrite (H code ms) by now left. cbn. now destruct (code =? no_error).
Qed.
Lemma in_firstn {A} n (l : list A) x : In x (firstn n l) -> In x l.
Proof. intros H. rewrite <- (firstn_skipn n l). apply in_or_app. now left. Qed.
Lemma before_sub {A} (f : A -> bool) l x : In x (before f l) -> In x l.
Proof. induction l as [|y l IH]; [easy|]. cbn [before]. destruct (f y); [easy|]. intros [->|H]; [now left|right; auto]. Qed.
Lemma position_after_other {V} (cfg : config V) t p r old : about t r \/ position_after cfg t p r old = old.
Proof.
  destruct r as [[|[t' parts] rest]|[|[t' parts] rest]|[|[t' parts] rest]|ts|c i]; cbn [about position_after]; auto; (destruct (eqb t' t) eqn:E; [left; now apply eqb_spec|right; reflexivity]).
Qed.
Lemma idle_step {V} (cfg : config V) C depth t p s l : inv cfg s -> idles C depth t p s l -> position (cstep cfg s l) t p = position s t p.
Proof.
  intros I0 ID. rewrite (position_step cfg s l t p I0). unfold answered. destruct l as [i o|i b r|i r|k|ev|]; try reflexivity. unfold takes. destruct r as [r|e]; [|reflexivity]. rewrite Z.eqb_refl.
  destruct (dget (c_calls s) i) as [[o [k w rs| |]]|] eqn:D; try reflexivity. destruct (dget w b) as [rq|] eqn:W; [|reflexivity]. destruct (answers rq r) eqn:A; [|reflexivity].
  unfold replay. cbn [fold_left]. cbn [idles] in ID. specialize (ID rq ltac:(now exists o, k, w, rs)).
  assert (X : forall parts raw rest x mw mb asked, rq = RFetch x mw mb t asked -> read_response C (S depth) rq raw = Some (Ok (PFetch ((t, map (fun p => (fst p, (fst (snd p), kw_read_set (snd (snd p))))) parts) :: rest))) ->
    read_response C (S depth) rq raw = Some (Ok r) -> (forall code ms, In (p, (code, ms)) parts -> ms = []) -> position_after cfg t p r (position s t p) = position s t p).
  { intros parts raw rest x mw mb asked _ E1 E2 H. rewrite E1 in E2. injection E2 as <-. cbn [position_after]. rewrite eqb_refl.
    rewrite nothing_accepted; [reflexivity|]. intros code ms IN. apply before_sub in IN. apply in_map_iff in IN as ([q [c m]] & E & IN). cbn [fst snd] in E. injection E as -> -> <-. rewrite (H _ _ IN). reflexivity. }
  destruct (position_after_other cfg t p r (position s t p)) as [AB|E]; [|exact E].
  destruct (ID AB) as (x & mw & mb & asked & parts & raw & -> & RR & [(o' & limit & _ & OV)|(N & K)]).
  - destruct (oversized_fetch _ _ _ _ _ _ OV) as [K N]. eapply X; [reflexivity| |exact RR|exact N]. exact (C73_fetch C depth _ raw _ ltac:(repeat eexists) K).
  - eapply X; [reflexivity| |exact RR|exact N]. exact (C93_lost_refuted C depth _ raw _ ltac:(repeat eexists) K).
Qed.

(** * C94 A consumer gets past what is in the log *)
(** part of it: an answer to a fetch request that brings whole messages of the log from the position on, at least one of
    which deserializes, moves the position *)
Theorem C94_moves_partial {V} (cfg : config V) C depth s i b rq t p log raw r parts rest ms n : reachable cfg s -> waits_for s i b rq ->
  (exists x mw mb asked, rq = RFetch x mw mb t asked) -> is_klog log ->
  kw_fetch C 12 ((t, parts) :: rest) raw -> NoDup (map fst parts) -> Forall (fun part => known_code (fst (snd part))) parts ->
  In (p, (0, ms)) parts -> ms = firstn n (kfrom (position s t p) log) ->
  (exists o m v, In (o, m) ms /\ deser cfg (kw_field (km_value m)) = Ok v) ->
  read_response C (S depth) rq raw = Some (Ok r) ->
  position s t p < position (cstep cfg s (Arrive i b (Ok r))) t p.
Proof.
  intros R WF (x & mw & mb & asked & ->) [_ NN] K ND KC IP MS (o & m & v & IM & DV) RR.
  rewrite (C73_fetch C depth _ raw _ ltac:(repeat eexists) K) in RR. injection RR as <-. cbn [map fst snd].
  destruct (C38_positions cfg s i b _ t (map (fun p => (fst p, (fst (snd p), kw_read_set (snd (snd p))))) parts) (map (fun tp => (fst tp, map (fun p => (fst p, (fst (snd p), kw_read_set (snd (snd p))))) (snd tp))) rest) R WF eq_refl) as (P & _).
  { rewrite Forall_map. exact KC. }
  rewrite P. clear P. set (old := position s t p) in *.
  assert (AC : accepted cfg (map (fun p => (fst p, (fst (snd p), kw_read_set (snd (snd p))))) parts) p = filter (fun o => 0 <=? o) (map fst (readable cfg (kw_read_set ms)))).
  { clear - ND IP. unfold accepted. induction parts as [|[q [c l]] parts IH]; [destruct IP|]. cbn [map flat_map fst snd] in *. inversion ND as [|? ? NI ND']; subst. destruct IP as [E|IP].
    - injection E as -> -> ->. rewrite Z.eqb_refl. change (0 =? no_error) with true. cbn [andb]. match goal with |- _ ++ ?q = _ => assert (Q : q = []) end; [|rewrite Q; apply app_nil_r].
      apply nothing_accepted. intros code l' IN. exfalso. apply NI. apply in_map_iff in IN as ([q' [c' m']] & E & IN). cbn [fst snd] in E. injection E as -> -> <-. apply in_map_iff. eexists. split; [|exact IN]. reflexivity.
    - replace (q =? p) with false; [cbn [andb app]; now apply IH|]. symmetry. apply Z.eqb_neq. intros ->. apply NI. apply in_map_iff. now exists (p, (0, ms)). }
  rewrite AC. clear AC.
  assert (GE : forall y, In y (filter (fun o => 0 <=? o) (map fst (readable cfg (kw_read_set ms)))) -> old <= y).
  { intros y IN. apply filter_In in IN as [IN _]. apply in_map_iff in IN as ([y' w] & E & IN). cbn [fst] in E. subst y'. unfold readable in IN. apply in_flat_map in IN as ([y2 m2] & IN & X). cbn [fst snd] in X.
    destruct (deser cfg (msg_value m2)); [|destruct X]. destruct X as [X|[]]. injection X as -> _. apply seen_in in IN as (km & IN & _). rewrite MS in IN. apply in_firstn in IN. apply filter_In in IN as [_ IN]. cbn [fst] in IN. lia. }
  assert (NE : filter (fun o => 0 <=? o) (map fst (readable cfg (kw_read_set ms))) <> []).
  { intros E. assert (IN : In o []) by (rewrite <- E; apply filter_In; split; [|assert (0 <= o); [|lia]; apply NN; rewrite MS in IM; apply in_firstn in IM; apply filter_In in IM as [IM _]; apply in_map_iff; exists (o, m); auto];
      apply in_map_iff; exists (o, v); split; [reflexivity|]; unfold readable; apply in_flat_map; exists (o, kw_read m); split; [apply in_map_iff; exists (o, m); auto|]; cbn [fst snd kw_read msg_value]; rewrite DV; now left). destruct IN. }
  unfold one_past_last. destruct (rev _) as [|y l] eqn:RV.
  - exfalso. apply NE. apply (f_equal (@rev Z)) in RV. now rewrite rev_involutive in RV.
  - assert (In y (filter (fun o => 0 <=? o) (map fst (readable cfg (kw_read_set ms))))) as IN by (apply in_rev; rewrite RV; now left). apply GE in IN. lia.
Qed.

(** but no further: where the next message of a partition is larger than the limit the consumer gives for the partition, or
    is one that it drops (C93), every call brings nothing, without an error, and the same offset is asked for for ever *)
Theorem C94_stuck_refuted {V} (cfg : config V) C depth t p s0 ls : reachable cfg s0 -> each_step cfg (idles C depth t p) ls s0 ->
  position (crun cfg ls s0) t p = position s0 t p /\
  forall ls' l b x mw mb parts o limit, ls = ls' ++ [l] -> In (b, RFetch x mw mb t parts) (sent cfg (crun cfg ls' s0) l) -> In (p, (o, limit)) parts -> o = position s0 t p.
Proof.
  intros R ES.
  assert (P : forall ls s, inv cfg s -> each_step cfg (idles C depth t p) ls s -> position (crun cfg ls s) t p = position s t p).
  { clear. induction ls as [|l ls IH]; intros s I0 ES; [reflexivity|]. destruct ES as [E1 E2]. change (crun cfg (l :: ls) s) with (crun cfg ls (cstep cfg s l)). rewrite IH; [now apply (idle_step cfg C depth)|now apply inv_step|exact E2]. }
  pose proof (reach_inv cfg s0 R) as I0. pose proof (P ls s0 I0 ES) as PL. split; [exact PL|].
  intros ls' l b x mw mb parts o limit -> H HP.
  assert (R' : reachable cfg (crun cfg ls' s0)). { destruct R as (k & name & l0 & ->). exists k, name, (l0 ++ ls'). unfold crun. now rewrite fold_left_app. }
  destruct (C41_fetch_requests cfg _ l t b _ R' H) as (A & _); [now exists x, mw, mb, parts|].
  destruct (A _ _ H) as (_ & parts' & _ & E & PP & _). injection E as _ _ _ ->. destruct (PP _ _ _ HP) as (_ & _ & ->). rewrite <- PL. unfold crun. now rewrite fold_left_app.
Qed.

(** ** a message of 1000 bytes and more, for a consumer that takes at most 1000 at a time *)
Definition big_msg : kmsg := kd None (repeat 97 (Z.to_nat 1000)).
Definition big_raw : bytes := big_endian 4 1 ++ (big_endian 2 (zlen tt_) ++ tt_) ++ big_endian 4 1 ++
  (big_endian 4 0 ++ big_endian 2 0 ++ big_endian 8 9 ++ big_endian 4 1000 ++ firstn (Z.to_nat 1000) (ent 5 0 big_msg)).
Lemma big_oversized : oversized demo_codec tt_ 0 1000 [(0, (0, []))] big_raw.
Proof.
  split; [repeat constructor; intros []|]. exists (big_endian 2 (zlen tt_) ++ tt_). eexists. split; [exists tt_; split; [reflexivity|split; [vm_compute; reflexivity|reflexivity]]|]. split; [|reflexivity].
  exists [], (0, (0, [])), []. eexists. split; [reflexivity|]. split; [constructor|]. split; [|split; [vm_compute; reflexivity|reflexivity]]. split; [reflexivity|].
  exists (big_endian 4 0), (big_endian 2 0), 9, (big_endian 8 9), (firstn (Z.to_nat 1000) (ent 5 0 big_msg)). cbn [fst snd].
  split; [split; [unfold fits; lia|reflexivity]|]. split; [split; [unfold fits; lia|reflexivity]|]. split; [split; [unfold fits; lia|reflexivity]|]. split; [|split; [vm_compute; reflexivity|reflexivity]].
  exists 5, 0, big_msg, (ent 5 0 big_msg). split; [|split; [unfold fits; lia|split; [vm_compute; split; [discriminate|reflexivity]|reflexivity]]].
  apply ent_ok; [unfold fits; lia|exact Logic.I| |vm_compute; reflexivity]. apply Forall_forall. intros z H. apply repeat_spec in H. subst z. unfold is_byte. lia.
Qed.
Definition big_answer : response := PFetch [(tt_, [(0, (0, []))])].
Lemma big_read x mw mb asked : read_response demo_codec 5 (RFetch x mw mb tt_ asked) big_raw = Some (Ok big_answer).
Proof. destruct (oversized_fetch _ _ _ _ _ _ big_oversized) as [K _]. exact (C73_fetch demo_codec 4 _ big_raw _ ltac:(repeat eexists) K). Qed.
(** the other broker has nothing new *)
Definition none_part : bytes := big_endian 4 1 ++ big_endian 2 0 ++ big_endian 8 7 ++ big_endian 4 0 ++ [].
Definition none_raw : bytes := big_endian 4 1 ++ ((big_endian 2 (zlen tt_) ++ tt_) ++ big_endian 4 1 ++ none_part).
Lemma none_dropped : dropped demo_codec tt_ 0 [(1, (0, []))] none_raw.
Proof.
  split; [intros code ms [E|[]]; now injection E as <- <-|].
  exists [(big_endian 2 (zlen tt_) ++ tt_) ++ big_endian 4 1 ++ none_part]. split; [|split; [vm_compute; reflexivity|cbn [concat]; rewrite app_nil_r; reflexivity]].
  constructor; [|constructor]. exists (big_endian 2 (zlen tt_) ++ tt_), (big_endian 4 1 ++ none_part). split; [exists tt_; split; [reflexivity|split; [vm_compute; reflexivity|reflexivity]]|]. split; [|reflexivity].
  exists [none_part]. split; [|split; [vm_compute; reflexivity|cbn [concat]; rewrite app_nil_r; reflexivity]]. constructor; [|constructor].
  exists (big_endian 4 1), (big_endian 2 0), 7, (big_endian 8 7), []. cbn [fst snd].
  split; [split; [unfold fits; lia|reflexivity]|]. split; [split; [unfold fits; lia|reflexivity]|]. split; [split; [unfold fits; lia|reflexivity]|].
  split; [constructor|]. split; [vm_compute; reflexivity|reflexivity].
Qed.
Definition none_answer : response := PFetch [(tt_, [(1, (0, []))])].
Lemma none_read x mw mb asked : read_response demo_codec 5 (RFetch x mw mb tt_ asked) none_raw = Some (Ok none_answer).
Proof. exact (C93_lost_refuted demo_codec 4 _ none_raw _ ltac:(repeat eexists) (proj2 none_dropped)). Qed.

Definition big_call (i : Z) : list label := [Call i (OpConsume tt_ None); Arrive i 1 (Ok big_answer); Arrive i 2 (Ok none_answer)].
Definition big_calls : list label := big_call 2 ++ big_call 3 ++ [Call 4 (OpConsume tt_ None)].
(** two calls return nothing, and the third asks for offset 5 again *)
Example C94_example : reachable (ex_cfg Single) ex_idle /\ each_step (ex_cfg Single) (idles demo_codec 4 tt_ 0) big_calls ex_idle /\
  c_ended (crun (ex_cfg Single) big_calls ex_idle) = c_ended ex_idle ++ [(2, OpConsume tt_ None, Ok (RvList [])); (3, OpConsume tt_ None, Ok (RvList []))] /\
  In (1, RFetch (-1) 1000 1 tt_ [(0, (5, 1000))]) (sent (ex_cfg Single) (crun (ex_cfg Single) (big_call 2 ++ big_call 3) ex_idle) (Call 4 (OpConsume tt_ None))) /\
  position (crun (ex_cfg Single) big_calls ex_idle) tt_ 0 = 5.
Proof.
  split; [exact ex_idle_reach|]. split.
  - assert (A : forall i (s : consumer Z) rq x mw mb asked, waits_for s i 1 rq -> (forall rq', waits_for s i 1 rq' -> rq' = RFetch x mw mb tt_ asked) -> In (0, (5, 1000)) asked ->
      exists x mw mb asked parts raw, rq = RFetch x mw mb tt_ asked /\ read_response demo_codec 5 rq raw = Some (Ok big_answer) /\ ((exists o limit, In (0, (o, limit)) asked /\ oversized demo_codec tt_ 0 limit parts raw) \/ dropped demo_codec tt_ 0 parts raw)).
    { intros i s rq x mw mb asked W H IA. rewrite (H rq W). exists x, mw, mb, asked, [(0, (0, []))], big_raw. split; [reflexivity|]. split; [apply big_read|]. left. exists 5, 1000. split; [exact IA|exact big_oversized]. }
    assert (B : forall i (s : consumer Z) rq x mw mb asked, waits_for s i 2 rq -> (forall rq', waits_for s i 2 rq' -> rq' = RFetch x mw mb tt_ asked) ->
      exists x mw mb asked parts raw, rq = RFetch x mw mb tt_ asked /\ read_response demo_codec 5 rq raw = Some (Ok none_answer) /\ ((exists o limit, In (0, (o, limit)) asked /\ oversized demo_codec tt_ 0 limit parts raw) \/ dropped demo_codec tt_ 0 parts raw)).
    { intros i s rq x mw mb asked W H. rewrite (H rq W). exists x, mw, mb, asked, [(1, (0, []))], none_raw. split; [reflexivity|]. split; [apply none_read|]. right. exact none_dropped. }
    unfold big_calls, big_call. cbn [app each_step idles].
    repeat (split; [first [exact Logic.I | intros rq W _; eapply A; [exact W| |apply in_eq]; intros rq' (o & k & w & rs & H & Q); vm_compute in H; injection H as <- <- <- <-; vm_compute in Q; injection Q as <-; reflexivity
      | intros rq W _; eapply B; [exact W|]; intros rq' (o & k & w & rs & H & Q); vm_compute in H; injection H as <- <- <- <-; vm_compute in Q; injection Q as <-; reflexivity]|]). exact Logic.I.
  - vm_compute. auto 6.
Qed.

(** ** a message that fits moves the position from 5 to 7 *)
Definition fit_msg : kmsg := kd None [200].
Definition fit_part : bytes := big_endian 4 0 ++ big_endian 2 0 ++ big_endian 8 7 ++ big_endian 4 (zlen (ent 6 0 fit_msg)) ++ ent 6 0 fit_msg.
Definition fit_raw : bytes := big_endian 4 1 ++ ((big_endian 2 (zlen tt_) ++ tt_) ++ big_endian 4 1 ++ fit_part).
Lemma fit_fetch : kw_fetch demo_codec 12 [(tt_, [(0, (0, [(6, fit_msg)]))])] fit_raw.
Proof.
  left. exists [(big_endian 2 (zlen tt_) ++ tt_) ++ big_endian 4 1 ++ fit_part]. split; [|split; [vm_compute; reflexivity|cbn [concat]; rewrite app_nil_r; reflexivity]].
  constructor; [|constructor]. exists (big_endian 2 (zlen tt_) ++ tt_), (big_endian 4 1 ++ fit_part). split; [exists tt_; split; [reflexivity|split; [vm_compute; reflexivity|reflexivity]]|]. split; [|reflexivity].
  exists [fit_part]. split; [|split; [vm_compute; reflexivity|cbn [concat]; rewrite app_nil_r; reflexivity]]. constructor; [|constructor].
  exists (big_endian 4 0), (big_endian 2 0), 7, (big_endian 8 7), (ent 6 0 fit_msg). cbn [fst snd].
  split; [split; [unfold fits; lia|reflexivity]|]. split; [split; [unfold fits; lia|reflexivity]|]. split; [split; [unfold fits; lia|reflexivity]|].
  split; [|split; [vm_compute; reflexivity|reflexivity]]. rewrite <- (app_nil_r (ent 6 0 fit_msg)). apply ks_plain; [|constructor].
  apply ent_ok; [unfold fits; lia|exact Logic.I|bytes_ok|vm_compute; reflexivity].
Qed.
Example C94_example_moves : let s := crun (ex_cfg Single) [Call 2 (OpConsume tt_ None)] ex_idle in exists r,
  position s tt_ 0 = 5 /\ 5 < position (cstep (ex_cfg Single) s (Arrive 2 1 (Ok r))) tt_ 0 /\
  read_response demo_codec 5 (RFetch (-1) 1000 1 tt_ [(0, (5, 1000))]) fit_raw = Some (Ok r).
Proof.
  cbv zeta. set (s := crun (ex_cfg Single) [Call 2 (OpConsume tt_ None)] ex_idle). assert (PS : position s tt_ 0 = 5) by (vm_compute; reflexivity).
  pose proof (C73_fetch demo_codec 4 (RFetch (-1) 1000 1 tt_ [(0, (5, 1000))]) fit_raw _ ltac:(repeat eexists) fit_fetch) as RR.
  eexists. split; [exact PS|]. split; [|exact RR]. rewrite <- PS.
  assert (K9 : kfrom (position s tt_ 0) [(6, fit_msg)] = [(6, fit_msg)]) by (rewrite PS; reflexivity).
  assert (WF : waits_for s 2 1 (RFetch (-1) 1000 1 tt_ [(0, (5, 1000))])). { assert (W : dget (c_calls s) 2 <> None) by (vm_compute; discriminate). destruct (dget (c_calls s) 2) as [[o [k w rs| |]]|] eqn:D; [| | |congruence]; vm_compute in D; try discriminate D. exists o, k, w, rs. injection D as <- <- <- <-. split; vm_compute; reflexivity. }
  assert (RE : reachable (ex_cfg Single) s). { destruct ex_idle_reach as (k & name & l0 & E). exists k, name, (l0 ++ [Call 2 (OpConsume tt_ None)]). unfold s. rewrite E. unfold crun. now rewrite fold_left_app. }
  eapply (C94_moves_partial (ex_cfg Single) demo_codec 4 s 2 1 _ tt_ 0 [(6, fit_msg)] fit_raw _ [(0, (0, [(6, fit_msg)]))] [] [(6, fit_msg)] 1%nat RE WF).
  - repeat eexists.
  - split; [repeat constructor|]. intros o [<-|[]]. cbn. lia.
  - exact fit_fetch.
  - repeat constructor. intros [].
  - repeat constructor. vm_compute. eauto.
  - now left.
  - now rewrite K9.
  - exists 6, fit_msg, 200. split; [now left|vm_compute; reflexivity].
  - exact RR.
Qed.

Print Assumptions C94_moves_partial.
Print Assumptions C94_stuck_refuted.
