(** Whatever consume() returns was in an answer to one of its fetches, across rebalances and overlapping calls. *)
From Coq Require Import ZArith Lia String List Bool.
From Verif Require Import PyBase BaseLemmas Constants Cluster Zookeeper Consumer SpecConsumer ConsumerProofs ConsumerSteps ConsumerRuns SpecLog.
Import ListNotations.
Open Scope Z_scope.

Section Sound.
  Context {V : Type}.
  Variable cfg : config V.
  Variable t : text.
  Variable P : V -> Prop.
  Notation st := (consumer V).

  (** every value that a consume(t) holds or has returned has the property *)
  Definition sound (s : st) : Prop :=
    (forall i o p, dget (c_calls s) i = Some (o, p) -> on_topic t o -> exists L, paid_pc cfg p L /\ Forall P L) /\
    (forall i o l, In (i, o, Ok (RvList l)) (c_ended s) -> on_topic t o -> Forall P l).
  (** so have those of the answers to its fetches *)
  Definition brings (s : st) (l : label) : Prop :=
    match l with Arrive i b (Ok r) => forall rq, waits_for s i b rq -> is_fetch t rq -> answers rq r = true -> Forall P (response_values cfg r) | _ => True end.

  Lemma pay_all L v : Forall P L -> pay cfg L v -> forall l, v = RvList l -> Forall P l.
  Proof. intros F [->|[[_ ->]|[-> _]]] l E; [injection E as <-; exact F|injection E as <-; constructor|discriminate E]. Qed.
  Lemma sound_continue (s s1 : st) j o ns L : inv cfg s -> c_calls s1 = c_calls s -> c_ended s1 = c_ended s -> c_calls (snd ns) = c_calls s1 -> c_ended (snd ns) = c_ended s1 ->
    nextpay cfg L (fst ns) -> (on_topic t o -> Forall P L) -> sound s -> sound (continue j o ns).
  Proof.
    intros I C1 E1 C2 E2 NP F [T1 T2]. assert (N' : NoDup (dkeys (c_calls (snd ns)))) by (rewrite C2, C1; apply I). split.
    - intros i o' p H ON. destruct (continue_calls j o ns i N') as [_ CC]. rewrite CC in H. destruct (i =? j) eqn:IJ; [|rewrite C2, C1 in H; eapply T1; eassumption].
      destruct (fst ns); try discriminate H. injection H as <- <-. exists L. split; [exact NP|auto].
    - intros i o' l H ON. rewrite continue_ended, E2, E1 in H. apply in_app_iff in H as [H|H]; [eapply T2; eassumption|]. destruct (fst ns) as [p|v|e]; [destruct H| |]; (destruct H as [H|[]]; try discriminate H). injection H as _ <- ->.
      apply (pay_all L (RvList l)); auto.
  Qed.
  Lemma sound_same (s s1 : st) : c_calls s1 = c_calls s -> c_ended s1 = c_ended s -> sound s -> sound s1.
  Proof. intros C E [A B]. split; [rewrite C; exact A|rewrite E; exact B]. Qed.
  Lemma sound_step s l : inv cfg s -> brings s l -> sound s -> sound (cstep cfg s l).
  Proof.
    intros I B S. pose proof (cstep_did cfg s l I) as D. remember (cstep cfg s l) as s' eqn:EQ.
    assert (AV : forall j b r o k w rs rq, l = Arrive j b r -> dget (c_calls s) j = Some (o, PSend k w rs) -> fits cfg o (PSend k w rs) -> dget w b = Some rq -> is_answer rq r = true -> on_topic t o -> Forall P (answer_vals cfg r)).
    { intros j b r o k w rs rq -> D1 F D2 D3 ON. destruct r as [resp|e]; cbn [answer_vals]; [|constructor]. cbn in D3.
      pose proof (ws_asks _ _ _ _ (proj2 F) _ _ (dget_In _ _ _ D2)) as A.
      assert (K : (exists t', k = KFetch t') \/ forall t', k <> KFetch t') by (destruct k; [right; discriminate|left; eauto|right; discriminate|right; discriminate]).
      destruct K as [(t' & ->)|K]; [|rewrite (answer_none cfg o k b rq resp (proj1 F) A D3 K); constructor].
      destruct o as [t1 start|m|]; cbn in ON; try contradiction. pose proof (proj1 F) as F1. cbn in F1, A. rewrite F1, ON in A. destruct A as (parts & ->).
      cbn [brings] in B. specialize (B _ ltac:(do 4 eexists; split; eassumption) ltac:(do 4 eexists; reflexivity) D3).
      rewrite Forall_forall in *. intros v X. apply filter_In in X as [X _]. now apply B. }
    destruct D as [l ID|j o ns D E PC|j b r o k w rs rq D F W IA HF NE F'|j b r o k w rs rq ns D F W IA E PC|j r o k rs s1 ns D F E PC|j r t1 start ns D E PC|k|g fn ac name ev M|].
    - exact S.
    - destruct PC as [(ex & M & _) _ _ PY]. eapply (sound_continue s s); eauto; apply M.
    - destruct (answer_state_same cfg r s) as (C1 & E1 & _). destruct (paid_some cfg k rs) as [lv PD].
      pose proof (fun ON => proj1 S _ _ _ D ON) as HELD. cbn [paid_pc] in HELD.
      assert (X : exists L, paid cfg k rs L /\ (on_topic t o -> Forall P L)).
      { destruct o as [t1 start|m|]; [destruct (list_eqb t1 t) eqn:TT|..]; [apply list_eqb_spec in TT; subst t1; destruct (HELD eq_refl) as (L & A1 & A2); exists L; auto| |..]; exists lv; (split; [exact PD|]); cbn; intros ON; [subst t1; rewrite (proj2 (list_eqb_spec t t) eq_refl) in TT; discriminate TT|destruct ON|destruct ON]. }
      destruct X as (L & X1 & X2). eapply (sound_continue s _ _ _ _ (L ++ answer_vals cfg r)); eauto; cbn [fst snd nextpay paid_pc]; auto.
      + eapply paid_answer; eauto; [apply F|]. eapply (ws_asks _ _ _ _ (proj2 F)), dget_In, W.
      + intros ON. apply Forall_app. split; [auto|]. eapply AV; eauto.
    - destruct (answer_state_same cfg r s) as (C1 & E1 & _). destruct (paid_some cfg k rs) as [lv PD].
      pose proof (fun ON => proj1 S _ _ _ D ON) as HELD. cbn [paid_pc] in HELD.
      assert (X : exists L, paid cfg k rs L /\ (on_topic t o -> Forall P L)).
      { destruct o as [t1 start|m|]; [destruct (list_eqb t1 t) eqn:TT|..]; [apply list_eqb_spec in TT; subst t1; destruct (HELD eq_refl) as (L & A1 & A2); exists L; auto| |..]; exists lv; (split; [exact PD|]); cbn; intros ON; [subst t1; rewrite (proj2 (list_eqb_spec t t) eq_refl) in TT; discriminate TT|destruct ON|destruct ON]. }
      destruct X as (L & X1 & X2). destruct (PC L X1) as [(ex & M & _) _ _ PY]. eapply (sound_continue s _ _ _ _ (L ++ answer_vals cfg r)); eauto; try apply M.
      intros ON. apply Forall_app. split; [auto|]. eapply AV; eauto.
    - assert (S1 : c_calls s1 = c_calls s /\ c_ended s1 = c_ended s) by (destruct E as [(u & _ & -> & _)|(e & _ & -> & _)]; split; reflexivity). destruct S1 as [C1 E1].
      destruct (paid_some cfg k rs) as [lv PD].
      pose proof (fun ON => proj1 S _ _ _ D ON) as HELD. cbn [paid_pc] in HELD.
      assert (X : exists L, paid cfg k rs L /\ (on_topic t o -> Forall P L)).
      { destruct o as [t1 start|m|]; [destruct (list_eqb t1 t) eqn:TT|..]; [apply list_eqb_spec in TT; subst t1; destruct (HELD eq_refl) as (L & A1 & A2); exists L; auto| |..]; exists lv; (split; [exact PD|]); cbn; intros ON; [subst t1; rewrite (proj2 (list_eqb_spec t t) eq_refl) in TT; discriminate TT|destruct ON|destruct ON]. }
      destruct X as (L & X1 & X2). destruct (PC L X1) as [(ex & M & _) _ _ PY]. eapply (sound_continue s s1 _ _ _ L); eauto; apply M.
    - destruct PC as [(ex & M & _) _ _ PY]. eapply (sound_continue s s); eauto; apply M.
    - eapply sound_same; [..|exact S]; reflexivity.
    - eapply sound_same; [..|exact S]; reflexivity.
    - eapply sound_same; [..|exact S]; reflexivity.
  Qed.
  Lemma sound_init k name : sound (consumer_init k name).
  Proof. split; [discriminate|intros i o l []]. Qed.
End Sound.
