(** What a group consumer's allocator knows, along a run: proofs for C49 and C65. *)
From Coq Require Import ZArith String List Bool Lia.
From Verif Require Import PyBase BaseLemmas Constants Cluster Zookeeper SpecZk ZkAlloc PropsZk Consumer SpecConsumer SpecGroup ConsumerProofs ConsumerSteps ConsumerRuns.
Import ListNotations.
Open Scope Z_scope.
Set Default Proof Using "Type".

Lemma rebalance_proper fn cb a : (forall ms ps mp, fn ms ps = Ok mp -> proper mp) -> proper (a_mapping a) -> proper (a_mapping (snd (rebalance fn cb a))).
Proof.
  intros F P. unfold rebalance. destruct (fn _ _) as [mp|e] eqn:E; [|exact P]. set (s1 := Al _ _ _ mp _ _ _ _ _). assert (P1 : proper (a_mapping s1)) by (eapply F, E).
  pose proof (allocation_proper s1 P1) as P2. destruct (allocation s1) as [[tm|e] s2]; exact P2.
Qed.
Lemma astep_proper fn cb a ev : (forall ms ps mp, fn ms ps = Ok mp -> proper mp) -> proper (a_mapping a) -> proper (a_mapping (astep fn cb a ev)).
Proof.
  intros F P. destruct ev as [ms|[ps|]|st|]; cbn [astep]; try exact P.
  - unfold on_members. destruct (set_eqb _ _); [exact P|]. pose proof (rebalance_proper fn cb (with_members (mkset ms) a) F P) as R. destruct (rebalance fn cb _) as [[u|e] s1]; exact R.
  - unfold on_partitions. destruct (set_eqb _ _); [exact P|]. pose proof (rebalance_proper fn cb (with_partitions ps a) F P) as R. destruct (rebalance fn cb _) as [[u|e] s1]; exact R.
  - now apply allocation_proper.
Qed.
Lemma allocate_proper members ps : forall cur mp mp', allocate members cur ps mp = Ok mp' -> proper (Mp true mp) -> proper (Mp true mp').
Proof.
  induction ps as [|part rest IH]; intros cur mp mp' H P; [injection H as <-; exact P|]. cbn [allocate] in H. destruct (match cur with [] => members | _ => cur end) as [|m cur'] eqn:C; [injection H as <-; exact P|].
  destruct (split_colon part) as [|t [|pid [|]]]; try discriminate H. destruct (py_int pid) as [p|e]; [|discriminate H]. cbn [bind] in H. eapply IH; [exact H|].
  unfold map_add. apply dset_proper; [exact P|]. apply nodup_dset. rewrite default_fst. destruct (dget mp m) as [tm|] eqn:D; [eapply P, D|constructor].
Qed.
(** the default allocator returns dicts *)
Lemma naive_proper ms ps mp : naive_allocator ms ps = Ok mp -> proper mp.
Proof.
  unfold naive_allocator. destruct (allocate ms [] ps []) as [tab|e] eqn:E; [|discriminate]. intros [= <-]. eapply allocate_proper; [exact E|]. intros m tm H. discriminate H.
Qed.

Section Runs.
  Context {V : Type}.
  Variable cfg : config V.
  Notation st := (consumer V).

  Definition told1 (l : label) : list aevent := match l with Alloc ev => [ev] | _ => [] end.
  (** one step: the allocator is notified, or its tables are only read *)
  Record alloc_read (a a' : allocator) : Prop := {
    ar_gives : forall m t, gives_to (a_mapping a') m t = gives_to (a_mapping a) m t;
    ar_members : a_members a' = a_members a; ar_partitions : a_partitions a' = a_partitions a; ar_name : a_name a' = a_name a;
    ar_proper : proper (a_mapping a) -> proper (a_mapping a') }.
  Lemma alloc_read_refl a : alloc_read a a.
  Proof. constructor; auto. Qed.
  Lemma alloc_step s l : inv cfg s ->
    (exists g fn ac name ev, md cfg = Grouped g fn ac name /\ l = Alloc ev /\ c_alloc (cstep cfg s l) = astep fn true (c_alloc s) ev) \/
    ((forall ev, l = Alloc ev -> md cfg = Single) /\ alloc_read (c_alloc s) (c_alloc (cstep cfg s l))).
  Proof.
    intros IV. destruct (step_cases cfg s l IV) as [(i & o & look & s1 & ns & ex & A)|[(E & ID)|[(k & -> & E)|[(-> & E)|(g & fn & ac & name & ev & M & -> & E)]]]].
    - right. destruct (acts_before _ _ _ _ _ _ _ _ _ A) as (_ & _ & _ & _ & EA & _). destruct A as [ST MV _ _ FR]. split.
      { intros ev ->. destruct FR as [(H & _)|[(b & r & k & w & rs & rq & H & _)|[(r & k & rs & H & _)|(r & t & H & _)]]]; discriminate H. }
      rewrite ST. destruct (continue_same i o ns) as (_ & _ & _ & _ & _ & _ & -> & _). rewrite <- EA. constructor; apply MV.
    - right. rewrite E. split; [|apply alloc_read_refl]. intros ev ->. exact ID.
    - right. split; [discriminate|]. rewrite E. apply alloc_read_refl.
    - right. split; [discriminate|]. rewrite E. apply alloc_read_refl.
    - left. exists g, fn, ac, name, ev. rewrite E. auto.
  Qed.
  Lemma proper_reach (s : st) : returns_dicts cfg -> reachable cfg s -> proper (a_mapping (c_alloc s)).
  Proof.
    intros RD (k & name & ls & ->). assert (IV : inv cfg (consumer_init k name)) by apply inv_init. assert (P : proper (a_mapping (c_alloc (@consumer_init V k name)))) by (intros m tm H; discriminate H).
    revert IV P. generalize (@consumer_init V k name). induction ls as [|l ls IH]; intros s IV P; [exact P|]. apply IH; [now apply inv_step|].
    destruct (alloc_step s l IV) as [(g & fn & ac & nm & ev & M & -> & ->)|(_ & AR)]; [|now apply AR]. apply astep_proper; [|exact P]. intros ms ps mp. eapply RD, M.
  Qed.

  Variable good : text -> Prop.
  Lemma linv_read fn lm lp a a' : alloc_read a a' -> linv fn good lm lp a -> linv fn good lm lp a'.
  Proof.
    intros [G M P N _] [L1 L2 L3 L4 L5 L6]. constructor; rewrite ?M, ?P; auto. destruct L6 as [(E1 & E2 & E3)|(mp & E1 & E2)]; [left|right].
    - split; [exact E1|]. split; [exact E2|]. intros m t. now rewrite G.
    - exists mp. split; [exact E1|]. intros m t. now rewrite G.
  Qed.
  Lemma linv_run g fn ac nm ls : md cfg = Grouped g fn ac nm -> ZkAlloc.total fn good -> forall (s : st) lm lp, inv cfg s -> (forall ev, In (Alloc ev) ls -> good_event good ev) -> linv fn good lm lp (c_alloc s) ->
    linv fn good (fold_left (fun acc ev => match ev with EvMembers ms => ms | _ => acc end) (flat_map told1 ls) lm)
         (fold_left (fun acc ev => match ev with EvPartitions (Some ps) => ps | _ => acc end) (flat_map told1 ls) lp) (c_alloc (crun cfg ls s)) /\ a_name (c_alloc (crun cfg ls s)) = a_name (c_alloc s).
  Proof.
    intros M T. induction ls as [|l ls IH]; intros s lm lp IV G L; [auto|]. change (crun cfg (l :: ls) s) with (crun cfg ls (cstep cfg s l)). cbn [flat_map]. rewrite !fold_left_app.
    assert (G' : forall ev, In (Alloc ev) ls -> good_event good ev) by (intros ev H; apply G; now right).
    destruct (alloc_step s l IV) as [(g' & fn' & ac' & nm' & ev & M' & -> & E)|(NA & AR)].
    - rewrite M in M'. injection M' as <- <- <- <-. cbn [told1 fold_left].
      destruct (IH (cstep cfg s (Alloc ev)) (match ev with EvMembers ms => ms | _ => lm end) (match ev with EvPartitions (Some ps) => ps | _ => lp end)) as [A B]; [now apply inv_step|exact G'|rewrite E; apply linv_step; [exact T|apply G; now left|exact L]|].
      split; [exact A|]. rewrite B, E. apply step_name.
    - assert (E : told1 l = []) by (destruct l; try reflexivity; rewrite (NA _ eq_refl) in M; discriminate M). rewrite E. cbn [fold_left].
      destruct (IH (cstep cfg s l) lm lp) as [A B]; [now apply inv_step|exact G'|eapply linv_read; eassumption|]. split; [exact A|]. rewrite B. apply AR.
  Qed.
End Runs.
