(** Facts about the consumer model: what each piece of code leaves alone, and what it sends. *)
From Coq Require Import ZArith String List Bool Lia Permutation Sorting.Sorted.
From Verif Require Import PyBase BaseLemmas Constants Cluster Zookeeper SpecZk ZkProofs ZkAlloc Consumer SpecConsumer.
Import ListNotations.
Open Scope Z_scope.
Set Default Proof Using "Type".

Section Proofs.
  Context {V : Type}.
  Variable cfg : config V.
  Notation st := (consumer V).

  (** ** reading tables changes nothing that can be seen *)
  Record quiet (s s' : st) : Prop := {
    q_synced : c_synced s' = c_synced s; q_heal : c_heal s' = c_heal s; q_closing : c_closing s' = c_closing s;
    q_coord : c_coord s' = c_coord s; q_tocommit : c_tocommit s' = c_tocommit s; q_calls : c_calls s' = c_calls s;
    q_wire : c_wire s' = c_wire s; q_ended : c_ended s' = c_ended s;
    q_pos : forall t p, position s' t p = position s t p;
    q_conns : k_conns (c_cluster s') = k_conns (c_cluster s);
    q_leader : forall t p, leader_of s' t p = leader_of s t p;
    q_alloc : forall t, alloc_of cfg s' t = alloc_of cfg s t;
    q_callbacks : a_callbacks (c_alloc s') = a_callbacks (c_alloc s);
    q_name : a_name (c_alloc s') = a_name (c_alloc s);
    q_gives : forall m t, gives_to (a_mapping (c_alloc s')) m t = gives_to (a_mapping (c_alloc s)) m t;
    q_members : a_members (c_alloc s') = a_members (c_alloc s);
    q_partitions : a_partitions (c_alloc s') = a_partitions (c_alloc s);
    q_proper : proper (a_mapping (c_alloc s)) -> proper (a_mapping (c_alloc s')) }.
  Lemma quiet_refl s : quiet s s.
  Proof. constructor; auto. Qed.
  Lemma quiet_trans s1 s2 s3 : quiet s1 s2 -> quiet s2 s3 -> quiet s1 s3.
  Proof. intros [] []. constructor; [..|auto]; clear q_proper0 q_proper1; intros; try congruence; etransitivity; eauto. Qed.

  Lemma position_cong (s s' : st) : c_offsets s' = c_offsets s -> forall t p, position s' t p = position s t p.
  Proof. intros E t p. unfold position. now rewrite E. Qed.
  Lemma alloc_cong (s s' : st) : c_cluster s' = c_cluster s -> c_alloc s' = c_alloc s -> forall t, alloc_of cfg s' t = alloc_of cfg s t.
  Proof. intros E1 E2 t. unfold alloc_of. now rewrite E1, E2. Qed.
  Lemma leader_cong (s s' : st) : c_cluster s' = c_cluster s -> forall t p, leader_of s' t p = leader_of s t p.
  Proof. intros E t p. unfold leader_of. now rewrite E. Qed.


  Lemma default_get {K A} `{EqB K} (dflt : A) (d : dict K A) k k' : dget (snd (ddefault dflt d k)) k' = dget d k' \/ (k' = k /\ dget d k = None /\ dget (snd (ddefault dflt d k)) k' = Some dflt).
  Proof.
    unfold ddefault. destruct (dget d k) eqn:G; [now left|]. cbn [snd]. destruct (eqb_dec k' k) as [->|N]; [right; split; [reflexivity|split; [first [exact G|reflexivity]|apply dget_dset_same]]|left; now apply dget_dset_other].
  Qed.
  Lemma default_fst {K A} `{EqB K} (dflt : A) (d : dict K A) k : fst (ddefault dflt d k) = match dget d k with Some v => v | None => dflt end.
  Proof. unfold ddefault. now destruct (dget d k). Qed.

  Lemma dset_dset {K A} `{EqB K} (d : dict K A) k v w : dset (dset d k v) k w = dset d k w.
  Proof. induction d as [|[k' v'] d IH]; cbn; [now rewrite eqb_refl|]. destruct (eqb k' k) eqn:E; cbn; rewrite E; [reflexivity|]. now rewrite IH. Qed.
  Lemma flat_dset {K A} `{EqB K} (d : dict K (list A)) k x : NoDup (dkeys d) ->
    Permutation (flat_map snd (dset d k (match dget d k with Some v => v | None => [] end ++ [x]))) (flat_map snd d ++ [x]).
  Proof.
    unfold dkeys. induction d as [|[k' v'] d IH]; cbn; intros N; [reflexivity|]. inversion N as [|? ? N1 N2]; subst. destruct (eqb k' k) eqn:E; cbn.
    - rewrite <- !app_assoc. apply Permutation_app_head, Permutation_app_comm.
    - rewrite <- app_assoc. apply Permutation_app_head. now apply IH.
  Qed.
  Lemma offset_get_spec t p (s : st) : let r := offset_get t p s in
    fst r = position s t p /\ quiet s (snd r) /\ c_cluster (snd r) = c_cluster s /\ c_alloc (snd r) = c_alloc s.
  Proof.
    cbv zeta. unfold offset_get, position. pose proof (@default_fst text (dict Z Z) _ [] (c_offsets s) t) as F1. pose proof (@default_get text (dict Z Z) _ [] (c_offsets s) t) as D1.
    destruct (@ddefault text (dict Z Z) _ [] (c_offsets s) t) as [d o] eqn:E1. cbn [fst snd] in F1, D1.
    pose proof (default_fst 0 d p) as F2. pose proof (default_get 0 d p) as D2. destruct (ddefault 0 d p) as [v d1] eqn:E2. cbn [fst snd] in *.
    split; [rewrite F2, F1; destruct (dget (c_offsets s) t); reflexivity|]. split; [|split; reflexivity].
    constructor; try reflexivity; try exact (fun H => H). intros t' p'. unfold position. cbn [set_offsets c_offsets]. destruct (eqb_dec t' t) as [->|N].
    - rewrite dget_dset_same. destruct (D2 p') as [->|(-> & G & ->)].
      + rewrite F1. destruct (dget (c_offsets s) t); reflexivity.
      + rewrite F1 in G. destruct (dget (c_offsets s) t); [now rewrite G|reflexivity].
    - rewrite dget_dset_other by exact N. destruct (D1 t') as [->|(-> & _)]; [reflexivity|congruence].
  Qed.
  Lemma offset_set_spec t p v (s : st) : let s' := offset_set t p v s in
    position s' t p = v /\ (forall t' p', t' <> t \/ p' <> p -> position s' t' p' = position s t' p') /\
    exists o, s' = set_offsets o s.
  Proof.
    cbv zeta. unfold offset_set, position. pose proof (@default_fst text (dict Z Z) _ [] (c_offsets s) t) as F1. pose proof (@default_get text (dict Z Z) _ [] (c_offsets s) t) as D1.
    destruct (@ddefault text (dict Z Z) _ [] (c_offsets s) t) as [d o] eqn:E1. cbn [fst snd set_offsets c_offsets] in *.
    split; [rewrite !dget_dset_same; reflexivity|]. split; [|eexists; reflexivity]. intros t' p' N. destruct (eqb_dec t' t) as [->|Nt].
    - rewrite dget_dset_same. destruct N as [N|N]; [congruence|]. rewrite dget_dset_other by exact N. rewrite F1. destruct (dget (c_offsets s) t); reflexivity.
    - rewrite dget_dset_other by exact Nt. destruct (D1 t') as [->|(-> & _)]; [reflexivity|congruence].
  Qed.

  Lemma quiet_alloc a (s : st) : (forall m t, gives_to (a_mapping a) m t = gives_to (a_mapping (c_alloc s)) m t) -> a_name a = a_name (c_alloc s) -> a_callbacks a = a_callbacks (c_alloc s) -> a_members a = a_members (c_alloc s) -> a_partitions a = a_partitions (c_alloc s) -> (proper (a_mapping (c_alloc s)) -> proper (a_mapping a)) -> quiet s (set_alloc a s).
  Proof.
    intros G N C EM EP PR. constructor; try reflexivity; try exact (fun H => H); try assumption. intros t. unfold alloc_of. cbn [set_alloc c_alloc c_cluster]. destruct (md cfg); [reflexivity|]. now rewrite N, G.
  Qed.
  Lemma dset_proper b tab m tm : proper (Mp b tab) -> NoDup (dkeys tm) -> proper (Mp b (dset tab m tm)).
  Proof.
    intros P N m' tm'. cbn [mp_tab]. destruct (eqb_dec m' m) as [->|NE]; [rewrite dget_dset_same; intros [= <-]; exact N|rewrite dget_dset_other by exact NE; apply P].
  Qed.
  Lemma allocation_proper a : proper (a_mapping a) -> proper (a_mapping (snd (allocation a))).
  Proof.
    intros P. unfold allocation. destruct (dget (mp_tab (a_mapping a)) (a_name a)) eqn:D; [exact P|]. destruct (mp_default (a_mapping a)) eqn:M; [|exact P]. cbn [snd a_mapping].
    apply dset_proper; [exact P|constructor].
  Qed.
  Lemma quiet_allocation (s : st) : quiet s (set_alloc (snd (allocation (c_alloc s))) s).
  Proof. pose proof (allocation_gives (c_alloc s)) as A. cbv zeta in A. apply quiet_alloc; [apply A..|apply allocation_proper]. Qed.
  Lemma alloc_map_quiet (s : st) : quiet s (snd (alloc_map cfg s)).
  Proof.
    unfold alloc_map. destruct (md cfg) as [|g fn ac n]; [apply quiet_refl|]. pose proof (quiet_allocation s) as Q. destruct (allocation (c_alloc s)) as [r a]. exact Q.
  Qed.
  (** the map read is what [alloc_of] shows *)
  Lemma alloc_map_get (s : st) m : fst (alloc_map cfg s) = Ok m -> forall t ps, dget m t = Some ps -> alloc_of cfg s t = ps.
  Proof.
    unfold alloc_map, alloc_of. destruct (md cfg) as [|g fn ac n].
    - cbn [fst]. intros E t ps G. injection E as <-. now rewrite G.
    - unfold allocation. intros E t ps G. destruct (dget (mp_tab (a_mapping (c_alloc s))) (a_name (c_alloc s))) eqn:D; cbn [fst] in E.
      + injection E as <-. unfold gives_to. rewrite D. now rewrite G.
      + destruct (mp_default (a_mapping (c_alloc s))); cbn [fst] in E; [|discriminate]. injection E as <-. discriminate G.
  Qed.
  Lemma alloc_map_miss (s : st) m : fst (alloc_map cfg s) = Ok m -> forall t, dget m t = None -> alloc_of cfg s t = [].
  Proof.
    unfold alloc_map, alloc_of. destruct (md cfg) as [|g fn ac n].
    - cbn [fst]. intros E t G. injection E as <-. now rewrite G.
    - unfold allocation, gives_to. intros E t G. destruct (dget (mp_tab (a_mapping (c_alloc s))) (a_name (c_alloc s))) eqn:D; cbn [fst] in E.
      + injection E as <-. now rewrite G.
      + reflexivity.
  Qed.
  Lemma alloc_index_spec t (s : st) : quiet s (snd (alloc_index cfg t s)) /\ forall ps, fst (alloc_index cfg t s) = Ok ps -> ps = alloc_of cfg s t.
  Proof.
    unfold alloc_index. destruct (md cfg) as [|g fn ac n] eqn:M.
    - pose proof (default_fst (@nil Z) (k_topics (c_cluster s)) t) as F. pose proof (default_get (@nil Z) (k_topics (c_cluster s)) t) as D.
      destruct (ddefault (@nil Z) (k_topics (c_cluster s)) t) as [ps ts]. cbn [fst snd] in *. split.
      + constructor; try reflexivity; try exact (fun H => H). intros t'. unfold alloc_of. rewrite M. cbn [set_cluster c_cluster k_topics]. destruct (D t') as [->|(-> & G & ->)]; [reflexivity|]. now rewrite G.
      + intros ps' E. injection E as <-. unfold alloc_of. now rewrite M, F.
    - pose proof (quiet_allocation s) as Q. pose proof (allocation_gives (c_alloc s)) as A. cbv zeta in A. unfold alloc_of at 1. rewrite M.
      destruct (allocation (c_alloc s)) as [r a] eqn:AE. cbn [snd] in Q, A. destruct r as [tm|e]; [|split; [exact Q|discriminate]].
      assert (TM : forall t', gives_to (a_mapping (c_alloc s)) (a_name (c_alloc s)) t' = match dget tm t' with Some ps => ps | None => [] end).
      { intros t'. unfold allocation in AE. unfold gives_to. destruct (dget (mp_tab (a_mapping (c_alloc s))) (a_name (c_alloc s))) eqn:D; [injection AE as <- <-; reflexivity|].
        destruct (mp_default (a_mapping (c_alloc s))); [injection AE as <- <-; reflexivity|discriminate AE]. }
      destruct (dget tm t) as [ps|] eqn:D; [split; [exact Q|]; cbn [fst]; intros ps' E; injection E as <-; rewrite TM, D; reflexivity|].
      destruct (mp_default (a_mapping a)) eqn:MD; [|split; [exact Q|discriminate]]. split; [|cbn [fst]; intros ps' E; injection E as <-; rewrite TM, D; reflexivity].
      cbn [snd]. apply quiet_alloc; [|apply A..|].
      2: { intros P. pose proof (allocation_proper _ P) as P'. rewrite AE in P'. cbn [snd] in P'. cbn [a_mapping]. apply dset_proper; [exact P'|]. apply nodup_dset.
           unfold allocation in AE. destruct (dget (mp_tab (a_mapping (c_alloc s))) (a_name (c_alloc s))) eqn:D'; [injection AE as <- <-; eapply P, D'|]. destruct (mp_default (a_mapping (c_alloc s))); [injection AE as <- <-; constructor|discriminate AE]. }
      intros m t'. destruct A as (A & N & _). rewrite <- A. cbn [a_mapping]. unfold gives_to at 1. cbn [mp_tab].
      destruct (eqb_dec m (a_name a)) as [->|NE]; [|rewrite dget_dset_other by exact NE; reflexivity]. rewrite dget_dset_same. rewrite N, A, TM.
      destruct (eqb_dec t' t) as [->|NT]; [now rewrite dget_dset_same, D|now rewrite dget_dset_other].
  Qed.
  Lemma allocated_spec t (s : st) : quiet s (snd (allocated cfg t s)) /\
    (fst (allocated cfg t s) = Ok true -> alloc_of cfg s t <> []) /\ (fst (allocated cfg t s) = Ok false -> alloc_of cfg s t = []).
  Proof.
    unfold allocated. pose proof (alloc_map_quiet s) as Q. pose proof (alloc_map_miss s) as MI. destruct (alloc_map cfg s) as [[m|e] s1]; cbn [fst snd] in *; [|split; [exact Q|split; discriminate]].
    unfold dmem. destruct (dget m t) as [ps0|] eqn:D.
    - destruct (alloc_index_spec t s1) as [Q2 X]. destruct (alloc_index cfg t s1) as [[ps|e] s2]; cbn [fst snd] in *; (split; [eapply quiet_trans; eassumption|]); [|split; discriminate].
      specialize (X ps eq_refl). rewrite (q_alloc _ _ Q) in X. subst ps. destruct (alloc_of cfg s t); cbn; split; congruence.
    - split; [exact Q|]. split; [discriminate|]. intros _. cbn [fst]. now apply (MI m eq_refl).
  Qed.

  Lemma get_leader_spec t p (s : st) : let r := get_leader t p (c_cluster s) in
    quiet s (set_cluster (snd r) s) /\ (forall l, fst r = Ok l <-> leader_of s t p = Some l).
  Proof.
    cbv zeta. unfold get_leader, leader_of. pose proof (@default_fst text (dict Z Z) _ [] (k_leaders (c_cluster s)) t) as F. pose proof (@default_get text (dict Z Z) _ [] (k_leaders (c_cluster s)) t) as D.
    destruct (@ddefault text (dict Z Z) _ [] (k_leaders (c_cluster s)) t) as [d ld]. cbn [fst snd] in *. split.
    - constructor; try reflexivity; try exact (fun H => H). intros t' p'. unfold leader_of. cbn [set_cluster c_cluster k_leaders]. destruct (D t') as [->|(-> & G & ->)]; [reflexivity|]. now rewrite G.
    - intros l. unfold dindex. rewrite F. destruct (dget (k_leaders (c_cluster s)) t) as [d'|]; [|cbn; split; discriminate]. destruct (dget d' p); cbn; split; congruence.
  Qed.
  Lemma order_leaders_spec t ps : forall acc (s : st), quiet s (snd (order_leaders t ps acc s)) /\
    forall ord, fst (order_leaders t ps acc s) = Ok ord -> NoDup (dkeys acc) -> (forall l q, In (l, q) acc -> q <> []) ->
      NoDup (dkeys ord) /\ (forall l q, In (l, q) ord -> q <> []) /\ Permutation (flat_map snd ord) (flat_map snd acc ++ ps) /\
      forall l p, (exists q, In (l, q) ord /\ In p q) <-> (exists q, In (l, q) acc /\ In p q) \/ (In p ps /\ leader_of s t p = Some l).
  Proof.
    induction ps as [|p ps IH]; intros acc s; cbn [order_leaders].
    - split; [apply quiet_refl|]. cbn [fst]. intros ord E N NE. injection E as <-. rewrite app_nil_r. repeat split; auto; try tauto. intros [H|[[] _]]. exact H.
    - destruct (get_leader_spec t p s) as [Q L]. destruct (get_leader t p (c_cluster s)) as [[l|e] k]; cbn [fst snd] in *; [|split; [exact Q|discriminate]].
      pose proof (default_fst (@nil Z) acc l) as F. destruct (ddefault (@nil Z) acc l) as [q acc1] eqn:DE. cbn [fst] in F.
      destruct (IH (dset acc1 l (q ++ [p])) (set_cluster k s)) as [Q2 X]. split; [eapply quiet_trans; eassumption|]. intros ord E N NE.
      assert (A1 : dset acc1 l (q ++ [p]) = dset acc l (q ++ [p])).
      { unfold ddefault in DE. destruct (dget acc l) eqn:G; injection DE as <- <-; [reflexivity|]. apply dset_dset. }
      rewrite A1 in X, E. assert (N' : NoDup (dkeys (dset acc l (q ++ [p])))) by now apply nodup_dset.
      assert (INS : forall l' q', In (l', q') (dset acc l (q ++ [p])) <-> (l' = l /\ q' = q ++ [p]) \/ (l' <> l /\ In (l', q') acc)).
      { intros l' q'. split.
        - intros H. apply (In_dget_nodup _ _ _ N') in H. destruct (eqb_dec l' l) as [->|NL]; [rewrite dget_dset_same in H; injection H as <-; now left|].
          rewrite dget_dset_other in H by exact NL. right. split; [exact NL|]. now apply dget_In in H.
        - intros [[-> ->]|[NL H]]; [apply dget_In, dget_dset_same|]. apply dget_In. rewrite dget_dset_other by exact NL. now apply In_dget_nodup. }
      destruct (X ord E N') as (B1 & B2 & B3 & B4).
      { intros l' q' H. apply INS in H as [[-> ->]|[_ H]]; [destruct q; discriminate|eapply NE; eassumption]. }
      split; [exact B1|]. split; [exact B2|]. split.
      + rewrite B3. change (p :: ps) with ([p] ++ ps). rewrite app_assoc. apply Permutation_app_tail. rewrite F. now apply flat_dset.
      + intros l' p'. rewrite B4. rewrite (q_leader _ _ Q). split.
        * intros [(q' & H1 & H2)|[H1 H2]]; [|right; split; [now right|exact H2]]. apply INS in H1 as [[-> ->]|[NL H1]]; [|left; eauto].
          apply in_app_iff in H2 as [H2|[<-|[]]]; [|right; split; [now left|now apply L]]. left. exists q. split; [|exact H2].
          destruct (dget acc l) eqn:G; [subst q; now apply dget_In in G|subst q; destruct H2].
        * intros [(q' & H1 & H2)|[[<-|H1] H2]]; [|left; assert (l' = l) by (apply L in H2; congruence); subst l'; exists (q ++ [p]); split; [apply INS; now left|apply in_app_iff; right; now left]|right; auto].
          left. destruct (eqb_dec l' l) as [->|NL]; [|exists q'; split; [apply INS; now right|exact H2]].
          exists (q ++ [p]). split; [apply INS; now left|]. apply in_app_iff. left. apply (In_dget_nodup _ _ _ N) in H1. rewrite H1 in F. now subst q.
  Qed.

  Lemma fetch_parts_spec t ps mb : forall (s : st), quiet s (snd (fetch_parts t ps mb s)) /\ c_cluster (snd (fetch_parts t ps mb s)) = c_cluster s /\
    fst (fetch_parts t ps mb s) = map (fun p => (p, (position s t p, mb))) ps.
  Proof.
    induction ps as [|p ps IH]; intros s; cbn [fetch_parts]; [split; [apply quiet_refl|]; split; reflexivity|].
    destruct (offset_get_spec t p s) as (O & Q & C & _). destruct (offset_get t p s) as [o s1]. cbn [fst snd] in *. destruct (IH s1) as (Q2 & C2 & X).
    destruct (fetch_parts t ps mb s1) as [r s2]. cbn [fst snd] in *. split; [eapply quiet_trans; eassumption|]. split; [congruence|]. subst. cbn [map]. f_equal.
    apply map_ext. intros p'. now rewrite (q_pos _ _ Q).
  Qed.
  Lemma fetch_requests_spec t ord : forall (s : st), quiet s (snd (fetch_requests cfg t ord s)) /\
    fst (fetch_requests cfg t ord s) =
      map (fun lp => (fst lp, RFetch CONSUMER_REPLICA_ID (max_wait cfg) (min_bytes cfg) t (map (fun p => (p, (position s t p, Z.quot (max_bytes cfg) (zlen (snd lp))))) (snd lp)))) ord.
  Proof.
    induction ord as [|[l ps] ord IH]; intros s; cbn [fetch_requests]; [split; [apply quiet_refl|reflexivity]|].
    destruct (fetch_parts_spec t ps (Z.quot (max_bytes cfg) (zlen ps)) s) as (Q & _ & X). destruct (fetch_parts t ps _ s) as [parts s1]. cbn [fst snd] in *.
    destruct (IH s1) as (Q2 & X2). destruct (fetch_requests cfg t ord s1) as [r s2]. cbn [fst snd] in *. split; [eapply quiet_trans; eassumption|]. subst. cbn [map fst snd]. f_equal.
    apply map_ext. intros [l' ps']. cbn [fst snd]. do 2 f_equal. apply map_ext. intros p. now rewrite (q_pos _ _ Q).
  Qed.
  Lemma commit_parts_spec t ps m : forall (s : st), quiet s (snd (commit_parts t ps m s)) /\ c_alloc (snd (commit_parts t ps m s)) = c_alloc s /\ fst (commit_parts t ps m s) = map (fun p => (p, (position s t p, m))) ps.
  Proof.
    induction ps as [|p ps IH]; intros s; cbn [commit_parts]; [split; [apply quiet_refl|split; reflexivity]|].
    destruct (offset_get_spec t p s) as (O & Q & _ & C). destruct (offset_get t p s) as [o s1]. cbn [fst snd] in *. destruct (IH s1) as (Q2 & C2 & X).
    destruct (commit_parts t ps m s1) as [r s2]. cbn [fst snd] in *. split; [eapply quiet_trans; eassumption|]. split; [congruence|]. subst. cbn [map]. f_equal.
    apply map_ext. intros p'. now rewrite (q_pos _ _ Q).
  Qed.
  Lemma commit_topics_spec am m : forall (s : st), quiet s (snd (commit_topics am m s)) /\ c_alloc (snd (commit_topics am m s)) = c_alloc s /\
    fst (commit_topics am m s) = map (fun tp => (fst tp, map (fun p => (p, (position s (fst tp) p, m))) (snd tp))) (filter (fun tp => smem (c_tocommit s) (fst tp)) am).
  Proof.
    induction am as [|[t ps] am IH]; intros s; cbn [commit_topics]; [split; [apply quiet_refl|split; reflexivity]|]. cbn [filter fst].
    destruct (smem (c_tocommit s) t) eqn:SM; [|apply IH].
    destruct (commit_parts_spec t ps m s) as (Q & C & X). destruct (commit_parts t ps m s) as [parts s1]. cbn [fst snd] in *.
    destruct (IH s1) as (Q2 & C2 & X2). destruct (commit_topics am m s1) as [r s2]. cbn [fst snd] in *. split; [eapply quiet_trans; eassumption|]. split; [congruence|]. subst. cbn [map fst snd]. f_equal.
    rewrite (q_tocommit _ _ Q). apply map_ext. intros [t' ps']. cbn [fst snd]. f_equal. apply map_ext. intros p. now rewrite (q_pos _ _ Q).
  Qed.
  Lemma offset_requests_quiet t time ps : forall acc (s : st), quiet s (snd (offset_requests t time ps acc s)).
  Proof.
    induction ps as [|p ps IH]; intros acc s; cbn [offset_requests]; [apply quiet_refl|]. destruct (get_leader_spec t p s) as [Q _].
    destruct (get_leader t p (c_cluster s)) as [[l|e] k]; cbn [snd] in *; [|exact Q]. eapply quiet_trans; [exact Q|apply IH].
  Qed.

  (** the lookup requests group the partitions by leader like the fetch requests do *)
  Definition as_lookup (t : text) (time : pyval) (lq : Z * list Z) : Z * request := (fst lq, ROffset CONSUMER_REPLICA_ID t (map (fun p => (p, (time, 1))) (snd lq))).
  Lemma dget_as_lookup t time acc l : dget (map (as_lookup t time) acc) l = match dget acc l with Some q => Some (ROffset CONSUMER_REPLICA_ID t (map (fun p => (p, (time, 1))) q)) | None => None end.
  Proof. induction acc as [|[l' q] acc IH]; [reflexivity|]. cbn [map as_lookup fst snd dget]. destruct (eqb l' l); [reflexivity|exact IH]. Qed.
  Lemma dset_as_lookup t time acc l q : dset (map (as_lookup t time) acc) l (ROffset CONSUMER_REPLICA_ID t (map (fun p => (p, (time, 1))) q)) = map (as_lookup t time) (dset acc l q).
  Proof. induction acc as [|[l' q'] acc IH]; [reflexivity|]. cbn [map as_lookup fst snd dset]. destruct (eqb l' l); [reflexivity|]. cbn [map]. now rewrite IH. Qed.
  Lemma offset_requests_leaders t time ps : forall acc (s : st),
    snd (offset_requests t time ps (map (as_lookup t time) acc) s) = snd (order_leaders t ps acc s) /\
    fst (offset_requests t time ps (map (as_lookup t time) acc) s) = match fst (order_leaders t ps acc s) with Ok ord => Ok (map (as_lookup t time) ord) | Err e => Err e end.
  Proof.
    induction ps as [|p ps IH]; intros acc s; cbn [offset_requests order_leaders]; [split; reflexivity|].
    destruct (get_leader t p (c_cluster s)) as [[l|e] k]; [|split; reflexivity].
    destruct (@ddefault Z (list Z) _ [] acc l) as [q acc1] eqn:DE. rewrite dget_as_lookup.
    assert (A1 : dset acc1 l (q ++ [p]) = dset acc l (match dget acc l with Some q => q | None => [] end ++ [p])).
    { unfold ddefault in DE. destruct (dget acc l) eqn:G; injection DE as <- <-; [reflexivity|]. apply dset_dset. }
    rewrite A1.
    assert (A2 : (match match dget acc l with Some q0 => Some (ROffset CONSUMER_REPLICA_ID t (map (fun p0 => (p0, (time, 1))) q0)) | None => None end with Some (ROffset _ _ parts) => parts | _ => [] end ++ [(p, (time, 1))])
                 = map (fun p0 : Z => (p0, (time, 1))) (match dget acc l with Some q0 => q0 | None => [] end ++ [p])) by (rewrite map_app; destruct (dget acc l); reflexivity).
    rewrite A2, dset_as_lookup. apply IH.
  Qed.
  Definition looking (s' : st) (t : text) (time : pyval) (rqs : dict Z request) : Prop :=
    NoDup (dkeys rqs) /\
    Permutation (flat_map (fun br => match snd br with ROffset _ _ parts => map fst parts | _ => [] end) rqs) (alloc_of cfg s' t) /\
    forall b rq, In (b, rq) rqs -> exists parts, parts <> [] /\ rq = ROffset CONSUMER_REPLICA_ID t parts /\
      (forall p tm mx, In (p, (tm, mx)) parts -> leader_of s' t p = Some b /\ tm = time /\ mx = 1).
  Lemma offset_requests_spec t time ps (s : st) rqs : fst (offset_requests t time ps [] s) = Ok rqs -> alloc_of cfg s t = ps -> looking (snd (offset_requests t time ps [] s)) t time rqs.
  Proof.
    intros E A. destruct (offset_requests_leaders t time ps [] s) as [S F]. cbn [map] in S, F. rewrite F in E. rewrite S. clear F S.
    destruct (order_leaders_spec t ps [] s) as (Q & Y). destruct (order_leaders t ps [] s) as [[ord|e] s3]; cbn [fst snd] in *; [|discriminate]. injection E as <-.
    destruct (Y ord eq_refl) as (N & NE & PM & LD); [constructor|intros l q []|]. cbn [flat_map app] in PM.
    assert (FM : flat_map (fun br => match snd br with ROffset _ _ parts => map fst parts | _ => [] end) (map (as_lookup t time) ord) = flat_map snd ord).
    { clear. induction ord as [|[l q] ord IH]; [reflexivity|]. cbn [map flat_map as_lookup fst snd]. rewrite IH. f_equal. rewrite map_map. cbn. apply map_id. }
    split; [|split].
    - replace (dkeys (map (as_lookup t time) ord)) with (dkeys ord); [exact N|]. unfold dkeys. rewrite map_map. reflexivity.
    - rewrite FM, (q_alloc _ _ Q), A. exact PM.
    - intros b rq H. apply in_map_iff in H as ([l q] & HE & H). unfold as_lookup in HE. cbn [fst snd] in HE. injection HE as <- <-. eexists. split; [|split; [reflexivity|]].
      + specialize (NE _ _ H). destruct q; [congruence|discriminate].
      + intros p tm mx HP. apply in_map_iff in HP as (p' & HE & HP). injection HE as <- <- <-. split; [|auto]. rewrite (q_leader _ _ Q). destruct (proj1 (LD l p')) as [(q' & [] & _)|[_ X']]; [eauto|exact X'].
  Qed.

  (** ** sending *)
  Record quietw (s s' : st) (extra : list (Z * request)) : Prop := {
    qw_quiet : quiet s (set_wire (c_wire s) s');
    qw_wire : c_wire s' = c_wire s ++ extra }.
  Lemma quietw_quiet s s' : quiet s s' -> quietw s s' [].
  Proof. intros Q. split; [|rewrite app_nil_r; apply Q]. destruct Q. constructor; assumption || reflexivity. Qed.
  Lemma quiet_quietw s1 s2 s3 e : quiet s1 s2 -> quietw s2 s3 e -> quietw s1 s3 e.
  Proof.
    intros Q [Q' W]. split; [|rewrite W; now rewrite (q_wire _ _ Q)]. destruct Q, Q'. constructor; cbn [set_wire] in *; [..|auto]; clear q_proper0 q_proper1; intros; try congruence; try reflexivity; etransitivity; eauto.
  Qed.
  Lemma quiet_w (s : st) w : quietw s (set_wire (c_wire s ++ w) s) w.
  Proof. split; [|reflexivity]. constructor; try reflexivity; exact (fun H => H). Qed.
  Lemma open_conn_quiet s s' : quiet s s' -> forall b, open_conn s' b = open_conn s b.
  Proof. intros Q b. unfold open_conn. now rewrite (q_conns _ _ Q). Qed.
  Lemma send_all_spec rqs : forall (s : st), exists pre post, rqs = pre ++ post /\
    snd (send_all cfg rqs s) = set_wire (c_wire s ++ filter (fun br => open_conn s (fst br)) pre) s /\
    (fst (send_all cfg rqs s) = Ok tt -> post = [] /\ forall b rq, In (b, rq) rqs -> dget (k_conns (c_cluster s)) b <> None).
  Proof.
    induction rqs as [|[b rq] rqs IH]; intros s; cbn [send_all].
    - exists [], []. split; [reflexivity|]. cbn [filter]. rewrite app_nil_r. split; [destruct s; reflexivity|]. split; [reflexivity|intros b rq []].
    - assert (N : forall e, exists pre post, (b, rq) :: rqs = pre ++ post /\ snd (@Err unit e, s) = set_wire (c_wire s ++ filter (fun br => open_conn s (fst br)) pre) s /\
        (fst (@Err unit e, s) = Ok tt -> post = [] /\ forall b0 rq0, In (b0, rq0) ((b, rq) :: rqs) -> dget (k_conns (c_cluster s)) b0 <> None)).
      { intros e. exists [], ((b, rq) :: rqs). split; [reflexivity|]. cbn [filter]. rewrite app_nil_r. split; [destruct s; reflexivity|discriminate]. }
      destruct (dget (k_conns (c_cluster s)) b) as [cn|] eqn:G; [|apply N]. destruct (cc_closing cn) eqn:CC.
      + destruct (IH s) as (pre & post & E & S & X). exists ((b, rq) :: pre), post. split; [cbn; now rewrite E|]. cbn [filter fst]. unfold open_conn at 1. rewrite G, CC. cbn [negb]. split; [exact S|].
        intros H. destruct (X H) as [X1 X2]. split; [exact X1|]. intros b0 rq0 [I|I]; [injection I as <- <-; congruence|eapply X2, I].
      + destruct (unsendable cfg rq); [apply N|].
        destruct (IH (set_wire (c_wire s ++ [(b, rq)]) s)) as (pre & post & E & S & X). exists ((b, rq) :: pre), post. split; [cbn; now rewrite E|]. cbn [filter fst]. unfold open_conn at 1. rewrite G, CC. cbn [negb].
        split; [rewrite S; cbn [set_wire c_wire]; rewrite <- app_assoc; reflexivity|].
        intros H. destruct (X H) as [X1 X2]. split; [exact X1|]. intros b0 rq0 [I|I]; [injection I as <- <-; congruence|eapply X2, I].
  Qed.

  Lemma send_one_spec k b rq (s : st) : let r := send_one cfg k b rq s in
    exists extra, quietw s (snd r) extra /\ c_cluster (snd r) = c_cluster s /\ c_alloc (snd r) = c_alloc s /\
      ((exists e, fst r = Raise_ e /\ extra = []) \/
       exists b', b = Some b' /\ fst r = Await (PSend k [(b', rq)] []) /\ extra = if open_conn s b' then [(b', rq)] else []).
  Proof.
    cbv zeta. unfold send_one. destruct b as [b|].
    2: { exists []. split; [apply quietw_quiet, quiet_refl|]. split; [reflexivity|]. split; [reflexivity|]. left. eexists. split; reflexivity. }
    cbn [send_all]. unfold open_conn. destruct (dget (k_conns (c_cluster s)) b) as [cn|] eqn:G.
    2: { exists []. split; [apply quietw_quiet, quiet_refl|]. split; [reflexivity|]. split; [reflexivity|]. left. eexists. split; reflexivity. }
    destruct (cc_closing cn) eqn:CC.
    - exists []. split; [apply quietw_quiet, quiet_refl|]. split; [reflexivity|]. split; [reflexivity|]. right. exists b. rewrite G, CC. repeat split.
    - destruct (unsendable cfg rq) as [e|].
      + exists []. split; [apply quietw_quiet, quiet_refl|]. split; [reflexivity|]. split; [reflexivity|]. left. eexists. split; reflexivity.
      + exists [(b, rq)]. split; [apply quiet_w|]. split; [reflexivity|]. split; [reflexivity|]. right. exists b. rewrite G, CC. repeat split.
  Qed.

  (** ** commit_offsets() *)
  Definition default_meta : text := match md cfg with Grouped _ _ _ name => txt "committed by " ++ name | Single => [] end.
  (** the member's own part of the mapping *)
  Definition own_map (s : st) : option (dict text (list Z)) := dget (mp_tab (a_mapping (c_alloc s))) (a_name (c_alloc s)).
  Definition commit_of (s : st) (m : text) (am : dict text (list Z)) : list (text * list (Z * (Z * text))) :=
    map (fun tp => (fst tp, map (fun p => (p, (position s (fst tp) p, m))) (snd tp))) (filter (fun tp => smem (c_tocommit s) (fst tp)) am).
  Lemma commit_offsets_spec m ret (s : st) : let r := commit_offsets cfg m ret s in let m' := match m with Some x => x | None => default_meta end in
    exists extra, quietw s (snd r) extra /\
      ((exists e, fst r = Raise_ e /\ extra = []) \/
       exists g fn ac name b am, md cfg = Grouped g fn ac name /\ c_coord s = Some b /\ own_map (snd r) = Some am /\
         let rq := RCommit g (commit_of (snd r) m' am) in
         fst r = Await (PSend (KCommit m' ret) [(b, rq)] []) /\ extra = if open_conn s b then [(b, rq)] else []).
  Proof.
    cbv zeta. unfold commit_offsets, default_meta. destruct (md cfg) as [|g fn ac name] eqn:M.
    { exists []. split; [apply quietw_quiet, quiet_refl|]. left. eexists. split; reflexivity. }
    pose proof (alloc_map_quiet s) as Q.
    assert (OW : forall am, fst (alloc_map cfg s) = Ok am -> own_map (snd (alloc_map cfg s)) = Some am).
    { unfold alloc_map, own_map, allocation. rewrite M. intros am. destruct (dget (mp_tab (a_mapping (c_alloc s))) (a_name (c_alloc s))) eqn:D; cbn [fst snd set_alloc c_alloc].
      - intros H. rewrite D. now injection H as ->.
      - destruct (mp_default (a_mapping (c_alloc s))); cbn [fst snd set_alloc c_alloc a_mapping a_name mp_tab]; [|discriminate]. intros H. injection H as <-. apply dget_dset_same. }
    destruct (alloc_map cfg s) as [[am|e] s1] eqn:AM; cbn [fst snd] in Q, OW; [|exists []; split; [now apply quietw_quiet|]; left; eexists; split; reflexivity]. specialize (OW am eq_refl).
    set (m' := match m with Some x => x | None => _ end). destruct (commit_topics_spec am m' s1) as (Q2 & C2 & X). destruct (commit_topics am m' s1) as [topics s2]. cbn [fst snd] in *.
    pose proof (quiet_trans _ _ _ Q Q2) as Q3.
    destruct (send_one_spec (KCommit m' ret) (c_coord s2) (RCommit g topics) s2) as (ex & W & _ & C3 & D). destruct (send_one cfg _ _ _ s2) as [n s3]. cbn [fst snd] in *. exists ex. split; [eapply quiet_quietw; eassumption|].
    destruct D as [D|(b & B & D & D2)]; [now left|right]. exists g, fn, ac, name, b, am. split; [reflexivity|]. split; [rewrite <- B; symmetry; apply Q3|]. split; [unfold own_map; rewrite C3, C2; exact OW|].
    assert (TE : topics = commit_of s3 m' am).
    { subst topics. unfold commit_of. assert (T3 : c_tocommit s3 = c_tocommit s1) by (transitivity (c_tocommit s2); [apply (q_tocommit _ _ (qw_quiet _ _ _ W))|apply Q2]). rewrite T3. apply map_ext. intros [t ps]. cbn [fst snd]. f_equal.
      apply map_ext. intros p. rewrite <- (q_pos _ _ Q2). rewrite <- (q_pos _ _ (qw_quiet _ _ _ W)). reflexivity. }
    rewrite <- TE. split; [exact D|]. rewrite D2. now rewrite (open_conn_quiet _ _ Q3).
  Qed.

  (** ** fetch *)
  Definition fetching (s' : st) (t : text) (rqs : dict Z request) : Prop :=
    rqs <> [] /\ NoDup (dkeys rqs) /\
    Permutation (flat_map (fun br => match snd br with RFetch _ _ _ _ parts => map fst parts | _ => [] end) rqs) (alloc_of cfg s' t) /\
    forall b rq, In (b, rq) rqs -> exists parts, parts <> [] /\ rq = RFetch CONSUMER_REPLICA_ID (max_wait cfg) (min_bytes cfg) t parts /\
      (forall p o mb, In (p, (o, mb)) parts -> leader_of s' t p = Some b /\ o = position s' t p /\ mb = Z.quot (max_bytes cfg) (zlen parts)).
  Lemma fetch_spec t (s : st) : let r := fetch cfg t s in
    (exists e extra, fst r = Raise_ e /\ quietw s (snd r) extra /\
       (extra = [] \/ exists rqs pre post, rqs = pre ++ post /\ extra = filter (fun br => open_conn s (fst br)) pre /\ fetching (snd r) t rqs)) \/
    (alloc_of cfg s t = [] /\ exists s1, quiet s s1 /\ r = base_done cfg t (RvList []) s1) \/
    (alloc_of cfg s t <> [] /\ exists rqs extra, fst r = Await (PSend (KFetch t) rqs []) /\ quietw s (snd r) extra /\
       extra = filter (fun br => open_conn s (fst br)) rqs /\ fetching (snd r) t rqs /\ forall b rq, In (b, rq) rqs -> dget (k_conns (c_cluster s)) b <> None).
  Proof.
    cbv zeta. unfold fetch. destruct (allocated_spec t s) as (Q1 & A1 & A2). destruct (allocated cfg t s) as [[[|]|e] s1]; cbn [fst snd] in *.
    2: { right. left. split; [now apply A2|]. exists s1. auto. }
    2: { left. exists e, []. split; [reflexivity|]. split; [now apply quietw_quiet|now left]. }
    specialize (A1 eq_refl). destruct (alloc_index_spec t s1) as (Q2 & X). destruct (alloc_index cfg t s1) as [[ps|e] s2]; cbn [fst snd] in *.
    2: { left. exists e, []. split; [reflexivity|]. split; [eapply quietw_quiet, quiet_trans; eassumption|now left]. }
    specialize (X ps eq_refl). rewrite (q_alloc _ _ Q1) in X. pose proof (quiet_trans _ _ _ Q1 Q2) as Q12.
    destruct (order_leaders_spec t ps [] s2) as (Q3 & Y). destruct (order_leaders t ps [] s2) as [[ord|e] s3]; cbn [fst snd] in *; pose proof (quiet_trans _ _ _ Q12 Q3) as Q13.
    2: { left. exists e, []. split; [reflexivity|]. split; [now apply quietw_quiet|now left]. }
    destruct (Y ord eq_refl) as (N & NE & PM & LD); [constructor|intros l q []|]. cbn [flat_map app] in PM.
    destruct (fetch_requests_spec t ord s3) as (Q4 & R). destruct (fetch_requests cfg t ord s3) as [rqs s4]. cbn [fst snd] in *. pose proof (quiet_trans _ _ _ Q13 Q4) as Q14.
    destruct (send_all_spec rqs s4) as (pre & post & RE & E & O). set (extra := filter _ pre) in E.
    assert (FE : forall l, filter (fun br => open_conn s4 (fst br)) l = filter (fun br : Z * request => open_conn s (fst br)) l) by (intros; apply filter_ext; intros [b r]; apply open_conn_quiet; exact Q14).
    destruct (send_all cfg rqs s4) as [r5 s5]. cbn [fst snd] in *.
    assert (FT : fetching s5 t rqs).
    2: { destruct r5 as [[]|e].
         - right. right. split; [exact A1|]. exists rqs, extra. split; [reflexivity|]. split; [eapply quiet_quietw; [exact Q14|]; cbn [snd]; rewrite E; apply quiet_w|].
           destruct (O eq_refl) as [PO CO]. split; [unfold extra; rewrite RE, PO, app_nil_r; apply FE|]. split; [exact FT|]. now rewrite (q_conns _ _ Q14) in CO.
         - left. exists e, extra. split; [reflexivity|]. split; [eapply quiet_quietw; [exact Q14|]; cbn [snd]; rewrite E; apply quiet_w|]. right. exists rqs, pre, post. split; [exact RE|]. split; [apply FE|exact FT]. }
    pose proof (quiet_trans _ _ _ Q2 (quiet_trans _ _ _ Q3 Q4)) as Q24. pose proof (quiet_trans _ _ _ Q3 Q4) as Q34.
    assert (P5 : forall t' p', position s5 t' p' = position s3 t' p') by (intros; subst s5; rewrite <- (q_pos _ _ Q4); reflexivity).
    assert (L5 : forall t' p', leader_of s5 t' p' = leader_of s2 t' p') by (intros; subst s5; rewrite <- (q_leader _ _ Q34); reflexivity).
    assert (A5 : alloc_of cfg s5 t = ps) by (subst s5; change (alloc_of cfg (set_wire (c_wire s4 ++ extra) s4) t) with (alloc_of cfg s4 t); rewrite (q_alloc _ _ Q14); congruence).
    assert (FM : flat_map (fun br => match snd br with RFetch _ _ _ _ parts => map fst parts | _ => [] end) rqs = flat_map snd ord).
    { subst rqs. clear. induction ord as [|[l q] ord IH]; [reflexivity|]. cbn [map flat_map fst snd]. rewrite IH. f_equal. rewrite map_map. cbn. apply map_id. }
    assert (KE : dkeys rqs = dkeys ord) by (subst rqs; unfold dkeys; rewrite map_map; reflexivity).
    split; [|split; [|split]].
    - intros Z0. rewrite Z0 in FM. cbn in FM. rewrite <- FM in PM. apply Permutation_nil in PM. congruence.
    - now rewrite KE.
    - rewrite FM, A5. exact PM.
    - intros b rq H. subst rqs. apply in_map_iff in H as ([l q] & HE & H). cbn [fst snd] in HE. injection HE as <- <-.
      eexists. split; [|split; [reflexivity|]].
      + specialize (NE _ _ H). destruct q; [congruence|discriminate].
      + intros p o mb HP. apply in_map_iff in HP as (p' & HE & HP). injection HE as <- <- <-. split; [|split; [symmetry; apply P5|]].
        * rewrite L5. destruct (proj1 (LD l p')) as [(q' & [] & _)|[_ X']]; [eauto|exact X'].
        * now rewrite zlen_map.
  Qed.

  Lemma after_offsets_spec t (s : st) : let r := after_offsets cfg t s in
    (exists s1, quiet s s1 /\ alloc_of cfg s1 t <> [] /\ r = fetch cfg t s1) \/
    (exists e extra, fst r = Raise_ e /\ quietw s (snd r) extra) \/
    (fst r = Await (PTopicHeal t) /\ quiet s (snd r)).
  Proof.
    cbv zeta. unfold after_offsets. destruct (allocated_spec t s) as (Q1 & A1 & A2). destruct (allocated cfg t s) as [[[|]|e] s1]; cbn [fst snd] in *.
    - left. exists s1. rewrite (q_alloc _ _ Q1). auto.
    - right. right. auto.
    - right. left. exists e, []. split; [reflexivity|now apply quietw_quiet].
  Qed.

  (** ** handlers *)
  Definition pos_after (old : Z) (ms : list (Z * pymsg)) : Z := fold_left (fun acc ov => if 0 <=? fst ov then fst ov + 1 else acc) (readable cfg ms) old.
  Lemma readable_cons o m ms : readable cfg ((o, m) :: ms) = match deser cfg (msg_value m) with Ok v => [(o, v)] | Err _ => [] end ++ readable cfg ms.
  Proof. reflexivity. Qed.
  Lemma deserialize_spec t p ms : forall (s : st), let r := deserialize_messages cfg t p ms s in
    fst r = map snd (readable cfg ms) /\ (exists o, snd r = set_offsets o s) /\ position (snd r) t p = pos_after (position s t p) ms /\
    forall t' p', t' <> t \/ p' <> p -> position (snd r) t' p' = position s t' p'.
  Proof.
    cbv zeta. induction ms as [|[o [cr ma at_ ke va]] ms IH]; intros s; cbn [deserialize_messages].
    - split; [reflexivity|]. split; [exists (c_offsets s); now destruct s|]. split; [reflexivity|auto].
    - unfold pos_after. rewrite readable_cons. cbn [msg_value]. destruct (deser cfg va) as [v|e]; [|apply IH].
      set (s1 := if 0 <=? o then _ else _).
      assert (S1 : (exists x, s1 = set_offsets x s) /\ position s1 t p = (if 0 <=? o then o + 1 else position s t p) /\ forall t' p', t' <> t \/ p' <> p -> position s1 t' p' = position s t' p').
      { unfold s1. destruct (0 <=? o); [|split; [exists (c_offsets s); now destruct s|auto]]. destruct (offset_set_spec t p (o + 1) s) as (A & B & C). auto. }
      clearbody s1. destruct S1 as ((x & S1) & P1 & O1). destruct (IH s1) as (A & (y & B) & C & D). destruct (deserialize_messages cfg t p ms s1) as [vs s2]. cbn [fst snd] in *.
      split; [cbn; now rewrite A|]. split; [exists y; rewrite B, S1; reflexivity|]. split; [rewrite C, P1; reflexivity|]. intros t' p' N. rewrite D by exact N. now apply O1.
  Qed.
  (** the state after a handler differs in offsets, synced and heal only *)
  Definition fetch_frame (s s' : st) : Prop := exists o y h, s' = set_offsets o (set_synced y (set_heal h s)).
  Lemma fetch_frame_refl s : fetch_frame s s.
  Proof. exists (c_offsets s), (c_synced s), (c_heal s). now destruct s. Qed.
  Lemma fetch_frame_trans s1 s2 s3 : fetch_frame s1 s2 -> fetch_frame s2 s3 -> fetch_frame s1 s3.
  Proof. intros (o & y & h & ->) (o' & y' & h' & ->). exists o', y', h'. reflexivity. Qed.
  Definition pos_parts (old : Z) (p : Z) (parts : list (Z * (Z * list (Z * pymsg)))) : Z :=
    fold_left (fun acc part => if (fst part =? p) && (fst (snd part) =? no_error) then pos_after acc (snd (snd part)) else acc) parts old.
  Definition out_of_range_in (parts : list (Z * (Z * list (Z * pymsg)))) : Prop := exists p ms, In (p, (offset_out_of_range, ms)) parts.
  Lemma codes_apart : is_retriable no_error = false /\ is_retriable offset_out_of_range = false /\ (offset_out_of_range =? no_error) = false /\ is_retriable offset_metadata_too_large = false /\ (offset_metadata_too_large =? no_error) = false.
  Proof. repeat split. Qed.
  Lemma handle_fetch_spec t parts : forall (s : st), let r := handle_fetch_parts cfg t parts s in
    exists done rest, parts = done ++ rest /\
      match fst r with
      | Ok vs => rest = [] /\ vs = flat_map (part_values cfg) done
      | Err e => exists p code ms rest', rest = (p, (code, ms)) :: rest' /\ error_name code = Err e /\ code <> no_error /\ is_retriable code = false
      end /\
      fetch_frame s (snd r) /\
      (forall x, In x (c_synced (snd r)) <-> In x (c_synced s) /\ ~ (x = t /\ out_of_range_in done)) /\
      (c_heal (snd r) = true <-> c_heal s = true \/ exists p code ms, In (p, (code, ms)) done /\ is_retriable code = true) /\
      (forall p, position (snd r) t p = pos_parts (position s t p) p done) /\
      (forall t' p, t' <> t -> position (snd r) t' p = position s t' p).
  Proof.
    cbv zeta. induction parts as [|[p [code ms]] parts IH]; intros s; cbn [handle_fetch_parts].
    - exists [], []. split; [reflexivity|]. cbn [fst snd]. split; [split; reflexivity|]. split; [apply fetch_frame_refl|]. split; [intros x; split; [intros H; split; [exact H|intros (_ & ? & ? & [])]|tauto]|].
      split; [split; [auto|intros [H|(? & ? & ? & [] & _)]; exact H]|]. split; [reflexivity|auto].
    - destruct (code =? no_error) eqn:E0.
      + apply Z.eqb_eq in E0. subst code. destruct (deserialize_spec t p ms s) as (A & (o & B) & C & D). destruct (deserialize_messages cfg t p ms s) as [vs s1]. cbn [fst snd] in *.
        destruct (IH s1) as (done & rest & P & R & F & SY & HE & PO & OT). destruct (handle_fetch_parts cfg t parts s1) as [r s2]. cbn [fst snd] in *.
        exists ((p, (no_error, ms)) :: done), rest. subst parts. split; [reflexivity|].
        split. { destruct r as [ws|e]; cbn [fst] in *; [|exact R]. destruct R as (-> & ->). split; [reflexivity|]. cbn [flat_map part_values]. rewrite Z.eqb_refl. now rewrite A. }
        assert (SN : snd (match r with Ok ws => (Ok (vs ++ ws), s2) | Err e => (Err e, s2) end) = s2) by now destruct r. rewrite SN. clear SN.
        split; [eapply fetch_frame_trans; [|exact F]; exists o, (c_synced s), (c_heal s); rewrite B; now destruct s|].
        split; [intros x; rewrite SY, B; cbn [set_offsets c_synced]; split; intros (H1 & H2); (split; [exact H1|]); intros (H3 & p' & ms' & H4); apply H2; (split; [exact H3|]); [destruct H4 as [H4|H4]; [discriminate H4|]; now exists p', ms'|exists p', ms'; now right]|].
        split. { rewrite HE, B. cbn [set_offsets c_heal]. split; intros [H|(p' & c' & m' & H1 & H2)]; auto; right; [exists p', c', m'; split; [now right|exact H2]|].
          destruct H1 as [H1|H1]; [injection H1 as <- <- <-; discriminate H2|exists p', c', m'; auto]. }
        split.
        * intros p'. rewrite PO. unfold pos_parts. cbn [fold_left fst snd]. rewrite Z.eqb_refl, andb_true_r. destruct (p =? p') eqn:PE; [apply Z.eqb_eq in PE; subst p'; now rewrite C|].
          apply Z.eqb_neq in PE. rewrite D by (right; congruence). reflexivity.
        * intros t' p' N. rewrite OT by exact N. apply D. now left.
      + assert (SK : forall old p', pos_parts old p' ((p, (code, ms)) :: parts) = pos_parts old p' parts) by (intros; unfold pos_parts; cbn [fold_left fst snd]; rewrite E0, andb_false_r; reflexivity).
        destruct (is_retriable code) eqn:E1; [|destruct (code =? offset_out_of_range) eqn:E2; [|destruct (error_name code) as [nm|e] eqn:E3]].
        * destruct (IH (set_heal true s)) as (done & rest & P & R & F & SY & HE & PO & OT). exists ((p, (code, ms)) :: done), rest. subst parts. split; [reflexivity|].
          split. { destruct (handle_fetch_parts cfg t _ _) as [[ws|e] s2]; cbn [fst] in *; [|exact R]. destruct R as (R1 & R2). split; [exact R1|]. cbn [flat_map part_values]. rewrite E0. exact R2. }
          split; [eapply fetch_frame_trans; [|exact F]; exists (c_offsets s), (c_synced s), true; now destruct s|].
          split; [intros x; rewrite SY; cbn [set_heal c_synced]; split; intros (H1 & H2); (split; [exact H1|]); intros (H3 & p' & ms' & H4); apply H2; (split; [exact H3|]); [destruct H4 as [H4|H4]; [injection H4 as _ -> _; discriminate E1|]; now exists p', ms'|exists p', ms'; now right]|].
          split; [rewrite HE; cbn [set_heal c_heal]; split; [intros _; right; exists p, code, ms; split; [now left|exact E1]|auto]|].
          split; [|exact OT]. intros p'. rewrite PO. unfold pos_parts. cbn [fold_left fst snd]. rewrite E0, andb_false_r. reflexivity.
        * apply Z.eqb_eq in E2. subst code. destruct (IH (set_synced (sdiscard (c_synced s) t) s)) as (done & rest & P & R & F & SY & HE & PO & OT). exists ((p, (offset_out_of_range, ms)) :: done), rest. subst parts. split; [reflexivity|].
          split. { destruct (handle_fetch_parts cfg t _ _) as [[ws|e] s2]; cbn [fst] in *; [|exact R]. destruct R as (R1 & R2). split; [exact R1|]. cbn [flat_map part_values]. rewrite E0. exact R2. }
          split; [eapply fetch_frame_trans; [|exact F]; exists (c_offsets s), (sdiscard (c_synced s) t), (c_heal s); now destruct s|].
          split. { intros x. rewrite SY. cbn [set_synced c_synced]. rewrite in_sdiscard. split.
            - intros ((H1 & H2) & H3). split; [exact H2|]. intros (-> & _). congruence.
            - intros (H1 & H2). assert (x <> t) by (intros ->; apply H2; split; [reflexivity|exists p, ms; now left]). split; [split; [congruence|exact H1]|]. intros (-> & _). congruence. }
          split. { rewrite HE. cbn [set_synced c_heal]. split; intros [H|(p' & c' & m' & H1 & H2)]; auto; right; [exists p', c', m'; split; [now right|exact H2]|].
            destruct H1 as [H1|H1]; [injection H1 as <- <- <-; discriminate H2|exists p', c', m'; auto]. }
          split; [|exact OT]. intros p'. rewrite PO. unfold pos_parts. cbn [fold_left fst snd]. rewrite E0, andb_false_r. reflexivity.
        * destruct (IH s) as (done & rest & P & R & F & SY & HE & PO & OT). exists ((p, (code, ms)) :: done), rest. subst parts. split; [reflexivity|].
          split. { destruct (handle_fetch_parts cfg t _ _) as [[ws|e] s2]; cbn [fst] in *; [|exact R]. destruct R as (R1 & R2). split; [exact R1|]. cbn [flat_map part_values]. rewrite E0. exact R2. }
          split; [exact F|].
          split; [intros x; rewrite SY; split; intros (H1 & H2); (split; [exact H1|]); intros (H3 & p' & ms' & H4); apply H2; (split; [exact H3|]); [destruct H4 as [H4|H4]; [injection H4 as _ -> _; discriminate E2|]; now exists p', ms'|exists p', ms'; now right]|].
          split. { rewrite HE. split; intros [H|(p' & c' & m' & H1 & H2)]; auto; right; [exists p', c', m'; split; [now right|exact H2]|].
            destruct H1 as [H1|H1]; [injection H1 as <- <- <-; congruence|exists p', c', m'; auto]. }
          split; [|exact OT]. intros p'. rewrite PO. unfold pos_parts. cbn [fold_left fst snd]. rewrite E0, andb_false_r. reflexivity.
        * exists [], ((p, (code, ms)) :: parts). split; [reflexivity|]. cbn [fst snd]. split; [exists p, code, ms, parts; repeat split; auto; intros ->; discriminate E0|].
          split; [apply fetch_frame_refl|]. split; [intros x; split; [intros H; split; [exact H|intros (_ & ? & ? & [])]|tauto]|].
          split; [split; [auto|intros [H|(? & ? & ? & [] & _)]; exact H]|]. split; [reflexivity|auto].
  Qed.
End Proofs.
