(** Where the tables and the connections of a Cluster come from: from the metadata answers its heal() calls got (proof
    file, over Heals.v). *)
From Coq Require Import ZArith String List Bool Lia.
From Verif Require Import PyBase BaseLemmas Constants Cluster SpecCluster ClusterProofs Heals HealsProofs.
Import ListNotations.
Open Scope Z_scope.

Lemma in_dset_at {V} (d : dict Z V) k v k' v' : In (k', v') (dset d k v) -> (k' = k /\ v' = v) \/ In (k', v') d.
Proof.
  induction d as [|[k0 v0] d IH]; cbn [dset]; [intros [[= -> ->]|[]]; auto|]. change (eqb k0 k) with (k0 =? k). destruct (Z.eqb_spec k0 k) as [->|N]; intros [H|H].
  - injection H as <- <-. auto.
  - right. now right.
  - right. now left.
  - destruct (IH H) as [X|X]; [auto|right; now right].
Qed.

Section Origin.
  Variable P : mresp -> Prop.
  (** the cluster's connection to a broker goes to an address an answer gave for it *)
  Definition conns_from (k : cluster) : Prop := forall b c, In (b, c) (k_conns k) ->
    (exists r, P r /\ In (MBroker b (cc_host c) (cc_port c)) (mr_brokers r)) /\ In (XConnect (cc_id c) (cc_host c) (cc_port c)) (k_log k).
  (** and its leaders are those one answer names *)
  Definition leaders_from (k : cluster) : Prop := (forall t p l, ~ leader k t p l) \/ exists r, P r /\ forall t p l, leader k t p l -> usable (mr_topics r) t p l.
  Definition call_from (k : cluster) (c : hpc) : Prop :=
    match c with
    | HAsk _ _ _ _ _ => True
    | HConn b rest _ _ id r => P r /\ incl (b :: rest) (mr_brokers r) /\ In (XConnect id (mb_host b) (mb_port b)) (k_log k)
    end.
  Record origin (s : hstate) : Prop := {
    o_conns : conns_from (h_k s);
    o_leaders : leaders_from (h_k s);
    o_calls : forall i c, In (i, c) (h_calls s) -> call_from (h_k s) c }.
  Definition next_from (n : hnext) (k : cluster) : Prop := match n with HAwait c => call_from k c | _ => True end.

  Lemma conns_from_ext k k' lg : incl (k_conns k') (k_conns k) -> k_log k' = k_log k ++ lg -> conns_from k -> conns_from k'.
  Proof. intros I L H b c X. destruct (H b c (I _ X)) as [A B]. split; [exact A|]. rewrite L. apply in_or_app. now left. Qed.
  Lemma leaders_from_ext k k' : k_leaders k' = k_leaders k -> leaders_from k -> leaders_from k'.
  Proof. intros E. unfold leaders_from, leader. now rewrite E. Qed.
  Lemma call_from_ext k k' lg c : k_log k' = k_log k ++ lg -> call_from k c -> call_from k' c.
  Proof. intros L. destruct c; [auto|]. intros (A & B & D). split; [exact A|]. split; [exact B|]. rewrite L. apply in_or_app. now left. Qed.

  (** a piece: what it leaves is from the answers, and the record only grows *)
  Definition piece_from (k : cluster) (nk : hnext * cluster) : Prop :=
    let '(n, k') := nk in conns_from k' /\ leaders_from k' /\ next_from n k' /\ exists lg, k_log k' = k_log k ++ lg.
  Lemma ask_from_from f ts ks bs k : conns_from k -> leaders_from k -> piece_from k (ask_from f ts ks bs k).
  Proof.
    intros A B. destruct (ask_from f ts ks bs k) as [n k'] eqn:E. apply ask_from_spec in E as ([S1 S2] & C & _ & L & N). cbn [piece_from].
    assert (L' : exists lg, k_log k' = k_log k ++ lg) by (destruct L as [->|(id & ->)]; [exists []; now rewrite app_nil_r|eauto]). destruct L' as (lg & L').
    split; [eapply conns_from_ext; [rewrite C; apply incl_refl|exact L'|exact A]|]. split; [eapply leaders_from_ext; eauto|]. split; [|eauto].
    destruct N as [->|(rest & id & ->)]; exact I.
  Qed.
  Lemma abort_from k b : conns_from k -> conns_from (abort_conn k b) /\ exists lg, k_log (abort_conn k b) = k_log k ++ lg.
  Proof.
    intros A. unfold abort_conn. destruct (dget (k_conns k) b) as [c|] eqn:D; [|split; [exact A|exists []; now rewrite app_nil_r]].
    destruct (cc_closing c); [split; [exact A|exists []; now rewrite app_nil_r]|]. cbn [emit set_conns k_log]. split; [|eauto].
    intros b' c' H. cbn [emit set_conns k_conns k_log] in *. apply in_dset_at in H as [[-> ->]|H]; [apply dget_In in D; apply A in D|apply A in H].
    - destruct D as [D1 D2]. split; [exact D1|]. apply in_or_app. now left.
    - destruct H as [D1 D2]. split; [exact D1|]. apply in_or_app. now left.
  Qed.
  Lemma abort_all_from drop : forall k r k', abort_all drop k = (r, k') -> conns_from k -> conns_from k' /\ exists lg, k_log k' = k_log k ++ lg.
  Proof.
    induction drop as [|b drop IH]; intros k r k'; cbn [abort_all]; [intros [= <- <-] A; split; [exact A|exists []; now rewrite app_nil_r]|].
    destruct (dget (k_conns k) b); [|intros [= <- <-] A; split; [exact A|exists []; now rewrite app_nil_r]].
    intros H A. destruct (abort_from k b A) as (A1 & lg1 & L1). destruct (IH _ _ _ H A1) as (A2 & lg2 & L2). split; [exact A2|]. exists (lg1 ++ lg2). now rewrite L2, L1, app_assoc.
  Qed.
  Lemma finish_from missing drop r k : P r -> conns_from k -> leaders_from k -> piece_from k (finish missing drop r k).
  Proof.
    intros PR A B. unfold finish. destruct (abort_all drop k) as [ra k1] eqn:E. destruct (abort_all_tables _ _ _ _ E) as [[S1 S2] _]. destruct (abort_all_from _ _ _ _ E A) as (A1 & lg & L1).
    destruct ra as [u|e]; [|split; [exact A1|split; [eapply leaders_from_ext; eauto|split; [exact I|eauto]]]].
    destruct (process_topics (mr_topics r) k1) as [ts k2] eqn:EP. destruct (process_topics_spec _ _ _ _ EP) as (_ & Q & _ & _ & C2 & _ & _ & L2).
    assert (A2 : conns_from k2) by (eapply conns_from_ext with (lg := []); [rewrite C2; apply incl_refl|rewrite L2, app_nil_r; reflexivity|exact A1]).
    assert (B2 : leaders_from k2) by (right; exists r; split; [exact PR|]; intros t p l H; now apply Q in H).
    assert (W : forall x, piece_from k2 x -> piece_from k x) by (intros [n k'] (X1 & X2 & X3 & lg' & X4); split; [exact X1|split; [exact X2|split; [exact X3|exists (lg ++ lg'); rewrite X4, L2, L1; now rewrite app_assoc]]]).
    apply W. destruct missing; [destruct ts|]; [split; [exact A2|split; [exact B2|split; [exact I|exists []; now rewrite app_nil_r]]]| |]; now apply ask_from_from.
  Qed.
  Lemma brokers_from_from bs : forall missing drop r k, P r -> incl bs (mr_brokers r) -> conns_from k -> leaders_from k -> piece_from k (brokers_from bs missing drop r k).
  Proof.
    induction bs as [|b bs IH]; intros missing drop r k PR IN A B; cbn [brokers_from]; [now apply finish_from|].
    destruct (dmem (k_conns k) (mb_id b)); [apply IH; auto; intros x X; apply IN; now right|]. cbn [piece_from opening k_log].
    split; [apply (conns_from_ext k (opening (mb_host b) (mb_port b) k) [XConnect (k_opened k) (mb_host b) (mb_port b)]); [apply incl_refl|reflexivity|exact A]|]. split; [exact B|]. split; [|eauto]. cbn [next_from call_from]. split; [exact PR|]. split; [exact IN|]. apply in_or_app. right. now left.
  Qed.
  Lemma go_through_from r k : P r -> conns_from k -> leaders_from k -> piece_from k (go_through r k).
  Proof. intros PR A B. apply brokers_from_from; auto. apply incl_refl. Qed.

  Lemma hcontinue_from i s k0 nk : origin s -> (exists lg, k_log k0 = k_log (h_k s) ++ lg) -> piece_from k0 nk -> origin (hcontinue i s nk) /\ exists lg, k_log (h_k (hcontinue i s nk)) = k_log (h_k s) ++ lg.
  Proof.
    intros [A B D] (lg0 & L0). destruct nk as [n k']. intros (A' & B' & N & lg & L).
    assert (L' : k_log k' = k_log (h_k s) ++ (lg0 ++ lg)) by (rewrite L, L0; now rewrite app_assoc).
    assert (OLD : forall j c, In (j, c) (h_calls s) -> call_from k' c) by (intros j c H; eapply call_from_ext; [exact L'|exact (D j c H)]).
    destruct n as [p| |e]; cbn [hcontinue h_k]; (split; [|eauto]); constructor; cbn [h_k h_calls]; auto.
    - intros j c H. apply in_dset_at in H as [[-> ->]|H]; [exact N|exact (OLD _ _ H)].
    - intros j c H. apply in_ddel in H. exact (OLD _ _ H).
    - intros j c H. apply in_ddel in H. exact (OLD _ _ H).
  Qed.
  Lemma cull_from k : conns_from k -> conns_from (cull k).
  Proof. intros A. eapply conns_from_ext with (lg := []); [|cbn; now rewrite app_nil_r|exact A]. intros x X. cbn [cull set_conns k_conns] in X. now apply filter_In in X. Qed.
  Lemma stop_from k : conns_from k -> conns_from (Cluster.stop k) /\ k_leaders (Cluster.stop k) = k_leaders k /\ exists lg, k_log (Cluster.stop k) = k_log k ++ lg.
  Proof.
    intros A. unfold Cluster.stop. assert (H : forall d k0, incl d (k_conns k) -> conns_from k0 -> k_leaders k0 = k_leaders k -> (exists lg, k_log k0 = k_log k ++ lg) ->
      let k1 := fold_left (fun k' bc => emit (XClose (cc_id (snd bc))) (set_conns k' (dset (k_conns k') (fst bc) (shut (snd bc))))) d k0 in conns_from k1 /\ k_leaders k1 = k_leaders k /\ exists lg, k_log k1 = k_log k ++ lg).
    { induction d as [|[b c] d IH]; intros k0 IN A0 E0 (lg & L0); cbv zeta; cbn [fold_left]; [eauto|]. apply IH; [intros x X; apply IN; now right| |exact E0|].
      - intros b' c' H. cbn [emit set_conns k_conns k_log fst snd] in *. apply in_dset_at in H as [[-> ->]|H]; [destruct (A b c) as [A1 A2]; [apply IN; now left|]; cbn [shut cc_host cc_port cc_id]; split; [exact A1|]; apply in_or_app; left; rewrite L0; apply in_or_app; now left|].
        apply A0 in H as [H1 H2]. split; [exact H1|]. apply in_or_app. now left.
      - cbn [emit set_conns k_log]. exists (lg ++ [XClose (cc_id c)]). rewrite L0. now rewrite app_assoc. }
    apply H; [apply incl_refl|exact A|reflexivity|exists []; now rewrite app_nil_r].
  Qed.

  Definition told_to (l : hlabel) : Prop := match l with Heal _ (Some r) | Answered _ (Ok r) _ => P r | _ => True end.
  Lemma hstep_from s l : origin s -> told_to l -> origin (hstep s l) /\ exists lg, k_log (h_k (hstep s l)) = k_log (h_k s) ++ lg.
  Proof.
    intros O T. pose proof O as [A B D]. assert (ID : origin s /\ exists lg, k_log (h_k s) = k_log (h_k s) ++ lg) by (split; [exact O|exists []; now rewrite app_nil_r]).
    assert (EM : forall x, conns_from (emit x (h_k s))) by (intros x; apply (conns_from_ext (h_k s) (emit x (h_k s)) [x]); [apply incl_refl|reflexivity|exact A]).
    destruct l as [i response|i r alt|i r|id|]; cbn [hstep].
    - destruct (dmem (h_calls s) i); [exact ID|]. apply hcontinue_from with (k0 := h_k s); [exact O|exists []; now rewrite app_nil_r|]. destruct response as [r|]; [|now apply ask_from_from].
      exact (go_through_from r (cull (h_k s)) T (cull_from _ A) B).
    - destruct (dget (h_calls s) i) as [[first topics keys rest id|]|]; [|exact ID|exact ID]. destruct r as [r|e].
      + apply hcontinue_from with (k0 := emit (XAnswer id r) (h_k s)); [exact O|eexists; reflexivity|]. destruct first; [exact (go_through_from r (cull (emit (XAnswer id r) (h_k s))) T (cull_from _ (EM _)) B)|apply go_through_from; [exact T|apply EM|exact B]].
      + apply hcontinue_from with (k0 := emit (XAskFailed id e) (h_k s)); [exact O|eexists; reflexivity|]. destruct (skips e); [destruct (negb _)|].
        * split; [apply EM|split; [exact B|split; [exact I|exists []; now rewrite app_nil_r]]].
        * apply ask_from_from; [apply EM|exact B].
        * split; [apply EM|split; [exact B|split; [exact I|exists []; now rewrite app_nil_r]]].
    - destruct (dget (h_calls s) i) as [[|b rest missing drop id resp]|] eqn:G; [exact ID| |exact ID]. apply dget_In in G. apply D in G as (PR & IN & LG). destruct r as [u|e].
      + apply hcontinue_from with (k0 := emit (XConnected id) (h_k s)); [exact O|eexists; reflexivity|]. set (k1 := set_conns _ _). change (piece_from k1 (brokers_from rest missing drop resp k1)). apply brokers_from_from; [exact PR|intros x X; apply IN; now right| |exact B].
        intros b' c' H. cbn [k1 set_conns emit k_conns k_log] in *. apply in_dset_at in H as [[-> ->]|H]; cbn [cc_host cc_port cc_id].
        * split; [exists resp; split; [exact PR|]; apply IN; left; destruct b; reflexivity|]. apply in_or_app. now left.
        * apply A in H as [H1 H2]. split; [exact H1|]. apply in_or_app. now left.
      + apply hcontinue_from with (k0 := emit (XConnectFailed id e) (h_k s)); [exact O|eexists; reflexivity|]. apply brokers_from_from; [exact PR|intros x X; apply IN; now right|apply EM|exact B].
    - split; [|exists []; cbn [h_k die set_conns k_log]; now rewrite app_nil_r]. constructor; cbn [h_k h_calls]; [|exact B|exact D].
      intros b c H. cbn [die set_conns k_conns k_log] in *. apply in_map_iff in H as ([b' c'] & E & H). cbn [fst snd] in E. injection E as <- <-. apply A in H. destruct (Nat.eqb (cc_id c') id); exact H.
    - destruct (stop_from (h_k s) A) as (S1 & S2 & lg & S3). cbn [h_k]. split; [|eauto]. constructor; cbn [h_k h_calls]; [exact S1|eapply leaders_from_ext; eauto|]. intros i c H. eapply call_from_ext; [exact S3|eauto].
  Qed.
End Origin.
