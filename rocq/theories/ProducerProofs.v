(** Proofs about the producer model (proof file). *)
From Coq Require Import ZArith String List Bool Lia Permutation.
From Verif Require Import PyBase BaseLemmas Constants Cluster ClusterProofs Producer SpecProducer.
Import ListNotations.
Open Scope Z_scope.
Set Default Proof Using "Type".

(** permutations of concatenations *)
Ltac perm_norm := rewrite <- ?app_assoc, ?app_nil_r, ?app_nil_l.
Ltac perm_rot n :=
  lazymatch n with
  | O => fail "perm"
  | S ?m =>
      match goal with
      | |- Permutation ?x ?x => reflexivity
      | |- Permutation (?x ++ _) (?x ++ _) => apply Permutation_app_head
      | |- Permutation _ (?y ++ ?r) =>
          apply Permutation_trans with (r ++ y); [perm_norm; perm_rot m|apply Permutation_app_comm]
      end
  end.
Ltac cons_app :=
  repeat match goal with
  | |- context [@cons ?T ?a ?l] => lazymatch l with nil => fail | _ => change (a :: l) with ([a] ++ l) end
  end.
Ltac perm := cons_app; perm_norm; repeat (perm_rot 14%nat; perm_norm).

(** ** dictionaries of lists *)
Definition getd {K V} `{EqB K} (dflt : V) (d : dict K V) (k : K) : V := match dget d k with Some v => v | None => dflt end.

Lemma ddefault_set {K V} `{EqB K} (dflt : V) (d : dict K V) k v :
  dset (snd (ddefault dflt d k)) k v = dset d k v /\ fst (ddefault dflt d k) = getd dflt d k.
Proof. pose proof (ddefault_eq dflt d k v) as E. destruct (ddefault dflt d k). exact E. Qed.
Lemma ddefault_keys_nodup {K V} `{EqB K} (dflt : V) (d : dict K V) k : NoDup (dkeys d) -> NoDup (dkeys (snd (ddefault dflt d k))).
Proof. unfold ddefault. destruct (dget d k); [auto|]. cbn [snd]. apply nodup_dset. Qed.
Lemma ddefault_get {K V} `{EqB K} (dflt : V) (d : dict K V) k k' : getd dflt (snd (ddefault dflt d k)) k' = getd dflt d k'.
Proof.
  unfold getd, ddefault. destruct (dget d k) eqn:E; [reflexivity|]. cbn [snd]. destruct (eqb_dec k' k) as [->|N].
  - now rewrite dget_dset_same, E.
  - now rewrite dget_dset_other.
Qed.

Section Flat.
  Context {K V X : Type} `{EqB K}.
  Variable f : V -> list X.
  Definition flat (d : dict K V) : list X := flat_map (fun kv => f (snd kv)) d.
  Lemma flat_app a b : flat (a ++ b) = flat a ++ flat b.
  Proof. apply flat_map_app. Qed.
  Lemma flat_set d k v :
    Permutation (flat (dset d k v) ++ match dget d k with Some v0 => f v0 | None => [] end) (flat d ++ f v).
  Proof.
    induction d as [|[k0 v0] d IH]; cbn [dset dget flat flat_map snd].
    - cbn. rewrite !app_nil_r. apply Permutation_refl.
    - destruct (eqb k0 k) eqn:E; cbn [flat flat_map snd].
      + fold (flat d). perm.
      + fold (flat d). fold (flat (dset d k v)). rewrite <- !app_assoc. apply Permutation_app_head. exact IH.
  Qed.
  Lemma flat_grow dflt d k v x : f dflt = [] -> Permutation (f v) (f (getd dflt d k) ++ x) ->
    Permutation (flat (dset d k v)) (flat d ++ x).
  Proof.
    intros D P. pose proof (flat_set d k v) as Q. unfold getd in P. destruct (dget d k) as [v0|].
    - apply (Permutation_app_inv_r (f v0)). rewrite Q. rewrite P. perm.
    - rewrite app_nil_r in Q. rewrite D in P. rewrite Q, P. reflexivity.
  Qed.
  Lemma flat_shrink dflt d k v x : f dflt = [] -> Permutation (f v ++ x) (f (getd dflt d k)) ->
    Permutation (flat (dset d k v) ++ x) (flat d).
  Proof.
    intros D P. pose proof (flat_set d k v) as Q. unfold getd in P. destruct (dget d k) as [v0|].
    - apply (Permutation_app_inv_r (f v)). rewrite <- Q. rewrite <- P. perm.
    - rewrite app_nil_r in Q. rewrite D in P. symmetry in P. apply Permutation_nil in P. apply app_eq_nil in P as [P ->].
      rewrite app_nil_r, Q, P, app_nil_r. reflexivity.
  Qed.
  Lemma flat_del d k : 
    Permutation (flat d) (match dget d k with Some v0 => f v0 | None => [] end ++ flat (ddel d k)).
  Proof.
    induction d as [|[k0 v0] d IH]; cbn [ddel dget flat flat_map snd]; [reflexivity|].
    destruct (eqb k0 k) eqn:E; cbn [flat flat_map snd]; [reflexivity|].
    fold (flat d). fold (flat (ddel d k)). rewrite IH, !app_assoc. apply Permutation_app_tail, Permutation_app_comm.
  Qed.
  Lemma flat_rev d : Permutation (flat (rev d)) (flat d).
  Proof.
    induction d as [|x d IH]; [reflexivity|]. cbn [rev]. rewrite flat_app, IH. cbn. rewrite app_nil_r. apply Permutation_app_comm.
  Qed.
End Flat.

Lemma queue_msgs_flat u : queue_msgs u = flat (fun l : list pmsg => l) u.
Proof. reflexivity. Qed.
Lemma part_msgs_flat u : part_msgs u = flat (fun l : list pmsg => l) u.
Proof. reflexivity. Qed.
Lemma batch_msgs_flat u : batch_msgs u = flat part_msgs u.
Proof. reflexivity. Qed.
Lemma ordered_msgs_flat u : ordered_msgs u = flat batch_msgs u.
Proof. reflexivity. Qed.

(** ** the ledger *)
Lemma add_ordered_perm o l t p m : Permutation (ordered_msgs (add_ordered o l t p m)) (ordered_msgs o ++ [m]).
Proof.
  unfold add_ordered.
  destruct (ddefault_set ([] : batch) o l) with (v := ([] : batch)) as [_ E1].
  destruct (@ddefault Z batch _ [] o l) as [b o1] eqn:D1. cbn [fst] in E1.
  destruct (@ddefault text (dict Z (list pmsg)) _ [] b t) as [d b1] eqn:D2.
  destruct (@ddefault Z (list pmsg) _ [] d p) as [ms d1] eqn:D3.
  pose proof (ddefault_set ([] : batch) o l) as S1. rewrite D1 in S1. cbn [fst snd] in S1.
  pose proof (ddefault_set ([] : dict Z (list pmsg)) b t) as S2. rewrite D2 in S2. cbn [fst snd] in S2.
  pose proof (ddefault_set ([] : list pmsg) d p) as S3. rewrite D3 in S3. cbn [fst snd] in S3.
  rewrite (proj1 (S1 _)), (proj1 (S2 _)), (proj1 (S3 _)).
  apply (flat_grow batch_msgs ([] : batch)); [reflexivity|].
  rewrite <- (proj2 (S1 [])). apply (flat_grow part_msgs ([] : dict Z (list pmsg))); [reflexivity|].
  rewrite <- (proj2 (S2 [])). apply (flat_grow (fun l => l) ([] : list pmsg)); [reflexivity|].
  rewrite <- (proj2 (S3 [])). reflexivity.
Qed.

Lemma retry_perm (retry : dict text (list pmsg)) t q r1 m : @ddefault text (list pmsg) _ [] retry t = (q, r1) ->
  Permutation (queue_msgs (dset r1 t (q ++ [m]))) (queue_msgs retry ++ [m]).
Proof.
  intros D. pose proof (ddefault_set ([] : list pmsg) retry t) as S1. rewrite D in S1. cbn [fst snd] in S1.
  rewrite (proj1 (S1 _)), (proj2 (S1 [])). apply (flat_grow (fun l => l) ([] : list pmsg)); reflexivity.
Qed.

Lemma order_msgs_perm part t msgs : forall o retry k o' retry' k',
  order_msgs part t msgs o retry k = (Ok (o', retry'), k') ->
  Permutation (ordered_msgs o' ++ queue_msgs retry') ((ordered_msgs o ++ queue_msgs retry) ++ msgs).
Proof.
  induction msgs as [|m msgs IH]; intros o retry k o' retry' k' H; cbn [order_msgs] in H.
  - injection H as <- <- <-. now rewrite app_nil_r.
  - destruct (topic_partitions t k) as [ps k1]. destruct (part m ps) as [p|e]; [|discriminate H].
    destruct (get_leader t p k1) as [[l|e] k2]; [|discriminate H].
    destruct (dmem (k_conns k2) l); cbn [negb] in H.
    + apply IH in H. rewrite H, add_ordered_perm. perm.
    + destruct (@ddefault text (list pmsg) _ [] retry t) as [q r1] eqn:D.
      apply IH in H. rewrite H, (retry_perm _ _ _ _ _ D). rewrite <- !app_assoc. reflexivity.
Qed.

Lemma order_topics_perm part items : forall o retry k o' retry' rest k',
  order_topics part items o retry k = (Ok (o', retry'), rest, k') ->
  rest = [] /\ Permutation (ordered_msgs o' ++ queue_msgs retry') ((ordered_msgs o ++ queue_msgs retry) ++ queue_msgs items).
Proof.
  induction items as [|[t msgs] items IH]; intros o retry k o' retry' rest k' H; cbn [order_topics] in H.
  - injection H as <- <- <- <-. cbn. now rewrite app_nil_r.
  - destruct (order_msgs part t msgs o retry k) as [[[o1 r1]|e] k1] eqn:E; [|discriminate H].
    apply order_msgs_perm in E. apply IH in H as [-> H]. split; [reflexivity|]. rewrite H, E. cbn.
    now rewrite <- !app_assoc.
Qed.
Lemma order_topics_suffix part items : forall o retry k r rest k',
  order_topics part items o retry k = (r, rest, k') -> exists pre, items = pre ++ rest.
Proof.
  induction items as [|[t msgs] items IH]; intros o retry k r rest k' H; cbn [order_topics] in H.
  - injection H as <- <- <-. now exists [].
  - destruct (order_msgs part t msgs o retry k) as [[[o1 r1]|e] k1] eqn:E.
    + apply IH in H as [pre ->]. now exists ((t, msgs) :: pre).
    + injection H as <- <- <-. now exists [(t, msgs)].
Qed.

(** sent *)
Lemma record_sent_perm (sent : dict Z batch) c t p msgs :
  (forall (b : batch) d, dget sent c = Some b -> dget b t = Some d -> dget d p = None) ->
  Permutation (ordered_msgs (record_sent sent c t p msgs)) (ordered_msgs sent ++ msgs).
Proof.
  intros F. unfold record_sent.
  pose proof (ddefault_set ([] : batch) sent c) as S1. destruct (@ddefault Z batch _ [] sent c) as [b s1]. cbn [fst snd] in S1.
  pose proof (ddefault_set ([] : dict Z (list pmsg)) b t) as S2. destruct (@ddefault text (dict Z (list pmsg)) _ [] b t) as [d b1].
  cbn [fst snd] in S2. rewrite (proj1 (S1 _)), (proj1 (S2 _)).
  apply (flat_grow batch_msgs ([] : batch)); [reflexivity|].
  rewrite <- (proj2 (S1 [])). apply (flat_grow part_msgs ([] : dict Z (list pmsg))); [reflexivity|].
  rewrite <- (proj2 (S2 [])).
  assert (dget d p = None) as N.
  { pose proof (proj2 (S1 [])) as E1. pose proof (proj2 (S2 [])) as E2. unfold getd in *.
    destruct (dget sent c) as [b0|]; [|rewrite E2, E1; reflexivity]. subst b0.
    destruct (dget b t) as [d0|] eqn:Eb; [|now subst d]. subst d0. now apply (F b d). }
  pose proof (flat_set (fun l : list pmsg => l) d p msgs) as Q. rewrite N, app_nil_r in Q. exact Q.
Qed.

Section Build.
  Variables acks timeout : Z.
  Variable compress_fails : list pmsg -> option exn.
  Variable serialize_fails : prequest -> option exn.

  (** nested lookups *)
  Definition slook (sent : dict Z batch) (c : Z) (t : text) : dict Z (list pmsg) :=
    @getd text (dict Z (list pmsg)) _ [] (@getd Z batch _ [] sent c) t.
  Lemma record_sent_look sent c t p msgs c' t' :
    slook (record_sent sent c t p msgs) c' t' =
    if (c' =? c) && list_eqb t' t then dset (slook sent c t) p msgs else slook sent c' t'.
  Proof.
    unfold record_sent, slook.
    pose proof (ddefault_set ([] : batch) sent c) as S1. destruct (@ddefault Z batch _ [] sent c) as [b s1]. cbn [fst snd] in S1.
    pose proof (ddefault_set ([] : dict Z (list pmsg)) b t) as S2. destruct (@ddefault text (dict Z (list pmsg)) _ [] b t) as [d b1].
    cbn [fst snd] in S2. rewrite (proj1 (S1 _)), (proj1 (S2 _)).
    destruct (Z.eqb_spec c' c) as [->|N]; cbn [andb].
    - unfold getd at 2. rewrite dget_dset_same. destruct (list_eqb t' t) eqn:Et.
      + apply list_eqb_spec in Et. subst t'. unfold getd at 1. rewrite dget_dset_same.
        rewrite <- (proj2 (S1 [])), <- (proj2 (S2 [])). reflexivity.
      + assert (t' <> t) by (intros ->; rewrite (proj2 (list_eqb_spec t t) eq_refl) in Et; discriminate).
        unfold getd at 1. rewrite dget_dset_other by assumption. now rewrite <- (proj2 (S1 [])).
    - unfold getd at 2. rewrite dget_dset_other by assumption. reflexivity.
  Qed.

  Lemma build_partitions_spec c t parts : forall acc sent r sent',
    build_partitions compress_fails c t parts acc sent = (r, sent') ->
    NoDup (dkeys parts) -> (forall p, In p (dkeys parts) -> dget (slook sent c t) p = None) ->
    exists done rest, parts = done ++ rest /\
      Permutation (ordered_msgs sent') (ordered_msgs sent ++ part_msgs done) /\
      (forall c' t', slook sent' c' t' = if (c' =? c) && list_eqb t' t then slook sent c t ++ done else slook sent c' t') /\
      (forall c', dmem sent' c' = true -> dmem sent c' = true \/ c' = c) /\
      (forall c', dmem sent c' = true -> dmem sent' c' = true) /\
      match r with Ok ps => ps = acc ++ parts /\ rest = [] | Err _ => True end.
  Proof.
    induction parts as [|[p msgs] parts IH]; intros acc sent r sent' H N F; cbn [build_partitions] in H.
    - injection H as <- <-. exists [], []. cbn. rewrite !app_nil_r. repeat split; auto.
      intros c' t'. destruct (Z.eqb_spec c' c) as [->|]; [|reflexivity]. cbn [andb].
      destruct (list_eqb t' t) eqn:Et; [|reflexivity]. apply list_eqb_spec in Et. now subst.
    - cbn [dkeys map fst] in N. inversion N as [|? ? N1 N2]; subst.
      destruct (compress_fails msgs).
      { injection H as <- <-. exists [], ((p, msgs) :: parts). cbn. rewrite !app_nil_r. repeat split; auto.
        intros c' t'. destruct (Z.eqb_spec c' c) as [->|]; [|reflexivity]. cbn [andb].
        destruct (list_eqb t' t) eqn:Et; [|reflexivity]. apply list_eqb_spec in Et. now subst. }
      assert (Np : dget (slook sent c t) p = None) by (apply F; now left).
      apply IH in H as (dn & rest & -> & P & L & M1 & M2 & R).
      + exists ((p, msgs) :: dn), rest. split; [reflexivity|]. split; [|split; [|split; [|split]]].
        * rewrite P, record_sent_perm.
          -- cbn. now rewrite <- app_assoc.
          -- intros b d Hb Hd. unfold slook, getd in Np. now rewrite Hb, Hd in Np.
        * intros c' t'. rewrite L, !record_sent_look. destruct ((c' =? c) && list_eqb t' t) eqn:E; [|reflexivity].
          rewrite Z.eqb_refl, (proj2 (list_eqb_spec t t) eq_refl). cbn [andb]. rewrite (dset_new _ _ _ Np), <- app_assoc. reflexivity.
        * intros c' Hc. apply M1 in Hc as [Hc|Hc]; [|now right]. unfold record_sent in Hc.
          pose proof (ddefault_set ([] : batch) sent c) as S1. destruct (@ddefault Z batch _ [] sent c) as [b s1]. cbn [fst snd] in S1.
          destruct (@ddefault text (dict Z (list pmsg)) _ [] b t) as [d b1]. rewrite (proj1 (S1 _)) in Hc.
          apply dmem_true, in_dkeys_dset in Hc as [->|Hc]; [now right|left; now apply dmem_true].
        * intros c' Hc. apply M2. unfold record_sent.
          pose proof (ddefault_set ([] : batch) sent c) as S1. destruct (@ddefault Z batch _ [] sent c) as [b s1]. cbn [fst snd] in S1.
          destruct (@ddefault text (dict Z (list pmsg)) _ [] b t) as [d b1]. rewrite (proj1 (S1 _)).
          apply dmem_true, in_dkeys_dset. right. now apply dmem_true.
        * destruct r as [ps|e]; [|exact Logic.I]. destruct R as [-> ->]. split; [now rewrite <- app_assoc|reflexivity].
      + exact N2.
      + intros p' Hp. rewrite record_sent_look, Z.eqb_refl, (proj2 (list_eqb_spec t t) eq_refl). cbn [andb].
        rewrite dget_dset_other; [apply F; now right|]. intros ->. now apply N1.
  Qed.

  Definition nd_batch (b : batch) : Prop := NoDup (dkeys b) /\ forall t d, In (t, d) b -> NoDup (dkeys d).
  Lemma nd_batch_cons t d b : nd_batch ((t, d) :: b) -> NoDup (dkeys d) /\ ~ In t (dkeys b) /\ nd_batch b.
  Proof.
    intros [A B]. cbn [dkeys map fst] in A. inversion A; subst. split; [apply (B t); now left|]. split; [assumption|].
    split; [assumption|]. intros t' d' Hd. apply (B t'). now right.
  Qed.

  Lemma build_topics_spec c topics : forall acc sent r sent',
    build_topics compress_fails c topics acc sent = (r, sent') ->
    nd_batch topics -> (forall t, In t (dkeys topics) -> slook sent c t = []) ->
    exists dn rest : list pmsg, Permutation (batch_msgs topics) (dn ++ rest) /\
      Permutation (ordered_msgs sent') (ordered_msgs sent ++ dn) /\
      (forall c' t', c' <> c -> slook sent' c' t' = slook sent c' t') /\
      (forall c', dmem sent' c' = true -> dmem sent c' = true \/ c' = c) /\
      (forall c', dmem sent c' = true -> dmem sent' c' = true) /\
      match r with
      | Ok ts => ts = acc ++ topics /\ rest = [] /\
          (forall t', slook sent' c t' = if dmem topics t' then getd ([] : dict Z (list pmsg)) topics t' else slook sent c t')
      | Err _ => True
      end.
  Proof.
    induction topics as [|[t parts] topics IH]; intros acc sent r sent' H N F; cbn [build_topics] in H.
    - injection H as <- <-. exists [], []. cbn. rewrite !app_nil_r. repeat split; auto.
    - apply nd_batch_cons in N as (N1 & N2 & N3).
      destruct (build_partitions compress_fails c t parts [] sent) as [r1 s1] eqn:E.
      assert (F0 : slook sent c t = []) by (apply F; now left).
      destruct (build_partitions_spec _ _ _ _ _ _ _ E N1) as (dn & rest & -> & P & L & M1 & M2 & R).
      { intros p _. now rewrite F0. }
      destruct r1 as [ps|e].
      2:{ injection H as <- <-. exists (part_msgs dn), (part_msgs rest ++ batch_msgs topics).
          split. { change (batch_msgs ((t, dn ++ rest) :: topics)) with (part_msgs (dn ++ rest) ++ batch_msgs topics).
            unfold part_msgs. rewrite flat_map_app. perm. }
          split; [exact P|]. split; [|auto]. intros c' t' Nc. rewrite L. now rewrite (proj2 (Z.eqb_neq c' c) Nc). }
      destruct R as [-> ->]. rewrite app_nil_r in *.
      destruct (IH _ _ _ _ H N3) as (dn2 & rest2 & P2 & P3 & L2 & M3 & M4 & R2).
      { intros t' Ht. rewrite L, Z.eqb_refl. cbn [andb]. destruct (list_eqb t' t) eqn:Et; [|apply F; now right].
        apply list_eqb_spec in Et. subst. contradiction. }
      exists (part_msgs dn ++ dn2), rest2. split; [|split; [|split; [|split; [|split]]]].
      + change (batch_msgs ((t, dn) :: topics)) with (part_msgs dn ++ batch_msgs topics). rewrite P2. perm.
      + rewrite P3, P. perm.
      + intros c' t' Nc. rewrite L2 by assumption. rewrite L. now rewrite (proj2 (Z.eqb_neq c' c) Nc).
      + intros c' Hc. apply M3 in Hc as [Hc|Hc]; auto.
      + auto.
      + destruct r as [ts|e]; [|exact Logic.I]. destruct R2 as (-> & -> & R2). rewrite <- app_assoc.
        split; [reflexivity|]. split; [reflexivity|]. intros t'. rewrite R2, L, Z.eqb_refl, F0. cbn [andb app dmem getd].
        unfold dmem, getd. cbn [dget]. change (eqb t t') with (list_eqb t t').
        destruct (list_eqb t t') eqn:Et.
        * apply list_eqb_spec in Et. subst t'. apply (dget_None_notin topics t) in N2. rewrite N2.
          now rewrite (proj2 (list_eqb_spec t t) eq_refl).
        * destruct (list_eqb t' t) eqn:Et'; [|reflexivity]. apply list_eqb_spec in Et'. subst t'.
          now rewrite (proj2 (list_eqb_spec t t) eq_refl) in Et.
  Qed.

  Definition nd_ordered (o : ordered) : Prop := NoDup (dkeys o) /\ forall l b, In (l, b) o -> nd_batch b.
  Lemma slook_fresh sent c t : dmem sent c = false -> slook sent c t = [].
  Proof. intros H. unfold slook, getd. unfold dmem in H. destruct (dget sent c); [discriminate H|reflexivity]. Qed.

  Lemma build_requests_spec o : forall corr acc sent r corr' sent',
    build_requests acks timeout compress_fails o corr acc sent = (r, corr', sent') ->
    (forall l b, In (l, b) o -> nd_batch b) -> (forall c, dmem sent c = true -> c <= corr) ->
    corr <= corr' /\ (forall c, dmem sent' c = true -> c <= corr') /\
    (forall c, dmem sent c = true -> dmem sent' c = true) /\
    (forall c t, c <= corr -> slook sent' c t = slook sent c t) /\
    exists dn rest : list pmsg, Permutation (ordered_msgs o) (dn ++ rest) /\
      Permutation (ordered_msgs sent') (ordered_msgs sent ++ dn) /\
      match r with
      | Ok rqs => rest = [] /\ exists new, rqs = acc ++ new /\
          map (fun rq => (pq_leader rq, pq_topics rq)) new = o /\
          (forall rq, In rq new -> corr < pq_corr rq <= corr' /\ pq_acks rq = acks /\ pq_timeout rq = timeout /\
             (forall t, slook sent' (pq_corr rq) t = getd ([] : dict Z (list pmsg)) (pq_topics rq) t)) /\
          NoDup (map pq_corr new) /\
          (forall c, dmem sent' c = true -> dmem sent c = true \/ In c (map pq_corr new))
      | Err _ => True
      end.
  Proof.
    induction o as [|[l b] o IH]; intros corr acc sent r corr' sent' H N F; cbn [build_requests] in H.
    - injection H as <- <- <-. split; [lia|]. split; [exact F|]. split; [auto|]. split; [auto|].
      exists [], []. rewrite !app_nil_r. split; [reflexivity|]. split; [reflexivity|]. split; [reflexivity|].
      exists []. rewrite app_nil_r. split; [reflexivity|]. split; [reflexivity|]. split; [intros rq []|]. split; [constructor|auto].
    - destruct (build_topics compress_fails (corr + 1) b [] sent) as [r1 s1] eqn:E.
      assert (Fr : dmem sent (corr + 1) = false) by (destruct (dmem sent (corr + 1)) eqn:Ed; [apply F in Ed; lia|reflexivity]).
      destruct (build_topics_spec _ _ _ _ _ _ E) as (dn & rest & P & P2 & L & M1 & M2 & R).
      { apply (N l). now left. }
      { intros t _. now apply slook_fresh. }
      destruct r1 as [ts|e].
      2:{ injection H as <- <- <-. split; [lia|]. split; [intros c Hc; apply M1 in Hc as [Hc|Hc]; [apply F in Hc|]; lia|].
          split; [exact M2|]. split; [intros c t Hc; apply L; lia|].
          exists dn, (rest ++ ordered_msgs o). split; [change (ordered_msgs ((l, b) :: o)) with (batch_msgs b ++ ordered_msgs o); rewrite P; perm|]. auto. }
      destruct R as (-> & -> & R). cbn [app] in H.
      destruct (IH _ _ _ _ _ _ H) as (C1 & C2 & C3 & C4 & dn2 & rest2 & Q1 & Q2 & Q3).
      { intros l' b' Hb. apply (N l'). now right. }
      { intros c Hc. apply M1 in Hc as [Hc|Hc]; [apply F in Hc|]; lia. }
      split; [lia|]. split; [exact C2|]. split; [auto|]. split; [intros c t Hc; rewrite C4 by lia; apply L; lia|].
      exists (dn ++ dn2), rest2. split; [change (ordered_msgs ((l, b) :: o)) with (batch_msgs b ++ ordered_msgs o); rewrite P, Q1; perm|].
      split; [rewrite Q2, P2; perm|]. destruct r as [rqs|e]; [|exact Logic.I].
      destruct Q3 as (-> & new & -> & E1 & E2 & E3 & E4). split; [reflexivity|].
      exists (PReq (corr + 1) l acks timeout b :: new). rewrite <- app_assoc. split; [reflexivity|].
      split; [cbn; now rewrite E1|]. split; [|split].
      + intros rq [<-|Hr].
        * cbn [pq_corr pq_acks pq_timeout pq_topics]. split; [lia|]. split; [reflexivity|]. split; [reflexivity|].
          intros t. rewrite C4 by lia. rewrite R. unfold dmem, getd. destruct (dget b t) eqn:Eb; [reflexivity|].
          now apply slook_fresh.
        * destruct (E2 rq Hr) as (A & B). split; [lia|exact B].
      + cbn [map pq_corr]. constructor; [|exact E3]. intros Hi. apply in_map_iff in Hi as (rq & Ec & Hr).
        destruct (E2 rq Hr) as (A & _). lia.
      + intros c Hc. apply E4 in Hc as [Hc|Hc]; [|right; now right]. apply M1 in Hc as [Hc|Hc]; [now left|right; left; cbn; lia].
  Qed.
End Build.

Lemma nd_add_ordered o l t p m : nd_ordered o -> nd_ordered (add_ordered o l t p m).
Proof.
  intros [A B]. unfold add_ordered.
  pose proof (ddefault_set ([] : batch) o l) as S1. destruct (@ddefault Z batch _ [] o l) as [b o1]. cbn [fst snd] in S1.
  pose proof (ddefault_set ([] : dict Z (list pmsg)) b t) as S2. destruct (@ddefault text (dict Z (list pmsg)) _ [] b t) as [d b1].
  cbn [fst snd] in S2. pose proof (ddefault_set ([] : list pmsg) d p) as S3. destruct (@ddefault Z (list pmsg) _ [] d p) as [ms d1].
  cbn [fst snd] in S3. rewrite (proj1 (S1 _)), (proj1 (S2 _)), (proj1 (S3 _)).
  assert (nd_batch b) as Nb.
  { rewrite (proj2 (S1 [])). unfold getd. destruct (dget o l) as [b0|] eqn:Eo; [|split; [constructor|intros ? ? []]].
    apply (B l). now apply dget_In. }
  assert (NoDup (dkeys d)) as Nd.
  { rewrite (proj2 (S2 [])). unfold getd. destruct (dget b t) as [d0|] eqn:Eo; [|constructor].
    apply (proj2 Nb t). now apply dget_In. }
  split; [now apply nodup_dset|]. intros l' b' Hb.
  assert (DI : forall {K V} `{EqB K} (d : dict K V) k v k' v', In (k', v') (dset d k v) -> v' = v \/ In (k', v') d).
  { clear. intros K V EQ d k v k' v'. induction d as [|[k0 v0] d IH]; cbn [dset].
    - intros [E|[]]. injection E as -> ->. now left.
    - destruct (eqb k0 k); intros [E|Hi].
      + injection E as -> ->. now left.
      + right. now right.
      + injection E as -> ->. right. now left.
      + destruct (IH Hi) as [->|?]; [now left|right; now right]. }
  apply DI in Hb as [->|Hb]; [|now apply (B l')]. split; [apply nodup_dset, Nb|].
  intros t' d' Hd. apply DI in Hd as [->|Hd]; [now apply nodup_dset|]. now apply (proj2 Nb t').
Qed.

Lemma order_msgs_nd part t msgs : forall o retry k o' retry' k',
  order_msgs part t msgs o retry k = (Ok (o', retry'), k') -> nd_ordered o -> nd_ordered o'.
Proof.
  induction msgs as [|m msgs IH]; intros o retry k o' retry' k' H N; cbn [order_msgs] in H.
  - now injection H as <- <- <-.
  - destruct (topic_partitions t k) as [ps k1]. destruct (part m ps) as [p|e]; [|discriminate H].
    destruct (get_leader t p k1) as [[l|e] k2]; [|discriminate H].
    destruct (dmem (k_conns k2) l); cbn [negb] in H.
    + apply IH in H; [exact H|]. now apply nd_add_ordered.
    + destruct (@ddefault text (list pmsg) _ [] retry t) as [q r1]. now apply IH in H.
Qed.
Lemma order_topics_nd part items : forall o retry k o' retry' rest k',
  order_topics part items o retry k = (Ok (o', retry'), rest, k') -> nd_ordered o -> nd_ordered o'.
Proof.
  induction items as [|[t msgs] items IH]; intros o retry k o' retry' rest k' H N; cbn [order_topics] in H.
  - now injection H as <- <- <- <-.
  - destruct (order_msgs part t msgs o retry k) as [[[o1 r1]|e] k1] eqn:E; [|discriminate H].
    apply order_msgs_nd in E; [|exact N]. now apply IH in H.
Qed.

(** ** queue_retries *)
Lemma queue_retries_spec t msgs s : 
  let s' := queue_retries t msgs s in
  Permutation (queued s') (queued s ++ msgs) /\ p_sent s' = p_sent s /\ p_heal s' = true /\ p_closing s' = p_closing s /\
  p_cluster s' = p_cluster s /\ p_corr s' = p_corr s /\ p_next s' = p_next s /\ p_open s' = p_open s /\ p_wire s' = p_wire s /\
  p_settled s' = p_settled s /\ p_lost s' = p_lost s /\
  (NoDup (dkeys (p_unsent s)) -> NoDup (dkeys (p_unsent s'))) /\
  (forall t', queue_of s' t' = if list_eqb t' t then queue_of s t ++ msgs else queue_of s t').
Proof.
  unfold queue_retries. pose proof (ddefault_set ([] : list pmsg) (p_unsent s) t) as S1.
  destruct (@ddefault text (list pmsg) _ [] (p_unsent s) t) as [q u]. cbn [fst snd] in S1. cbv zeta. unfold queued, with_heal, with_unsent, queue_of.
  cbn [p_unsent p_sent p_heal p_closing p_cluster p_corr p_next p_open p_wire p_settled p_lost].
  rewrite (proj1 (S1 _)), (proj2 (S1 [])). repeat split.
  - apply (flat_grow (fun l => l) ([] : list pmsg)); reflexivity.
  - apply nodup_dset.
  - intros t'. destruct (list_eqb t' t) eqn:Et.
    + apply list_eqb_spec in Et. subst. now rewrite dget_dset_same.
    + assert (t' <> t) by (intros ->; rewrite (proj2 (list_eqb_spec t t) eq_refl) in Et; discriminate).
      now rewrite dget_dset_other.
Qed.

Lemma retries_spec retry : forall s,
  let s' := fold_left (fun s' tm => queue_retries (fst tm) (snd tm) s') retry s in
  Permutation (queued s') (queued s ++ queue_msgs retry) /\ p_sent s' = p_sent s /\ p_closing s' = p_closing s /\
  p_cluster s' = p_cluster s /\ p_corr s' = p_corr s /\ p_next s' = p_next s /\ p_open s' = p_open s /\ p_wire s' = p_wire s /\
  p_settled s' = p_settled s /\ p_lost s' = p_lost s /\
  (NoDup (dkeys (p_unsent s)) -> NoDup (dkeys (p_unsent s'))) /\
  p_heal s' = match retry with [] => p_heal s | _ => true end.
Proof.
  induction retry as [|[t msgs] retry IH]; intros s; cbn [fold_left fst snd].
  - cbn. rewrite app_nil_r. repeat split; auto.
  - destruct (queue_retries_spec t msgs s) as (A1 & A2 & A3 & A4 & A5 & A6 & A7 & A8 & A9 & A10 & A11 & A12 & _).
    destruct (IH (queue_retries t msgs s)) as (B1 & B2 & B4 & B5 & B6 & B7 & B8 & B9 & B10 & B11 & B12 & B13).
    cbv zeta in *. repeat split; try congruence.
    + rewrite B1, A1. change (queue_msgs ((t, msgs) :: retry)) with (msgs ++ queue_msgs retry). perm.
    + auto.
    + rewrite B13. destruct retry; [exact A3|reflexivity].
Qed.

(** ** without *)
Lemma nodup_app_perm {A} (a b : list A) : NoDup (a ++ b) -> NoDup (b ++ a).
Proof. apply Permutation_NoDup, Permutation_app_comm. Qed.
Lemma without_spec a b x y : Permutation a (x ++ y) -> NoDup (map pm_id a) ->
  (forall m, In m x -> In (pm_id m) (map pm_id b)) -> (forall m, In m y -> ~ In (pm_id m) (map pm_id b)) ->
  Permutation (without a b) y.
Proof.
  intros P _ Hx Hy. unfold without.
  assert (G : forall m, existsb (fun n => Nat.eqb (pm_id n) (pm_id m)) b = true <-> In (pm_id m) (map pm_id b)).
  { intros m. rewrite existsb_exists, in_map_iff. split; intros (n & A & B); exists n; [apply Nat.eqb_eq in B|]; auto.
    split; auto. now apply Nat.eqb_eq. }
  set (g := fun m => negb (existsb (fun n => Nat.eqb (pm_id n) (pm_id m)) b)).
  assert (Gx : filter g x = []).
  { clear P Hy. induction x as [|m x IH]; [reflexivity|]. cbn [filter].
    assert (g m = false) as -> by (unfold g; rewrite (proj2 (G m)); [reflexivity|apply Hx; now left]).
    apply IH. intros; apply Hx; now right. }
  assert (Gy : filter g y = y).
  { clear P Hx Gx. induction y as [|m y IH]; [reflexivity|]. cbn [filter].
    assert (g m = true) as ->.
    { unfold g. destruct (existsb _ b) eqn:E; [|reflexivity]. apply G in E. exfalso. apply (Hy m); [now left|exact E]. }
    f_equal. apply IH. intros; apply Hy; now right. }
  assert (Permutation (filter g a) (filter g (x ++ y))) as Q.
  { clear -P. induction P; cbn [filter].
    - constructor.
    - destruct (g x0); [now constructor|assumption].
    - destruct (g x0), (g y0); try constructor; reflexivity.
    - now rewrite IHP1. }
  rewrite Q, filter_app, Gx, Gy. reflexivity.
Qed.

(** ** more about nested tables *)
Lemma in_dset {K V} `{EqB K} (d : dict K V) k v k' v' : In (k', v') (dset d k v) -> v' = v \/ In (k', v') d.
Proof.
  induction d as [|[k0 v0] d IH]; cbn [dset].
  - intros [E|[]]. injection E as -> ->. now left.
  - destruct (eqb k0 k); intros [E|Hi].
    + injection E as -> ->. now left.
    + right. now right.
    + injection E as -> ->. right. now left.
    + destruct (IH Hi) as [->|?]; [now left|right; now right].
Qed.
Lemma in_ddel_in {K V} `{EqB K} (d : dict K V) k x : In x (ddel d k) -> In x d.
Proof.
  induction d as [|[k0 v0] d IH]; cbn [ddel]; [auto|]. destruct (eqb k0 k); [now right|]. intros [E|Hi]; [now left|right; auto].
Qed.
Lemma nd_getd_batch o c : nd_ordered o -> nd_batch (@getd Z batch _ [] o c).
Proof.
  intros [_ B]. unfold getd. destruct (dget o c) as [b|] eqn:E; [|split; [constructor|intros ? ? []]]. apply (B c). now apply dget_In.
Qed.
Lemma nd_getd_part b t : nd_batch b -> NoDup (dkeys (@getd text (dict Z (list pmsg)) _ [] b t)).
Proof.
  intros [_ B]. unfold getd. destruct (dget b t) as [d|] eqn:E; [|constructor]. apply (B t). now apply dget_In.
Qed.
Lemma nd_set2 o c b t d : nd_ordered o -> nd_batch b -> NoDup (dkeys d) -> nd_ordered (dset o c (dset b t d)).
Proof.
  intros [A B] Nb Nd. split; [now apply nodup_dset|]. intros l' b' Hb. apply in_dset in Hb as [->|Hb]; [|now apply (B l')].
  split; [apply nodup_dset, Nb|]. intros t' d' Hd. apply in_dset in Hd as [->|Hd]; [assumption|]. now apply (proj2 Nb t').
Qed.
Lemma nd_record_sent o c t p ms : nd_ordered o -> nd_ordered (record_sent o c t p ms).
Proof.
  intros N. unfold record_sent.
  pose proof (ddefault_set ([] : batch) o c) as S1. destruct (@ddefault Z batch _ [] o c) as [b o1]. cbn [fst snd] in S1.
  pose proof (ddefault_set ([] : dict Z (list pmsg)) b t) as S2. destruct (@ddefault text (dict Z (list pmsg)) _ [] b t) as [d b1].
  cbn [fst snd] in S2. rewrite (proj1 (S1 _)), (proj1 (S2 _)), (proj2 (S2 [])), (proj2 (S1 [])).
  apply nd_set2; [exact N|now apply nd_getd_batch|]. apply nodup_dset, nd_getd_part, nd_getd_batch, N.
Qed.
Lemma build_partitions_nd cf c t parts : forall acc sent r sent',
  build_partitions cf c t parts acc sent = (r, sent') -> nd_ordered sent -> nd_ordered sent'.
Proof.
  induction parts as [|[p ms] parts IH]; intros acc sent r sent' H N; cbn [build_partitions] in H; [now injection H as <- <-|].
  destruct (cf ms); [now injection H as <- <-|]. apply IH in H; [exact H|]. now apply nd_record_sent.
Qed.
Lemma build_topics_nd cf c topics : forall acc sent r sent',
  build_topics cf c topics acc sent = (r, sent') -> nd_ordered sent -> nd_ordered sent'.
Proof.
  induction topics as [|[t ps] topics IH]; intros acc sent r sent' H N; cbn [build_topics] in H; [now injection H as <- <-|].
  destruct (build_partitions cf c t ps [] sent) as [[x|e] s1] eqn:E; apply build_partitions_nd in E; trivial.
  - now apply IH in H.
  - now injection H as <- <-.
Qed.
Lemma build_requests_nd a t cf o : forall corr acc sent r corr' sent',
  build_requests a t cf o corr acc sent = (r, corr', sent') -> nd_ordered sent -> nd_ordered sent'.
Proof.
  induction o as [|[l b] o IH]; intros corr acc sent r corr' sent' H N; cbn [build_requests] in H; [now injection H as <- <- <-|].
  destruct (build_topics cf (corr + 1) b [] sent) as [[x|e] s1] eqn:E; apply build_topics_nd in E; trivial.
  - now apply IH in H.
  - now injection H as <- <- <-.
Qed.

(** tables of pending messages have no empty inner tables *)
Definition populated (o : ordered) : Prop := forall l b, In (l, b) o -> exists t d, In (t, d) b /\ d <> [].
Lemma in_dset_self {K V} `{EqB K} (d : dict K V) k v : exists k', In (k', v) (dset d k v).
Proof.
  exists k. apply dget_In. apply dget_dset_same.
Qed.
Lemma dset_nonempty {K V} `{EqB K} (d : dict K V) k v : dset d k v <> [].
Proof. destruct d as [|[k0 v0] d]; cbn; [discriminate|]. now destruct (eqb k0 k). Qed.
Lemma populated_add o l t p m : populated o -> populated (add_ordered o l t p m).
Proof.
  intros P. unfold add_ordered.
  pose proof (ddefault_set ([] : batch) o l) as S1. destruct (@ddefault Z batch _ [] o l) as [b o1]. cbn [fst snd] in S1.
  pose proof (ddefault_set ([] : dict Z (list pmsg)) b t) as S2. destruct (@ddefault text (dict Z (list pmsg)) _ [] b t) as [d b1].
  cbn [fst snd] in S2. pose proof (ddefault_set ([] : list pmsg) d p) as S3. destruct (@ddefault Z (list pmsg) _ [] d p) as [ms d1].
  cbn [fst snd] in S3. rewrite (proj1 (S1 _)), (proj1 (S2 _)), (proj1 (S3 _)).
  intros l' b' Hb. apply in_dset in Hb as [->|Hb]; [|now apply (P l')].
  destruct (in_dset_self b t (dset d p (ms ++ [m]))) as [k' Hk]. exists k', (dset d p (ms ++ [m])). split; [exact Hk|]. apply dset_nonempty.
Qed.
Lemma order_msgs_pop part t msgs : forall o retry k o' retry' k',
  order_msgs part t msgs o retry k = (Ok (o', retry'), k') -> populated o -> populated o'.
Proof.
  induction msgs as [|m msgs IH]; intros o retry k o' retry' k' H N; cbn [order_msgs] in H.
  - now injection H as <- <- <-.
  - destruct (topic_partitions t k) as [ps k1]. destruct (part m ps) as [p|e]; [|discriminate H].
    destruct (get_leader t p k1) as [[l|e] k2]; [|discriminate H].
    destruct (dmem (k_conns k2) l); cbn [negb] in H.
    + apply IH in H; [exact H|]. now apply populated_add.
    + destruct (@ddefault text (list pmsg) _ [] retry t) as [q r1]. now apply IH in H.
Qed.
Lemma order_topics_pop part items : forall o retry k o' retry' rest k',
  order_topics part items o retry k = (Ok (o', retry'), rest, k') -> populated o -> populated o'.
Proof.
  induction items as [|[t msgs] items IH]; intros o retry k o' retry' rest k' H N; cbn [order_topics] in H.
  - now injection H as <- <- <- <-.
  - destruct (order_msgs part t msgs o retry k) as [[[o1 r1]|e] k1] eqn:E; [|discriminate H].
    apply order_msgs_pop in E; [|exact N]. now apply IH in H.
Qed.

Lemma write_all_spec sf rqs k : forall wire r wire',
  write_all sf rqs k wire = (r, wire') ->
  exists w, wire' = wire ++ w /\ incl w rqs /\ (NoDup (map pq_corr rqs) -> NoDup (map pq_corr w)) /\
    match r with Ok _ => forall rq, In rq rqs -> In rq w \/ exists c, dget (k_conns k) (pq_leader rq) = Some c /\ cc_closing c = true | Err _ => True end.
Proof.
  induction rqs as [|rq rqs IH]; intros wire r wire' H; cbn [write_all] in H.
  - injection H as <- <-. exists []. rewrite app_nil_r. split; [reflexivity|]. split; [intros x Hx; exact Hx|]. split; [auto|]. intros ? [].
  - destruct (dget (k_conns k) (pq_leader rq)) as [c|] eqn:E.
    2:{ injection H as <- <-. exists []. rewrite app_nil_r. split; [reflexivity|]. split; [intros ? []|]. split; [constructor|exact Logic.I]. }
    destruct (cc_closing c) eqn:Ec.
    + apply IH in H as (w & -> & I1 & I2 & I3). exists w. split; [reflexivity|]. split; [intros x Hx; right; now apply I1|].
      split; [intros ND; inversion ND; auto|]. destruct r; [|exact Logic.I]. intros x [<-|Hx]; [right; exists c; auto|auto].
    + destruct (sf rq) as [e|] eqn:Es.
      * injection H as <- <-. exists []. rewrite app_nil_r. split; [reflexivity|]. split; [intros ? []|]. split; [constructor|exact Logic.I].
      * apply IH in H as (w & -> & I1 & I2 & I3). exists (rq :: w). rewrite <- app_assoc. split; [reflexivity|].
        split; [intros x [<-|Hx]; [now left|right; now apply I1]|]. split.
        -- cbn [map]. intros ND. inversion ND as [|? ? N1 N2]; subst. constructor; [|auto]. intros Hi. apply N1.
           apply in_map_iff in Hi as (y & <- & Hy). apply in_map. now apply I1.
        -- destruct r; [|exact Logic.I]. intros x [<-|Hx]; [left; now left|]. destruct (I3 x Hx); [left; now right|now right].
Qed.

(** ** the invariant *)
Record pinv (s : producer) : Prop := {
  i_acc : accounted s;
  i_unsent : NoDup (dkeys (p_unsent s));
  i_sent : nd_ordered (p_sent s);
  i_bound : forall c, dmem (p_sent s) c = true -> c <= p_corr s;
  i_open : forall c, In c (p_open s) -> dmem (p_sent s) c = true;
  i_opnd : NoDup (p_open s);
  i_wire : NoDup (map pq_corr (p_wire s));
  i_wbound : forall rq, In rq (p_wire s) -> pq_corr rq <= p_corr s }.

Lemma accounted_nodup s : accounted s -> NoDup (map pm_id (queued s ++ in_flight s ++ settled_msgs s ++ p_lost s)).
Proof. intros A. apply Permutation_NoDup with (seq 0 (p_next s)); [symmetry; exact A|apply seq_NoDup]. Qed.
Lemma accounted_perm s s' : p_next s' = p_next s ->
  Permutation (queued s' ++ in_flight s' ++ settled_msgs s' ++ p_lost s') (queued s ++ in_flight s ++ settled_msgs s ++ p_lost s) ->
  accounted s -> accounted s'.
Proof. unfold accounted. intros -> P A. now rewrite (Permutation_map pm_id P). Qed.

Lemma nodup_rev {A} (l : list A) : NoDup l -> NoDup (rev l).
Proof. intros H. apply (Permutation_NoDup (Permutation_rev l) H). Qed.
Lemma dkeys_rev {K V} (d : dict K V) : dkeys (rev d) = rev (dkeys d).
Proof. unfold dkeys. apply map_rev. Qed.
Lemma dmem_dkeys {K V} `{EqB K} (d : dict K V) k : dmem d k = true <-> In k (dkeys d).
Proof.
  unfold dmem. split; intros Hd.
  - destruct (dget d k) as [v|] eqn:E; [|discriminate Hd]. apply dget_In in E. apply (in_map fst) in E. exact E.
  - apply in_dkeys_dget in Hd as [v ->]. reflexivity.
Qed.
Lemma nodup_ids_disjoint (a b : list pmsg) m n : NoDup (map pm_id (a ++ b)) -> In m a -> In n b -> pm_id m <> pm_id n.
Proof.
  rewrite map_app. intros N Ha Hb E. induction a as [|x a IH]; [destruct Ha|]. cbn in N. inversion N as [|? ? N1 N2]; subst.
  destruct Ha as [->|Ha]; [|auto]. apply N1. apply in_or_app. right. rewrite E. now apply in_map.
Qed.

Lemma NoDup_app_left {A} (a b : list A) : NoDup (a ++ b) -> NoDup a.
Proof. induction a as [|x a IH]; intros H; [constructor|]. inversion H; subst. constructor; [|auto]. intros Hx. apply H2, in_or_app. now left. Qed.
Lemma NoDup_app_intro {A} (a b : list A) : NoDup a -> NoDup b -> (forall x, In x a -> In x b -> False) -> NoDup (a ++ b).
Proof.
  intros Ha Hb D. induction a as [|x a IH]; [exact Hb|]. inversion Ha; subst. cbn. constructor.
  - intros Hi. apply in_app_or in Hi as [Hi|Hi]; [contradiction|]. apply (D x); [now left|exact Hi].
  - apply IH; [assumption|]. intros y Hy. apply D. now right.
Qed.
Definition request_msgs (rq : prequest) : list pmsg := batch_msgs (pq_topics rq).
Lemma requests_msgs rqs o : map (fun rq => (pq_leader rq, pq_topics rq)) rqs = o -> flat_map request_msgs rqs = ordered_msgs o.
Proof. intros <-. induction rqs as [|rq rqs IH]; [reflexivity|]. cbn. now rewrite IH. Qed.

Section Steps.
  Variable batch_size : option Z.
  Variables acks timeout : Z.
  Variable compress_fails : list pmsg -> option exn.
  Variable serialize_fails : prequest -> option exn.
  Notation flush := (flush acks timeout compress_fails serialize_fails).

  Lemma flush_spec part s r s' : flush part s = (r, s') -> pinv s ->
    pinv s' /\ p_closing s' = p_closing s /\ p_next s' = p_next s /\ p_settled s' = p_settled s /\ p_corr s <= p_corr s' /\
    (forall c t, c <= p_corr s -> slook (p_sent s') c t = slook (p_sent s) c t) /\
    (exists w, p_wire s' = p_wire s ++ w /\ (forall rq, In rq w -> incl (request_msgs rq) (queued s)) /\
       match r with Ok rqs => incl w rqs | Err _ => True end) /\
    match r with
    | Ok rqs => p_lost s' = p_lost s /\ Permutation (queued s) (flat_map request_msgs rqs ++ queued s') /\
        p_open s' = p_open s ++ map pq_corr rqs /\
        (forall rq, In rq rqs -> p_corr s < pq_corr rq <= p_corr s' /\ pq_acks rq = acks /\ pq_timeout rq = timeout /\
           dmem (p_sent s') (pq_corr rq) = true /\
           forall t, slook (p_sent s') (pq_corr rq) t = getd ([] : dict Z (list pmsg)) (pq_topics rq) t) /\
        NoDup (map pq_corr rqs)
    | Err _ => True
    end.
  Proof.
    intros H I. unfold Producer.flush in H. pose proof (accounted_nodup s (i_acc s I)) as ND.
    destruct (p_unsent s) as [|u0 us] eqn:EU.
    { injection H as <- <-. split; [exact I|]. do 3 (split; [reflexivity|]). split; [lia|]. split; [reflexivity|].
      split; [exists []; rewrite app_nil_r; split; [reflexivity|]; split; intros ? []|].
      split; [reflexivity|]. split; [reflexivity|]. split; [now rewrite app_nil_r|]. split; [intros rq []|constructor]. }
    rewrite <- EU in *. clear u0 us EU.
    destruct (order_topics part (drain_items (p_unsent s)) [] [] (p_cluster s)) as [[r1 rest] k1] eqn:EO.
    destruct (order_topics_suffix _ _ _ _ _ _ _ _ EO) as [pre EP].
    assert (PQ : Permutation (queued s) (queue_msgs pre ++ queue_msgs rest)).
    { unfold queued. rewrite <- (flat_rev (fun l : list pmsg => l) (p_unsent s)). fold (drain_items (p_unsent s)).
      change (flat (fun l : list pmsg => l) (drain_items (p_unsent s))) with (queue_msgs (drain_items (p_unsent s))).
      rewrite EP. unfold queue_msgs. now rewrite flat_map_app. }
    assert (NU : NoDup (dkeys (rev rest))).
    { rewrite dkeys_rev. apply nodup_rev. pose proof (i_unsent s I) as N. apply nodup_rev in N. rewrite <- dkeys_rev in N.
      fold (drain_items (p_unsent s)) in N. rewrite EP in N. unfold dkeys in *. rewrite map_app in N.
      clear -N. induction (map fst pre); [exact N|]. cbn in N. inversion N; auto. }
    assert (QR : Permutation (queue_msgs (rev rest)) (queue_msgs rest)) by apply (flat_rev (fun l : list pmsg => l)).
    assert (NDq : NoDup (map pm_id (queue_msgs pre ++ queue_msgs rest))).
    { rewrite <- (Permutation_map pm_id PQ). rewrite map_app in ND. clear -ND. now apply NoDup_app_left in ND. }
    assert (TK : Permutation (without (queue_msgs (p_unsent s)) (queue_msgs rest)) (queue_msgs pre)).
    { apply without_spec with (x := queue_msgs rest).
      - fold (queued s). rewrite PQ. apply Permutation_app_comm.
      - fold (queued s). apply (Permutation_NoDup (Permutation_map pm_id (Permutation_sym PQ))). exact NDq.
      - intros m Hm. now apply in_map.
      - intros m Hm Hi. apply in_map_iff in Hi as (n & En & Hn).
        exact (nodup_ids_disjoint _ _ m n NDq Hm Hn (eq_sym En)). }
    destruct r1 as [[o retry]|e].
    2:{ injection H as <- <-. unfold with_cluster, with_unsent.
        cbn [p_unsent p_sent p_heal p_closing p_cluster p_corr p_next p_open p_wire p_settled p_lost].
        split; [|do 3 (split; [reflexivity|]); split; [lia|]; split; [reflexivity|]; split; [exists []; rewrite app_nil_r; split; [reflexivity|]; split; [intros ? []|exact Logic.I]|exact Logic.I]].
        split; cbn [p_unsent p_sent p_heal p_closing p_cluster p_corr p_next p_open p_wire p_settled p_lost]; try apply I; [|exact NU].
        refine (accounted_perm s _ _ _ (i_acc s I)); [reflexivity|]. unfold queued, in_flight, settled_msgs.
        cbn [p_unsent p_sent p_settled p_lost]. rewrite QR, TK. fold (queued s). rewrite PQ. perm. }
    destruct (order_topics_perm _ _ _ _ _ _ _ _ _ EO) as [-> PO]. cbn [ordered_msgs queue_msgs flat_map app] in PO.
    pose proof (order_topics_nd _ _ _ _ _ _ _ _ _ EO) as NO. pose proof (order_topics_pop _ _ _ _ _ _ _ _ _ EO) as PP.
    assert (NO' : nd_ordered o) by (apply NO; split; [constructor|intros ? ? []]).
    assert (PP' : populated o) by (apply PP; intros ? ? []). clear NO PP.
    rewrite app_nil_r in EP. subst pre. rewrite app_nil_r in PQ.
    unfold with_cluster, with_unsent in H.
    cbn [rev p_unsent p_sent p_heal p_closing p_cluster p_corr p_next p_open p_wire p_settled p_lost] in H.
    destruct (build_requests acks timeout compress_fails o (p_corr s) [] (p_sent s)) as [[r2 corr] sent] eqn:EB.
    pose proof (build_requests_nd _ _ _ _ _ _ _ _ _ _ EB (i_sent s I)) as NS.
    destruct (build_requests_spec _ _ _ _ _ _ _ _ _ _ EB (proj2 NO') (i_bound s I)) as (C1 & C2 & C3 & C4 & dn & rst & Q1 & Q2 & Q3).
    assert (PT : Permutation (queued s) ((dn ++ rst) ++ queue_msgs retry)) by (rewrite PQ, <- PO, Q1; reflexivity).
    destruct r2 as [rqs|e].
    2:{ assert (TL : Permutation (without (without (queue_msgs (p_unsent s)) (queue_msgs [])) (ordered_msgs sent)) (rst ++ queue_msgs retry)).
        { apply without_spec with (x := dn).
          - rewrite TK, <- PQ, PT. perm.
          - apply (Permutation_NoDup (Permutation_map pm_id (Permutation_sym TK))). clear -NDq. now rewrite app_nil_r in NDq.
          - intros m Hm. rewrite (Permutation_map pm_id Q2). apply in_map, in_or_app. now right.
          - intros m Hm Hi. rewrite (Permutation_map pm_id Q2) in Hi. apply in_map_iff in Hi as (n & En & Hn).
            assert (NDs : NoDup (map pm_id ((ordered_msgs (p_sent s) ++ dn) ++ rst ++ queue_msgs retry))).
            { assert (NDa : NoDup (map pm_id (queued s ++ in_flight s))).
              { rewrite app_assoc, map_app in ND. now apply NoDup_app_left in ND. }
              refine (Permutation_NoDup (Permutation_map pm_id _) NDa). rewrite PT. unfold in_flight. perm. }
            exact (nodup_ids_disjoint _ _ n m NDs Hn Hm En). }
        injection H as <- <-.
        cbn [p_unsent p_sent p_heal p_closing p_cluster p_corr p_next p_open p_wire p_settled p_lost].
        split; [|do 3 (split; [reflexivity|]); split; [exact C1|]; split; [exact C4|]; split; [exists []; rewrite app_nil_r; split; [reflexivity|]; split; [intros ? []|exact Logic.I]|exact Logic.I]].
        split; cbn [p_unsent p_sent p_heal p_closing p_cluster p_corr p_next p_open p_wire p_settled p_lost]; try apply I.
        - refine (accounted_perm s _ _ _ (i_acc s I)); [reflexivity|]. unfold in_flight, settled_msgs. 
          unfold queued at 1. cbn [p_unsent p_sent p_settled p_lost]. rewrite TL, Q2, PT. cbn [queue_msgs flat_map app]. perm.
        - constructor.
        - exact NS.
        - exact C2.
        - intros c Hc. apply C3. now apply I.
        - intros rq Hr. apply (i_wbound s I) in Hr. lia. }
    destruct Q3 as (-> & new & -> & E1 & E2 & E3 & E4). cbn [app] in H.
    set (s2 := Prod [] sent (p_heal s) (p_closing s) k1 corr (p_next s) (p_open s) (p_wire s) (p_settled s) (p_lost s)) in *.
    destruct (retries_spec retry s2) as (B1 & B2 & B4 & B5 & B6 & B7 & B8 & B9 & B10 & B11 & B12 & B13).
    set (s3 := fold_left (fun s' tm => queue_retries (fst tm) (snd tm) s') retry s2) in *. cbv zeta in *. clearbody s3.
    subst s2. cbn [p_unsent p_sent p_heal p_closing p_cluster p_corr p_next p_open p_wire p_settled p_lost] in *.
    unfold queued at 2 in B1. cbn [p_unsent queue_msgs flat_map app] in B1.
    destruct (write_all serialize_fails new (p_cluster s3) (p_wire s3)) as [r3 wire] eqn:EW.
    destruct (write_all_spec _ _ _ _ _ _ EW) as (w & -> & W1 & W2 & W3).
    assert (DM : forall rq, In rq new -> dmem sent (pq_corr rq) = true).
    { intros rq Hr. destruct (E2 rq Hr) as (_ & _ & _ & L).
      assert (Ho : In (pq_leader rq, pq_topics rq) o) by (rewrite <- E1; apply in_map_iff; eauto).
      destruct (PP' _ _ Ho) as (t & d & Hd & Nd). specialize (L t). unfold getd in L.
      rewrite (In_dget_nodup (pq_topics rq) t d) in L; [|apply (proj2 NO' _ _ Ho)|exact Hd].
      destruct (dmem sent (pq_corr rq)) eqn:Ed; [reflexivity|]. rewrite (slook_fresh _ _ _ Ed) in L. congruence. }
    injection H as <- <-.
    cbn [p_unsent p_sent p_heal p_closing p_cluster p_corr p_next p_open p_wire p_settled p_lost].
    rewrite B2, B4, B6, B7, B8, B9, B10, B11.
    split.
    { split; cbn [p_unsent p_sent p_heal p_closing p_cluster p_corr p_next p_open p_wire p_settled p_lost].
      - refine (accounted_perm s _ _ _ (i_acc s I)); [reflexivity|]. unfold in_flight, settled_msgs. 
        unfold queued at 1. cbn [p_unsent p_sent p_settled p_lost]. fold (queued s3). rewrite B1, Q2, PT, app_nil_r. perm.
      - apply B12. constructor.
      - exact NS.
      - exact C2.
      - intros c Hc. assert (Hc' : In c (p_open s) \/ In c (map pq_corr new)).
        { destruct r3; [apply in_app_or in Hc; tauto|tauto]. }
        destruct Hc' as [Hc'|Hc']; [apply C3; now apply I|]. apply in_map_iff in Hc' as (rq & <- & Hr). now apply DM.
      - destruct r3; [|apply I]. apply NoDup_app_intro; [apply I|exact E3|]. intros x Hx Hx'.
        apply in_map_iff in Hx' as (rq & <- & Hr). apply (i_open s I) in Hx. apply (i_bound s I) in Hx. destruct (E2 rq Hr). lia.
      - rewrite map_app. apply NoDup_app_intro; [apply I|auto|]. intros x Hx Hx'.
        apply in_map_iff in Hx' as (rq & <- & Hr). apply in_map_iff in Hx as (rq' & Ee & Hr').
        apply (i_wbound s I) in Hr'. destruct (E2 rq (W1 _ Hr)). lia.
      - intros rq Hr. apply in_app_or in Hr as [Hr|Hr]; [apply (i_wbound s I) in Hr; lia|]. destruct (E2 rq (W1 _ Hr)). lia. }
    split; [reflexivity|]. split; [reflexivity|]. split; [reflexivity|]. split; [exact C1|]. split; [exact C4|].
    split; [exists w; split; [reflexivity|]; split; [|destruct r3; [exact W1|exact Logic.I]]|].
    { intros rq Hr m Hm. apply W1 in Hr. apply (Permutation_in _ (Permutation_sym PT)). apply in_or_app. left.
      apply (Permutation_in _ Q1). rewrite <- (requests_msgs _ _ E1). apply in_flat_map. eauto. }
    destruct r3; [|exact Logic.I]. split; [reflexivity|]. split.
    { unfold queued at 2. cbn [p_unsent]. fold (queued s3). rewrite B1, (requests_msgs _ _ E1), PT, Q1. rewrite app_nil_r. reflexivity. }
    split; [reflexivity|]. split; [|exact E3]. intros rq Hr. destruct (E2 rq Hr) as (A1 & A2 & A3 & A4). auto 10.
  Qed.

  (** ** answers *)
  Lemma pop_sent_spec (sent : dict Z batch) c name p r sent' : pop_sent sent c name p = (r, sent') ->
    (nd_ordered sent -> nd_ordered sent') /\ (forall c', c' <> c -> dget sent' c' = dget sent c') /\ dmem sent' c = true /\
    match r with
    | Ok ms => dget (slook sent c name) p = Some ms /\ Permutation (ordered_msgs sent) (ms ++ ordered_msgs sent')
    | Err _ => dget (slook sent c name) p = None /\ Permutation (ordered_msgs sent) (ordered_msgs sent')
    end /\
    (forall t, slook sent' c t = if list_eqb t name then ddel (slook sent c name) p else slook sent c t).
  Proof.
    unfold pop_sent. intros H.
    pose proof (ddefault_set ([] : batch) sent c) as S1. destruct (@ddefault Z batch _ [] sent c) as [b s1]. cbn [fst snd] in S1.
    pose proof (ddefault_set ([] : dict Z (list pmsg)) b name) as S2. destruct (@ddefault text (dict Z (list pmsg)) _ [] b name) as [d b1].
    cbn [fst snd] in S2.
    assert (Ed : slook sent c name = d) by (unfold slook; rewrite <- (proj2 (S1 [])), <- (proj2 (S2 [])); reflexivity).
    assert (G : forall d', sent' = dset sent c (dset b name d') -> (NoDup (dkeys d) -> NoDup (dkeys d')) ->
      (nd_ordered sent -> nd_ordered sent') /\ (forall c', c' <> c -> dget sent' c' = dget sent c') /\ dmem sent' c = true /\
      forall t, slook sent' c t = if list_eqb t name then d' else slook sent c t).
    { intros d' -> Nd. split; [|split; [|split]].
      - intros N. apply nd_set2; [exact N|rewrite (proj2 (S1 [])); now apply nd_getd_batch|]. apply Nd. rewrite <- Ed.
        apply nd_getd_part, nd_getd_batch, N.
      - intros c' Nc. now apply dget_dset_other.
      - unfold dmem. now rewrite dget_dset_same.
      - intros t. unfold slook. unfold getd at 2. rewrite dget_dset_same. unfold getd at 1. destruct (list_eqb t name) eqn:Et.
        + apply list_eqb_spec in Et. subst. now rewrite dget_dset_same.
        + assert (t <> name) by (intros ->; rewrite (proj2 (list_eqb_spec name name) eq_refl) in Et; discriminate).
          rewrite dget_dset_other by assumption. now rewrite <- (proj2 (S1 [])). }
    rewrite Ed.
    destruct (dget d p) as [ms|] eqn:Ep; injection H as <- <-; rewrite (proj1 (S1 _)), (proj1 (S2 _)) in *.
    - destruct (G _ eq_refl) as (G1 & G2 & G3 & G4); [apply nodup_ddel|]. split; [exact G1|]. split; [exact G2|]. split; [exact G3|].
      split; [|exact G4]. split; [reflexivity|].
      rewrite (Permutation_app_comm ms). symmetry. apply (flat_shrink batch_msgs ([] : batch)); [reflexivity|].
      rewrite <- (proj2 (S1 [])). apply (flat_shrink part_msgs ([] : dict Z (list pmsg))); [reflexivity|].
      rewrite <- (proj2 (S2 [])). pose proof (flat_del (fun l : list pmsg => l) d p) as Q. rewrite Ep in Q.
      rewrite Permutation_app_comm. symmetry. exact Q.
    - assert (Dd : ddel d p = d).
      { clear -Ep. induction d as [|[k v] d IH]; [reflexivity|]. cbn [dget ddel] in *. destruct (eqb k p); [discriminate Ep|].
        now rewrite IH. }
      destruct (G _ eq_refl) as (G1 & G2 & G3 & G4); [auto|]. split; [exact G1|]. split; [exact G2|]. split; [exact G3|].
      split; [|now rewrite Dd]. split; [reflexivity|].
      rewrite <- (app_nil_r (ordered_msgs sent)). symmetry.
      apply (flat_grow batch_msgs ([] : batch)); [reflexivity|]. rewrite <- (proj2 (S1 [])).
      apply (flat_grow part_msgs ([] : dict Z (list pmsg))); [reflexivity|]. rewrite <- (proj2 (S2 [])). now rewrite app_nil_r.
  Qed.

  Definition same_rest (s s' : producer) : Prop :=
    p_closing s' = p_closing s /\ p_cluster s' = p_cluster s /\ p_corr s' = p_corr s /\ p_next s' = p_next s /\
    p_open s' = p_open s /\ p_wire s' = p_wire s /\ p_settled s' = p_settled s /\ p_lost s' = p_lost s.
  Definition moves (c : Z) (s s' : producer) : Prop :=
    same_rest s s' /\ (NoDup (dkeys (p_unsent s)) -> NoDup (dkeys (p_unsent s'))) /\
    (nd_ordered (p_sent s) -> nd_ordered (p_sent s')) /\ (forall c', c' <> c -> dget (p_sent s') c' = dget (p_sent s) c') /\
    (dmem (p_sent s) c = true -> dmem (p_sent s') c = true) /\ (p_heal s = true -> p_heal s' = true) /\
    exists mv, Permutation (in_flight s) (mv ++ in_flight s') /\ Permutation (queued s') (queued s ++ mv).
  Lemma moves_refl c s : moves c s s.
  Proof.
    split; [repeat split|]. repeat (split; [auto; fail|]). exists []. cbn. rewrite app_nil_r. split; reflexivity.
  Qed.
  Lemma moves_trans c a b d : moves c a b -> moves c b d -> moves c a d.
  Proof.
    intros (A1 & A2 & A3 & A4 & A5 & A6 & mv & A7 & A8) (B1 & B2 & B3 & B4 & B5 & B6 & nv & B7 & B8).
    split; [unfold same_rest in *; clear -A1 B1; intuition congruence|]. split; [auto|]. split; [auto|]. split; [intros; rewrite B4, A4; auto|].
    split; [auto|]. split; [auto|]. exists (mv ++ nv). rewrite B8, A8, A7, B7. split; perm.
  Qed.
  Lemma pop_err_moves s c name p e sent : pop_sent (p_sent s) c name p = (Err e, sent) -> moves c s (with_sent sent s).
  Proof.
    intros H. destruct (pop_sent_spec _ _ _ _ _ _ H) as (A & B & C & [D1 D2] & E).
    split; [repeat split|]. split; [auto|]. split; [exact A|]. split; [exact B|]. split; [auto|]. split; [auto|].
    exists []. cbn. rewrite app_nil_r. split; [exact D2|reflexivity].
  Qed.
  Lemma pop_ok_moves s c name p ms sent : pop_sent (p_sent s) c name p = (Ok ms, sent) -> moves c s (queue_retries name ms (with_sent sent s)).
  Proof.
    intros H. destruct (pop_sent_spec _ _ _ _ _ _ H) as (A & B & C & [D1 D2] & E).
    destruct (queue_retries_spec name ms (with_sent sent s)) as (A1 & A2 & A3 & A4 & A5 & A6 & A7 & A8 & A9 & A10 & A11 & A12 & _).
    cbv zeta in *. set (s' := queue_retries name ms (with_sent sent s)) in *. clearbody s'.
    cbn [with_sent p_unsent p_sent p_heal p_closing p_cluster p_corr p_next p_open p_wire p_settled p_lost] in *.
    split; [repeat split; assumption|]. split; [exact A12|]. rewrite A2. split; [exact A|]. split; [exact B|]. split; [auto|].
    split; [auto|]. exists ms. unfold in_flight. rewrite A2. split; [exact D2|exact A1].
  Qed.
  Lemma handle_partitions_moves c name ps : forall s r s', handle_partitions c name ps s = (r, s') -> moves c s s'.
  Proof.
    induction ps as [|[p code] ps IH]; intros s r s' H; cbn [handle_partitions] in H.
    - injection H as <- <-. apply moves_refl.
    - destruct (code =? no_error); [now apply IH in H|]. destruct (is_retriable code).
      + destruct (pop_sent (p_sent s) c name p) as [[ms|e] sent] eqn:E.
        * apply IH in H. apply moves_trans with (2 := H). now apply pop_ok_moves with p.
        * injection H as <- <-. now apply pop_err_moves in E.
      + destruct (error_name code); [now apply IH in H|]. injection H as <- <-. apply moves_refl.
  Qed.
  Lemma handle_topics_moves c resp : forall s r s', handle_topics c resp s = (r, s') -> moves c s s'.
  Proof.
    induction resp as [|[name ps] resp IH]; intros s r s' H; cbn [handle_topics] in H.
    - injection H as <- <-. apply moves_refl.
    - destruct (handle_partitions c name ps s) as [[u|e] s1] eqn:E; apply handle_partitions_moves in E.
      + apply IH in H. now apply moves_trans with s1.
      + now injection H as <- <-.
  Qed.
  Lemma settle_fst resp b : map fst (settle resp b) = batch_msgs b.
  Proof.
    unfold settle, batch_msgs. induction b as [|[t d] b IH]; [reflexivity|]. cbn [flat_map fst snd]. rewrite map_app, IH. f_equal.
    unfold part_msgs. induction d as [|[p ms] d IHd]; [reflexivity|]. cbn [flat_map fst snd]. rewrite map_app, IHd. f_equal.
    rewrite map_map. cbn. apply map_id.
  Qed.

  Lemma handle_spec c resp s r s' : handle_produce_response c resp s = (r, s') ->
    p_closing s' = p_closing s /\ p_cluster s' = p_cluster s /\ p_corr s' = p_corr s /\ p_next s' = p_next s /\
    p_open s' = p_open s /\ p_wire s' = p_wire s /\ p_lost s' = p_lost s /\
    (NoDup (dkeys (p_unsent s)) -> NoDup (dkeys (p_unsent s'))) /\
    (nd_ordered (p_sent s) -> nd_ordered (p_sent s')) /\ (forall c', c' <> c -> dget (p_sent s') c' = dget (p_sent s) c') /\
    (exists st, p_settled s' = p_settled s ++ st) /\
    Permutation (queued s' ++ in_flight s' ++ settled_msgs s') (queued s ++ in_flight s ++ settled_msgs s).
  Proof.
    unfold handle_produce_response. intros H. destruct (handle_topics c resp s) as [[u|e] s1] eqn:E; apply handle_topics_moves in E;
      destruct E as ((A1 & A2 & A3 & A4 & A5 & A6 & A7 & A8) & B & C & D & _ & _ & mv & P1 & P2).
    - destruct (dget (p_sent s1) c) as [b|] eqn:Eb; injection H as <- <-.
      + cbn [p_unsent p_sent p_heal p_closing p_cluster p_corr p_next p_open p_wire p_settled p_lost].
        repeat (split; [assumption|]). split.
        { intros N. destruct (C N) as [N1 N2]. split; [now apply nodup_ddel|]. intros l' b' Hb. apply in_ddel_in in Hb. now apply (N2 l'). }
        split; [intros c' Nc; rewrite dget_ddel_other by congruence; auto|]. split; [rewrite A7; eauto|].
        unfold queued, in_flight, settled_msgs in *. cbn [p_unsent p_sent p_settled]. rewrite map_app, settle_fst, A7.
        rewrite P2, P1. pose proof (flat_del batch_msgs (p_sent s1) c) as Q. rewrite Eb in Q.
        change (ordered_msgs (p_sent s1)) with (flat batch_msgs (p_sent s1)). rewrite Q.
        change (flat batch_msgs (ddel (p_sent s1) c)) with (ordered_msgs (ddel (p_sent s1) c)). perm.
      + repeat (split; [assumption|]). split; [exists []; now rewrite app_nil_r|]. unfold settled_msgs. rewrite A7, P1, P2. perm.
    - injection H as <- <-. repeat (split; [assumption|]). split; [exists []; now rewrite app_nil_r|]. unfold settled_msgs. rewrite A7, P1, P2. perm.
  Qed.

  (** ** every event keeps the invariant *)
  Lemma pinv_init k corr : pinv (producer_init k corr).
  Proof. split; cbn; try constructor; try constructor; intros; try contradiction; discriminate. Qed.
  Lemma pinv_same s s' : p_unsent s' = p_unsent s -> p_sent s' = p_sent s -> p_corr s <= p_corr s' -> p_next s' = p_next s ->
    incl (p_open s') (p_open s) -> NoDup (p_open s') -> p_wire s' = p_wire s -> p_settled s' = p_settled s -> p_lost s' = p_lost s ->
    pinv s -> pinv s'.
  Proof.
    intros E1 E2 E3 E4 E5 E6 E7 E8 E9 I. split.
    - unfold accounted, queued, in_flight, settled_msgs. rewrite E1, E2, E4, E8, E9. apply I.
    - rewrite E1. apply I.
    - rewrite E2. apply I.
    - intros c. rewrite E2. intros Hc. apply (i_bound s I) in Hc. lia.
    - intros c Hc. rewrite E2. apply I, E5, Hc.
    - exact E6.
    - rewrite E7. apply I.
    - rewrite E7. intros rq Hr. apply (i_wbound s I) in Hr. lia.
  Qed.
  Lemma enqueue_spec topic mk s r s' : enqueue topic mk s = (r, s') -> pinv s ->
    pinv s' /\ p_sent s' = p_sent s /\ p_heal s' = p_heal s /\ p_closing s' = p_closing s /\ p_cluster s' = p_cluster s /\ p_corr s' = p_corr s /\
    p_open s' = p_open s /\ p_wire s' = p_wire s /\ p_settled s' = p_settled s /\ p_lost s' = p_lost s /\
    match mk with
    | Ok m => r = Ok tt /\ p_next s' = S (p_next s) /\
        forall t, queue_of s' t = queue_of s t ++ (if list_eqb t topic then [PM (p_next s) m] else [])
    | Err e => r = Err e /\ p_next s' = p_next s /\ forall t, queue_of s' t = queue_of s t
    end.
  Proof.
    unfold enqueue. intros H I. pose proof (ddefault_set ([] : list pmsg) (p_unsent s) topic) as S1.
    pose proof (ddefault_keys_nodup ([] : list pmsg) (p_unsent s) topic (i_unsent s I)) as ND.
    pose proof (ddefault_get ([] : list pmsg) (p_unsent s) topic) as GT.
    destruct (@ddefault text (list pmsg) _ [] (p_unsent s) topic) as [q u] eqn:ED. cbn [fst snd] in *.
    destruct mk as [m|e]; injection H as <- <-.
    - split; [|cbn [p_sent p_heal p_closing p_cluster p_corr p_open p_wire p_settled p_lost p_next]; repeat (split; [reflexivity|])].
      + split; cbn [p_unsent p_sent p_heal p_closing p_cluster p_corr p_next p_open p_wire p_settled p_lost]; try apply I.
        * unfold accounted, queued, in_flight, settled_msgs. cbn [p_unsent p_sent p_next p_settled p_lost].
          rewrite seq_S. cbn [plus]. pose proof (i_acc s I) as AC. unfold accounted in AC. rewrite <- AC. change [p_next s] with (map pm_id [PM (p_next s) m]).
          rewrite <- map_app. apply Permutation_map. rewrite (proj1 (S1 _)), (proj2 (S1 [])).
          pose proof (flat_grow (fun l => l) ([] : list pmsg) (p_unsent s) topic _ [PM (p_next s) m] eq_refl (Permutation_refl _)) as Q.
          unfold queued, in_flight, settled_msgs. etransitivity; [apply Permutation_app_tail; exact Q|]. rewrite <- queue_msgs_flat. perm.
        * now apply nodup_dset.
      + intros t. unfold queue_of. cbn [p_unsent]. rewrite (proj1 (S1 _)), (proj2 (S1 [])). destruct (list_eqb t topic) eqn:Et.
        * apply list_eqb_spec in Et. subst. now rewrite dget_dset_same.
        * assert (t <> topic) by (intros ->; rewrite (proj2 (list_eqb_spec topic topic) eq_refl) in Et; discriminate).
          rewrite dget_dset_other by assumption. now rewrite app_nil_r.
    - split; [|cbn [with_unsent p_sent p_heal p_closing p_cluster p_corr p_open p_wire p_settled p_lost p_next]; repeat (split; [reflexivity|])].
      + split; cbn [with_unsent p_unsent p_sent p_heal p_closing p_cluster p_corr p_next p_open p_wire p_settled p_lost]; try apply I; [|exact ND].
        refine (accounted_perm s _ _ _ (i_acc s I)); [reflexivity|]. apply Permutation_app_tail. unfold queued, with_unsent. cbn [p_unsent].
        unfold ddefault in ED. destruct (dget (p_unsent s) topic) eqn:En; injection ED as <- <-; [reflexivity|].
        rewrite <- (app_nil_r (queue_msgs (p_unsent s))). apply (flat_grow (fun l => l) ([] : list pmsg)); [reflexivity|]. unfold getd. now rewrite En.
      + intros t. exact (GT t).
  Qed.

  Notation pstep := (pstep batch_size acks timeout compress_fails serialize_fails).
  Notation prun := (prun batch_size acks timeout compress_fails serialize_fails).
  Lemma resume_inv part topic mk s : pinv s -> 
    pinv (snd (produce_resume batch_size acks timeout compress_fails serialize_fails part topic mk s)).
  Proof.
    intros I. unfold produce_resume. destruct (negb _); [exact I|]. destruct (enqueue topic mk s) as [[u|e] s1] eqn:E.
    - apply enqueue_spec in E as [I1 _]; [|exact I]. destruct (flush_due batch_size s1); [|exact I1].
      destruct (flush part s1) as [[rqs|e] s2] eqn:F; now apply flush_spec in F as [I2 _].
    - now apply enqueue_spec in E as [I1 _].
  Qed.
  Lemma nodup_filter {A} (f : A -> bool) l : NoDup l -> NoDup (filter f l).
  Proof.
    induction l as [|x l IH]; cbn [filter]; intros H; [constructor|]. inversion H; subst. destruct (f x); [|auto]. constructor; [|auto].
    intros Hi. apply filter_In in Hi as [Hi _]. contradiction.
  Qed.
  Lemma answered_inv c s : pinv s -> pinv (answered c s).
  Proof.
    intros I. refine (pinv_same s _ _ _ _ _ _ _ _ _ _ I); try reflexivity.
    - intros x Hx. cbn in Hx. now apply filter_In in Hx as [Hx _].
    - apply nodup_filter, I.
  Qed.
  Lemma handle_inv c resp s r s' : handle_produce_response c resp s = (r, s') -> pinv s -> ~ In c (p_open s) ->
    dmem (p_sent s) c = true -> pinv s'.
  Proof.
    intros H I N O. apply handle_spec in H as (A1 & A2 & A3 & A4 & A5 & A6 & A7 & A8 & A9 & A10 & A11 & A12).
    split.
    - refine (accounted_perm s _ A4 _ (i_acc s I)). rewrite A7.
      transitivity ((queued s' ++ in_flight s' ++ settled_msgs s') ++ p_lost s); [perm|]. rewrite A12. perm.
    - apply A8, I.
    - apply A9, I.
    - intros c' Hc. rewrite A3. destruct (Z.eq_dec c' c) as [->|Nc]; [now apply I|].
      apply (i_bound s I). unfold dmem in *. now rewrite <- A10.
    - intros c' Hc. rewrite A5 in Hc. assert (c' <> c) as Nc by congruence. unfold dmem. rewrite A10 by assumption. now apply (i_open s I).
    - rewrite A5. apply I.
    - rewrite A6. apply I.
    - rewrite A6, A3. apply I.
  Qed.
  Lemma not_open_answered c s : ~ In c (p_open (answered c s)).
  Proof. cbn. intros Hi. apply filter_In in Hi as [_ Hi]. now rewrite Z.eqb_refl in Hi. Qed.

  Lemma pstep_inv s ev : pinv s -> pinv (pstep s ev).
  Proof.
    intros I. destruct ev; cbn [Producer.pstep].
    - unfold produce. destruct (p_closing s); [exact I|]. destruct (negb _); [exact I|]. now apply resume_inv.
    - now apply resume_inv.
    - destruct (flush part s) as [r s2] eqn:F. now apply flush_spec in F as [I2 _].
    - unfold close_begin. match goal with |- context [Producer.flush _ _ _ _ part ?x] => set (s0 := x) end.
      destruct (flush part s0) as [r s2] eqn:F. apply flush_spec in F as [I2 _]; [exact I2|].
      refine (pinv_same s _ _ _ _ _ _ _ _ _ _ I); try reflexivity; [intros x Hx; exact Hx|apply I].
    - destruct (smem (p_open s) corr) eqn:M; [|exact I].
      destruct (handle_produce_response corr resp (answered corr s)) as [r s2] eqn:F.
      apply handle_inv in F; [exact F|now apply answered_inv|apply not_open_answered|]. cbn. apply I. now apply smem_In.
    - destruct (smem (p_open s) corr); [|exact I].
      refine (pinv_same (answered corr s) _ _ _ _ _ _ _ _ _ _ (answered_inv corr s I)); try reflexivity.
      + intros x Hx; exact Hx.
      + apply (i_opnd _ (answered_inv corr s I)).
    - refine (pinv_same s _ _ _ _ _ _ _ _ _ _ I); try reflexivity; [intros x Hx; exact Hx|apply I].
    - refine (pinv_same s _ _ _ _ _ _ _ _ _ _ I); try reflexivity; [intros x Hx; exact Hx|apply I].
    - refine (pinv_same s _ _ _ _ _ _ _ _ _ _ I); try reflexivity; [cbn; lia|intros x Hx; exact Hx|apply I].
  Qed.
  Lemma prun_inv evs : forall s, pinv s -> pinv (prun evs s).
  Proof. induction evs as [|ev evs IH]; intros s I; [exact I|]. cbn. apply IH. now apply pstep_inv. Qed.
End Steps.
