(** Lemmas about lists, lengths, dictionaries and sets (proof library). *)
From Coq Require Import ZArith List Bool Lia Permutation.
From Verif Require Import PyBase.
Import ListNotations.
Open Scope Z_scope.

(** keep arithmetic folded under simpl *)
#[global] Arguments Z.add : simpl never.
#[global] Arguments Z.sub : simpl never.
#[global] Arguments Z.mul : simpl never.
#[global] Arguments Z.div : simpl never.
#[global] Arguments Z.modulo : simpl never.
#[global] Arguments Z.pow : simpl never.
#[global] Arguments Z.of_nat : simpl never.

Lemma bind_ok {A B} (r : res A) (f : A -> res B) b :
  bind r f = Ok b <-> exists a, r = Ok a /\ f a = Ok b.
Proof.
  destruct r; simpl; split.
  - intro H; eauto.
  - intros (a' & E & H). injection E as ->. exact H.
  - discriminate.
  - intros (a' & E & _). discriminate.
Qed.

Lemma Ok_inj {A} (a b : A) : Ok a = Ok b -> a = b.
Proof. congruence. Qed.

Lemma zlen_nonneg {A} (l : list A) : 0 <= zlen l.
Proof. unfold zlen. lia. Qed.
Lemma zlen_nil {A} : zlen (@nil A) = 0.
Proof. reflexivity. Qed.
Lemma zlen_cons {A} (a : A) l : zlen (a :: l) = 1 + zlen l.
Proof. unfold zlen. simpl length. lia. Qed.
Lemma zlen_app {A} (l1 l2 : list A) : zlen (l1 ++ l2) = zlen l1 + zlen l2.
Proof. unfold zlen. rewrite app_length. lia. Qed.
Lemma zlen_map {A B} (f : A -> B) l : zlen (map f l) = zlen l.
Proof. unfold zlen. now rewrite map_length. Qed.
Lemma zlen_rev {A} (l : list A) : zlen (rev l) = zlen l.
Proof. unfold zlen. now rewrite rev_length. Qed.
Lemma zlen_0_nil {A} (l : list A) : zlen l = 0 -> l = [].
Proof. destruct l; [reflexivity|]. rewrite zlen_cons. pose proof (zlen_nonneg l). lia. Qed.
Lemma zlen_to_nat {A} (l : list A) : Z.to_nat (zlen l) = length l.
Proof. unfold zlen. now rewrite Nat2Z.id. Qed.

Section EqbFacts.
  Context {K : Type} `{EqB K}.
  Lemma eqb_false (x y : K) : eqb x y = false <-> x <> y.
  Proof.
    split.
    - intros E ->. rewrite eqb_refl in E. discriminate.
    - intro N. destruct (eqb x y) eqn:E; [|reflexivity]. apply eqb_true in E. contradiction.
  Qed.
  Lemma eqb_sym (x y : K) : eqb x y = eqb y x.
  Proof.
    destruct (eqb x y) eqn:E.
    - apply eqb_true in E as ->. symmetry. apply eqb_refl.
    - apply eqb_false in E. symmetry. apply eqb_false. congruence.
  Qed.
  Lemma eqb_dec (x y : K) : {x = y} + {x <> y}.
  Proof.
    destruct (eqb x y) eqn:E; [left|right].
    - now apply eqb_true.
    - now apply eqb_false.
  Qed.
End EqbFacts.

Section DictFacts.
  Context {K V : Type} `{EqB K}.
  Implicit Types d : dict K V.

  Lemma dget_dset_same d k v : dget (dset d k v) k = Some v.
  Proof.
    induction d as [|[k' v'] r IH]; simpl.
    - now rewrite eqb_refl.
    - destruct (eqb k' k) eqn:E; simpl; rewrite E; auto.
  Qed.

  Lemma dget_dset_other d k v k' : k' <> k -> dget (dset d k v) k' = dget d k'.
  Proof.
    intro N. induction d as [|[k0 v0] r IH]; simpl.
    - destruct (eqb k k') eqn:E; [apply eqb_true in E; congruence|reflexivity].
    - destruct (eqb k0 k) eqn:E; simpl.
      + apply eqb_true in E as ->.
        destruct (eqb k k') eqn:E'; [apply eqb_true in E'; congruence|reflexivity].
      + destruct (eqb k0 k'); auto.
  Qed.

  Lemma dget_In d k v : dget d k = Some v -> In (k, v) d.
  Proof.
    induction d as [|[k' v'] r IH]; simpl; [discriminate|].
    destruct (eqb k' k) eqn:E.
    - intro G; injection G as ->. apply eqb_true in E as ->. now left.
    - intro G. right. auto.
  Qed.

  Lemma dget_None_notin d k : dget d k = None <-> ~ In k (dkeys d).
  Proof.
    unfold dkeys. induction d as [|[k' v'] r IH]; simpl.
    - tauto.
    - destruct (eqb k' k) eqn:E.
      + apply eqb_true in E as ->. split; [discriminate|tauto].
      + apply eqb_false in E. rewrite IH. tauto.
  Qed.

  Lemma dget_Some_in d k v : dget d k = Some v -> In k (dkeys d).
  Proof. intro G. apply dget_In in G. apply (in_map fst) in G. exact G. Qed.

  Lemma in_dkeys_dget d k : In k (dkeys d) -> exists v, dget d k = Some v.
  Proof.
    intro I. destruct (dget d k) eqn:E; [eauto|]. apply dget_None_notin in E. contradiction.
  Qed.

  Lemma In_dget_nodup d k v : NoDup (dkeys d) -> In (k, v) d -> dget d k = Some v.
  Proof.
    unfold dkeys. induction d as [|[k' v'] r IH]; simpl; intros ND I; [tauto|].
    inversion ND as [|? ? N1 N2]; subst.
    destruct I as [I|I].
    - injection I as -> ->. now rewrite eqb_refl.
    - destruct (eqb k' k) eqn:E; [|auto].
      apply eqb_true in E as ->. exfalso. apply N1. apply (in_map fst) in I. exact I.
  Qed.

  Lemma dkeys_dset d k v :
    dkeys (dset d k v) = if dmem d k then dkeys d else dkeys d ++ [k].
  Proof.
    unfold dkeys, dmem. induction d as [|[k' v'] r IH]; simpl; [reflexivity|].
    destruct (eqb k' k) eqn:E; simpl; [reflexivity|].
    rewrite IH. destruct (dget r k); reflexivity.
  Qed.

  Lemma in_dkeys_dset d k v x : In x (dkeys (dset d k v)) <-> x = k \/ In x (dkeys d).
  Proof.
    rewrite dkeys_dset. unfold dmem. destruct (dget d k) eqn:E.
    - apply dget_Some_in in E. split; [auto|intros [->|I]; auto].
    - rewrite in_app_iff. simpl. intuition congruence.
  Qed.

  Lemma nodup_dset d k v : NoDup (dkeys d) -> NoDup (dkeys (dset d k v)).
  Proof.
    intro ND. rewrite dkeys_dset. unfold dmem. destruct (dget d k) eqn:E; [exact ND|].
    apply dget_None_notin in E.
    apply NoDup_rev in ND. rewrite <- (rev_involutive (dkeys d ++ [k])).
    apply NoDup_rev. rewrite rev_app_distr. simpl. constructor; [|exact ND].
    now rewrite <- in_rev.
  Qed.

  Lemma dget_ddel_other d k k' : k' <> k -> dget (ddel d k) k' = dget d k'.
  Proof.
    intro N. induction d as [|[k0 v0] r IH]; simpl; [reflexivity|].
    destruct (eqb k0 k) eqn:E; simpl.
    - apply eqb_true in E as ->.
      destruct (eqb k k') eqn:E'; [apply eqb_true in E'; congruence|reflexivity].
    - now rewrite IH.
  Qed.

  Lemma dget_ddel_same d k : NoDup (dkeys d) -> dget (ddel d k) k = None.
  Proof.
    unfold dkeys. induction d as [|[k0 v0] r IH]; simpl; intro ND; [reflexivity|].
    inversion ND as [|? ? N1 N2]; subst.
    destruct (eqb k0 k) eqn:E.
    - apply eqb_true in E as ->. now apply dget_None_notin.
    - simpl. rewrite E. auto.
  Qed.

  Lemma in_ddel d k x : In x (ddel d k) -> In x d.
  Proof.
    induction d as [|[k0 v0] r IH]; simpl; [tauto|].
    destruct (eqb k0 k); simpl; [auto|intros [I|I]; auto].
  Qed.

  Lemma in_dkeys_ddel d k x : In x (dkeys (ddel d k)) -> In x (dkeys d).
  Proof.
    unfold dkeys. rewrite !in_map_iff. intros (p & E & I). exists p; split; [exact E|].
    eapply in_ddel; eauto.
  Qed.

  Lemma nodup_ddel d k : NoDup (dkeys d) -> NoDup (dkeys (ddel d k)).
  Proof.
    unfold dkeys. induction d as [|[k0 v0] r IH]; simpl; intro ND; [constructor|].
    inversion ND as [|? ? N1 N2]; subst.
    destruct (eqb k0 k); simpl; [exact N2|]. constructor; [|auto].
    intro I. apply N1. now apply (in_dkeys_ddel r k).
  Qed.

  Lemma in_dkeys_ddel_iff d k x :
    NoDup (dkeys d) -> (In x (dkeys (ddel d k)) <-> x <> k /\ In x (dkeys d)).
  Proof.
    intro ND. split.
    - intro I. split; [|now apply (in_dkeys_ddel d k)].
      intros ->. pose proof (dget_ddel_same d k ND) as G. apply dget_None_notin in G. contradiction.
    - intros [N I]. apply in_dkeys_dget in I as [v G].
      rewrite <- (dget_ddel_other d k x N) in G. eapply dget_Some_in; eauto.
  Qed.

  Lemma dmem_true d k : dmem d k = true <-> In k (dkeys d).
  Proof.
    unfold dmem. split.
    - destruct (dget d k) eqn:E; [|discriminate]. intros _. eapply dget_Some_in; eauto.
    - intro I. apply in_dkeys_dget in I as [v ->]. reflexivity.
  Qed.

  Lemma dmem_false d k : dmem d k = false <-> ~ In k (dkeys d).
  Proof.
    rewrite <- dmem_true. destruct (dmem d k); split; congruence.
  Qed.

  Lemma dset_new d k v : dget d k = None -> dset d k v = d ++ [(k, v)].
  Proof.
    induction d as [|[k' v'] r IH]; simpl; [reflexivity|].
    destruct (eqb k' k); [discriminate|]. intro E. now rewrite IH.
  Qed.
End DictFacts.

Section SetFacts.
  Context {K : Type} `{EqB K}.
  Implicit Types s : list K.

  Lemma smem_In s k : smem s k = true <-> In k s.
  Proof.
    induction s as [|x r IH]; simpl; [split; [discriminate|tauto]|].
    rewrite orb_true_iff, IH. split; intros [E|I]; auto.
    - left. now apply eqb_true.
    - left. subst. apply eqb_refl.
  Qed.

  Lemma smem_false s k : smem s k = false <-> ~ In k s.
  Proof. rewrite <- smem_In. destruct (smem s k); split; congruence. Qed.

  Lemma in_sadd s k x : In x (sadd s k) <-> x = k \/ In x s.
  Proof.
    unfold sadd. destruct (smem s k) eqn:E.
    - apply smem_In in E. split; [auto|intros [->|I]; auto].
    - rewrite in_app_iff. simpl. intuition congruence.
  Qed.

  Lemma in_sdiscard s k x : In x (sdiscard s k) <-> x <> k /\ In x s.
  Proof.
    unfold sdiscard. rewrite filter_In, negb_true_iff, eqb_false. tauto.
  Qed.

  Lemma nodup_sadd s k : NoDup s -> NoDup (sadd s k).
  Proof.
    intro ND. unfold sadd. destruct (smem s k) eqn:E; [exact ND|].
    apply smem_false in E. apply NoDup_rev in ND.
    rewrite <- (rev_involutive (s ++ [k])). apply NoDup_rev. rewrite rev_app_distr. simpl.
    constructor; [now rewrite <- in_rev|exact ND].
  Qed.

  Lemma nodup_sdiscard s k : NoDup s -> NoDup (sdiscard s k).
  Proof. apply NoDup_filter. Qed.

  Lemma smem_sdiscard_same s k : smem (sdiscard s k) k = false.
  Proof. apply smem_false. rewrite in_sdiscard. tauto. Qed.
End SetFacts.
