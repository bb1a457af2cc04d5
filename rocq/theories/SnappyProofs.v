(** C10: the snappy framing. *)
From Coq Require Import ZArith List Bool Lia ZifyBool.
From Verif Require Import PyBase BaseLemmas Struct StructProofs Snappy.
Import ListNotations.
Open Scope Z_scope.

(** the blocks of 32768 bytes a byte string is cut into *)
Fixpoint chunks_of (n : nat) (data : bytes) : list bytes :=
  match n, data with
  | S n', _ :: _ => firstn (Z.to_nat block_size) data :: chunks_of n' (skipn (Z.to_nat block_size) data)
  | _, _ => []
  end.
Definition chunks (data : bytes) : list bytes := chunks_of (length data) data.

Definition nblk : nat := Z.to_nat block_size.
Lemma nblk_pos : (0 < nblk)%nat.
Proof. unfold nblk, block_size. lia. Qed.
Global Opaque nblk.
Ltac fold_nblk := change (Z.to_nat block_size) with nblk in *.

Section S.
  Variable comp : bytes -> bytes.
  Variable unc : bytes -> res bytes.
  Hypothesis rt : forall b, Forall is_byte b -> unc (comp b) = Ok b.

  (** the compressed body *)
  Fixpoint body (bl : list bytes) : bytes :=
    match bl with [] => [] | b :: r => be_enc 4 (zlen (comp b)) ++ comp b ++ body r end.

  Lemma comp_blocks_inv n data r : comp_blocks comp n data = Ok r ->
    r = body (chunks_of n data) /\ Forall (fun b => zlen (comp b) < 2 ^ 31) (chunks_of n data) /\
    concat (chunks_of n data) = data.
  Proof.
    revert data r. induction n as [|n IH]; intros data r E.
    - destruct data; [|discriminate]. injection E as <-. repeat constructor.
    - destruct data as [|x data]; [injection E as <-; repeat constructor|].
      cbn [comp_blocks] in E. cbn [chunks_of]. fold_nblk.
      set (B := firstn nblk (x :: data)) in *. set (R := skipn nblk (x :: data)) in *.
      unfold pack1 in E. cbn [int_width] in E.
      destruct (in_range 4 (zlen (comp B))) eqn:IR; [|discriminate]. cbn [bind] in E.
      destruct (comp_blocks comp n R) as [rb|] eqn:ER; [|discriminate]. cbn [bind] in E.
      apply Ok_inj in E. subst r. destruct (IH _ _ ER) as (-> & F & CC).
      cbn [body concat]. rewrite CC. split; [reflexivity|]. split.
      + constructor; [|exact F]. apply in_range_spec in IR. change (256 ^ Z.of_nat 4) with (2 ^ 32) in IR.
        pose proof (zlen_nonneg (comp B)). lia.
      + unfold B, R. apply firstn_skipn.
  Qed.

  Lemma comp_blocks_ok n data : (length data <= n)%nat ->
    Forall (fun b => zlen (comp b) < 2 ^ 31) (chunks_of n data) ->
    comp_blocks comp n data = Ok (body (chunks_of n data)).
  Proof.
    revert data. induction n as [|n IH]; intros data L F.
    - destruct data; [reflexivity|simpl in L; lia].
    - destruct data as [|x data]; [reflexivity|]. cbn [comp_blocks chunks_of] in *. fold_nblk.
      inversion F as [|? ? F1 F2]; subst.
      unfold pack1. cbn [int_width]. pose proof nblk_pos as NP.
      set (B := firstn nblk (x :: data)) in *.
      replace (in_range 4 (zlen (comp B))) with true.
      2:{ symmetry. apply in_range_spec. change (256 ^ Z.of_nat 4) with (2 ^ 32).
          pose proof (zlen_nonneg (comp B)). lia. }
      cbn [bind]. rewrite IH; [reflexivity| |exact F2]. rewrite skipn_length. cbn [length] in L |- *. clear - L NP. lia.
  Qed.

  Lemma unpack_block b pre post : zlen (comp b) < 2 ^ 31 ->
    unpack1 Fi (pre ++ be_enc 4 (zlen (comp b)) ++ post) (zlen pre) = Ok (PInt (zlen (comp b))).
  Proof.
    intro L. apply (unpack1_int Fi); [discriminate|]. apply in_range_spec. cbn [int_width].
    change (256 ^ Z.of_nat 4) with (2 ^ 32). pose proof (zlen_nonneg (comp b)). lia.
  Qed.

  (** reading back, when the last block is long enough for the loop's condition *)
  Lemma decomp_body bl pre fuel :
    Forall (Forall is_byte) bl -> Forall (fun b => zlen (comp b) < 2 ^ 31) bl ->
    (bl <> [] -> 12 <= zlen (comp (last bl []))) ->
    zlen pre >= 16 -> (length bl < fuel)%nat ->
    decomp_loop unc fuel (pre ++ body bl) (zlen (pre ++ body bl) - 16) (zlen pre) = Ok (concat bl).
  Proof.
    revert pre fuel. induction bl as [|b bl IH]; intros pre fuel FB F LB P LF.
    - cbn [body concat]. rewrite app_nil_r. destruct fuel; cbn [decomp_loop];
        replace (zlen pre - 16 <? zlen pre) with true by lia; reflexivity.
    - destruct fuel as [|fuel]; [simpl in LF; lia|]. inversion F as [|? ? F1 F2]; subst.
      inversion FB as [|? ? FB1 FB2]; subst. cbn [body concat decomp_loop].
      assert (LM : 16 <= zlen (be_enc 4 (zlen (comp b)) ++ comp b ++ body bl)).
      { rewrite !zlen_app, be_enc_zlen. change (Z.of_nat 4) with 4. destruct bl as [|b' bl'].
        - specialize (LB ltac:(discriminate)). cbn [last] in LB. cbn [body]. rewrite zlen_nil. lia.
        - assert (G : 16 <= zlen (body (b' :: bl'))); [|pose proof (zlen_nonneg (comp b)); lia].
          specialize (LB ltac:(discriminate)). change (last (b :: b' :: bl') []) with (last (b' :: bl') (@nil Z)) in LB.
          clear - LB. revert b' LB. induction bl' as [|b2 r IHr]; intros b' LB.
          + cbn [body last] in *. rewrite !zlen_app, be_enc_zlen, zlen_nil. change (Z.of_nat 4) with 4. lia.
          + change (last (b' :: b2 :: r) []) with (last (b2 :: r) (@nil Z)) in LB. specialize (IHr _ LB).
            cbn [body] in *. rewrite zlen_app. rewrite (zlen_app (comp b')).
            pose proof (zlen_nonneg (comp b')). pose proof (zlen_nonneg (be_enc 4 (zlen (comp b')))). lia. }
      replace (zlen (pre ++ be_enc 4 (zlen (comp b)) ++ comp b ++ body bl) - 16 <? zlen pre) with false
        by (rewrite zlen_app; lia).
      rewrite (unpack_block b pre (comp b ++ body bl) F1). cbn [bind].
      replace (zlen pre + 4) with (zlen (pre ++ be_enc 4 (zlen (comp b)))) by (rewrite zlen_app, be_enc_zlen; reflexivity).
      rewrite app_assoc, unpack1_bytes. cbn [bind]. rewrite rt by exact FB1. cbn [bind].
      rewrite <- zlen_app. rewrite (app_assoc _ (comp b) (body bl)).
      rewrite IH; [reflexivity|exact FB2|exact F2| |rewrite !zlen_app, be_enc_zlen;
         pose proof (zlen_nonneg (comp b)); lia|simpl in LF; lia].
      intro NE. destruct bl as [|b' bl']; [congruence|]. exact (LB ltac:(discriminate)).
  Qed.

  Lemma chunks_len n data : (length (chunks_of n data) <= n)%nat.
  Proof.
    revert data. induction n as [|n IH]; intros [|x d]; cbn [chunks_of length]; try lia.
    fold_nblk. specialize (IH (skipn nblk (x :: d))). lia.
  Qed.

  Lemma snappy_rt data z :
    Forall is_byte data ->
    (data = [] \/ 12 <= zlen (comp (last (chunks data) []))) ->
    snappy_compress true comp data = Ok z -> snappy_decompress true unc z = Ok data.
  Proof.
    intros BD LB E. unfold snappy_compress in E. cbn [negb] in E.
    destruct (comp_blocks comp (length data) data) as [r|] eqn:EB; [|discriminate]. cbn [bind] in E.
    apply Ok_inj in E. subst z. apply comp_blocks_inv in EB as (-> & F & CC).
    unfold snappy_decompress. cbn [negb]. fold (chunks data) in *. cbv zeta.
    change (zlen raw_header) with 16 at 2. rewrite decomp_body.
    - now rewrite CC.
    - rewrite <- CC in BD. unfold chunks in BD |- *. clear - BD. induction (chunks_of (length data) data) as [|c l IH]; [constructor|].
      cbn [concat] in BD. apply Forall_app in BD as [B1 B2]. constructor; auto.
    - exact F.
    - intro NE. destruct LB as [->|LB]; [exfalso; apply NE; reflexivity|exact LB].
    - change (zlen raw_header) with 16. lia.
    - pose proof (chunks_len (length data) data) as CL. fold (chunks data) in CL. rewrite app_length.
      assert (G : forall bl, (length bl <= length (body bl))%nat).
      { induction bl as [|b bl IH]; [simpl; lia|]. cbn [body length]. rewrite !app_length, be_enc_length. lia. }
      specialize (G (chunks data)). clear - G. unfold bytes in *. lia.
  Qed.

  (** one block whose compressed form is shorter than 12 bytes is lost *)
  Lemma snappy_short_block_lost data z :
    data <> [] -> zlen data <= block_size -> zlen (comp data) < 12 ->
    snappy_compress true comp data = Ok z -> snappy_decompress true unc z = Ok [].
  Proof.
    intros NE L S E. unfold snappy_compress in E. cbn [negb] in E.
    destruct (comp_blocks comp (length data) data) as [r|] eqn:EB; [|discriminate]. cbn [bind] in E.
    apply Ok_inj in E. subst z. apply comp_blocks_inv in EB as (-> & F & CC).
    assert (chunks_of (length data) data = [data]) as ->.
    { destruct data as [|x d]; [congruence|]. cbn [length chunks_of]. fold_nblk.
      assert (LN : (length (x :: d) <= nblk)%nat).
      { assert (Z.of_nat nblk = block_size) by (rewrite <- (Z2Nat.id block_size); [reflexivity|unfold block_size; lia]).
        unfold zlen in L. lia. }
      rewrite (firstn_all2 _ LN), (skipn_all2 _ LN). destruct (length d); reflexivity. }
    unfold snappy_decompress. cbn [negb decomp_loop body].
    replace (_ <? _) with true; [reflexivity|]. symmetry.
    rewrite app_nil_r, !zlen_app, be_enc_zlen. change (zlen raw_header) with 16. lia.
  Qed.
End S.
