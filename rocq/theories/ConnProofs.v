(** Invariants of the connection state machine (proof library for C14-C19). *)
From Coq Require Import ZArith String List Bool Lia.
From Verif Require Import PyBase BaseLemmas Struct StructProofs Primitives Snappy Messages Protocol SpecWire ProtocolProofs
  ParseErrors Request Schemas RequestProofs Connection SpecDocs SpecConn.
Import ListNotations.
Open Scope Z_scope.

(** the documented layout of a response is that of its class, and there is only one *)
Scheme matches_min := Minimality for matches Sort Prop with matches_fields_min := Minimality for matches_fields Sort Prop.
Combined Scheme matches_both from matches_min, matches_fields_min.
Lemma matches_unique m : (forall d t, matches m d t -> forall t', matches m d t' -> t = t') /\
  (forall ds fs, matches_fields m ds fs -> forall fs', matches_fields m ds fs' -> fs = fs').
Proof.
  apply matches_both; try (intros t' H; inversion H; subst; reflexivity).
  - intros d t _ IH t' H. inversion H; subst. f_equal. auto.
  - intros c ds fs D _ IH t' H. inversion H as [| | | | | | | |c' ds' fs' D' M' E1 E2]; subst. f_equal. apply IH. congruence.
  - intros n d ds t fs _ IHt _ IHf fs' H. inversion H; subst. f_equal; [f_equal|]; auto.
Qed.
Lemma response_layout api fs : dget response_classes api = Some fs -> exists m c ds, response_doc api = Some (m, c) /\ documented m c = Some ds /\ matches_fields m ds fs.
Proof.
  intros H. apply dget_In in H. cbn [response_classes] in H.
  repeat (destruct H as [H|H]; [injection H as <- <-; do 3 eexists; split; [reflexivity|]; split; [reflexivity|]; repeat (econstructor; try reflexivity)|]). destruct H.
Qed.
Lemma response_known api m c : response_doc api = Some (m, c) -> exists fs, dget response_classes api = Some fs.
Proof.
  unfold response_doc. cbn [find fst snd].
  repeat (match goal with |- context [String.eqb ?a api] => destruct (String.eqb_spec a api) as [<-|]; [intros _; eexists; reflexivity|] end). discriminate.
Qed.
Lemma decodes_iff C depth api raw v : decodes C depth api raw v <-> exists fs, dget response_classes api = Some fs /\ deserialize C depth (TPart fs) raw = Ok v.
Proof.
  split.
  - intros (m & c & ds & fs & R & D & M & E). destruct (response_known _ _ _ R) as (fs' & K). destruct (response_layout _ _ K) as (m' & c' & ds' & R' & D' & M'). rewrite R in R'. injection R' as <- <-. rewrite D in D'. injection D' as <-.
    exists fs'. split; [exact K|]. now rewrite <- (proj2 (matches_unique m) _ _ M _ M').
  - intros (fs & K & E). destruct (response_layout _ _ K) as (m & c & ds & R & D & M). exists m, c, ds, fs. auto.
Qed.

Lemma nodup_fst_eq {A B} (l : list (A * B)) a b1 b2 :
  NoDup (map fst l) -> In (a, b1) l -> In (a, b2) l -> b1 = b2.
Proof.
  induction l as [|[x y] l IH]; intros ND H1 H2; [destruct H1|].
  cbn [map fst] in ND. inversion ND as [|? ? N1 N2]; subst.
  destruct H1 as [E1|H1], H2 as [E2|H2].
  - congruence.
  - injection E1 as -> ->. elim N1. now apply (in_map fst) in H2.
  - injection E2 as -> ->. elim N1. now apply (in_map fst) in H1.
  - now apply IH.
Qed.

Lemma nodup_map_eq {A B} (g : A -> B) l a1 a2 : NoDup (map g l) -> In a1 l -> In a2 l -> g a1 = g a2 -> a1 = a2.
Proof.
  induction l as [|x l IH]; intros ND H1 H2 E; [destruct H1|].
  cbn [map] in ND. inversion ND as [|? ? N1 N2]; subst.
  destruct H1 as [->|H1], H2 as [->|H2]; auto.
  - elim N1. rewrite E. now apply in_map.
  - elim N1. rewrite <- E. now apply in_map.
Qed.

Lemma nodup_app {A} (l1 l2 : list A) :
  NoDup l1 -> NoDup l2 -> (forall x, In x l1 -> ~ In x l2) -> NoDup (l1 ++ l2).
Proof.
  induction l1 as [|a l1 IH]; intros N1 N2 D; [exact N2|].
  inversion N1; subst. cbn [app]. constructor.
  - intro H. apply in_app_or in H as [H|H]; [contradiction|]. exact (D a (or_introl eq_refl) H).
  - apply IH; auto. intros x H. apply D. now right.
Qed.

Lemma nodup_app_inv {A} (l1 l2 : list A) : NoDup (l1 ++ l2) ->
  NoDup l1 /\ NoDup l2 /\ (forall x, In x l1 -> ~ In x l2).
Proof.
  induction l1 as [|a l1 IH]; cbn [app]; intro H; [repeat split; [constructor|exact H|auto]|].
  inversion H as [|? ? N1 N2]; subst. destruct (IH N2) as (A1 & A2 & A3). repeat split; auto.
  - constructor; [|exact A1]. intro I. apply N1. apply in_or_app. now left.
  - intros x [->|I]; [|now apply A3]. intro J. apply N1. apply in_or_app. now right.
Qed.

Section Inv.
  Variable C : codec.
  Variable depth : nat.
  Variable neg_read : Z -> bytes -> bytes * bytes.

  Notation step := (step C depth neg_read).
  Notation run := (run C depth neg_read).
  Notation issued := (issued C depth neg_read).
  Notation read_step := (read_step C depth neg_read).

  Lemma run_app evs1 evs2 st : run (evs1 ++ evs2) st = run evs2 (run evs1 st).
  Proof. apply fold_left_app. Qed.

  Lemma issued_app evs1 evs2 st : issued (evs1 ++ evs2) st = issued evs1 st ++ issued evs2 (run evs1 st).
  Proof.
    revert st. induction evs1 as [|e r IH]; intro st; [reflexivity|].
    cbn [app SpecConn.issued]. rewrite IH. now rewrite app_assoc.
  Qed.

  Definition good (iss : list (nat * request)) (fo : nat * outcome) : Prop :=
    exists rq, In (fst fo, rq) iss /\
      match snd fo with
      | Got a c v => rq_corr rq = c /\ rq_api rq = a /\ exists raw, decodes C depth a raw v
      | Fail _ => True
      end.

  (** requests sent with the same correlation id are the same request object *)
  Definition one_object (iss : list (nat * request)) : Prop :=
    forall f rq f' rq', In (f, rq) iss -> In (f', rq') iss -> rq_corr rq = rq_corr rq' -> rq = rq'.
  (** a request is not sent while another one with its correlation id is pending *)
  Definition id_free (ev : event) (st : conn) : Prop :=
    match ev with EvSend rq wr => fst (conn_send rq wr st) <> Ok (c_next st) \/ c_closing st = true \/ dget (c_pending st) (rq_corr rq) = None | _ => True end.
  Record inv (iss : list (nat * request)) (st : conn) : Prop := {
    i_lt : forall f rq, In (f, rq) iss -> (f < c_next st)%nat;
    i_nd : NoDup (map fst iss);
    i_id : one_object iss;
    i_pk : NoDup (dkeys (c_pending st));
    i_ak : NoDup (dkeys (c_api st));
    i_p : forall c f, dget (c_pending st) c = Some f ->
            ~ In f (completed st) /\ exists rq, In (f, rq) iss /\ rq_corr rq = c;
    i_a : forall c a, dget (c_api st) c = Some a ->
            exists f rq, dget (c_pending st) c = Some f /\ In (f, rq) iss /\ rq_corr rq = c /\ rq_api rq = a;
    i_g : forall a c v, c_phase st = PGot a c v ->
            dget (c_api st) c = None /\ (c_closing st = false -> exists f, dget (c_pending st) c = Some f) /\
            (exists f rq, In (f, rq) iss /\ rq_corr rq = c /\ rq_api rq = a) /\ exists raw, decodes C depth a raw v;
    i_d1 : NoDup (completed st);
    i_d2 : Forall (good iss) (c_done st);
    i_all : forall f rq, In (f, rq) iss ->
            In f (completed st) \/ dget (c_pending st) (rq_corr rq) = Some f }.
  Lemma i_o iss st : inv iss st -> c_closing st = false -> forall f rq, In (f, rq) iss ->
    In f (completed st) \/ dget (c_pending st) (rq_corr rq) = Some f.
  Proof. intros I _. apply I. Qed.

  Lemma good_mono iss iss' fo : good iss fo -> good (iss ++ iss') fo.
  Proof. intros (rq & H & G). exists rq. split; [apply in_or_app; now left|exact G]. Qed.

  Lemma inv_init : inv [] conn_init.
  Proof.
    split; cbn; intros; try discriminate; try contradiction; try constructor. intros f rq f' rq' [].
  Qed.

  Ltac fields := cbn [c_closing c_api c_pending c_phase c_inbuf c_closed c_next c_done c_written] in *.

  (** changing the phase, the buffer, the stream flag and raising the closing flag *)
  Lemma inv_weak iss st st' : inv iss st ->
    c_next st' = c_next st -> c_pending st' = c_pending st -> c_api st' = c_api st -> c_done st' = c_done st ->
    (c_closing st' = false -> c_closing st = false) ->
    (forall a c v, c_phase st' = PGot a c v -> c_phase st = PGot a c v) ->
    inv iss st'.
  Proof.
    intros I E1 E2 E3 E4 E5 E6. destruct I.
    split; unfold completed in *; rewrite ?E1, ?E2, ?E3, ?E4; auto.
    intros a c v H. apply E6 in H. destruct (i_g0 _ _ _ H) as (N & O & R). auto.
  Qed.

  Lemma inv_abort iss st exc : inv iss st -> inv iss (conn_abort exc st).
  Proof.
    intro I. unfold conn_abort. destruct (c_closing st) eqn:CL; [exact I|].
    set (e := match exc with Some e => e | None => EBrokerConn end).
    set (fl := map (fun kf : Z * nat => (snd kf, Fail e)) (rev (c_pending st))).
    assert (FI : forall f, In f (map fst fl) -> exists c, dget (c_pending st) c = Some f).
    { intros f H. unfold fl in H. rewrite map_map in H. apply in_map_iff in H as ([c f'] & E & H).
      cbn [fst snd] in E. subst f'. apply in_rev in H. exists c. apply In_dget_nodup; [apply I|exact H]. }
    split; fields.
    - apply I.
    - apply I.
    - apply I.
    - constructor.
    - constructor.
    - intros c f H. discriminate.
    - intros c a H. discriminate.
    - intros a c v H. split; [reflexivity|]. split; [discriminate|]. exact (proj2 (proj2 (i_g _ _ I _ _ _ H))).
    - unfold completed. fields. rewrite map_app. apply nodup_app.
      + apply I.
      + unfold fl. rewrite map_map. cbn [fst]. rewrite map_rev. apply NoDup_rev.
        assert (G : forall l, NoDup (dkeys l) -> (forall c f, In (c, f) l -> dget (c_pending st) c = Some f) ->
                    NoDup (map (fun x : Z * nat => snd x) l)).
        { induction l as [|[c f] l IH]; intros ND HL; [constructor|].
          cbn [dkeys map fst] in ND. inversion ND as [|? ? N1 N2]; subst. cbn [map snd]. constructor.
          - intro H. apply in_map_iff in H as ([c' f'] & E & H). cbn [snd] in E. subst f'.
            destruct (i_p _ _ I c f (HL _ _ (or_introl eq_refl))) as (_ & rq & R1 & R2).
            destruct (i_p _ _ I c' f (HL _ _ (or_intror H))) as (_ & rq' & R1' & R2').
            assert (rq = rq') by (eapply nodup_fst_eq; [apply I|eassumption|eassumption]). subst rq'.
            apply N1. rewrite <- R2, R2'. exact (in_map fst l (c', f) H).
          - apply IH; [exact N2|]. intros c' f' H. apply HL. now right. }
        apply G; [apply I|]. intros c f H. apply In_dget_nodup; [apply I|exact H].
      + intros f H1 H2. apply FI in H2 as [c H2]. destruct (i_p _ _ I c f H2) as [N _]. contradiction.
    - apply Forall_app. split; [apply I|]. unfold fl. apply Forall_map, Forall_forall.
      intros [c f] H. apply in_rev in H. apply In_dget_nodup in H; [|apply I].
      destruct (i_p _ _ I c f H) as (_ & rq & R1 & R2). exists rq. cbn [fst snd]. auto.
    - intros f rq H. left. unfold completed. fields. rewrite map_app. apply in_or_app. destruct (i_all _ _ I f rq H) as [O|O]; [now left|right].
      apply dget_In in O. unfold fl. rewrite map_map. cbn [fst]. apply in_map_iff. exists (rq_corr rq, f). split; [reflexivity|]. now apply -> in_rev.
  Qed.

  Lemma inv_error iss st e : inv iss st -> inv iss (on_error e st).
  Proof.
    intro I.
    assert (W : inv iss (Conn true (c_api st) (c_pending st) (c_phase st) (c_inbuf st) (c_closed st)
                           (c_next st) (c_done st) (c_written st)))
      by (eapply inv_weak; [exact I|reflexivity|reflexivity|reflexivity|reflexivity|discriminate|auto]).
    destruct e; cbn [on_error]; try (now apply inv_abort); exact W.
  Qed.

  Lemma closing_error e st : c_closing (on_error e st) = true.
  Proof. destruct e; cbn [on_error]; try reflexivity; unfold conn_abort; destruct (c_closing st) eqn:E; auto. Qed.

  Lemma phase_error e st : c_phase (on_error e st) = c_phase st.
  Proof. destruct e; cbn [on_error]; try reflexivity; unfold conn_abort; destruct (c_closing st); auto. Qed.

  Lemma inv_phase iss st p : inv iss st -> (forall a c v, p <> PGot a c v) -> inv iss (set_phase st p).
  Proof.
    intros I N. eapply inv_weak; [exact I| | | | | |]; try reflexivity; auto.
    intros a c v H. cbn in H. elim (N _ _ _ H).
  Qed.

  Lemma inv_buf iss st b : inv iss st ->
    inv iss (Conn (c_closing st) (c_api st) (c_pending st) (c_phase st) b (c_closed st)
               (c_next st) (c_done st) (c_written st)).
  Proof. intro I. eapply inv_weak; [exact I| | | | | |]; try reflexivity; auto. Qed.

  Lemma inv_with_read iss n st k : inv iss st ->
    (forall b st', inv iss st' -> inv iss (k b st')) -> inv iss (with_read neg_read n st k).
  Proof.
    intros I K. unfold with_read. destruct (read_bytes neg_read n st).
    - apply K. now apply inv_buf.
    - apply inv_phase; [exact I|congruence].
    - exact I.
  Qed.

  Lemma inv_read iss st : inv iss st -> inv iss (read_step st).
  Proof.
    intro I. unfold Connection.read_step. destruct (c_phase st) eqn:P; try exact I.
    - apply inv_phase; [exact I|]. intros; destruct (c_closing st); discriminate.
    - apply inv_with_read; [exact I|]. intros b st' I'. apply inv_phase; [exact I'|].
      intros; destruct (unpack_i b); discriminate.
    - apply inv_with_read; [exact I|]. intros b st' I'. apply inv_phase; [exact I'|].
      intros; destruct (unpack_i b); discriminate.
    - apply inv_with_read; [exact I|]. clear I P st. intros raw st I.
      destruct (dget (c_api st) corr) as [api|] eqn:A; [|apply inv_phase; [exact I|discriminate]].
      assert (I2 : inv iss (Conn (c_closing st) (ddel (c_api st) corr) (c_pending st) (c_phase st) (c_inbuf st)
                           (c_closed st) (c_next st) (c_done st) (c_written st))).
      { destruct I. split; fields; auto.
        - now apply nodup_ddel.
        - intros c a H. apply i_a0. rewrite <- H. symmetry. apply dget_ddel_other. intros ->.
          rewrite dget_ddel_same in H; [discriminate|exact i_ak0].
        - intros a c v H. apply i_g0 in H as [N H]. split; [|exact H].
          destruct (Z.eq_dec c corr) as [->|NE]; [apply dget_ddel_same; exact i_ak0|now rewrite dget_ddel_other]. }
      destruct (dget response_classes api) as [fs|] eqn:K; [|apply inv_phase; [exact I2|discriminate]].
      destruct (deserialize C depth (TPart fs) raw) as [v|e] eqn:D; [|apply inv_phase; [exact I2|discriminate]].
      destruct (i_a _ _ I _ _ A) as (f & rq & R0 & R1 & R2 & R3).
      destruct I2. split; fields; auto.
      intros a c w H. cbn in H. injection H as <- <- <-. split; [apply dget_ddel_same, I|]. split; [eauto|]. split; [exists f, rq; auto|].
      exists raw. apply decodes_iff. exists fs. auto.
    - destruct (dget (c_pending st) corr) as [f|] eqn:PD.
      + destruct (i_p _ _ I _ _ PD) as (NC & rq & R1 & R2).
        destruct (i_g _ _ I _ _ _ P) as (NA & _ & (f' & rq' & R1' & R2' & R3') & raw & D).
        split; fields.
        * apply I.
        * apply I.
        * apply I.
        * apply nodup_ddel, I.
        * apply I.
        * intros c g H.
          assert (NE : c <> corr) by (intros ->; rewrite dget_ddel_same in H; [discriminate|apply I]).
          rewrite dget_ddel_other in H by exact NE.
          destruct (i_p _ _ I _ _ H) as (N & rq2 & Q1 & Q2). split; [|eauto].
          unfold completed in *. fields. rewrite map_app. intro H2. apply in_app_or in H2 as [H2|[H2|[]]]; [contradiction|].
          cbn [fst] in H2. subst g.
          assert (rq2 = rq) by (eapply nodup_fst_eq; [apply I|eassumption|eassumption]). congruence.
        * intros c a H.
          destruct (i_a _ _ I _ _ H) as (g & rq2 & Q0 & Q1 & Q2 & Q3). exists g, rq2. repeat split; auto.
          (* the api of a response being delivered has been popped, so c <> corr *)
          destruct (Z.eq_dec c corr) as [->|NE]; [|rewrite dget_ddel_other; auto].
          congruence.
        * discriminate.
        * unfold completed in *. fields. rewrite map_app. apply nodup_app; [apply I|constructor; [auto|constructor]|].
          intros x H [<-|[]]. cbn [fst] in H. contradiction.
        * apply Forall_app. split; [apply I|]. constructor; [|constructor]. exists rq. cbn [fst snd].
          assert (rq' = rq).
          { apply (i_id _ _ I f' rq' f rq); congruence. }
          subst rq'. eauto.
        * intros g rq2 H. destruct (i_all _ _ I g rq2 H) as [O|O].
          -- left. unfold completed in *. fields. rewrite map_app. apply in_or_app. now left.
          -- destruct (Z.eq_dec (rq_corr rq2) corr) as [E|NE]; [|right; rewrite dget_ddel_other; auto].
             left. unfold completed. fields. rewrite map_app. apply in_or_app. right. left. cbn [fst]. congruence.
      + apply inv_phase; [now apply inv_error|discriminate].
    - apply inv_phase; [now apply inv_error|discriminate].
  Qed.

  Lemma inv_step_again iss st ev : inv iss st -> one_object (iss ++ issued1 ev st) -> id_free ev st ->
    inv (iss ++ issued1 ev st) (step ev st).
  Proof.
    intros I. destruct ev; cbn [issued1 Connection.step id_free]; rewrite ?app_nil_r; intros DI IF.
    - unfold conn_send in *. destruct (c_closing st) eqn:CL; cbn [fst snd] in *.
      + destruct I. split; unfold completed in *; fields.
        * intros f rq' H. apply in_app_or in H as [H|[H|[]]]; [apply i_lt0 in H; lia|]. injection H as <- <-. lia.
        * rewrite map_app. apply nodup_app; [exact i_nd0|constructor; [auto|constructor]|].
          intros x H [<-|[]]. cbn [fst] in H. apply in_map_iff in H as ([f rq'] & E & H). cbn [fst] in E. subst f.
          apply i_lt0 in H. lia.
        * exact DI.
        * exact i_pk0.
        * exact i_ak0.
        * intros c f H. destruct (i_p0 c f H) as (N & rq' & R1 & R2). split.
          -- rewrite map_app. intro X. apply in_app_or in X as [X|[X|[]]]; [contradiction|]. cbn [fst] in X. subst f.
             apply i_lt0 in R1. lia.
          -- exists rq'. split; [apply in_or_app; now left|exact R2].
        * intros c a H. destruct (i_a0 c a H) as (f & rq' & R0 & R1 & R2). exists f, rq'.
          repeat split; try tauto. apply in_or_app; now left.
        * intros a c v H. destruct (i_g0 _ _ _ H) as (N & O & (f & rq' & R1 & R2) & D). split; [exact N|]. split; [congruence|]. split; [|exact D].
          exists f, rq'. split; [apply in_or_app; now left|exact R2].
        * rewrite map_app. apply nodup_app; [exact i_d3|constructor; [auto|constructor]|].
          intros x H [<-|[]]. cbn [fst] in H. apply in_map_iff in H as ([f o] & E & H). cbn [fst] in E. subst f.
          apply (proj1 (Forall_forall _ _) i_d4) in H as (rq' & H & _). cbn [fst] in H. apply i_lt0 in H. lia.
        * apply Forall_app. split.
          -- eapply Forall_impl; [|exact i_d4]. intros. now apply good_mono.
          -- constructor; [|constructor]. exists rq. cbn [fst snd]. split; [|exact Logic.I]. apply in_or_app. right. now left.
        * intros f rq' H. rewrite map_app. apply in_app_or in H as [H|[H|[]]].
          -- destruct (i_all0 f rq' H) as [O|O]; [left; apply in_or_app; now left|now right].
          -- injection H as <- <-. left. apply in_or_app. right. now left.
      + destruct (p <- rq_payload rq;; framed p) as [bs|e] eqn:EP; cbn [fst snd] in *; [|rewrite app_nil_r in *; exact I].
        set (st1 := Conn (c_closing st) (dset (c_api st) (rq_corr rq) (rq_api rq))
                     (dset (c_pending st) (rq_corr rq) (c_next st)) (c_phase st) (c_inbuf st) (c_closed st)
                     (S (c_next st)) (c_done st) (c_written st)) in *.
        assert (DI' : one_object (iss ++ [(c_next st, rq)])).
        { destruct (c_closed st); [exact DI|]. destruct wr; exact DI. }
        assert (FR : dget (c_pending st) (rq_corr rq) = None).
        { destruct IF as [IF|[IF|IF]]; [|congruence|exact IF]. elim IF. destruct (c_closed st); [reflexivity|]. destruct wr; reflexivity. }
        assert (I1 : inv (iss ++ [(c_next st, rq)]) st1).
        { unfold st1. destruct I. split; unfold completed in *; fields.
          - intros f rq' H. apply in_app_or in H as [H|[H|[]]]; [apply i_lt0 in H; lia|]. injection H as <- <-. lia.
          - rewrite map_app. apply nodup_app; [exact i_nd0|constructor; [auto|constructor]|].
            intros x H [<-|[]]. cbn [fst] in H. apply in_map_iff in H as ([f rq'] & E & H). cbn [fst] in E. subst f.
            apply i_lt0 in H. lia.
          - exact DI'.
          - now apply nodup_dset.
          - now apply nodup_dset.
          - intros c f H. destruct (Z.eq_dec c (rq_corr rq)) as [->|NE].
            + rewrite dget_dset_same in H. injection H as <-. split.
              * intro X. apply in_map_iff in X as ([f o] & E & X). cbn [fst] in E. subst f.
                apply (proj1 (Forall_forall _ _) i_d4) in X as (rq' & X & _). cbn [fst] in X. apply i_lt0 in X. lia.
              * exists rq. split; [apply in_or_app; right; now left|reflexivity].
            + rewrite dget_dset_other in H by exact NE. destruct (i_p0 c f H) as (N & rq' & R1 & R2).
              split; [exact N|]. exists rq'. split; [apply in_or_app; now left|exact R2].
          - intros c a H. destruct (Z.eq_dec c (rq_corr rq)) as [->|NE].
            + rewrite dget_dset_same in H. injection H as <-. exists (c_next st), rq. rewrite dget_dset_same.
              repeat split; auto. apply in_or_app; right; now left.
            + rewrite dget_dset_other in H by exact NE. destruct (i_a0 c a H) as (f & rq' & R0 & R1 & R2). exists f, rq'.
              rewrite dget_dset_other by exact NE. repeat split; try tauto. apply in_or_app; now left.
          - intros a c v H. destruct (i_g0 _ _ _ H) as (N & O & (f & rq' & R1 & R2 & R3) & D). destruct (O CL) as (g & PG).
            assert (NE : c <> rq_corr rq) by (intros ->; congruence).
            split; [|split; [|split; [|exact D]]].
            + now rewrite dget_dset_other.
            + intros _. exists g. now rewrite dget_dset_other.
            + exists f, rq'. split; [apply in_or_app; now left|auto].
          - exact i_d3.
          - eapply Forall_impl; [|exact i_d4]. intros. now apply good_mono.
          - intros f rq' H. apply in_app_or in H as [H|[H|[]]].
            + destruct (i_all0 f rq' H) as [O|O]; [now left|right].
              rewrite dget_dset_other; [exact O|]. congruence.
            + injection H as <- <-. right. apply dget_dset_same. }
        unfold st1 in I1. clear st1. rewrite CL in I1.
        destruct (c_closed st); cbn [fst snd] in *; [exact (inv_error _ _ EStreamClosed I1)|].
        destruct wr as [e|]; cbn [fst snd] in *; [exact (inv_error _ _ e I1)|].
        eapply inv_weak; [exact I1| | | | | |]; try reflexivity; auto.
    - now apply inv_error.
    - destruct (c_phase st); try exact I. apply inv_phase; [exact I|discriminate].
    - destruct (c_closed st) eqn:CD; [exact I|]. eapply inv_weak; [exact I| | | | | |]; try reflexivity; auto.
    - eapply inv_weak; [exact I| | | | | |]; try reflexivity; auto.
    - now apply inv_read.
    - eapply inv_weak; [exact I| | | | | |]; try reflexivity; auto. discriminate.
    - now apply inv_abort.
  Qed.

  Lemma distinct_one iss : distinct_ids iss -> one_object iss.
  Proof.
    intros D f rq f' rq' H H' E. assert (X : (f, rq) = (f', rq')) by (eapply (nodup_map_eq _ iss); [exact D|assumption|assumption|exact E]). congruence.
  Qed.
  Lemma inv_step iss st ev : inv iss st -> distinct_ids (iss ++ issued1 ev st) -> inv (iss ++ issued1 ev st) (step ev st).
  Proof.
    intros I D. apply inv_step_again; [exact I|now apply distinct_one|]. destruct ev; try exact Logic.I. cbn [id_free issued1] in *.
    destruct (fst (conn_send rq wr st)) as [f|e] eqn:SE; [|left; discriminate]. right. right. destruct (dget (c_pending st) (rq_corr rq)) as [g|] eqn:PG; [|reflexivity]. exfalso.
    destruct (i_p _ _ I _ _ PG) as (_ & rq' & H & E). unfold distinct_ids in D. rewrite map_app in D. apply nodup_app_inv in D as (_ & _ & D). apply (D (rq_corr rq)); [|left; reflexivity]. rewrite <- E. now apply (in_map (fun p => rq_corr (snd p))) in H.
  Qed.

  Lemma inv_run evs : distinct_ids (issued evs conn_init) -> inv (issued evs conn_init) (run evs conn_init).
  Proof.
    induction evs as [|ev evs IH] using rev_ind; intro D; [exact inv_init|].
    rewrite issued_app in D |- *. cbn [SpecConn.issued] in D |- *. rewrite app_nil_r in D |- *.
    rewrite run_app. change (run [ev] (run evs conn_init)) with (step ev (run evs conn_init)).
    apply inv_step; [|exact D]. apply IH. unfold distinct_ids in *. rewrite map_app in D.
    apply nodup_app_inv in D. tauto.
  Qed.

  (** ** C15, C17 *)
  Lemma abort_all iss st exc : inv iss st -> c_closing st = false ->
    forall f rq, In (f, rq) iss -> In f (completed st) \/
      In (f, Fail (match exc with Some e => e | None => EBrokerConn end)) (c_done (conn_abort exc st)).
  Proof.
    intros I CL f rq H. destruct (i_o _ _ I CL f rq H) as [O|O]; [now left|right].
    unfold conn_abort. rewrite CL. fields. apply in_or_app. right. apply in_map_iff.
    exists (rq_corr rq, f). split; [reflexivity|]. apply -> in_rev. now apply dget_In.
  Qed.

  Lemma abort_idem exc exc' st : conn_abort exc' (conn_abort exc st) = conn_abort exc st.
  Proof.
    unfold conn_abort at 1. replace (c_closing (conn_abort exc st)) with true; [reflexivity|].
    unfold conn_abort. destruct (c_closing st) eqn:E; [now rewrite E|reflexivity].
  Qed.

  Lemma abort_fails_only exc st : exists l, c_done (conn_abort exc st) = c_done st ++ l /\
    Forall (fun fo => exists e, snd fo = Fail e) l.
  Proof.
    unfold conn_abort. destruct (c_closing st).
    - exists []. split; [now rewrite app_nil_r|constructor].
    - eexists. split; [reflexivity|]. apply Forall_map, Forall_forall. intros [c f] _. cbn [snd]. eauto.
  Qed.

  Lemma closing_mono_step ev st : c_closing st = true -> c_closing (step ev st) = true /\ c_written (step ev st) = c_written st.
  Proof.
    intro CL.
    assert (AB : forall exc, conn_abort exc st = st) by (intro; unfold conn_abort; now rewrite CL).
    assert (ER : forall e, c_closing (on_error e st) = true /\ c_written (on_error e st) = c_written st)
      by (intro e; destruct e; cbn [on_error]; rewrite ?AB; auto).
    destruct ev; cbn [Connection.step]; auto.
    - unfold conn_send. rewrite CL. cbn [snd]. auto.
    - destruct (c_phase st); auto.
    - destruct (c_closed st); auto.
    - unfold Connection.read_step, with_read.
      destruct (c_phase st); auto.
      + destruct (read_bytes neg_read 4 st); auto.
      + destruct (read_bytes neg_read 4 st); auto.
      + destruct (read_bytes neg_read size st); auto. fields.
        destruct (dget (c_api st) corr) as [a|]; auto.
        destruct (dget response_classes a); auto. destruct (deserialize _ _ _ _); auto.
      + destruct (dget (c_pending st) corr); auto. cbn [set_phase c_closing c_written]. apply ER.
      + cbn [set_phase c_closing c_written]. apply ER.
    - rewrite AB. auto.
  Qed.

  Lemma closing_mono evs st : c_closing st = true -> c_closing (run evs st) = true /\ c_written (run evs st) = c_written st.
  Proof.
    revert st. induction evs as [|ev evs IH]; intros st CL; [auto|].
    destruct (closing_mono_step ev st CL) as [A B]. destruct (IH _ A) as [A' B'].
    split; [exact A'|]. change (run (ev :: evs) st) with (run evs (step ev st)). congruence.
  Qed.

  Lemma next_mono_step ev st : (c_next st <= c_next (step ev st))%nat.
  Proof.
    assert (ER : forall e st, c_next (on_error e st) = c_next st)
      by (intros e s; destruct e; cbn [on_error]; try reflexivity; unfold conn_abort; destruct (c_closing s); reflexivity).
    assert (AB : forall e st, c_next (conn_abort e st) = c_next st)
      by (intros e s; unfold conn_abort; destruct (c_closing s); reflexivity).
    destruct ev; cbn [Connection.step]; rewrite ?ER, ?AB; auto.
    - unfold conn_send. destruct (c_closing st); cbn [snd]; fields; [lia|].
      destruct (p <- rq_payload rq;; framed p); cbn [snd]; auto.
      destruct (c_closed st); cbn [snd]; [rewrite ER; fields; lia|]. destruct wr; cbn [snd]; rewrite ?ER; fields; lia.
    - destruct (c_phase st); auto.
    - destruct (c_closed st); auto.
    - unfold Connection.read_step, with_read.
      destruct (c_phase st); auto.
      + destruct (read_bytes neg_read 4 st); auto.
      + destruct (read_bytes neg_read 4 st); auto.
      + destruct (read_bytes neg_read size st); auto. fields.
        destruct (dget (c_api st) corr) as [a|]; auto.
        destruct (dget response_classes a); auto. destruct (deserialize _ _ _ _); auto.
      + destruct (dget (c_pending st) corr); auto. cbn [set_phase c_next]. rewrite ER. auto.
      + cbn [set_phase c_next]. rewrite ER. auto.
  Qed.

  (** ** C16: once closing with the reader back at the loop head, nothing is completed any more *)
  Definition gone (st : conn) : Prop :=
    c_closing st = true /\ (c_phase st = PLoop \/ c_phase st = PStopped).

  Lemma gone_step ev st : gone st -> gone (step ev st) /\
    (forall f, (f < c_next st)%nat -> In f (completed (step ev st)) -> In f (completed st)).
  Proof.
    intros [CL PH].
    assert (AB : forall exc, conn_abort exc st = st) by (intro; unfold conn_abort; now rewrite CL).
    assert (ER : forall e, gone (on_error e st) /\ completed (on_error e st) = completed st).
    { intro e. unfold gone. rewrite phase_error, closing_error. split; [auto|].
      destruct e; cbn [on_error]; rewrite ?AB; reflexivity. }
    assert (T : gone st /\ (forall f, (f < c_next st)%nat -> In f (completed st) -> In f (completed st)))
      by (unfold gone; auto).
    destruct ev; cbn [Connection.step].
    - unfold conn_send. rewrite CL. cbn [snd]. split; [unfold gone; fields; auto|].
      intros f L H. unfold completed in *. fields. rewrite map_app in H.
      apply in_app_or in H as [H|[H|[]]]; [exact H|]. cbn [fst] in H. lia.
    - destruct (ER e) as [G E]. split; [exact G|]. now rewrite E.
    - destruct PH as [-> | ->]; exact T.
    - destruct (c_closed st); [exact T|]. split; [unfold gone; auto|auto].
    - split; [unfold gone; auto|auto].
    - unfold Connection.read_step. destruct PH as [-> | ->]; [|exact T]. rewrite CL. split; [unfold gone; auto|auto].
    - split; [unfold gone; auto|auto].
    - rewrite AB. exact T.
  Qed.

  Lemma gone_run evs st f : gone st -> (f < c_next st)%nat -> In f (completed (run evs st)) -> In f (completed st).
  Proof.
    revert st. induction evs as [|ev evs IH]; intros st G L H; [exact H|].
    destruct (gone_step ev st G) as [G' H']. apply H'; [exact L|]. apply IH; auto.
    pose proof (next_mono_step ev st). lia.
  Qed.

  (** ** C19 *)
  Definition outstanding_id (iss : list (nat * request)) (st : conn) (c : Z) : Prop :=
    exists f rq, In (f, rq) iss /\ rq_corr rq = c /\ ~ In f (completed st).

  Lemma unpack_i_be z : fits 32 z -> unpack_i (big_endian 4 z) = Ok z.
  Proof.
    intro F. unfold unpack_i. unfold unpack1. rewrite big_endian_len. cbn [tok_size].
    change ((0 <? 0) || (4 <? 0) || (Z.of_nat 4 - 0 <? 4)) with false. cbv iota.
    rewrite big_endian_be. cbn [bind int_of]. f_equal.
    replace (slice (be_enc 4 z) 0 4) with (be_enc 4 z).
    - apply be_dec_enc. apply (proj1 (fits_range Int32 z)). exact F.
    - unfold slice. rewrite skipn_O. rewrite firstn_all2; [reflexivity|].
      rewrite <- big_endian_be, big_endian_length. reflexivity.
  Qed.

  Lemma read_exact n st b r : n = zlen b -> c_inbuf st = b ++ r -> read_bytes neg_read n st = RGot b r.
  Proof.
    intros -> E. unfold read_bytes. pose proof (zlen_nonneg b). destruct (zlen b <? 0) eqn:L; [lia|].
    rewrite E, zlen_app. pose proof (zlen_nonneg r). destruct (zlen b <=? zlen b + zlen r) eqn:L2; [|lia].
    rewrite zlen_to_nat, firstn_app, Nat.sub_diag, firstn_all, app_nil_r, skipn_app, Nat.sub_diag, skipn_all.
    reflexivity.
  Qed.

  Lemma read_size st (fr : Z * bytes) (more : bytes) : c_phase st = PSize -> frame_ok fr -> c_inbuf st = frame_bytes fr ++ more ->
    read_step st = Conn (c_closing st) (c_api st) (c_pending st) (PCorr (zlen (snd fr) + 4))
      (big_endian 4 (fst fr) ++ snd fr ++ more) (c_closed st) (c_next st) (c_done st) (c_written st).
  Proof.
    intros P [_ F] E. unfold Connection.read_step. rewrite P. unfold with_read, frame_bytes in *.
    rewrite <- !app_assoc in E. erewrite read_exact; [|symmetry; apply (big_endian_len 4)|exact E].
    rewrite unpack_i_be by exact F. reflexivity.
  Qed.

  Lemma read_corr st size (fr : Z * bytes) (more : bytes) : c_phase st = PCorr size -> frame_ok fr ->
    c_inbuf st = big_endian 4 (fst fr) ++ snd fr ++ more ->
    read_step st = Conn (c_closing st) (c_api st) (c_pending st) (PPayload (size - 4) (fst fr))
      (snd fr ++ more) (c_closed st) (c_next st) (c_done st) (c_written st).
  Proof.
    intros P [F _] E. unfold Connection.read_step. rewrite P. unfold with_read.
    erewrite read_exact; [|symmetry; apply (big_endian_len 4)|exact E].
    rewrite unpack_i_be by exact F. reflexivity.
  Qed.

  Lemma read_payload st size (fr : Z * bytes) (more : bytes) : c_phase st = PPayload size (fst fr) -> size = zlen (snd fr) ->
    c_inbuf st = snd fr ++ more ->
    read_step st =
      match dget (c_api st) (fst fr) with
      | None => Conn (c_closing st) (c_api st) (c_pending st) (PRaise EKey) more (c_closed st)
                  (c_next st) (c_done st) (c_written st)
      | Some api =>
          Conn (c_closing st) (ddel (c_api st) (fst fr)) (c_pending st)
            (match dget response_classes api with
             | None => PRaise EKey
             | Some fs => match deserialize C depth (TPart fs) (snd fr) with
                          | Err e => PRaise e | Ok v => PGot api (fst fr) v end
             end) more (c_closed st) (c_next st) (c_done st) (c_written st)
      end.
  Proof.
    intros P -> E. unfold Connection.read_step. rewrite P. unfold with_read.
    erewrite read_exact; [|reflexivity|exact E]. fields.
    destruct (dget (c_api st) (fst fr)) as [api|]; [|reflexivity].
    destruct (dget response_classes api) as [fs|]; [|reflexivity].
    destruct (deserialize C depth (TPart fs) (snd fr)); reflexivity.
  Qed.

  Lemma raise_aborts st e : c_phase st = PRaise e -> e <> EStreamClosed -> c_closing st = false ->
    read_step st = Conn true [] [] PLoop (c_inbuf st) true (c_next st)
      (c_done st ++ map (fun kf => (snd kf, Fail e)) (rev (c_pending st))) (c_written st).
  Proof.
    intros P N CL. unfold Connection.read_step. rewrite P.
    assert (E : on_error e st = conn_abort (Some e) st) by (destruct e; try reflexivity; congruence).
    rewrite E. unfold conn_abort. rewrite CL. reflexivity.
  Qed.

  Lemma bad_frame iss st (fr : Z * bytes) (more : bytes) : no_io_codec C -> inv iss st -> c_closing st = false -> c_phase st = PSize -> frame_ok fr ->
    c_inbuf st = frame_bytes fr ++ more ->
    (forall f rq, In (f, rq) iss -> rq_corr rq = fst fr ->
       In f (completed st) \/ forall v, ~ decodes C depth (rq_api rq) (snd fr) v) ->
    exists e, run [EvRead; EvRead; EvRead; EvRead] st =
      Conn true [] [] PLoop more true (c_next st)
        (c_done st ++ map (fun kf => (snd kf, Fail e)) (rev (c_pending st))) (c_written st).
  Proof.
    intros NI I CL P FO EB BAD. unfold Connection.run. cbn [fold_left Connection.step].
    rewrite (read_size st fr more P FO EB).
    match goal with |- context [read_step (Conn ?a ?b ?c ?d ?e ?f ?g ?h ?i)] =>
      rewrite (read_corr (Conn a b c d e f g h i) _ fr more eq_refl FO eq_refl) end. fields.
    match goal with |- context [read_step (Conn ?a ?b ?c ?d ?e ?f ?g ?h ?i)] =>
      rewrite (read_payload (Conn a b c d e f g h i) (zlen (snd fr) + 4 - 4) fr more eq_refl (Z.add_simpl_r _ 4) eq_refl) end. fields.
    destruct (dget (c_api st) (fst fr)) as [api|] eqn:A.
    - destruct (i_a _ _ I _ _ A) as (f & rq & R0 & R1 & R2 & R3).
      destruct (BAD f rq R1 R2) as [X|ND]; [exfalso; exact (proj1 (i_p _ _ I _ _ R0) X)|]. rewrite R3 in ND.
      destruct (dget response_classes api) as [fs|] eqn:K.
      + destruct (deserialize C depth (TPart fs) (snd fr)) as [v|e] eqn:D.
        * elim (ND v). apply decodes_iff. exists fs. auto.
        * exists e. erewrite raise_aborts; [|reflexivity| |exact CL]; [reflexivity|].
          intros ->. unfold deserialize in D.
          assert (H0 : 0 <= 0 <= zlen (snd fr)) by (pose proof (zlen_nonneg (snd fr)); lia).
          destruct (parse_no_io C depth (TPart fs) NI (snd fr) 0 H0) as [N _].
          destruct (parse C depth (TPart fs) (snd fr) 0) as [[? ?]|]; [discriminate|]. cbn [bind] in D. congruence.
      + exists EKey. erewrite raise_aborts; [|reflexivity|discriminate|exact CL]. reflexivity.
    - exists EKey. erewrite raise_aborts; [|reflexivity|discriminate|exact CL]. reflexivity.
  Qed.
End Inv.
