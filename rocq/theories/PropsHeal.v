(** C69: errors that say that the view of the cluster is out of date lead to a heal before the call goes on, and nothing else
    does. *)
From Coq Require Import ZArith String List Bool Lia.
From Verif Require Import PyBase BaseLemmas Constants Cluster Zookeeper SpecZk ZkProofs ZkAlloc Consumer SpecConsumer ConsumerProofs ConsumerSteps ConsumerRuns SpecHeal PropsConsumer.
Import ListNotations.
Open Scope Z_scope.
Set Default Proof Using "Type".

Section C69.
  Context {V : Type}.
  Variable cfg : config V.
  Notation st := (consumer V).

  Lemma retriable_passing code : is_retriable code = true <-> In code passing.
  Proof. apply smem_In. Qed.
  Lemma not_retriable code : is_retriable code = false <-> ~ In code passing.
  Proof. rewrite <- retriable_passing. destruct (is_retriable code); split; congruence. Qed.
  Lemma zero_not_passing : ~ In no_error passing.
  Proof. apply not_retriable. reflexivity. Qed.

  Lemma offset_set_heal t p o (s : st) : c_heal (offset_set t p o s) = c_heal s.
  Proof. unfold offset_set. destruct (@ddefault text (dict Z Z) _ [] (c_offsets s) t). reflexivity. Qed.
  Lemma deserialize_heal t p ms : forall s : st, c_heal (snd (deserialize_messages cfg t p ms s)) = c_heal s.
  Proof.
    induction ms as [|[o [c m a k v]] ms IH]; intros s; [reflexivity|]. cbn [deserialize_messages]. destruct (deser cfg v) as [x|e]; [|apply IH].
    destruct (deserialize_messages cfg t p ms (if 0 <=? o then offset_set t p (o + 1) s else s)) as [vs s2] eqn:E. specialize (IH (if 0 <=? o then offset_set t p (o + 1) s else s)). rewrite E in IH. cbn [snd] in *. rewrite IH.
    destruct (0 <=? o); [apply offset_set_heal|reflexivity].
  Qed.

  (** the handlers set the flag if and only if there is a passing error, and raise on no regular answer *)
  Lemma fetch_heal t parts : forall s : st, 
    (c_heal (snd (handle_fetch_parts cfg t parts s)) = true -> c_heal s = true \/ exists code, In code (map (fun part => fst (snd part)) parts) /\ In code passing) /\
    ((forall code, In code (map (fun part => fst (snd part)) parts) -> known_code code) ->
      (exists l, fst (handle_fetch_parts cfg t parts s) = Ok l) /\
      (c_heal s = true \/ (exists code, In code (map (fun part => fst (snd part)) parts) /\ In code passing) -> c_heal (snd (handle_fetch_parts cfg t parts s)) = true)).
  Proof.
    induction parts as [|[p [code ms]] parts IH]; intros s; [split; [auto|intros _; split; [eexists; reflexivity|intros [H|(c & [] & _)]; exact H]]|].
    cbn [handle_fetch_parts map fst snd]. destruct (code =? no_error) eqn:C0.
    { apply Z.eqb_eq in C0. subst code. pose proof (deserialize_heal t p ms s) as DH. destruct (deserialize_messages cfg t p ms s) as [vs s1]. cbn [snd] in DH. destruct (IH s1) as [I1 I2]. rewrite DH in I1, I2. clear IH.
      destruct (handle_fetch_parts cfg t parts s1) as [[ws|e] s2]; cbn [fst snd] in *; (split; [intros H; apply I1 in H as [H|(c & H1 & H2)]; [now left|right; exists c; cbn [In]; auto]|]);
        intros K; (destruct I2 as [(l & E) I2]; [intros c Hc; apply K; now right|]); [|discriminate E]. split; [eexists; reflexivity|]. intros [H|(c & [<-|H1] & H2)]; [apply I2; now left|destruct (zero_not_passing H2)|apply I2; right; eauto]. }
    destruct (is_retriable code) eqn:CR.
    { apply retriable_passing in CR. destruct (IH (set_heal true s)) as [_ I2]. split; [intros _; right; exists code; cbn [In]; auto|]. intros K. destruct I2 as [E I2]; [intros c Hc; apply K; now right|]. split; [exact E|]. intros _. apply I2. now left. }
    apply not_retriable in CR. destruct (code =? offset_out_of_range).
    { destruct (IH (set_synced (sdiscard (c_synced s) t) s)) as [I1 I2]. change (c_heal (set_synced (sdiscard (c_synced s) t) s)) with (c_heal s) in *. split; [intros H; apply I1 in H as [H|(c & H1 & H2)]; [now left|right; exists c; cbn [In]; auto]|].
      intros K. destruct I2 as [E I2]; [intros c Hc; apply K; now right|]. split; [exact E|]. intros [H|(c & [<-|H1] & H2)]; [apply I2; now left|contradiction|apply I2; right; eauto]. }
    destruct (error_name code) as [n|e] eqn:EN.
    - destruct (IH s) as [I1 I2]. split; [intros H; apply I1 in H as [H|(c & H1 & H2)]; [now left|right; exists c; cbn [In]; auto]|].
      intros K. destruct I2 as [E I2]; [intros c Hc; apply K; now right|]. split; [exact E|]. intros [H|(c & [<-|H1] & H2)]; [apply I2; now left|contradiction|apply I2; right; eauto].
    - cbn [fst snd]. split; [now left|]. intros K. destruct (K code) as [n K']; [now left|]. rewrite K' in EN. discriminate EN.
  Qed.
  Lemma offset_heal t parts : forall s : st,
    (c_heal (snd (handle_offset_parts t parts s)) = true -> c_heal s = true \/ exists code, In code (map (fun part => fst (snd part)) parts) /\ In code passing) /\
    ((forall p code offs, In (p, (code, offs)) parts -> (code = 0 /\ offs <> []) \/ In code passing) ->
      fst (handle_offset_parts t parts s) = Ok tt /\
      (c_heal s = true \/ (exists code, In code (map (fun part => fst (snd part)) parts) /\ In code passing) -> c_heal (snd (handle_offset_parts t parts s)) = true)).
  Proof.
    induction parts as [|[p [code offs]] parts IH]; intros s; [split; [auto|intros _; split; [reflexivity|intros [H|(c & [] & _)]; exact H]]|].
    cbn [handle_offset_parts map fst snd]. destruct (code =? no_error) eqn:C0.
    { apply Z.eqb_eq in C0. subst code. destruct offs as [|o offs].
      { cbn [fst snd]. split; [now left|]. intros K. destruct (K p no_error []) as [[_ X]|X]; [now left|now destruct X|destruct (zero_not_passing X)]. }
      set (s1 := if 0 <=? o then offset_set t p o s else s). assert (DH : c_heal s1 = c_heal s) by (unfold s1; destruct (0 <=? o); [apply offset_set_heal|reflexivity]). destruct (IH s1) as [I1 I2]. rewrite DH in I1, I2.
      split; [intros H; apply I1 in H as [H|(c & H1 & H2)]; [now left|right; exists c; cbn [In]; auto]|].
      intros K. destruct I2 as [E I2]; [intros p' c' o' Hc; apply (K p'); now right|]. split; [exact E|]. intros [H|(c & [<-|H1] & H2)]; [apply I2; now left|destruct (zero_not_passing H2)|apply I2; right; eauto]. }
    destruct (is_retriable code) eqn:CR.
    { apply retriable_passing in CR. destruct (IH (set_synced (sdiscard (c_synced s) t) (set_heal true s))) as [_ I2]. split; [intros _; right; exists code; cbn [In]; auto|].
      intros K. destruct I2 as [E I2]; [intros p' c' o' Hc; apply (K p'); now right|]. split; [exact E|]. intros _. apply I2. now left. }
    apply not_retriable in CR. split; [destruct (error_name code); now left|]. intros K. destruct (K p code offs) as [[X _]|X]; [now left| |contradiction]. subst code. discriminate C0.
  Qed.
  Lemma ofetch_heal t parts : forall retry (s : st),
    (c_heal (snd (handle_ofetch_parts t parts retry s)) = true -> c_heal s = true \/ exists code, In code (map (fun part => fst (snd part)) parts) /\ In code passing /\ code <> 14) /\
    ((forall code, In code (map (fun part => fst (snd part)) parts) -> code = 0 \/ In code passing) ->
      (exists b, fst (handle_ofetch_parts t parts retry s) = Ok b) /\
      (c_heal s = true \/ (exists code, In code (map (fun part => fst (snd part)) parts) /\ In code passing /\ code <> 14) -> c_heal (snd (handle_ofetch_parts t parts retry s)) = true)).
  Proof.
    induction parts as [|[p [code o]] parts IH]; intros retry s; [split; [auto|intros _; split; [eexists; reflexivity|intros [H|(c & [] & _)]; exact H]]|].
    cbn [handle_ofetch_parts map fst snd]. destruct (code =? no_error) eqn:C0.
    { apply Z.eqb_eq in C0. subst code. destruct (IH retry (offset_set t p o s)) as [I1 I2]. rewrite offset_set_heal in *.
      split; [intros H; apply I1 in H as [H|(c & H1 & H2)]; [now left|right; exists c; cbn [In]; auto]|].
      intros K. destruct I2 as [E I2]; [intros c Hc; apply K; now right|]. split; [exact E|]. intros [H|(c & [<-|H1] & H2)]; [apply I2; now left|destruct (zero_not_passing (proj1 H2))|apply I2; right; eauto]. }
    destruct (code =? offsets_load_in_progress) eqn:C1.
    { apply Z.eqb_eq in C1. subst code. destruct (IH true s) as [I1 I2]. split; [intros H; apply I1 in H as [H|(c & H1 & H2)]; [now left|right; exists c; cbn [In]; auto]|].
      intros K. destruct I2 as [E I2]; [intros c Hc; apply K; now right|]. split; [exact E|]. intros [H|(c & [<-|H1] & H2 & H3)]; [apply I2; now left|now destruct H3|apply I2; right; eauto]. }
    destruct (is_retriable code) eqn:CR.
    { apply retriable_passing in CR. destruct (IH true (set_heal true s)) as [_ I2]. split; [intros _; right; exists code; cbn [In]; split; [auto|]; split; [exact CR|apply Z.eqb_neq; exact C1]|].
      intros K. destruct I2 as [E I2]; [intros c Hc; apply K; now right|]. split; [exact E|]. intros _. apply I2. now left. }
    apply not_retriable in CR. split; [destruct (error_name code); now left|]. intros K. destruct (K code) as [X|X]; [now left| |contradiction]. subst code. discriminate C0.
  Qed.
  Lemma commit_heal t parts : forall acc (s : st),
    (c_heal (snd (handle_commit_parts t parts acc s)) = true -> c_heal s = true \/ exists code, In code (map snd parts) /\ In code passing) /\
    ((forall code, In code (map snd parts) -> known_code code) ->
      (exists b, fst (handle_commit_parts t parts acc s) = Ok b) /\
      (c_heal s = true \/ (exists code, In code (map snd parts) /\ In code passing) -> c_heal (snd (handle_commit_parts t parts acc s)) = true)).
  Proof.
    induction parts as [|[p code] parts IH]; intros acc s; [split; [auto|intros _; split; [eexists; reflexivity|intros [H|(c & [] & _)]; exact H]]|].
    cbn [handle_commit_parts map fst snd]. destruct (code =? no_error) eqn:C0.
    { apply Z.eqb_eq in C0. subst code. destruct (IH acc (set_tocommit (sdiscard (c_tocommit s) t) s)) as [I1 I2]. change (c_heal (set_tocommit (sdiscard (c_tocommit s) t) s)) with (c_heal s) in *.
      split; [intros H; apply I1 in H as [H|(c & H1 & H2)]; [now left|right; exists c; cbn [In]; auto]|].
      intros K. destruct I2 as [E I2]; [intros c Hc; apply K; now right|]. split; [exact E|]. intros [H|(c & [<-|H1] & H2)]; [apply I2; now left|destruct (zero_not_passing H2)|apply I2; right; eauto]. }
    destruct (is_retriable code) eqn:CR.
    { apply retriable_passing in CR. destruct (IH (true, snd acc) (set_heal true s)) as [_ I2]. split; [intros _; right; exists code; cbn [In]; auto|].
      intros K. destruct I2 as [E I2]; [intros c Hc; apply K; now right|]. split; [exact E|]. intros _. apply I2. now left. }
    apply not_retriable in CR. destruct (code =? offset_metadata_too_large).
    { destruct (IH (true, true) s) as [I1 I2]. split; [intros H; apply I1 in H as [H|(c & H1 & H2)]; [now left|right; exists c; cbn [In]; auto]|].
      intros K. destruct I2 as [E I2]; [intros c Hc; apply K; now right|]. split; [exact E|]. intros [H|(c & [<-|H1] & H2)]; [apply I2; now left|contradiction|apply I2; right; eauto]. }
    destruct (error_name code) as [n|e] eqn:EN.
    - destruct (IH acc s) as [I1 I2]. split; [intros H; apply I1 in H as [H|(c & H1 & H2)]; [now left|right; exists c; cbn [In]; auto]|].
      intros K. destruct I2 as [E I2]; [intros c Hc; apply K; now right|]. split; [exact E|]. intros [H|(c & [<-|H1] & H2)]; [apply I2; now left|contradiction|apply I2; right; eauto].
    - cbn [fst snd]. split; [now left|]. intros K. destruct (K code) as [n K']; [now left|]. rewrite K' in EN. discriminate EN.
  Qed.
  Lemma commits_heal topics : forall acc (s : st),
    (c_heal (snd (handle_commit_topics topics acc s)) = true -> c_heal s = true \/ exists code, In code (codes (PCommit topics)) /\ In code passing) /\
    ((forall code, In code (codes (PCommit topics)) -> known_code code) ->
      (exists b, fst (handle_commit_topics topics acc s) = Ok b) /\
      (c_heal s = true \/ (exists code, In code (codes (PCommit topics)) /\ In code passing) -> c_heal (snd (handle_commit_topics topics acc s)) = true)).
  Proof.
    induction topics as [|[t parts] topics IH]; intros acc s; [split; [auto|intros _; split; [eexists; reflexivity|intros [H|(c & [] & _)]; exact H]]|].
    cbn [handle_commit_topics codes flat_map snd]. destruct (commit_heal t parts acc s) as [J1 J2]. destruct (handle_commit_parts t parts acc s) as [[acc1|e] s1]; cbn [fst snd] in *.
    - destruct (IH acc1 s1) as [I1 I2]. split.
      + intros H. apply I1 in H as [H|(c & H1 & H2)]; [apply J1 in H as [H|(c & H1 & H2)]; [now left|]|]; right; exists c; (split; [apply in_app_iff|exact H2]); [left|right]; exact H1.
      + intros K. destruct J2 as [_ J2]; [intros c Hc; apply K, in_app_iff; now left|]. destruct I2 as [E I2]; [intros c Hc; apply K, in_app_iff; now right|]. split; [exact E|].
        intros [H|(c & H1 & H2)]; [apply I2; left; apply J2; now left|]. apply in_app_iff in H1 as [H1|H1]; apply I2; [left; apply J2|]; right; exists c; (split; [exact H1|exact H2]).
    - split; [intros H; apply J1 in H as [H|(c & H1 & H2)]; [now left|]; right; exists c; split; [apply in_app_iff; now left|exact H2]|].
      intros K. destruct J2 as [(b & E) _]; [intros c Hc; apply K, in_app_iff; now left|]. discriminate E.
  Qed.

  Lemma heal_only r (s : st) : c_heal (answer_state cfg r s) = true -> c_heal s = true \/ trouble r.
  Proof.
    destruct r as [resp|e]; cbn [answer_state trouble]; [|destruct e; cbn [sets_heal]; auto; intros; right; discriminate].
    destruct resp as [[|[t parts] ts]|[|[t parts] ts]|[|[t parts] ts]|topics|code id]; cbn [handle codes]; auto.
    - pose proof (proj1 (fetch_heal t parts s)) as H. destruct (handle_fetch_parts cfg t parts s) as [[l|e] s1]; cbn [snd] in *; intros X; apply H in X as [X|(c & X & Y)]; [now left|right; exists c; auto..|now left|right; exists c; auto].
    - pose proof (proj1 (offset_heal t parts s)) as H. destruct (handle_offset_parts t parts s) as [[l|e] s1]; cbn [snd] in *; intros X; apply H in X as [X|(c & X & Y)]; [now left|right; exists c; auto..|now left|right; exists c; auto].
    - pose proof (proj1 (ofetch_heal t parts false s)) as H. destruct (handle_ofetch_parts t parts false s) as [[l|e] s1]; cbn [snd] in *; intros X; apply H in X as [X|(c & X & Y)]; [now left|right; exists c; auto..|now left|right; exists c; auto].
    - pose proof (proj1 (commits_heal topics (false, false) s)) as H. destruct (handle_commit_topics topics (false, false) s) as [[[a b]|e] s1]; cbn [snd] in *; intros X; apply H in X as [X|(c & X & Y)]; [now left|right; exists c; auto..|now left|right; exists c; auto].
    - destruct (code =? no_error); [now left|]. destruct (is_retriable code) eqn:CR; [|now left]. intros _. right. exists code. apply retriable_passing in CR. cbn; auto.
  Qed.
  Lemma regular_heals r (s : st) : regular r -> handler_fails cfg r s = None /\ (c_heal s = true \/ trouble r -> c_heal (answer_state cfg r s) = true).
  Proof.
    destruct r as [resp|e]; cbn [answer_state trouble handler_fails regular].
    - destruct resp as [[|[t parts] ts]|[|[t parts] ts]|[|[t parts] ts]|topics|code id]; cbn [handle codes]; try contradiction; intros R.
      + destruct (proj2 (fetch_heal t parts s) R) as [(l & E) H]. destruct (handle_fetch_parts cfg t parts s) as [[l'|e] s1]; cbn [fst snd] in *; [|discriminate E]. split; [reflexivity|]. intros [X|(c & X & Y & _)]; apply H; [now left|right; eauto].
      + destruct (proj2 (offset_heal t parts s) R) as [E H]. destruct (handle_offset_parts t parts s) as [[l'|e] s1]; cbn [fst snd] in *; [|discriminate E]. split; [reflexivity|]. intros [X|(c & X & Y & _)]; apply H; [now left|right; eauto].
      + destruct (proj2 (ofetch_heal t parts false s) R) as [(l & E) H]. destruct (handle_ofetch_parts t parts false s) as [[l'|e] s1]; cbn [fst snd] in *; [|discriminate E]. split; [reflexivity|]. intros [X|(c & X & Y & Z)]; apply H; [now left|right; eauto].
      + destruct (proj2 (commits_heal topics (false, false) s) R) as [(l & E) H]. destruct (handle_commit_topics topics (false, false) s) as [[[a b]|e] s1]; cbn [fst snd] in *; [|discriminate E]. split; [reflexivity|].
        intros [X|(c & X & Y & _)]; apply H; [now left|right; eauto].
      + destruct (code =? no_error) eqn:C0; cbn [fst snd].
        * split; [reflexivity|]. apply Z.eqb_eq in C0. subst code. intros [X|(c & [<-|[]] & Y & _)]; [exact X|destruct (zero_not_passing Y)].
        * destruct (is_retriable code) eqn:CR; cbn [fst snd]; (split; [reflexivity|]); [reflexivity|]. apply not_retriable in CR. intros [X|(c & [<-|[]] & Y & _)]; [exact X|contradiction].
    - intros _. split; [reflexivity|]. intros [H|H]; [destruct (sets_heal e); [reflexivity|exact H]|]. destruct e; try reflexivity. now destruct H.
  Qed.
  Lemma answer_heal_mono r (s : st) : c_heal s = true -> c_heal (answer_state cfg r s) = true.
  Proof. intros H. destruct r as [resp|e]; cbn [answer_state]; [exact (h_heal _ _ _ (handle_handled cfg resp s) H)|destruct (sets_heal e); [reflexivity|exact H]]. Qed.

  (** ** going on *)
  Definition stuck (s : st) (i : Z) : Prop := exists o p, dget (c_calls s) i = Some (o, p) /\ match p with PTopicHeal _ => False | _ => True end.
  Lemma stuck_iff s i : inv cfg s -> stuck s i <-> (waits s i \/ heals s i).
  Proof.
    intros IV. split.
    - intros (o & [k w rs|k rs|t] & D & H); [left|right; exists o, k, rs; exact D|destruct H]. pose proof (proj2 IV _ _ _ D) as [_ WS]. pose proof (ws_some _ _ _ _ WS) as NE.
      destruct w as [|[b rq] w]; [now destruct NE|]. exists b, rq, o, k, ((b, rq) :: w), rs. split; [exact D|]. cbn [dget]. now rewrite eqb_refl.
    - intros [(b & rq & o & k & w & rs & D & _)|(o & k & rs & D)]; exists o; eexists; (split; [exact D|exact I]).
  Qed.
  Lemma continue_at i o (ns : next V * st) : dget (c_calls (continue i o ns)) i = match fst ns with Await p => Some (o, p) | _ => dget (ddel (c_calls (snd ns)) i) i end.
  Proof. destruct ns as [[p|v|e] s]; cbn [continue fst snd c_calls set_calls set_ended]; [apply dget_dset_same|reflexivity..]. Qed.
  Lemma continue_other i j o (ns : next V * st) : i <> j -> dget (c_calls (continue j o ns)) i = dget (c_calls (snd ns)) i.
  Proof. intros N. destruct ns as [[p|v|e] s]; cbn [continue fst snd c_calls set_calls set_ended]; [apply dget_dset_other; congruence|apply dget_ddel_other; congruence..]. Qed.
  Lemma heal_continue i o (ns : next V * st) : c_heal (continue i o ns) = c_heal (snd ns).
  Proof. apply (continue_same i o ns). Qed.
  Lemma piece_heal look o l s ns : piece cfg look o l s ns -> c_heal (snd ns) = c_heal s /\ c_calls (snd ns) = c_calls s.
  Proof. intros [(ex & M & _) _ _ _]. split; apply M. Qed.

  (** the flag stays up until a heal succeeds *)
  Lemma heal_kept s l : inv cfg s -> unhealed l -> c_heal s = true -> c_heal (cstep cfg s l) = true.
  Proof.
    intros IV U H. destruct (cstep_did cfg s l IV) as [l ID|i o ns DD E P|i b r o k w rs rq DD F W IA HF NE F'|i b r o k w rs rq ns DD F W IA E P|i r o k rs s1 ns DD F E P|i r t1 start ns DD E P|k|g fn ac name ev M|]; rewrite ?heal_continue; auto.
    - destruct (piece_heal _ _ _ _ _ P) as [-> _]. exact H.
    - now apply answer_heal_mono.
    - destruct (paid_some cfg k rs) as [lv PD]. destruct (piece_heal _ _ _ _ _ (P lv PD)) as [-> _]. now apply answer_heal_mono.
    - destruct (paid_some cfg k rs) as [lv PD]. destruct (piece_heal _ _ _ _ _ (P lv PD)) as [-> _]. destruct E as [(u & -> & _)|(e & _ & -> & _)]; [now destruct (U i u)|exact H].
    - destruct (piece_heal _ _ _ _ _ P) as [-> _]. exact H.
  Qed.
  Lemma arrive_stuck s i b r : inv cfg s -> stuck s i -> regular r -> c_heal (answer_state cfg r s) = true ->
    stuck (cstep cfg s (Arrive i b r)) i /\ sent cfg s (Arrive i b r) = [].
  Proof.
    intros IV SK RG H. pose proof (proj1 (regular_heals r s RG)) as NF. cbn [cstep]. destruct SK as (o & p & D & NT). unfold sent. cbn [cstep]. rewrite D. destruct p as [k w rs|k rs|t]; [|rewrite skipn_all; split; [exists o; eexists; split; [exact D|exact I]|reflexivity]|destruct NT].
    pose proof (proj2 IV _ _ _ D) as [_ WS]. destruct (dget w b) as [rq|] eqn:W; [|rewrite skipn_all; split; [exists o; eexists; split; [exact D|exact I]|reflexivity]].
    fold (is_answer rq r). destruct (is_answer rq r); [|rewrite skipn_all; split; [exists o; eexists; split; [exact D|exact I]|reflexivity]].
    rewrite arrive_eq by (eapply ws_apart; [exact WS|]; eapply dget_Some_in; exact W). rewrite NF. destruct (answer_state_same cfg r s) as (_ & _ & _ & _ & _ & WI).
    destruct (ddel w b); [unfold send_end; rewrite H|]; cbn [continue c_wire set_calls]; rewrite WI, skipn_all; (split; [|reflexivity]); eexists; eexists; (split; [cbn [c_calls set_calls]; apply dget_dset_same|exact I]).
  Qed.
  Lemma stuck_step s i l : inv cfg s -> c_heal s = true -> stuck s i -> unhealed l -> answered_only i l -> stuck (cstep cfg s l) i /\ (about i l -> sent cfg s l = []).
  Proof.
    intros IV H SK U AO. destruct (match l with Arrive j _ _ => j =? i | _ => false end) eqn:B.
    - destruct l as [|j b r| | | |]; try discriminate B. apply Z.eqb_eq in B. subst j. destruct (arrive_stuck s i b r IV SK (AO eq_refl) (answer_heal_mono r s H)) as [X1 X2]. auto.
    - assert (NA : ~ about i l) by (destruct l as [j o|j b r|j r| | |]; cbn in *; auto; apply Z.eqb_neq; exact B). split; [|intros A; contradiction].
      destruct SK as (o0 & p & D & NT). exists o0, p. split; [|exact NT]. rewrite <- D. clear B AO.
      destruct (cstep_did cfg s l IV) as [l ID|j o ns DD E P|j b r o k w rs rq DD F W IA HF NE F'|j b r o k w rs rq ns DD F W IA E P|j r o k rs s1 ns DD F E P|j r t1 start ns DD E P|k|g fn ac name ev M|]; cbn [about] in NA; try reflexivity;
        rewrite continue_other by congruence.
      + now rewrite (proj2 (piece_heal _ _ _ _ _ P)).
      + cbn [snd]. now rewrite (proj1 (answer_state_same cfg r s)).
      + destruct (paid_some cfg k rs) as [lv PD]. rewrite (proj2 (piece_heal _ _ _ _ _ (P lv PD))). now rewrite (proj1 (answer_state_same cfg r s)).
      + destruct (paid_some cfg k rs) as [lv PD]. rewrite (proj2 (piece_heal _ _ _ _ _ (P lv PD))). destruct E as [(u & _ & -> & _)|(e & _ & -> & _)]; reflexivity.
      + now rewrite (proj2 (piece_heal _ _ _ _ _ P)).
  Qed.
  Lemma stuck_run i ls : forall s, inv cfg s -> c_heal s = true -> stuck s i -> Forall unhealed ls -> Forall (answered_only i) ls ->
    each_step cfg (fun s l => about i l -> sent cfg s l = []) ls s /\ stuck (crun cfg ls s) i.
  Proof.
    induction ls as [|l ls IH]; intros s IV H SK U AO; [split; [exact I|exact SK]|]. inversion_clear U as [|? ? U1 U2]. inversion_clear AO as [|? ? A1 A2].
    destruct (stuck_step s i l IV H SK U1 A1) as [SK' NS]. destruct (IH (cstep cfg s l)) as [E S]; auto; [now apply inv_step|now apply heal_kept|]. split; [split; [exact NS|exact E]|exact S].
  Qed.

  (** ** no needless heal *)
  Lemma untroubled_step (P : Z -> Prop) s l : inv cfg s -> untroubled l -> c_heal s = false -> (forall i, heals s i -> P i) -> c_heal (cstep cfg s l) = false /\ forall i, heals (cstep cfg s l) i -> P i.
  Proof.
    intros IV U H A.
    assert (go : forall j o s1 ns, c_calls (snd ns) = c_calls s1 -> c_heal (snd ns) = c_heal s1 -> c_calls s1 = c_calls s -> c_heal s1 = false -> (forall k rs, fst ns = Await (PHeal k rs) -> c_heal (snd ns) = true) ->
      c_heal (continue j o ns) = false /\ forall i, heals (continue j o ns) i -> P i).
    { intros j o s1 ns C1 C2 C3 C4 NW. rewrite heal_continue. split; [congruence|]. intros i (o' & k & rs & D). destruct (Z.eq_dec i j) as [->|N].
      - rewrite continue_at in D. destruct (fst ns) as [p|v|e]; [injection D as -> ->; specialize (NW k rs eq_refl); congruence|..]; rewrite C1, C3, dget_ddel_same in D by apply IV; discriminate D.
      - rewrite continue_other in D by exact N. rewrite C1, C3 in D. apply A. exists o', k, rs. exact D. }
    assert (nw : forall look o lv s1 ns, piece cfg look o lv s1 ns -> forall k rs, fst ns = Await (PHeal k rs) -> c_heal (snd ns) = true) by (intros look o lv s1 ns [_ _ X _] k rs Y; rewrite Y in X; exact X).
    destruct (cstep_did cfg s l IV) as [l ID|j o ns DD E Q|j b r o k w rs rq DD F W IA HF NE F'|j b r o k w rs rq ns DD F W IA E Q|j r o k rs s1 ns DD F E Q|j r t1 start ns DD E Q|k|g fn ac name ev M|]; auto.
    - destruct (piece_heal _ _ _ _ _ Q). apply (go j o s ns); auto. eapply nw; exact Q.
    - destruct (answer_state_same cfg r s) as (AC & _). apply (go j o (answer_state cfg r s)); auto; [|intros ? ? X; discriminate X].
      destruct (c_heal (answer_state cfg r s)) eqn:X; [|reflexivity]. apply heal_only in X as [X|X]; [congruence|contradiction].
    - destruct (paid_some cfg k rs) as [lv PD]. destruct (piece_heal _ _ _ _ _ (Q lv PD)). destruct (answer_state_same cfg r s) as (AC & _). apply (go j o (answer_state cfg r s)); auto; [|eapply nw; exact (Q lv PD)].
      destruct (c_heal (answer_state cfg r s)) eqn:X; [|reflexivity]. apply heal_only in X as [X|X]; [congruence|contradiction].
    - destruct (paid_some cfg k rs) as [lv PD]. destruct (piece_heal _ _ _ _ _ (Q lv PD)). apply (go j o s1); auto; [| |eapply nw; exact (Q lv PD)]; destruct E as [(u & _ & -> & _)|(e & _ & -> & _)]; auto.
    - destruct (piece_heal _ _ _ _ _ Q). apply (go j (OpConsume t1 start) s); auto. eapply nw; exact Q.
  Qed.
End C69.

Lemma untroubled_run V (cfg : config V) (P : Z -> Prop) ls : forall s, inv cfg s -> Forall untroubled ls -> c_heal s = false -> (forall i, heals s i -> P i) -> forall i, heals (crun cfg ls s) i -> P i.
Proof.
  induction ls as [|l ls IH]; intros s IV U H A; [exact A|]. inversion_clear U as [|? ? U1 U2]. destruct (untroubled_step cfg P s l IV U1 H A) as [H' A']. apply IH; auto. now apply inv_step.
Qed.

(** Once an answer told a call of trouble, the call sends nothing more and does not end, whatever else arrives and whatever
    other calls do, until a heal of the cluster succeeded, its own or that of another call. *)
Theorem C69_heals_first : forall V (cfg : config V) s i b rq r ls, reachable cfg s -> waits_for s i b rq -> match r with Ok resp => answers rq resp = true | Err _ => True end ->
  trouble r -> regular r -> Forall unhealed ls -> Forall (answered_only i) ls ->
  let ls' := Arrive i b r :: ls in
  each_step cfg (fun s l => about i l -> sent cfg s l = []) ls' s /\ (waits (crun cfg ls' s) i \/ heals (crun cfg ls' s) i).
Proof.
  intros V cfg s i b rq r ls R (o & k & w & rs & D & W) AN TR RG U AO ls'. pose proof (reach_inv cfg s R) as IV.
  assert (SK : stuck s i) by (exists o; eexists; split; [exact D|exact I]). pose proof (proj2 (regular_heals cfg r s RG) (or_intror TR)) as H.
  destruct (arrive_stuck cfg s i b r IV SK RG H) as [SK' NS]. pose proof (inv_step cfg s (Arrive i b r) IV) as IV'.
  assert (H' : c_heal (cstep cfg s (Arrive i b r)) = true).
  { assert (IA : is_answer rq r = true) by (destruct r; [exact AN|reflexivity]). destruct (arrive_acts cfg s i b r o k w rs rq IV D W IA) as (ns & ex & AC & _). rewrite (ac_step _ _ _ _ _ _ _ _ _ AC), heal_continue.
    rewrite (p_heal _ _ _ _ _ _ (ac_moves _ _ _ _ _ _ _ _ _ AC)). exact H. }
  destruct (stuck_run cfg i ls _ IV' H' SK' U AO) as [E S]. split; [split; [intros _; exact NS|exact E]|]. apply stuck_iff with (cfg := cfg); [now apply inv_run|exact S].
Qed.
(** When no answer tells of trouble, no call heals the cluster between or after its rounds. *)
Theorem C69_no_needless_heal : forall V (cfg : config V) k name ls i, Forall untroubled ls -> ~ heals (crun cfg ls (consumer_init k name)) i.
Proof.
  intros V cfg k name ls i U H. revert H. apply (untroubled_run V cfg (fun _ => False)); [apply inv_init|exact U|reflexivity|]. intros j (o & k' & rs & D). discriminate D.
Qed.
(** One heal is enough: after it, without new trouble, no call begins to heal. *)
Theorem C69_one_heal_is_enough : forall V (cfg : config V) s i u ls j, reachable cfg s -> heals s i -> Forall untroubled ls ->
  heals (crun cfg ls (cstep cfg s (Healed i (Ok u)))) j -> j <> i /\ heals s j.
Proof.
  intros V cfg s i u ls j R HI U HJ. pose proof (reach_inv cfg s R) as IV. destruct HI as (o & k & rs & D).
  assert (X : c_heal (cstep cfg s (Healed i (Ok u))) = false /\ forall j, heals (cstep cfg s (Healed i (Ok u))) j -> j <> i /\ heals s j).
  { cbn [cstep]. rewrite D. destruct (proj2 IV _ _ _ D) as (FC & N & VK). destruct (paid_some cfg k rs) as [lv PD].
    pose proof (resume_piece cfg o lv k rs (set_heal false s) FC PD) as P. destruct (piece_heal cfg _ _ _ _ _ P) as [E1 E2]. rewrite heal_continue. split; [exact E1|].
    intros j' (o' & k' & rs' & D'). destruct (Z.eq_dec j' i) as [->|NE].
    - exfalso. rewrite continue_at in D'. destruct P as [_ _ NW _]. destruct (fst (resume cfg k rs (set_heal false s))) as [p|v|e]; [injection D' as -> ->; cbn in NW; rewrite E1 in NW; discriminate NW|..];
        rewrite E2 in D'; cbn in D'; rewrite dget_ddel_same in D' by apply IV; discriminate D'.
    - rewrite continue_other in D' by exact NE. rewrite E2 in D'. split; [exact NE|]. exists o', k', rs'. exact D'. }
  destruct X as [X1 X2]. revert HJ. apply (untroubled_run V cfg (fun j => j <> i /\ heals s j)); auto. now apply inv_step.
Qed.

(** two consume() calls overlap; an answer to the first has the code 6 (not the leader) while another is still out *)
Definition ex_two : list label := [Call 1 (OpConsume tt_ None); Call 2 (OpConsume tt_ None)].
Definition ex_more : list label :=
  [Arrive 2 1 (Ok (POffset [(tt_, [(0, (0, [3]))])])); Arrive 1 2 (Ok (POffset [(tt_, [(1, (0, [7]))])])); Arrive 2 2 (Ok (POffset [(tt_, [(1, (0, [7]))])])); Healed 2 (Err ENoBrokers)].
Example C69_example : let cfg := ex_cfg Single in let s := crun cfg ex_two ex_single in let r := Ok (POffset [(tt_, [(0, (6, []))])]) in
  reachable cfg s /\ waits_for s 1 1 (ROffset (-1) tt_ [(0, (PInt (-1), 1))]) /\ trouble r /\ regular r /\ Forall unhealed ex_more /\ Forall (answered_only 1) ex_more /\
  heals (crun cfg (Arrive 1 1 r :: ex_more) s) 1 /\ sent cfg (crun cfg (Arrive 1 1 r :: ex_more) s) (Healed 1 (Ok tt)) <> [].
Proof.
  cbv zeta. split; [exists ex_cluster, (txt "me"), ex_two; reflexivity|]. split; [do 4 eexists; split; reflexivity|]. split; [exists 6; repeat split; cbn; auto 10|].
  split; [intros p code offs [H|[]]; injection H as <- <- <-; right; cbn; auto 10|]. split; [repeat (apply Forall_cons; [intros i [] H; discriminate H|]); apply Forall_nil|].
  split; [repeat (apply Forall_cons; [try (intros H; discriminate H)|]); [|apply Forall_nil]|].
  - intros _ p code offs [H|[]]; injection H as <- <- <-. left. split; [reflexivity|discriminate].
  - split; [do 3 eexists; reflexivity|]. vm_compute. discriminate.
Qed.
Example C69_quiet_example : Forall untroubled [Call 1 (OpConsume tt_ None); Arrive 1 1 (Ok (POffset [(tt_, [(0, (0, [3]))])])); Arrive 1 2 (Err EStreamClosed)].
Proof.
  apply Forall_cons; [exact I|]. apply Forall_cons; [intros (c & [<-|[]] & H & _); cbn in H; repeat (destruct H as [H|H]; [discriminate H|]); destruct H|]. apply Forall_cons; [intros H; now apply H|apply Forall_nil].
Qed.

Print Assumptions C69_heals_first.
Print Assumptions C69_no_needless_heal.
Print Assumptions C69_one_heal_is_enough.
