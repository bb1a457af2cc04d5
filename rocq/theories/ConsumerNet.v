(** A consumer's own steps leave the record of what its cluster did alone (proof file, over Consumer.v). *)
From Coq Require Import ZArith String List Bool Lia.
From Verif Require Import PyBase BaseLemmas Constants Cluster Zookeeper Consumer SpecConsumer ConsumerProofs ConsumerSteps ConsumerRuns SpecAsks.
Import ListNotations.
Open Scope Z_scope.
Set Default Proof Using "Type".

Section Net.
  Context {V : Type}.
  Variable cfg : config V.
  Notation st := (consumer V).
  Definition clog (s : st) : list effect * nat := (k_log (c_cluster s), k_opened (c_cluster s)).
  Notation keeps s x := (clog (snd x) = clog s).

  Lemma get_leader_log t p k : (k_log (snd (get_leader t p k)), k_opened (snd (get_leader t p k))) = (k_log k, k_opened k).
  Proof. unfold get_leader. destruct (@ddefault text (dict Z Z) _ [] _ t) as [d ld]. reflexivity. Qed.
  Lemma offset_get_log t p s : keeps s (offset_get t p s).
  Proof. unfold offset_get. repeat (match goal with |- context [let '(_, _) := ?x in _] => destruct x end). reflexivity. Qed.
  Lemma offset_set_log t p v s : clog (offset_set t p v s) = clog s.
  Proof. unfold offset_set. repeat (match goal with |- context [let '(_, _) := ?x in _] => destruct x end). reflexivity. Qed.
  Lemma alloc_map_log s : keeps s (alloc_map cfg s).
  Proof. unfold alloc_map. destruct (md cfg); [reflexivity|]. destruct (allocation (c_alloc s)). reflexivity. Qed.
  Lemma alloc_index_log t s : keeps s (alloc_index cfg t s).
  Proof.
    unfold alloc_index. destruct (md cfg); [destruct (@ddefault text (list Z) _ [] _ t); reflexivity|]. destruct (allocation (c_alloc s)) as [[tm|e] a]; [|reflexivity].
    destruct (dget tm t); [reflexivity|]. destruct (mp_default _); reflexivity.
  Qed.
  Lemma allocated_log t s : keeps s (allocated cfg t s).
  Proof.
    unfold allocated. pose proof (alloc_map_log s) as A. destruct (alloc_map cfg s) as [[m|e] s1]; cbn [snd] in *; [|exact A]. destruct (dmem m t); [|exact A].
    pose proof (alloc_index_log t s1) as B. destruct (alloc_index cfg t s1) as [[ps|e] s2]; cbn [snd] in *; congruence.
  Qed.
  Lemma send_all_log rqs : forall s, keeps s (send_all cfg rqs s).
  Proof.
    induction rqs as [|[b rq] rqs IH]; intros s; cbn [send_all]; [reflexivity|]. destruct (dget _ b) as [cn|]; [|reflexivity]. destruct (cc_closing cn); [apply IH|]. destruct (unsendable cfg rq); [reflexivity|]. now rewrite IH.
  Qed.
  Lemma send_one_log k b rq s : keeps s (send_one cfg k b rq s).
  Proof. unfold send_one. destruct b as [b|]; [|reflexivity]. pose proof (send_all_log [(b, rq)] s) as A. destruct (send_all cfg [(b, rq)] s) as [[u|e] s1]; exact A. Qed.
  Lemma commit_parts_log t ps m : forall s, keeps s (commit_parts t ps m s).
  Proof.
    induction ps as [|p ps IH]; intros s; cbn [commit_parts]; [reflexivity|]. pose proof (offset_get_log t p s) as A. destruct (offset_get t p s) as [o s1]. cbn [snd] in A.
    specialize (IH s1). destruct (commit_parts t ps m s1) as [r s2]. cbn [snd] in *. congruence.
  Qed.
  Lemma commit_topics_log am m : forall s, keeps s (commit_topics am m s).
  Proof.
    induction am as [|[t ps] am IH]; intros s; cbn [commit_topics]; [reflexivity|]. destruct (smem _ t); [|apply IH]. pose proof (commit_parts_log t ps m s) as A. destruct (commit_parts t ps m s) as [parts s1]. cbn [snd] in A.
    specialize (IH s1). destruct (commit_topics am m s1) as [r s2]. cbn [snd] in *. congruence.
  Qed.
  Lemma commit_log m ret s : keeps s (commit_offsets cfg m ret s).
  Proof.
    unfold commit_offsets. destruct (md cfg) as [|g fn ac name]; [reflexivity|]. pose proof (alloc_map_log s) as A. destruct (alloc_map cfg s) as [[am|e] s1]; cbn [snd] in *; [|exact A].
    set (m' := match m with Some x => x | None => _ end). pose proof (commit_topics_log am m' s1) as B. destruct (commit_topics am m' s1) as [topics s2]. cbn [snd] in B. rewrite send_one_log. congruence.
  Qed.
  Lemma base_done_log t v s : keeps s (base_done cfg t v s).
  Proof. unfold base_done. destruct (md cfg) as [|g fn ac name]; [reflexivity|]. destruct (negb _); [reflexivity|]. destruct ac; [now rewrite commit_log|reflexivity]. Qed.
  Lemma order_leaders_log t ps : forall acc s, keeps s (order_leaders t ps acc s).
  Proof.
    induction ps as [|p ps IH]; intros acc s; cbn [order_leaders]; [reflexivity|]. pose proof (get_leader_log t p (c_cluster s)) as A. destruct (get_leader t p (c_cluster s)) as [[l|e] k]; cbn [snd] in A; [|exact A].
    destruct (@ddefault Z (list Z) _ [] acc l) as [q acc1]. now rewrite IH.
  Qed.
  Lemma fetch_parts_log t ps mb : forall s, keeps s (fetch_parts t ps mb s).
  Proof.
    induction ps as [|p ps IH]; intros s; cbn [fetch_parts]; [reflexivity|]. pose proof (offset_get_log t p s) as A. destruct (offset_get t p s) as [o s1]. cbn [snd] in A.
    specialize (IH s1). destruct (fetch_parts t ps mb s1) as [r s2]. cbn [snd] in *. congruence.
  Qed.
  Lemma fetch_requests_log t ord : forall s, keeps s (fetch_requests cfg t ord s).
  Proof.
    induction ord as [|[l ps] ord IH]; intros s; cbn [fetch_requests]; [reflexivity|]. set (q := Z.quot _ _). pose proof (fetch_parts_log t ps q s) as A. destruct (fetch_parts t ps q s) as [parts s1]. cbn [snd] in A.
    specialize (IH s1). destruct (fetch_requests cfg t ord s1) as [r s2]. cbn [snd] in *. congruence.
  Qed.
  Lemma fetch_log t s : keeps s (fetch cfg t s).
  Proof.
    unfold fetch. pose proof (allocated_log t s) as A. destruct (allocated cfg t s) as [[[|]|e] s1]; cbn [snd] in A; [|now rewrite base_done_log|exact A].
    pose proof (alloc_index_log t s1) as B. destruct (alloc_index cfg t s1) as [[ps|e] s2]; cbn [snd] in *; [|congruence].
    pose proof (order_leaders_log t ps [] s2) as D. destruct (order_leaders t ps [] s2) as [[ord|e] s3]; cbn [snd] in *; [|congruence].
    pose proof (fetch_requests_log t ord s3) as E. destruct (fetch_requests cfg t ord s3) as [rqs s4]. cbn [snd] in E. pose proof (send_all_log rqs s4) as F. destruct (send_all cfg rqs s4) as [[u|e] s5]; cbn [snd] in *; congruence.
  Qed.
  Lemma after_log t s : keeps s (after_offsets cfg t s).
  Proof. unfold after_offsets. pose proof (allocated_log t s) as A. destruct (allocated cfg t s) as [[[|]|e] s1]; cbn [snd] in *; [now rewrite fetch_log|exact A|exact A]. Qed.
  Lemma raised_log k e s : keeps s (raised cfg k e s).
  Proof. unfold raised. destruct k; try reflexivity. destruct e; try reflexivity. apply base_done_log. Qed.
  Lemma coord_next_log g rest s : keeps s (coord_next cfg g rest s).
  Proof. unfold coord_next. destruct (match rest with [] => _ | _ => rest end) as [|b r]; [reflexivity|apply send_one_log]. Qed.
  Lemma resume_log k rs s : keeps s (resume cfg k rs s).
  Proof.
    assert (A : forall t, keeps s (after_offsets cfg t (set_synced (sadd (c_synced s) t) s))) by (intros t; now rewrite after_log).
    destruct k as [t rq|t|m ret|asked rest]; cbn [resume].
    - destruct (md cfg) as [|g fn ac name]; [apply A|]. destruct rq as [rq|]; [|apply A]. destruct (coord_result rs s) as [h|e]; [|apply raised_log]. destruct h as [|l|[|]|a b]; try apply A.
      pose proof (send_one_log (KOffsets t (Some rq)) (c_coord s) rq s) as W. destruct (send_one cfg _ _ _ s) as [[p|v|e] s1]; try exact W. rewrite raised_log. exact W.
    - apply base_done_log.
    - destruct (coord_result rs s) as [h|e]; [|reflexivity]. destruct h as [|l|b|[|] b]; try reflexivity. apply commit_log.
    - destruct (dindex rs asked) as [h|e]; [|reflexivity]. destruct h as [|l|[|]|a b]; destruct (md cfg) as [|g fn ac name]; try reflexivity; apply coord_next_log.
  Qed.
  Lemma send_end_log k rs s : keeps s (send_end cfg k rs s).
  Proof. unfold send_end. destruct (c_heal s); [reflexivity|apply resume_log]. Qed.
  Lemma offset_requests_log t time ps : forall acc s, keeps s (offset_requests t time ps acc s).
  Proof.
    induction ps as [|p ps IH]; intros acc s; cbn [offset_requests]; [reflexivity|]. pose proof (get_leader_log t p (c_cluster s)) as A. destruct (get_leader t p (c_cluster s)) as [[l|e] k]; cbn [snd] in A; [|exact A]. now rewrite IH.
  Qed.
  Lemma determine_log t start s : keeps s (determine_offsets cfg t start s).
  Proof.
    unfold determine_offsets. pose proof (alloc_index_log t s) as A. destruct (md cfg) as [|g fn ac name].
    - destruct (alloc_index cfg t s) as [[ps|e] s1]; cbn [snd] in A; [|exact A]. set (time := start_to_timestamp cfg _). pose proof (offset_requests_log t time ps [] s1) as B.
      destruct (offset_requests t time ps [] s1) as [[rqs|e] s2]; cbn [snd] in *; [|congruence]. pose proof (send_all_log rqs s2) as D. destruct (send_all cfg rqs s2) as [[u|e] s3]; cbn [snd] in *; [|congruence]. destruct rqs; [rewrite send_end_log|cbn [snd]]; congruence.
    - destruct (alloc_index cfg t s) as [[ps|e] s1]; cbn [snd] in A; [|exact A]. cbv zeta. now rewrite send_one_log.
  Qed.
  Lemma consume_log t start s : keeps s (consume cfg t start s).
  Proof.
    unfold consume. destruct (c_closing s); [apply base_done_log|]. destruct (smem (c_synced s) t); [apply after_log|]. set (start' := match md cfg with Single => start | _ => None end).
    pose proof (determine_log t start' s) as W. destruct (determine_offsets cfg t start' s) as [[p|v|e] s1]; try exact W. rewrite raised_log. exact W.
  Qed.
  Lemma deserialize_log t p ms : forall s, keeps s (deserialize_messages cfg t p ms s).
  Proof.
    induction ms as [|[o [? ? ? ? v]] ms IH]; intros s; cbn [deserialize_messages]; [reflexivity|]. destruct (deser cfg v) as [x|e]; [|apply IH]. set (s1 := if 0 <=? o then _ else s).
    assert (A : clog s1 = clog s) by (unfold s1; destruct (0 <=? o); [apply offset_set_log|reflexivity]). specialize (IH s1). destruct (deserialize_messages cfg t p ms s1) as [vs s2]. cbn [snd] in *. congruence.
  Qed.
  Lemma fetch_parts_handled t parts : forall s, keeps s (handle_fetch_parts cfg t parts s).
  Proof.
    induction parts as [|[p [code ms]] parts IH]; intros s; cbn [handle_fetch_parts]; [reflexivity|]. destruct (code =? no_error).
    - pose proof (deserialize_log t p ms s) as A. destruct (deserialize_messages cfg t p ms s) as [vs s1]. cbn [snd] in A. specialize (IH s1). destruct (handle_fetch_parts cfg t parts s1) as [[ws|e] s2]; cbn [snd] in *; congruence.
    - destruct (is_retriable code); [now rewrite IH|]. destruct (code =? offset_out_of_range); [now rewrite IH|]. destruct (error_name code); [apply IH|reflexivity].
  Qed.
  Lemma offset_parts_handled t parts : forall s : st, keeps s (handle_offset_parts t parts s).
  Proof.
    induction parts as [|[p [code offs]] parts IH]; intros s; cbn [handle_offset_parts]; [reflexivity|]. destruct (code =? no_error).
    - destruct offs as [|o offs]; [reflexivity|]. rewrite IH. destruct (0 <=? o); [apply offset_set_log|reflexivity].
    - destruct (is_retriable code); [now rewrite IH|]. destruct (error_name code); reflexivity.
  Qed.
  Lemma ofetch_parts_handled t parts : forall r (s : st), keeps s (handle_ofetch_parts t parts r s).
  Proof.
    induction parts as [|[p [code o]] parts IH]; intros r s; cbn [handle_ofetch_parts]; [reflexivity|]. destruct (code =? no_error); [rewrite IH; apply offset_set_log|].
    destruct (code =? offsets_load_in_progress); [apply IH|]. destruct (is_retriable code); [now rewrite IH|]. destruct (error_name code); reflexivity.
  Qed.
  Lemma commit_parts_handled t parts : forall acc (s : st), keeps s (handle_commit_parts t parts acc s).
  Proof.
    induction parts as [|[p code] parts IH]; intros acc s; cbn [handle_commit_parts]; [reflexivity|]. destruct (code =? no_error); [now rewrite IH|].
    destruct (is_retriable code); [now rewrite IH|]. destruct (code =? offset_metadata_too_large); [apply IH|]. destruct (error_name code); [apply IH|reflexivity].
  Qed.
  Lemma commit_topics_handled topics : forall acc (s : st), keeps s (handle_commit_topics topics acc s).
  Proof.
    induction topics as [|[t parts] topics IH]; intros acc s; cbn [handle_commit_topics]; [reflexivity|]. pose proof (commit_parts_handled t parts acc s) as A. destruct (handle_commit_parts t parts acc s) as [[acc1|e] s1]; cbn [snd] in *; [now rewrite IH|exact A].
  Qed.
  Lemma handle_log r s : keeps s (handle cfg r s).
  Proof.
    destruct r as [topics|topics|topics|topics|code id]; cbn [handle].
    - destruct topics as [|[t parts] l]; [reflexivity|]. pose proof (fetch_parts_handled t parts s) as A. destruct (handle_fetch_parts cfg t parts s) as [[]]; exact A.
    - destruct topics as [|[t parts] l]; [reflexivity|]. pose proof (offset_parts_handled t parts s) as A. destruct (handle_offset_parts t parts s) as [[]]; exact A.
    - destruct topics as [|[t parts] l]; [reflexivity|]. pose proof (ofetch_parts_handled t parts false s) as A. destruct (handle_ofetch_parts t parts false s) as [[]]; exact A.
    - pose proof (commit_topics_handled topics (false, false) s) as A. destruct (handle_commit_topics topics (false, false) s) as [[[]|]]; exact A.
    - destruct (code =? no_error); [reflexivity|]. destruct (is_retriable code); reflexivity.
  Qed.
  Lemma arrive_log k w rs b r s : keeps s (arrive cfg k w rs b r s).
  Proof.
    unfold arrive. destruct r as [resp|e].
    - pose proof (handle_log resp s) as A. destruct (handle cfg resp s) as [[v|e] s1]; cbn [snd] in A; [|now rewrite raised_log]. destruct (ddel w b); [now rewrite send_end_log|exact A].
    - set (s1 := if sets_heal e then set_heal true s else s). assert (A : clog s1 = clog s) by (unfold s1; destruct (sets_heal e); reflexivity). destruct (ddel w b); [now rewrite send_end_log|exact A].
  Qed.
  Lemma continue_log i o (ns : next V * st) : clog (continue i o ns) = clog (snd ns).
  Proof. destruct ns as [[p|v|e] s]; reflexivity. Qed.
  (** every step except that the tables change *)
  Lemma cstep_log s l : (forall k, l <> Cluster_ k) -> clog (cstep cfg s l) = clog s.
  Proof.
    intros N. destruct l as [i o|i b r|i r|k|ev|]; cbn [cstep].
    - destruct (dmem (c_calls s) i); [reflexivity|]. rewrite continue_log. destruct o as [t start|m|]; [apply consume_log|apply commit_log|]. destruct (md cfg); [reflexivity|apply coord_next_log].
    - destruct (dget (c_calls s) i) as [[o [k w rs|k rs|t]]|]; try reflexivity. destruct (dget w b) as [rq|]; [|reflexivity]. destruct (match r with Ok resp => answers rq resp | Err _ => true end); [|reflexivity]. rewrite continue_log. apply arrive_log.
    - destruct (dget (c_calls s) i) as [[o [k w rs|k rs|t]]|]; try reflexivity; (destruct r; rewrite continue_log); [rewrite resume_log|apply raised_log|apply fetch_log|]; reflexivity.
    - now destruct (N k).
    - destruct (md cfg); reflexivity.
    - reflexivity.
  Qed.
  (** and the connections and the leaders *)
  Lemma cstep_net s l : ConsumerRuns.inv cfg s -> (forall k, l <> Cluster_ k) -> k_conns (c_cluster (cstep cfg s l)) = k_conns (c_cluster s) /\ (forall t p, leader_of (cstep cfg s l) t p = leader_of s t p) /\
    k_log (c_cluster (cstep cfg s l)) = k_log (c_cluster s) /\ k_opened (c_cluster (cstep cfg s l)) = k_opened (c_cluster s).
  Proof.
    intros I N. pose proof (cstep_log s l N) as L. injection L as L1 L2. assert (X : k_conns (c_cluster (cstep cfg s l)) = k_conns (c_cluster s) /\ (forall t p, leader_of (cstep cfg s l) t p = leader_of s t p)); [|tauto].
    destruct (step_cases cfg s l I) as [(i & o & look & s1 & ns & ex & A)|H].
    - rewrite (ac_step _ _ _ _ _ _ _ _ _ A). destruct (ac_moves _ _ _ _ _ _ _ _ _ A) as [_ _ _ _ _ _ KC KL _ _ _ _ _ _ _ _ _ _]. destruct (continue_same i o ns) as (_ & _ & _ & _ & CL & _).
      assert (S1 : c_cluster s1 = c_cluster s) by (destruct (ac_from _ _ _ _ _ _ _ _ _ A) as [(_ & _ & -> & _)|[(b & r & k & w & rs & rq & _ & _ & _ & _ & -> & _)|[(r & k & rs & _ & _ & [-> | ->] & _)|(r & t & _ & _ & -> & _)]]]; try reflexivity; apply answer_state_same).
      unfold leader_of in *. rewrite CL, KC, S1. split; [reflexivity|]. intros t p. rewrite KL, S1. reflexivity.
    - destruct H as [(-> & _)|[(k & -> & _)|[(_ & ->)|(g & fn & ac & name & ev & _ & _ & ->)]]]; try (split; reflexivity). now destruct (N k).
  Qed.
  (** the requests that ask for a partition of a topic by its leader *)
  Lemma sent_led s l b rq t p : ConsumerRuns.inv cfg s -> (forall k, l <> Cluster_ k) -> In (b, rq) (sent cfg s l) -> asks_for rq t p -> leader_of s t p = Some b.
  Proof.
    intros I N H A. destruct (step_cases cfg s l I) as [(i & o & look & s1 & ns & ex & AC)|X].
    - destruct (acts_sent _ _ _ _ _ _ _ _ _ AC) as [E _]. rewrite E in H. destruct (cstep_net s l I N) as (_ & LD & _). rewrite <- LD. rewrite (ac_step _ _ _ _ _ _ _ _ _ AC). destruct (continue_same i o ns) as (_ & _ & _ & _ & CL & _).
      unfold leader_of. rewrite CL. fold (leader_of (snd ns) t p). destruct (ac_sends _ _ _ _ _ _ _ _ _ AC) as [|t' start rqs pre post _ F -> _ ex ->|t' start rqs pre post _ _ _ F -> _ ex ->|t' start b' g fn ac name ps _ _ _ _ _ _|m ret b' g fn ac name am _ _ _ _ _ _ _|b' rest g fn ac name _ _ _ _]; [destruct H| | |destruct H as [H|[]]; injection H as <- <-; destruct A..].
      + apply filter_In in H as [H _]. destruct F as (_ & _ & _ & F). destruct (F b rq) as (parts & _ & -> & LP); [apply in_or_app; now left|]. destruct A as [<- HP]. apply in_map_iff in HP as ([p' [o' mb]] & <- & HP). apply (LP _ _ _ HP).
      + apply filter_In in H as [H _]. destruct F as (_ & _ & F). destruct (F b rq) as (parts & _ & -> & LP); [apply in_or_app; now left|]. destruct A as [<- HP]. apply in_map_iff in HP as ([p' [tm mx]] & <- & HP). apply (LP _ _ _ HP).
    - exfalso. assert (E : c_wire (cstep cfg s l) = c_wire s) by (destruct X as [(-> & _)|[(k & _ & ->)|[(_ & ->)|(g & fn & ac & name & ev & _ & _ & ->)]]]; reflexivity). unfold sent in H. rewrite E, skipn_all in H. destruct H.
  Qed.
End Net.
