(** Proofs about overlapping heal() calls (Heals.v). *)
From Coq Require Import ZArith String List Bool Lia.
From Verif Require Import PyBase BaseLemmas Constants Cluster SpecCluster ClusterProofs Heals SpecHeals PropsClosed.
Import ListNotations.
Open Scope Z_scope.

Lemma hrun_snoc ls l s : hrun (ls ++ [l]) s = hstep (hrun ls s) l.
Proof. unfold hrun. now rewrite fold_left_app. Qed.
Lemma given_to_snoc i ls : forall l s, given_to i (ls ++ [l]) s = given_to i ls s ++ given_now i (hrun ls s) l.
Proof.
  induction ls as [|l0 ls IH]; intros l s; cbn [given_to app].
  - now rewrite app_nil_r.
  - rewrite IH. now rewrite app_assoc.
Qed.

(** ** the tables *)
Definition same_tables (k k' : cluster) : Prop := k_topics k' = k_topics k /\ k_leaders k' = k_leaders k.
Lemma same_refl k : same_tables k k. Proof. split; reflexivity. Qed.

Lemma ask_from_spec first topics keys bs : forall k n k', ask_from first topics keys bs k = (n, k') ->
  same_tables k k' /\ k_conns k' = k_conns k /\ k_opened k' = k_opened k /\
  (k_log k' = k_log k \/ exists id, k_log k' = k_log k ++ [XAsk id topics]) /\
  (n = HRaise ENoBrokers \/ exists rest id, n = HAwait (HAsk first topics keys rest id)).
Proof.
  induction bs as [|b bs IH]; intros k n k'; cbn [ask_from].
  - intros [= <- <-]. repeat split; auto.
  - destruct (dget (k_conns k) b) as [c|]; [|apply IH]. destruct (cc_closing c); [apply IH|].
    intros [= <- <-]. split; [split; reflexivity|]. do 2 (split; [reflexivity|]). split; [right; eexists; reflexivity|right; eauto].
Qed.
Lemma abort_all_tables drop : forall k r k', abort_all drop k = (r, k') -> same_tables k k' /\ (r = Ok tt \/ r = Err EKey).
Proof.
  induction drop as [|b drop IH]; intros k r k'; cbn [abort_all].
  - intros [= <- <-]. split; [apply same_refl|auto].
  - destruct (dget (k_conns k) b); [|intros [= <- <-]; split; [apply same_refl|auto]].
    intros H. apply IH in H as [[A B] C]. destruct (abort_one b k) as (A1 & A2 & _). split; [split; congruence|exact C].
Qed.
Lemma tables_ext k k' r : same_tables k k' -> k_conns k' = k_conns k -> tables_of k r -> tables_of k' r.
Proof. intros [A B] C. unfold tables_of, partition_known, leader, holds. now rewrite A, B, C. Qed.
Lemma trouble_ext k k' ts t : k_conns k' = k_conns k -> in_trouble k' ts t -> in_trouble k ts t.
Proof. intros C. unfold in_trouble, holds. now rewrite C. Qed.

Lemma finish_tables missing drop r k n k' : finish missing drop r k = (n, k') ->
  (same_tables k k' /\ n = HRaise EKey) \/
  (tables_of k' r /\ (n = HReturn -> missing = [] /\ forall t, ~ in_trouble k' (mr_topics r) t) /\
   (n = HReturn \/ n = HRaise ENoBrokers \/ exists topics keys rest id, n = HAwait (HAsk false topics keys rest id))).
Proof.
  unfold finish. destruct (abort_all drop k) as [ra k1] eqn:E. destruct (abort_all_tables _ _ _ _ E) as [ST [->| ->]].
  2:{ intros [= <- <-]. left. auto. }
  destruct (process_topics (mr_topics r) k1) as [ts k2] eqn:EP.
  destruct (process_topics_spec _ _ _ _ EP) as (A & B & D & T & _).
  assert (TT : tables_of k2 r) by (split; [exact A|split; [exact B|exact D]]). intros H. right.
  assert (X : (n = HReturn /\ k' = k2 /\ missing = [] /\ ts = []) \/ ask_metadata false ts k2 = (n, k')).
  { destruct missing; [destruct ts|]; auto. injection H as <- <-. auto. }
  destruct X as [(-> & -> & -> & ->)|X].
  - split; [exact TT|]. split; [|auto]. intros _. split; [reflexivity|]. intros t HT. apply T in HT. destruct HT.
  - unfold ask_metadata in X. apply ask_from_spec in X as (S & C & _ & _ & [->|(rest & id & ->)]).
    + split; [eapply tables_ext; eauto|]. split; [discriminate|auto].
    + split; [eapply tables_ext; eauto|]. split; [discriminate|]. right; right. eauto 6.
Qed.
Lemma brokers_from_cases bs : forall missing drop r k n k', brokers_from bs missing drop r k = (n, k') ->
  finish missing drop r k = (n, k') \/
  exists b rest, n = HAwait (HConn b rest missing drop (k_opened k) r) /\ k' = opening (mb_host b) (mb_port b) k /\ dmem (k_conns k) (mb_id b) = false.
Proof.
  induction bs as [|b bs IH]; intros missing drop r k n k'; cbn [brokers_from]; [auto|].
  destruct (dmem (k_conns k) (mb_id b)) eqn:E; [apply IH|]. intros [= <- <-]. right. eauto.
Qed.
(** what a piece that works on answer [r] does to the tables, and where it stops *)
Definition serves (r : mresp) (k : cluster) (nk : hnext * cluster) : Prop :=
  let '(n, k') := nk in
  (same_tables k k' \/ tables_of k' r) /\
  (n = HReturn -> tables_of k' r /\ forall t, ~ in_trouble k' (mr_topics r) t) /\
  (forall b rest missing drop id r', n = HAwait (HConn b rest missing drop id r') -> r' = r).
Lemma brokers_serves bs missing drop r k : serves r k (brokers_from bs missing drop r k).
Proof.
  destruct (brokers_from bs missing drop r k) as [n k'] eqn:E. unfold serves.
  apply brokers_from_cases in E as [E|(b & rest & -> & -> & _)].
  - apply finish_tables in E as [[S ->]|(T & R & N)].
    + split; [auto|]. split; [discriminate|]. intros; discriminate.
    + split; [auto|]. split; [intros H; split; [exact T|now apply R]|]. intros b rest m d id r' ->.
      destruct N as [N|[N|(? & ? & ? & ? & N)]]; discriminate N.
  - split; [left; split; reflexivity|]. split; [discriminate|]. intros ? ? ? ? ? ? [= <- <- <- <- <-]. now symmetry.
Qed.
Lemma serves_from r k k0 nk : same_tables k0 k -> serves r k nk -> serves r k0 nk.
Proof.
  destruct nk as [n k']. intros [A B] ([[C D]|C] & R); (split; [|exact R]); [left; split; congruence|now right].
Qed.

(** Every heal() at cluster.py:195 works on the latest answer it got. *)
Definition works_on (i : Z) (g : list mresp) (s : hstate) : Prop :=
  forall b rest missing drop id r, dget (h_calls s) i = Some (HConn b rest missing drop id r) -> exists pre, g = pre ++ [r].
Definition step_ok (i : Z) (g : list mresp) (s : hstate) (s' : hstate) : Prop :=
  (same_tables (h_k s) (h_k s') \/ exists r pre, g = pre ++ [r] /\ tables_of (h_k s') r) /\
  (h_ended s' = h_ended s ++ [(i, Ok tt)] -> exists r pre, g = pre ++ [r] /\ tables_of (h_k s') r /\ forall t, ~ in_trouble (h_k s') (mr_topics r) t) /\
  (NoDup (dkeys (h_calls s)) -> works_on i g s' /\ NoDup (dkeys (h_calls s')) /\ forall j, j <> i -> dget (h_calls s') j = dget (h_calls s) j).

Lemma hcontinue_serves i g s r nk : (exists pre, g = pre ++ [r]) -> serves r (h_k s) nk -> step_ok i g s (hcontinue i s nk).
Proof.
  intros (pre & G). destruct nk as [n k']. intros (A & B & C). split; [|split].
  - destruct n; cbn [hcontinue h_k]; (destruct A; [left|right]; eauto).
  - destruct n; cbn [hcontinue h_k h_ended]; intros E.
    + exfalso. apply (f_equal (@length _)) in E. rewrite app_length in E. cbn in E. lia.
    + exists r, pre. split; [exact G|]. now apply B.
    + exfalso. apply app_inj_tail in E as [_ E]. discriminate E.
  - intros ND. destruct n as [p| |e]; cbn [hcontinue h_calls].
    + split; [|split].
      * intros b rest m d id r'. cbn [h_calls]. rewrite dget_dset_same. intros [= ->]. exists pre. rewrite G. f_equal. f_equal. symmetry. eapply C. reflexivity.
      * now apply nodup_dset.
      * intros j N. now apply dget_dset_other.
    + split; [|split].
      * intros b rest m d id r'. cbn [h_calls]. rewrite dget_ddel_same by exact ND. discriminate.
      * now apply nodup_ddel.
      * intros j N. now apply dget_ddel_other.
    + split; [|split].
      * intros b rest m d id r'. cbn [h_calls]. rewrite dget_ddel_same by exact ND. discriminate.
      * now apply nodup_ddel.
      * intros j N. now apply dget_ddel_other.
Qed.
(** a piece that does not touch the tables and waits for a broker's answer, or fails *)
Lemma hcontinue_asks i g s n k' : same_tables (h_k s) k' -> (forall p, n = HAwait p -> exists f t ks rs id, p = HAsk f t ks rs id) -> n <> HReturn ->
  step_ok i g s (hcontinue i s (n, k')).
Proof.
  intros S P NR. split; [|split].
  - left. destruct n; exact S.
  - destruct n; cbn [hcontinue h_k h_ended]; intros E; exfalso; [|congruence|].
    + apply (f_equal (@length _)) in E. rewrite app_length in E. cbn in E. lia.
    + apply app_inj_tail in E as [_ E]. discriminate E.
  - intros ND. destruct n as [p| |e]; [|congruence|].
    + destruct (P p eq_refl) as (f & t & ks & rs & id & ->). split; [|split]; cbn [hcontinue h_calls].
      * intros b rest m d id' r'. cbn [h_calls]. rewrite dget_dset_same. discriminate.
      * now apply nodup_dset.
      * intros j N. now apply dget_dset_other.
    + split; [|split]; cbn [hcontinue h_calls].
      * intros b rest m d id r'. cbn [h_calls]. rewrite dget_ddel_same by exact ND. discriminate.
      * now apply nodup_ddel.
      * intros j N. now apply dget_ddel_other.
Qed.
Lemma stay_ok i g s : works_on i g s -> step_ok i g s s.
Proof.
  intros W. split; [left; apply same_refl|]. split.
  - intros E. exfalso. apply (f_equal (@length _)) in E. rewrite app_length in E. cbn in E. lia.
  - auto.
Qed.

Lemma hstep_ok i g s l : heal_of l i -> works_on i g s -> step_ok i (g ++ given_now i s l) s (hstep s l).
Proof.
  intros H W. unfold given_now, given. destruct l as [j resp|j r alt|j r|id|]; cbn [heal_of] in H; try contradiction; subst j.
  - cbn [hstep]. destruct (dmem (h_calls s) i).
    + replace (match resp with Some _ | _ => None end) with (@None (Z * mresp)) by (destruct resp; reflexivity). rewrite app_nil_r. now apply stay_ok.
    + destruct resp as [r|].
      * rewrite Z.eqb_refl. apply hcontinue_serves with (r := r); [eauto|]. apply (serves_from r (cull (h_k s))); [split; reflexivity|]. apply brokers_serves.
      * rewrite app_nil_r. destruct (ask_metadata true [] (h_k s)) as [n k'] eqn:E. unfold ask_metadata in E.
        apply ask_from_spec in E as (S & _ & _ & _ & N). apply hcontinue_asks; [exact S| |destruct N as [->|(? & ? & ->)]; discriminate].
        intros p ->. destruct N as [N|(rest & id & N)]; [discriminate N|]. injection N as ->. eauto 8.
  - cbn [hstep]. destruct (dget (h_calls s) i) as [[first topics keys rest id|b rest m d id r0]|] eqn:EG.
    + destruct r as [r|e].
      * rewrite Z.eqb_refl. apply hcontinue_serves with (r := r); [eauto|].
        apply (serves_from r (if first then cull (emit (XAnswer id r) (h_k s)) else emit (XAnswer id r) (h_k s))); [destruct first; split; reflexivity|]. apply brokers_serves.
      * rewrite app_nil_r. destruct (skips e); [|apply hcontinue_asks; [split; reflexivity|discriminate|discriminate]].
        destruct (negb _); [apply hcontinue_asks; [split; reflexivity|discriminate|discriminate]|].
        destruct (ask_from _ _ _ _ _) as [n k'] eqn:E. apply ask_from_spec in E as (S & _ & _ & _ & N). apply hcontinue_asks; [exact S| |destruct N as [->|(? & ? & ->)]; discriminate].
        intros p ->. destruct N as [N|(rest' & id' & N)]; [discriminate N|]. injection N as ->. eauto 8.
    + replace (match r with Ok _ | _ => None end) with (@None (Z * mresp)) by (destruct r; reflexivity). rewrite app_nil_r. now apply stay_ok.
    + replace (match r with Ok _ | _ => None end) with (@None (Z * mresp)) by (destruct r; reflexivity). rewrite app_nil_r. now apply stay_ok.
  - rewrite app_nil_r. cbn [hstep]. destruct (dget (h_calls s) i) as [[first topics keys rest id|b rest m d id r0]|] eqn:EG; try now apply stay_ok.
    destruct r as [[]|e].
    + apply hcontinue_serves with (r := r0); [exact (W _ _ _ _ _ _ EG)|]. eapply serves_from; [|apply brokers_serves]. split; reflexivity.
    + apply hcontinue_serves with (r := r0); [exact (W _ _ _ _ _ _ EG)|]. eapply serves_from; [|apply brokers_serves]. split; reflexivity.
Qed.
Lemma heal_of_dec l : (exists i, heal_of l i) \/ (exists id, l = Died id) \/ l = Stop.
Proof. destruct l; cbn; eauto. Qed.
Lemma hrun_works ls k : NoDup (dkeys (h_calls (hrun ls (hinit k)))) /\ forall i, works_on i (given_to i ls (hinit k)) (hrun ls (hinit k)).
Proof.
  induction ls as [|l ls IH] using rev_ind; [split; [constructor|intros i b rest m d id r H; discriminate H]|].
  destruct IH as [ND W]. rewrite hrun_snoc. set (s := hrun ls (hinit k)) in *.
  destruct (heal_of_dec l) as [[j H]|[[id ->]| ->]].
  - destruct (hstep_ok j _ s l H (W j)) as (_ & _ & X). destruct (X ND) as (A & B & C). split; [exact B|].
    intros i. rewrite given_to_snoc. destruct (Z.eq_dec i j) as [->|N]; [exact A|].
    assert (given_now i s l = []) as E.
    { unfold given_now, given. destruct l as [j0 [r|]|j0 [r|e] alt|j0 r|id|]; cbn in H; subst; try reflexivity.
      - destruct (dmem _ _); [reflexivity|]. destruct (Z.eqb_spec j i); [congruence|reflexivity].
      - destruct (dget _ _) as [[]|]; try reflexivity. destruct (Z.eqb_spec j i); [congruence|reflexivity]. }
    fold s. rewrite E, app_nil_r. intros b rest m d id r. rewrite C by exact N. apply W.
  - split; [exact ND|]. intros i. rewrite given_to_snoc. unfold given_now. cbn [given]. rewrite app_nil_r. apply W.
  - split; [exact ND|]. intros i. rewrite given_to_snoc. unfold given_now. cbn [given]. rewrite app_nil_r. apply W.
Qed.

(** ** the connections *)
Definition gone (D : nat -> Prop) (k : cluster) (id : nat) : Prop := In (XAbort id) (k_log k) \/ In (XClose id) (k_log k) \/ D id.
Record kept (D : nat -> Prop) (k : cluster) : Prop := Kept {
  kp_nodup : NoDup (dkeys (k_conns k));
  kp_up : forall id, In (XConnected id) (k_log k) -> (exists b c, dget (k_conns k) b = Some c /\ cc_id c = id) \/ gone D k id;
  kp_closing : forall b c, dget (k_conns k) b = Some c -> cc_closing c = true -> gone D k (cc_id c);
  kp_set_up : forall b c, dget (k_conns k) b = Some c -> In (XConnected (cc_id c)) (k_log k) }.

Lemma gone_incl (D D' : nat -> Prop) k k' id : (forall i, D i -> D' i) -> incl (k_log k) (k_log k') -> gone D k id -> gone D' k' id.
Proof. intros HD I [H|[H|H]]; unfold gone; auto. Qed.
Lemma kept_mono (D D' : nat -> Prop) k : (forall i, D i -> D' i) -> kept D k -> kept D' k.
Proof.
  intros HD [A B C E]. split; [exact A| |intros b c H Hc; exact (gone_incl _ _ _ _ _ HD (incl_refl _) (C b c H Hc))|exact E].
  intros id H. destruct (B id H) as [X|X]; [now left|right]. exact (gone_incl _ _ _ _ _ HD (incl_refl _) X).
Qed.
Definition no_new (lg : list effect) : Prop := forall id, ~ In (XConnected id) lg.
Lemma kept_grow D k k' lg : k_conns k' = k_conns k -> k_log k' = k_log k ++ lg -> no_new lg -> kept D k -> kept D k'.
Proof.
  intros EC EL NN [A B C E]. assert (I : incl (k_log k) (k_log k')) by (rewrite EL; intros x H; apply in_or_app; now left). split.
  - now rewrite EC.
  - intros id H. rewrite EL in H. apply in_app_or in H as [H|H]; [|destruct (NN _ H)]. rewrite EC. destruct (B id H) as [X|X]; [now left|right].
    exact (gone_incl _ _ _ _ _ (fun _ x => x) I X).
  - intros b c. rewrite EC. intros H Hc. exact (gone_incl _ _ _ _ _ (fun _ x => x) I (C b c H Hc)).
  - intros b c. rewrite EC. intros H. apply I. now apply (E b).
Qed.
Lemma kept_emit D k x : (forall id, x <> XConnected id) -> kept D k -> kept D (emit x k).
Proof. intros N. apply (kept_grow D k (emit x k) [x]); [reflexivity|reflexivity|]. intros id [H|[]]. now apply (N id). Qed.
Lemma kept_cull D k : kept D k -> kept D (cull k).
Proof.
  intros [A B C E]. split.
  - now apply nodup_map_filter.
  - intros id H. destruct (B id H) as [(b & c & G & I)|X]; [|now right]. destruct (cc_closing c) eqn:Ec.
    + right. rewrite <- I. exact (C b c G Ec).
    + left. exists b, c. split; [|exact I]. now apply cull_get.
  - intros b c H. apply cull_get in H as [H Hc]; [|exact A]. congruence.
  - intros b c H. apply cull_get in H as [H Hc]; [|exact A]. exact (E b c H).
Qed.
Lemma kept_abort D k b : kept D k -> kept D (abort_conn k b) /\ dkeys (k_conns (abort_conn k b)) = dkeys (k_conns k).
Proof.
  intros K. destruct K as [A B C E]. unfold abort_conn. destruct (dget (k_conns k) b) as [c|] eqn:EG; [|split; [now split|reflexivity]].
  destruct (cc_closing c) eqn:Ec; [split; [now split|reflexivity]|]. destruct (dset_keys_same _ _ _ EG) as [EK _].
  cbn [emit set_conns k_conns k_log]. split; [|exact EK].
  assert (I : incl (k_log k) (k_log (emit (XAbort (cc_id c)) (set_conns k (dset (k_conns k) b (shut c)))))) by (intros x H; apply in_or_app; now left).
  split; cbn [emit set_conns k_conns k_log].
  - now rewrite EK.
  - intros id H. apply in_app_or in H as [H|[H|[]]]; [|discriminate H]. destruct (B id H) as [(b' & c' & G & X)|X].
    + left. destruct (Z.eq_dec b' b) as [->|N].
      * exists b, (shut c). rewrite dget_dset_same. split; [reflexivity|]. cbn. congruence.
      * exists b', c'. rewrite dget_dset_other by exact N. auto.
    + right. exact (gone_incl _ _ _ _ _ (fun _ x => x) I X).
  - intros b' c' G Hc. destruct (Z.eq_dec b' b) as [->|N].
    + rewrite dget_dset_same in G. injection G as <-. left. apply in_or_app. right. now left.
    + rewrite dget_dset_other in G by exact N. exact (gone_incl _ _ _ _ _ (fun _ x => x) I (C b' c' G Hc)).
  - intros b' c' G. apply I. destruct (Z.eq_dec b' b) as [->|N].
    + rewrite dget_dset_same in G. injection G as <-. exact (E b c EG).
    + rewrite dget_dset_other in G by exact N. exact (E b' c' G).
Qed.
Lemma kept_abort_all D drop : forall k, kept D k -> incl drop (dkeys (k_conns k)) ->
  exists k', abort_all drop k = (Ok tt, k') /\ kept D k' /\ dkeys (k_conns k') = dkeys (k_conns k).
Proof.
  induction drop as [|b drop IH]; intros k K I; cbn [abort_all]; [eauto|].
  destruct (dget (k_conns k) b) as [c|] eqn:EG.
  2:{ exfalso. apply dget_None_notin in EG. apply EG, I. now left. }
  destruct (kept_abort D k b K) as [K' EK]. destruct (IH _ K') as (k' & A & B & E).
  - rewrite EK. intros x H. apply I. now right.
  - exists k'. split; [exact A|]. split; [exact B|congruence].
Qed.
Lemma kept_connected D k b host port id : kept D k -> dget (k_conns k) b = None ->
  kept D (set_conns (emit (XConnected id) k) (dset (k_conns (emit (XConnected id) k)) b (CC host port id false))).
Proof.
  intros [A B C E] EN. cbn [emit k_conns].
  assert (I : incl (k_log k) (k_log (set_conns (emit (XConnected id) k) (dset (k_conns k) b (CC host port id false))))) by (intros x H; apply in_or_app; now left).
  split; cbn [emit set_conns k_conns k_log].
  - now apply nodup_dset.
  - intros id' H. apply in_app_or in H as [H|[H|[]]].
    + destruct (B id' H) as [(b' & c' & G & X)|X].
      * left. exists b', c'. rewrite dget_dset_other by congruence. auto.
      * right. exact (gone_incl _ _ _ _ _ (fun _ x => x) I X).
    + injection H as <-. left. exists b. eexists. rewrite dget_dset_same. split; reflexivity.
  - intros b' c' G Hc. destruct (Z.eq_dec b' b) as [->|N].
    + rewrite dget_dset_same in G. injection G as <-. discriminate Hc.
    + rewrite dget_dset_other in G by exact N. exact (gone_incl _ _ _ _ _ (fun _ x => x) I (C b' c' G Hc)).
  - intros b' c' G. destruct (Z.eq_dec b' b) as [->|N].
    + rewrite dget_dset_same in G. injection G as <-. apply in_or_app. right. now left.
    + rewrite dget_dset_other in G by exact N. apply I. exact (E b' c' G).
Qed.
Lemma die_get id k b : dget (k_conns (die id k)) b = option_map (fun c => if Nat.eqb (cc_id c) id then shut c else c) (dget (k_conns k) b).
Proof.
  unfold die. cbn [set_conns k_conns]. induction (k_conns k) as [|[b0 c] d IH]; cbn [map fst snd dget]; [reflexivity|].
  destruct (eqb b0 b); [reflexivity|exact IH].
Qed.
Lemma die_keys id k : dkeys (k_conns (die id k)) = dkeys (k_conns k).
Proof. unfold die, dkeys. cbn [set_conns k_conns]. rewrite map_map. reflexivity. Qed.
Lemma kept_die (D D' : nat -> Prop) id k : (forall i, D i -> D' i) -> (In (XConnected id) (k_log k) -> D' id) -> kept D k -> kept D' (die id k).
Proof.
  intros HD HN [A B C E].
  assert (BACK : forall b c, dget (k_conns (die id k)) b = Some c -> exists c0, dget (k_conns k) b = Some c0 /\ cc_id c0 = cc_id c /\ (cc_closing c = true -> cc_closing c0 = true \/ cc_id c0 = id)).
  { intros b c G. rewrite die_get in G. destruct (dget (k_conns k) b) as [c0|]; [|discriminate G]. exists c0. split; [reflexivity|]. cbn [option_map] in G.
    destruct (Nat.eqb_spec (cc_id c0) id); injection G as <-; auto. }
  split.
  - now rewrite die_keys.
  - intros id' H. destruct (B id' H) as [(b & c & G & X)|X].
    + left. exists b. eexists. rewrite die_get, G. split; [reflexivity|]. destruct (Nat.eqb _ _); exact X.
    + right. exact (gone_incl _ _ _ _ _ HD (incl_refl _) X).
  - intros b c G Hc. destruct (BACK b c G) as (c0 & G0 & I0 & Q). destruct (Q Hc) as [Q'|Q'].
    + rewrite <- I0. exact (gone_incl _ _ _ _ _ HD (incl_refl _) (C b c0 G0 Q')).
    + right; right. rewrite <- I0, Q'. apply HN. rewrite <- Q'. exact (E b c0 G0).
  - intros b c G. destruct (BACK b c G) as (c0 & G0 & I0 & _). rewrite <- I0. exact (E b c0 G0).
Qed.
Lemma kept_stop D k : kept D k -> kept D (Cluster.stop k) /\ dkeys (k_conns (Cluster.stop k)) = dkeys (k_conns k) /\
  forall b c, dget (k_conns (Cluster.stop k)) b = Some c -> In (XClose (cc_id c)) (k_log (Cluster.stop k)).
Proof.
  intros [A B C E]. unfold Cluster.stop. destruct (stop_fold (k_conns k) k A) as (G & L & _ & _ & EK). specialize (EK (incl_refl _)).
  set (k' := fold_left _ _ _) in *. clearbody k'.
  assert (CL : forall b c, dget (k_conns k') b = Some c -> In (XClose (cc_id c)) (k_log k')).
  { intros b c. rewrite G. destruct (dget (k_conns k) b) as [c0|] eqn:G0; [|discriminate]. intros [= <-]. rewrite L. apply in_or_app. right. cbn [shut cc_id].
    apply dget_In in G0. apply (in_map (fun bc => XClose (cc_id (snd bc)))) in G0. exact G0. }
  assert (I : incl (k_log k) (k_log k')) by (rewrite L; intros x H; apply in_or_app; now left).
  split; [|split; [exact EK|exact CL]]. split.
  - now rewrite EK.
  - intros id H. rewrite L in H. apply in_app_or in H as [H|H]; [|apply in_map_iff in H as (? & H & _); discriminate H]. destruct (B id H) as [(b & c & X & Y)|X].
    + left. exists b, (shut c). rewrite G, X. auto.
    + right. exact (gone_incl _ _ _ _ _ (fun _ x => x) I X).
  - intros b c H _. right; left. now apply (CL b).
  - intros b c H. rewrite G in H. apply I. destruct (dget (k_conns k) b) as [c0|] eqn:G0; [|discriminate]. injection H as <-. exact (E b c0 G0).
Qed.

(** what is known where a heal() that runs alone stops *)
Definition sound (n : hnext) (k : cluster) : Prop :=
  match n with
  | HAwait (HAsk _ _ keys _ _) => keys = dkeys (k_conns k)
  | HAwait (HConn b _ _ drop _ _) => dget (k_conns k) (mb_id b) = None /\ incl drop (dkeys (k_conns k))
  | HReturn => True
  | HRaise e => e = ENoBrokers
  end.
Lemma sound_keys n k k' : dkeys (k_conns k') = dkeys (k_conns k) -> sound n k -> sound n k'.
Proof.
  intros EK. destruct n as [[f t ks rs id|b rest m d id r]| |e]; cbn; try congruence. intros [A B]. rewrite EK. split; [|exact B].
  apply dget_None_notin. rewrite EK. now apply dget_None_notin.
Qed.
Lemma ask_keep D f ts bs k : kept D k -> let '(n, k') := ask_from f ts (dkeys (k_conns k)) bs k in kept D k' /\ sound n k'.
Proof.
  intros K. destruct (ask_from f ts (dkeys (k_conns k)) bs k) as [n k'] eqn:E. apply ask_from_spec in E as (_ & EC & _ & EL & N). split.
  - destruct EL as [EL|[id EL]].
    + apply (kept_grow D k k' []); [exact EC|now rewrite app_nil_r|intros i []|exact K].
    + apply (kept_grow D k k' [XAsk id ts]); [exact EC|exact EL|intros i [H|[]]; discriminate H|exact K].
  - destruct N as [->|(rest & id & ->)]; cbn; [reflexivity|now rewrite EC].
Qed.
Lemma finish_keep D m d r k : kept D k -> incl d (dkeys (k_conns k)) -> let '(n, k') := finish m d r k in kept D k' /\ sound n k'.
Proof.
  intros K I. unfold finish. destruct (kept_abort_all D d k K I) as (k1 & -> & K1 & EK).
  destruct (process_topics (mr_topics r) k1) as [ts k2] eqn:EP. destruct (process_topics_spec _ _ _ _ EP) as (_ & _ & _ & _ & EC & _ & _ & EL).
  assert (K2 : kept D k2) by (apply (kept_grow D k1 k2 []); [exact EC|now rewrite app_nil_r|intros i []|exact K1]).
  assert (X := ask_keep D false ts (dkeys (k_conns k2)) k2 K2). destruct m; [destruct ts|]; [split; [exact K2|exact Logic.I]|exact X|exact X].
Qed.
Lemma brokers_keep D bs m d r k : kept D k -> incl d (dkeys (k_conns k)) -> let '(n, k') := brokers_from bs m d r k in kept D k' /\ sound n k'.
Proof.
  intros K I. destruct (brokers_from bs m d r k) as [n k'] eqn:E. apply brokers_from_cases in E as [E|(b & rest & -> & -> & EM)].
  - assert (X := finish_keep D m d r k K I). now rewrite E in X.
  - split; [apply (kept_grow D k _ [XConnect (k_opened k) (mb_host b) (mb_port b)]); [reflexivity|reflexivity|intros i [H|[]]; discriminate H|exact K]|].
    cbn. split; [|exact I]. unfold dmem in EM. destruct (dget (k_conns k) (mb_id b)); [discriminate EM|reflexivity].
Qed.
Lemma go_keep D r k : kept D k -> let '(n, k') := go_through r k in kept D k' /\ sound n k'.
Proof. intros K. apply brokers_keep; [exact K|]. intros x H. now apply filter_In in H. Qed.

(** the invariant of runs without overlapping heal() calls *)
Record hinv (D : nat -> Prop) (s : hstate) : Prop := HInv {
  hi_kept : kept D (h_k s);
  hi_calls : h_calls s = [] \/ exists i p, h_calls s = [(i, p)] /\ sound (HAwait p) (h_k s) }.
Lemma hcontinue_inv D i s n k : (h_calls s = [] \/ exists p, h_calls s = [(i, p)]) -> kept D k -> sound n k -> hinv D (hcontinue i s (n, k)).
Proof.
  intros C K S. destruct n as [p| |e]; cbn [hcontinue]; (split; [exact K|]); cbn [h_calls h_k].
  - right. exists i, p. split; [|exact S]. destruct C as [->|[p' ->]]; cbn; [reflexivity|]. now rewrite Z.eqb_refl.
  - left. destruct C as [->|[p' ->]]; cbn; [reflexivity|]. now rewrite Z.eqb_refl.
  - left. destruct C as [->|[p' ->]]; cbn; [reflexivity|]. now rewrite Z.eqb_refl.
Qed.
(** the errors a step raises *)
Definition raises (s : hstate) (l : hlabel) (s' : hstate) : Prop :=
  forall x, In x (h_ended s') -> In x (h_ended s) \/ snd x = Ok tt \/ snd x = Err ENoBrokers \/ exists e alt, l = Answered (fst x) (Err e) alt /\ snd x = Err e /\ skips e = false.
Lemma hcontinue_raises i s l n k : sound n k -> raises s l (hcontinue i s (n, k)).
Proof.
  intros S x H. destruct n as [p| |e]; cbn [hcontinue h_ended] in H; [now left| |]; apply in_app_or in H as [H|[<-|[]]]; [now left| |now left|]; right; cbn in *; subst; auto.
Qed.

Lemma hstep_inv (D D' : nat -> Prop) s l : hinv D s -> match l with Heal _ _ => h_calls s = [] | _ => True end ->
  (forall i, D i -> D' i) -> (forall id, l = Died id -> In (XConnected id) (k_log (h_k s)) -> D' id) ->
  hinv D' (hstep s l) /\ raises s l (hstep s l).
Proof.
  intros [K C] AL HD HN. apply (kept_mono D D') in K; [|exact HD]. clear D HD. rename D' into D.
  assert (SAME : hinv D s /\ raises s l s) by (split; [now split|intros x H; now left]).
  destruct l as [i resp|i r alt|i r|id|]; cbn [hstep].
  - rewrite AL. cbn [dmem dget]. destruct resp as [r|].
    + assert (X := go_keep D r _ (kept_cull D _ K)). destruct (go_through r (cull (h_k s))) as [n k']. destruct X as [X Y].
      split; [apply hcontinue_inv; auto|now apply hcontinue_raises].
    + assert (X := ask_keep D true [] (dkeys (k_conns (h_k s))) _ K). unfold ask_metadata. destruct (ask_from _ _ _ _ _) as [n k']. destruct X as [X Y].
      split; [apply hcontinue_inv; auto|now apply hcontinue_raises].
  - destruct (dget (h_calls s) i) as [[first topics keys rest id|b rest m d id r0]|] eqn:EG; [|exact SAME|exact SAME].
    destruct C as [C|(i0 & p & C & SP)]; [rewrite C in EG; discriminate EG|].
    assert (i0 = i /\ p = HAsk first topics keys rest id) as [-> ->]
      by (rewrite C in EG; cbn [dget] in EG; change (eqb i0 i) with (Z.eqb i0 i) in EG; destruct (Z.eqb_spec i0 i); [injection EG as ->; auto|discriminate EG]).
    cbn in SP. destruct r as [r|e].
    + set (k1 := if first then _ else _). assert (K1 : kept D k1).
      { assert (kept D (emit (XAnswer id r) (h_k s))) by (apply kept_emit; [discriminate|exact K]). unfold k1. destruct first; [now apply kept_cull|assumption]. }
      assert (X := go_keep D r _ K1). destruct (go_through r k1) as [n k']. destruct X as [X Y]. split; [apply hcontinue_inv; eauto|now apply hcontinue_raises].
    + assert (K1 : kept D (emit (XAskFailed id e) (h_k s))) by (apply kept_emit; [discriminate|exact K]).
      destruct (skips e) eqn:ES.
      * subst keys. replace (zlen (k_conns (h_k s)) =? zlen (dkeys (k_conns (h_k s)))) with true
          by (symmetry; apply Z.eqb_eq; unfold zlen, dkeys; now rewrite map_length). cbn [negb]. rewrite eqb_refl.
        assert (X := ask_keep D first topics rest _ K1). cbn [emit k_conns] in X. destruct (ask_from _ _ _ _ _) as [n k']. destruct X as [X Y].
        split; [apply hcontinue_inv; eauto|now apply hcontinue_raises].
      * split.
        -- split; [exact K1|]. left. cbn [hcontinue h_calls]. rewrite C. cbn. now rewrite Z.eqb_refl.
        -- intros x H. cbn [hcontinue h_ended] in H. apply in_app_or in H as [H|[<-|[]]]; [now left|]. right; right; right. exists e, alt. auto.
  - destruct (dget (h_calls s) i) as [[first topics keys rest id|b rest m d id r0]|] eqn:EG; [exact SAME| |exact SAME].
    destruct C as [C|(i0 & p & C & SP)]; [rewrite C in EG; discriminate EG|].
    assert (i0 = i /\ p = HConn b rest m d id r0) as [-> ->]
      by (rewrite C in EG; cbn [dget] in EG; change (eqb i0 i) with (Z.eqb i0 i) in EG; destruct (Z.eqb_spec i0 i); [injection EG as ->; auto|discriminate EG]).
    destruct SP as [SN SI]. destruct r as [[]|e].
    + assert (K1 := kept_connected D _ _ (mb_host b) (mb_port b) id K SN). set (k1 := set_conns _ _) in *.
      assert (I1 : incl d (dkeys (k_conns k1))).
      { intros x H. apply SI in H. unfold k1. cbn [set_conns emit k_conns]. rewrite dset_new by exact SN. unfold dkeys. rewrite map_app. apply in_or_app. now left. }
      assert (X := brokers_keep D rest m d r0 k1 K1 I1). destruct (brokers_from rest m d r0 k1) as [n k']. destruct X as [X Y].
      split; [apply hcontinue_inv; eauto|now apply hcontinue_raises].
    + assert (K1 : kept D (emit (XConnectFailed id e) (h_k s))) by (apply kept_emit; [discriminate|exact K]).
      assert (X := brokers_keep D rest (sadd m (mb_id b)) d r0 _ K1 SI). destruct (brokers_from _ _ _ _ _) as [n k']. destruct X as [X Y].
      split; [apply hcontinue_inv; eauto|now apply hcontinue_raises].
  - split; [|intros x H; now left]. split; cbn [h_k h_calls].
    + apply (kept_die D D); [auto|now apply HN|exact K].
    + destruct C as [C|(i0 & p & C & SP)]; [now left|right]. exists i0, p. split; [exact C|]. eapply sound_keys; [apply die_keys|exact SP].
  - split; [|intros x H; now left]. destruct (kept_stop D _ K) as (KS & EK & _). split; cbn [h_k h_calls]; [exact KS|].
    destruct C as [C|(i0 & p & C & SP)]; [now left|right]. exists i0, p. split; [exact C|]. eapply sound_keys; [exact EK|exact SP].
Qed.

Lemma one_snoc ls : forall l s, one_at_a_time (ls ++ [l]) s <-> one_at_a_time ls s /\ match l with Heal _ _ => h_calls (hrun ls s) = [] | _ => True end.
Proof.
  induction ls as [|l0 ls IH]; intros l s; cbn [one_at_a_time app]; [cbn; tauto|]. rewrite IH. cbn [hrun fold_left]. unfold hrun. tauto.
Qed.
Lemma died_more ls l s id : died ls s id -> died (ls ++ [l]) s id.
Proof. intros (pre & post & -> & H). exists pre, (post ++ [l]). now rewrite <- app_assoc. Qed.
Lemma hrun_inv ls k D : kept D k -> (forall id, D id -> False) -> one_at_a_time ls (hinit k) ->
  hinv (died ls (hinit k)) (hrun ls (hinit k)) /\
  forall i e, In (i, Err e) (h_ended (hrun ls (hinit k))) -> e = ENoBrokers \/ exists alt, In (Answered i (Err e) alt) ls /\ skips e = false.
Proof.
  intros K ND. induction ls as [|l ls IH] using rev_ind; intros O.
  - split; [split; [eapply kept_mono; [|exact K]; intros i H; destruct (ND i H)|now left]|]. intros i e [].
  - apply one_snoc in O as [O AL]. destruct (IH O) as [I E]. rewrite hrun_snoc.
    destruct (hstep_inv _ (died (ls ++ [l]) (hinit k)) _ l I AL) as [I' R].
    + intros i. apply died_more.
    + intros id -> H. exists ls, []. split; [reflexivity|exact H].
    + split; [exact I'|]. intros i e H. apply R in H as [H|[H|[H|(e' & alt & -> & H & S)]]]; cbn [fst snd] in *; [|discriminate H|left; congruence|].
      * destruct (E i e H) as [X|(alt & X & S)]; [now left|right]. exists alt. split; [apply in_or_app; now left|exact S].
      * injection H as <-. right. exists alt. split; [apply in_or_app; right; now left|exact S].
Qed.
