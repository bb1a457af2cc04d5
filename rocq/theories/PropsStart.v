(** Property C44: the offset lookups consume(topic, start) sends. *)
From Coq Require Import ZArith String List Bool Lia Permutation.
From Verif Require Import PyBase BaseLemmas Constants Cluster Zookeeper SpecZk Consumer SpecConsumer ConsumerProofs ConsumerSteps ConsumerRuns ConsumerSync PropsConsumer.
From Verif Require Import Utf8 Request SpecWire SpecRequest ConsumerWire.
Import ListNotations.
Open Scope Z_scope.
Set Default Proof Using "Type".

(** Whether a request serializes is what the protocol classes say (for some correlation id in range). *)
Definition honest {V} (cfg : config V) : Prop := exists id, fits 32 (id + 1) /\
  forall rq, unsendable cfg rq = match request_wire id rq with Ok _ => None | Err e => Some e end.
(** the number a lookup for [start] asks about; END if none is given *)
Definition time_of (start : option start_arg) : option Z := match start with None => Some (-1) | Some (StInt n) => Some n | _ => None end.

Section C44.
  Context {V : Type}.
  Variable cfg : config V.
  Notation st := (consumer V).
  (** what consume() looks up *)
  Lemma lookup_made (s : st) i t start : md cfg = Single -> dget (c_calls s) i = None -> c_closing s = false -> ~ In t (c_synced s) -> alloc_of cfg s t <> [] ->
    (forall p, In p (alloc_of cfg s t) -> leader_of s t p <> None) ->
    let time := start_to_timestamp cfg (match start with Some x => x | None => StInt END_ end) in
    exists rqs s2, quiet cfg s s2 /\ looking cfg s2 t time rqs /\ rqs <> [] /\
      match send_all cfg rqs s2 with
      | (Err e, s3) => cstep cfg s (Call i (OpConsume t start)) = continue i (OpConsume t start) (match e with ENoOffsets => Return (RvList []) | _ => Raise_ e end, s3)
      | (Ok _, s3) => cstep cfg s (Call i (OpConsume t start)) = continue i (OpConsume t start) (Await (PSend (KOffsets t None) rqs []), s3)
      end.
  Proof.
    intros MD D CL SY A L time. cbn [cstep]. unfold dmem. rewrite D. unfold consume. rewrite CL, MD.
    destruct (smem (c_synced s) t) eqn:SM; [exfalso; apply SY; now apply smem_In|]. unfold determine_offsets. rewrite MD. fold time.
    destruct (alloc_index_ok cfg t s A) as [ps K2]. destruct (alloc_index_spec cfg t s) as [Q2 PS]. destruct (alloc_index cfg t s) as [r2 s1]. cbn [fst snd] in *. subst r2. specialize (PS ps eq_refl).
    destruct (offset_requests_leaders t time ps [] s1) as [O1 O2]. cbn [map] in O1, O2.
    assert (L2 : forall p, In p ps -> leader_of s1 t p <> None) by (intros p HP; subst ps; rewrite (q_leader _ _ _ Q2); now apply L).
    destruct (order_leaders_ok cfg t ps [] s1 L2) as [ord K3]. rewrite K3 in O2. pose proof (offset_requests_spec cfg t time ps s1 _ O2) as LK. rewrite (q_alloc _ _ _ Q2) in LK. specialize (LK (eq_sym PS)).
    destruct (order_leaders_spec cfg t ps [] s1) as [Q3 _]. rewrite <- O1 in Q3. destruct (offset_requests t time ps [] s1) as [r3 s2]. cbn [fst snd] in *. subst r3.
    pose proof (quiet_trans cfg _ _ _ Q2 Q3) as Q. exists (map (as_lookup t time) ord), s2. split; [exact Q|]. split; [exact LK|].
    assert (NE : map (as_lookup t time) ord <> []). { intros X. destruct LK as (_ & PM & _). rewrite X in PM. cbn in PM. apply Permutation_nil in PM. rewrite (q_alloc _ _ _ Q) in PM. contradiction. }
    split; [exact NE|]. destruct (send_all cfg (map (as_lookup t time) ord) s2) as [[[]|e] s3].
    - destruct (map (as_lookup t time) ord); [now destruct NE|reflexivity].
    - cbn [raised]. destruct e; try reflexivity. unfold base_done. now rewrite MD.
  Qed.
  Lemma looking_parts (s s2 : st) t time rqs b rq : quiet cfg s s2 -> looking cfg s2 t time rqs -> In (b, rq) rqs ->
    exists parts, rq = ROffset (-1) t parts /\ parts <> [] /\ zlen parts <= zlen (alloc_of cfg s t) /\ forall p tm mx, In (p, (tm, mx)) parts -> In p (alloc_of cfg s t) /\ leader_of s t p = Some b /\ tm = time /\ mx = 1.
  Proof.
    intros Q (ND & PM & LK) H. destruct (LK b rq H) as (parts & NE & -> & PP). exists parts. split; [reflexivity|]. split; [exact NE|].
    apply in_split in H as (l1 & l2 & ->). rewrite flat_map_app in PM. cbn [flat_map snd] in PM. rewrite (q_alloc _ _ _ Q) in PM. split.
    - apply Permutation_length in PM. rewrite !app_length, map_length in PM. unfold zlen. lia.
    - intros p tm mx HP. destruct (PP p tm mx HP) as (L1 & L2 & L3). rewrite (q_leader _ _ _ Q) in L1. split; [|auto]. eapply Permutation_in; [exact PM|]. apply in_app_iff. right. apply in_app_iff. left. apply in_map_iff. now exists (p, (tm, mx)).
  Qed.
  Definition few_small (s : st) (t : text) : Prop := name_ok t /\ zlen (alloc_of cfg s t) < 2 ^ 26 /\ forall p, In p (alloc_of cfg s t) -> fits 32 p.
  Lemma lookup_wire (s s2 : st) t n rqs b rq last : quiet cfg s s2 -> looking cfg s2 t (PInt n) rqs -> In (b, rq) rqs -> few_small s t -> fits 64 n -> fits 32 (last + 1) ->
    exists parts payload, rq = ROffset (-1) t parts /\ offset_payload (-1) t parts payload /\ request_wire last rq = Ok (request_frame 2 (last + 1) payload).
  Proof.
    intros Q LK H (NK & FW & FI) FN FL. destruct (looking_parts s s2 t _ rqs b rq Q LK H) as (parts & -> & NE & ZL & PP). exists parts.
    destruct (lookup_serializes last (-1) t parts) as (payload & W & E); [exact FL|unfold fits; cbn; lia|exact NK|lia| |exists payload; auto].
    intros p tm mx HP. destruct (PP p tm mx HP) as (P1 & _ & -> & ->). split; [now apply FI|]. split; [now exists n|]. unfold fits; cbn; lia.
  Qed.
  (** With a number (BEGINNING and END are -2 and -1) or no start at all, a consume() on a topic with unknown offsets, all
      of whose partitions have leaders in the cluster, asks each leader with an open connection for the offset at that
      number of each of its partitions, one offset each; and these requests go out as bytes of the documented layout. *)
  Theorem C44_numbers_partial : forall (s : st) i t start n, md cfg = Single -> honest cfg -> reachable cfg s -> dget (c_calls s) i = None -> c_closing s = false -> ~ In t (c_synced s) ->
    (forall p, In p (alloc_of cfg s t) -> exists b, leader_of s t p = Some b /\ dget (k_conns (c_cluster s)) b <> None) ->
    time_of start = Some n -> fits 64 n -> few_small s t ->
    let out := sent cfg s (Call i (OpConsume t start)) in
    (forall p b, In p (alloc_of cfg s t) -> leader_of s t p = Some b -> open_conn s b = true -> exists parts, In (b, ROffset (-1) t parts) out /\ In (p, (PInt n, 1)) parts) /\
    (alloc_of cfg s t <> [] -> forall b rq last, In (b, rq) out -> fits 32 (last + 1) -> exists parts payload, rq = ROffset (-1) t parts /\
       (forall p x, In (p, x) parts -> In p (alloc_of cfg s t) /\ leader_of s t p = Some b /\ x = (PInt n, 1)) /\
       offset_payload (-1) t parts payload /\ request_wire last rq = Ok (request_frame 2 (last + 1) payload)).
  Proof.
    intros s i t start n MD (id & FI & HO) R D CL SY L TO FN FW out.
    assert (X : alloc_of cfg s t = [] \/ alloc_of cfg s t <> []) by (destruct (alloc_of cfg s t); [now left|right; discriminate]).
    destruct X as [X|A]; [split; [intros p b H; rewrite X in H; destruct H|intros A; contradiction]|].
    assert (TM : start_to_timestamp cfg (match start with Some x => x | None => StInt END_ end) = PInt n) by (destruct start as [[m|us|now us]|]; try discriminate TO; injection TO as <-; reflexivity).
    destruct (lookup_made s i t start MD D CL SY A) as (rqs & s2 & Q & LK & NE & E); [intros p HP; destruct (L p HP) as (b & -> & _); discriminate|]. rewrite TM in LK.
    assert (SA : fst (send_all cfg rqs s2) = Ok tt).
    { apply send_all_ok. intros b rq H. destruct (looking_parts s s2 t _ rqs b rq Q LK H) as (parts & -> & NP & _ & PP). split.
      - destruct parts as [|[p [tm mx]] parts]; [now destruct NP|]. destruct (PP p tm mx (or_introl eq_refl)) as (P1 & P2 & _). destruct (L p P1) as (b' & L1 & L2). rewrite P2 in L1. injection L1 as <-. now rewrite (q_conns _ _ _ Q).
      - rewrite HO. destruct (lookup_wire s s2 t n rqs b _ id Q LK H FW FN FI) as (? & payload & _ & _ & ->). reflexivity. }
    destruct (send_all_spec cfg rqs s2) as (pre & post & RE & SS & SO). specialize (SO SA). destruct SO as [-> _]. rewrite app_nil_r in RE. subst pre. destruct (send_all cfg rqs s2) as [r3 s3]. cbn [fst snd] in *. subst r3. cbv zeta in *.
    assert (OUT : out = filter (fun br => open_conn s (fst br)) rqs).
    { apply sent_eq. rewrite E. cbn [continue set_calls c_wire]. rewrite SS. cbn [set_wire c_wire]. rewrite (q_wire _ _ _ Q). f_equal. apply filter_ext. intros [b rq]. cbn [fst]. apply (open_conn_quiet cfg _ _ Q). }
    rewrite OUT. split.
    - intros p b HP LB OB. pose proof LK as (_ & PM & _). rewrite (q_alloc _ _ _ Q) in PM. eapply Permutation_in in HP; [|apply Permutation_sym, PM]. apply in_flat_map in HP as ([b' rq] & HI & HX). cbn [snd] in HX.
      destruct (looking_parts s s2 t _ rqs b' rq Q LK HI) as (parts & -> & _ & _ & PP). apply in_map_iff in HX as ([p' [tm mx]] & HE & HX). cbn [fst] in HE. subst p'. destruct (PP p tm mx HX) as (_ & L1 & -> & ->). rewrite LB in L1. injection L1 as <-.
      exists parts. split; [|exact HX]. apply filter_In. split; [exact HI|exact OB].
    - intros _ b rq last H FL. apply filter_In in H as [H _]. destruct (lookup_wire s s2 t n rqs b rq last Q LK H FW FN FL) as (parts & payload & E1 & E2 & E3). exists parts, payload. split; [exact E1|]. split; [|auto].
      destruct (looking_parts s s2 t _ rqs b rq Q LK H) as (parts' & E4 & _ & _ & PP). rewrite E1 in E4. injection E4 as ->. intros p [tm mx] HP. destruct (PP p tm mx HP) as (P1 & P2 & -> & ->). auto.
  Qed.
  (** With a datetime or a timedelta no valid request can be made of it: nothing is sent, and the call ends at once. *)
  Theorem C44_datetimes_refuted : forall (s : st) i t x, md cfg = Single -> honest cfg -> reachable cfg s -> dget (c_calls s) i = None -> c_closing s = false -> ~ In t (c_synced s) -> alloc_of cfg s t <> [] ->
    (forall p, In p (alloc_of cfg s t) -> exists b, leader_of s t p = Some b /\ open_conn s b = true) ->
    (exists us, x = StDatetime us) \/ (exists now us, x = StTimedelta now us) ->
    let l := Call i (OpConsume t (Some x)) in
    sent cfg s l = [] /\ exists r, c_ended (cstep cfg s l) = c_ended s ++ [(i, OpConsume t (Some x), r)] /\ (r = Ok (RvList []) \/ exists e, r = Err e).
  Proof.
    intros s i t x MD (id & FI & HO) R D CL SY A L X l.
    assert (TM : exists fl, start_to_timestamp cfg x = PFloat fl) by (destruct X as [[us ->]|(now & us & ->)]; eexists; reflexivity). destruct TM as [fl TM].
    destruct (lookup_made s i t (Some x) MD D CL SY A) as (rqs & s2 & Q & LK & NE & E); [intros p HP; destruct (L p HP) as (b & -> & _); discriminate|]. cbv zeta in LK. rewrite TM in LK. fold l in E.
    destruct rqs as [|[b rq] rqs]; [now destruct NE|]. destruct (looking_parts s s2 t _ _ b rq Q LK (or_introl eq_refl)) as (parts & -> & NP & _ & PP).
    destruct parts as [|[p [tm mx]] parts]; [now destruct NP|]. destruct (PP p tm mx (or_introl eq_refl)) as (P1 & P2 & -> & ->). destruct (L p P1) as (b' & L1 & L2). rewrite P2 in L1. injection L1 as <-.
    assert (U : exists e, unsendable cfg (ROffset (-1) t ((p, (PFloat fl, 1)) :: parts)) = Some e).
    { rewrite HO. destruct (request_wire id (ROffset (-1) t ((p, (PFloat fl, 1)) :: parts))) as [bs|e] eqn:W; [|now exists e]. exfalso. revert W. eapply float_not_serialized; [now left|]. intros [p' [tm mx]] HQ. destruct (PP p' tm mx HQ) as (_ & _ & -> & _). exact I. }
    destruct U as [e U]. cbn [send_all] in E. unfold open_conn in L2. rewrite <- (q_conns _ _ _ Q) in L2. destruct (dget (k_conns (c_cluster s2)) b) as [cn|]; [|discriminate]. destruct (cc_closing cn); [discriminate|]. rewrite U in E.
    assert (EQ : exists r, cstep cfg s l = continue i (OpConsume t (Some x)) (r, s2) /\ (r = Raise_ e \/ r = Return (RvList []))).
    { eexists. split; [exact E|]. destruct e; auto. }
    destruct EQ as (r & EQ & RR). split.
    - apply sent_eq. rewrite EQ, app_nil_r, <- (q_wire _ _ _ Q). destruct RR as [->| ->]; reflexivity.
    - rewrite EQ, <- (q_ended _ _ _ Q). destruct RR as [->| ->]; eexists; (split; [reflexivity|]); eauto.
  Qed.
End C44.
(** the hypotheses are met; the bytes of one lookup *)
Definition ex_honest : config Z := Cfg Z (deser (ex_cfg Single)) (truthy (ex_cfg Single)) (float_repr (ex_cfg Single)) 1000 1 1000
  (fun rq => match request_wire 0 rq with Ok _ => None | Err e => Some e end) Single.
Example C44_honest : honest ex_honest.
Proof. exists 0. split; [unfold fits; cbn; lia|reflexivity]. Qed.
Example C44_example : few_small ex_honest ex_single tt_.
Proof.
  split; [exists [116]; vm_compute; auto|]. split; [vm_compute; reflexivity|]. intros p H. vm_compute in H. destruct H as [<-|[<-|[]]]; unfold fits; cbn; lia.
Qed.
Example C44_example_sent :
  sent ex_honest ex_single (Call 1 (OpConsume tt_ (Some (StInt BEGINNING)))) = [(1, ROffset (-1) tt_ [(0, (PInt (-2), 1))]); (2, ROffset (-1) tt_ [(1, (PInt (-2), 1))])].
Proof. vm_compute. reflexivity. Qed.
Example C44_example_bytes : request_wire 6 (ROffset (-1) tt_ [(1, (PInt (-2), 1))]) = Ok [0; 0; 0; 45; 0; 2; 0; 0; 0; 0; 0; 7; 0; 4; 107; 105; 101; 108;
    255; 255; 255; 255; 0; 0; 0; 1; 0; 1; 116; 0; 0; 0; 1; 0; 0; 0; 1; 255; 255; 255; 255; 255; 255; 255; 254; 0; 0; 0; 1].
Proof. vm_compute. reflexivity. Qed.
Example C44_datetime_example : c_ended (cstep ex_honest ex_single (Call 1 (OpConsume tt_ (Some (StDatetime 5))))) = [(1, OpConsume tt_ (Some (StDatetime 5)), Err EStruct)].
Proof. vm_compute. reflexivity. Qed.

Print Assumptions C44_numbers_partial.
Print Assumptions C44_datetimes_refuted.
