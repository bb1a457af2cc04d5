(** The metadata responses the tables are made of, as Kafka reads and writes bytes (proof file). *)
From Coq Require Import ZArith String List Bool Lia.
From Verif Require Import PyBase BaseLemmas Messages Protocol Schemas Request Cluster SpecCluster Heals ResponseRead SpecWire SpecKafka SpecConn SpecRequest ConnStream ConnProofs Stack StackProofs ProducerStackProofs HealOrigin Full FullProofs PropsWire PropsKafka SpecRoute.
From Verif Require Connection.
Import ListNotations.
Open Scope Z_scope.

Definition as_mresp (brokers : list (Z * text * Z)) (topics : list (Z * text * list kpart)) : mresp :=
  MResp (map (fun br => MBroker (fst (fst br)) (snd (fst br)) (snd br)) brokers)
    (map (fun tp => MTopic (fst (fst tp)) (snd (fst tp)) (map (fun p => MPart (kp_code p) (kp_id p) (kp_leader p)) (snd tp))) topics).
Lemma as_mresp_broker brokers topics b host port : In (MBroker b host port) (mr_brokers (as_mresp brokers topics)) -> puts_at brokers b host port.
Proof. intros H. apply in_map_iff in H as ([[i h] p] & E & H). cbn [fst snd] in E. injection E as -> -> ->. exact H. Qed.
Lemma as_mresp_leader brokers topics t p l : usable (mr_topics (as_mresp brokers topics)) t p l -> names_leader topics t p l.
Proof.
  intros (tc & pc & (T & P & A & B & D & E & F & G & H) & N1 & N2 & N3). cbn [as_mresp mr_topics] in A. apply in_map_iff in A as ([[code nm] ps] & ET & A). cbn [fst snd] in ET. subst T. cbn [mt_name mt_err mt_parts] in *.
  apply in_map_iff in E as ([c i b] & EP & E). subst P. cbn [kp_code kp_id kp_leader mp_id mp_err mp_leader] in *. subst. exists tc, ps, pc. auto.
Qed.

Lemma heard_arrived C depth frames ls last r : (forall n, link_ok C depth frames n (ls n) last) -> kafka_answers frames ls -> heard C depth frames ls r ->
  exists brokers topics, metadata_arrived frames ls brokers topics /\ r = as_mresp brokers topics.
Proof.
  intros LK A (n & f & obj & raw & IO & (ts & lst & MO) & CM & RM). specialize (LK n). destruct (A n _ raw (came_in _ _ _ CM)) as (api & key & payload & IK & FI & W & KM).
  unfold written_on in W. rewrite (lk_all _ _ _ _ _ _ LK) in W. apply in_map_iff in W as ([f' w] & EW & HO). cbn [snd] in EW. subst w.
  destruct (lk_out _ _ _ _ _ _ LK _ _ HO) as (obj' & IO' & (api' & key' & p' & IK' & FI' & EQ) & PW). destruct (C05_frame_readable _ _ _ _ _ _ _ _ IK IK' FI FI' EQ) as (_ & _ & EC & _).
  assert (obj' = obj) as -> by (eapply (i_id _ _ _ _ (lk_inv _ _ _ _ _ _ LK)); [exact IO'|exact IO|congruence]).
  unfold meta_object in MO. destruct (Connection.request_of _ _ _ _) as [[o l']|e] eqn:E; [|discriminate MO]. injection MO as ->. destruct (meta_facts 0 (fun _ x => (x, x)) _ _ _ _ E) as (_ & EL & _ & X).
  destruct (X _ PW) as (payload' & EF & FI2). assert (K3 : In ("metadata"%string, 3) kafka_api_numbers) by (vm_compute; tauto). destruct (C05_frame_readable _ _ _ _ _ _ _ _ IK K3 FI FI2 EF) as (_ & EK & _). subst key.
  destruct (KM eq_refl) as (brokers & topics & KW). exists brokers, topics. split; [|rewrite (C73_metadata C depth raw brokers topics KW) in RM; injection RM as <-; reflexivity].
  exists n, (Connection.rq_corr obj), raw, payload. split; [unfold written_on; rewrite (lk_all _ _ _ _ _ _ LK); apply in_map_iff; eexists; split; [|exact HO]; reflexivity|]. split; [exact KW|].
  destruct CM as (j & tl & NE & EI). exists (firstn j (frames n)), (skipn (S j) (frames n)), tl. rewrite <- (firstn_nth_S _ _ _ NE). split; [|exact EI].
  rewrite <- (firstn_skipn (S j) (frames n)) at 1. rewrite (firstn_nth_S _ _ _ NE), <- app_assoc. reflexivity.
Qed.
