(** * C48: the permission of the global time coordinator (GlobalTimeCoordinator.cpp)

    Specification.  A history is the list of what reached the root broker; [grun id es] is the coordinator after it. *)
From Coq Require Import ZArith Bool List Lia.
From Verif Require Import HTime Action TimeDep TimeDepProofs TimeCoord Forward GlobalTime GlobalInv.
Import ListNotations.
Open Scope Z_scope.

(** what the coordinator sends when [e] arrives after [es] *)
Definition sends (id : Z) (es : list bevent) (e : bevent) : list amsg := snd (gstep (grun id es) e).
(** what the coordinator knows about the federates after [es] *)
Definition knows (id : Z) (es : list bevent) (d : dinfo) : Prop := In d (g_deps (grun id es)).
(** a federate may act by [t]: it asked for a time up to [t], it has not left, it takes part in the rounds (it depends on the
    coordinator, the coordinator on it, and its timing version knows rounds) *)
Definition mayActBy (t : Z) (d : dinfo) : Prop :=
  dependency d = true /\ dependent d = true /\ 0 < timingVersion d /\ next d <= t /\ next d < cTerminationTime.
(** the arrival of [e1] after [es1] begins the round number [S]: everyone whose next time is up to [t0] is asked for its current
    time, where [t0] is not beyond the event of any federate which can be granted, plus epsilon *)
Definition roundBegins (id : Z) (es1 : list bevent) (e1 : bevent) (t0 S : Z) : Prop :=
  (forall d, knows id (es1 ++ [e1]) d -> next d <= t0 -> next d < cTerminationTime ->
     exists q, In q (sends id es1 e1) /\ m_action q = CMD_REQUEST_CURRENT_TIME /\ m_dest_id q = fedID d /\ m_counter q = S)
  /\ (forall d, knows id (es1 ++ [e1]) d -> nonGranting d = false -> t0 <= Te d + 1)
  /\ 1 <= S <= 32767.
(** nothing is asked and nothing permitted while [es2] arrives after [es] *)
Definition silent (id : Z) (es es2 : list bevent) : Prop :=
  forall a x b, es2 = a ++ x :: b -> harmless (sends id (es ++ a) x).
(** no federate which was executing asks for a time while [es2] arrives after [es] *)
Definition undisturbed (id : Z) (es es2 : list bevent) : Prop :=
  forall a x b, es2 = a ++ x :: b -> ~ newRequest (grun id (es ++ a)) x.
(** the federate [f] has sent a time request with the number [S] in [es2] *)
Definition answeredIn (es2 : list bevent) (f S : Z) : Prop :=
  exists x c, In x es2 /\ evCmd x = Some c /\ m_source_id c = f /\ m_action c = CMD_TIME_REQUEST /\ getExtraDestData c = S.
(** federates put into their requests the number of a question or permission which they have received, or zero; and
    no message comes from the coordinator itself *)
Definition echoes (id : Z) (es : list bevent) : Prop :=
  forall a x b c, es = a ++ x :: b -> evCmd x = Some c ->
    m_source_id c <> id /\ (m_action c = CMD_EXEC_REQUEST -> getExtraDestData c = 0)
    /\ (m_action c = CMD_TIME_REQUEST -> getExtraDestData c = 0 \/
        exists a1 y a2 q, a = a1 ++ y :: a2 /\ In q (sends id a1 y) /\ m_dest_id q = m_source_id c /\ m_counter q = getExtraDestData c
          /\ (m_action q = CMD_REQUEST_CURRENT_TIME \/ m_action q = CMD_TIME_REQUEST)).

Lemma grun_snoc id es e : grun id (es ++ [e]) = fst (gstep (grun id es) e).
Proof. unfold grun. rewrite fold_left_app. reflexivity. Qed.
Lemma snoc_split {A} (a b : list A) x y es : es ++ [y] = a ++ x :: b -> (b = [] /\ a = es /\ x = y) \/ exists b', b = b' ++ [y] /\ es = a ++ x :: b'.
Proof.
  intros H. destruct (@exists_last _ (x :: b)) as (b' & z & E); [discriminate|]. rewrite E, app_assoc in H. apply app_inj_tail in H as [H1 <-].
  destruct b' as [|w b'].
  - injection E as <- <-. left. rewrite app_nil_r in H1. auto.
  - injection E as <- ->. right. exists b'. auto.
Qed.
Lemma echoes_init id es e : echoes id (es ++ [e]) -> echoes id es.
Proof. intros H a x b c E. apply (H a x (b ++ [e]) c). rewrite E, <- app_assoc. reflexivity. Qed.
Lemma next_bound s : 0 <= s <= 32767 -> 1 <= nextSeq s <= 32767.
Proof. unfold nextSeq. destruct (Z.ltb_spec 32767 (s + 1)); lia. Qed.

Definition numbered (q : amsg) : Prop := m_action q = CMD_REQUEST_CURRENT_TIME \/ m_action q = CMD_TIME_REQUEST.
Record inv (id : Z) (es : list bevent) (g : gco) : Prop := {
  i_id : g_id g = id;
  i_self : selfOnly id (g_deps g);
  i_seq : 0 <= g_seq g <= 32767;
  i_rounds : 0 <= g_rounds g /\ (g_rounds g <= 32767 -> g_seq g = g_rounds g);
  i_sent : g_rounds g <= 32767 -> forall a y b q, es = a ++ y :: b -> In q (sends id a y) -> numbered q -> m_counter q <= g_seq g;
  i_resp : echoes id es -> g_rounds g <= 32767 -> forall d, In d (g_deps g) -> responseSequenceCounter d <= g_seq g;
  i_round : g_st g = ts_time_requested -> exists es1 e1 es2, es = es1 ++ e1 :: es2 /\ roundBegins id es1 e1 (trigTime (g_next g)) (g_seq g)
     /\ silent id (es1 ++ [e1]) es2 /\ (g_new g = false -> undisturbed id (es1 ++ [e1]) es2)
     /\ (echoes id es -> g_rounds g <= 32767 -> forall d, In d (g_deps g) -> responseSequenceCounter d = g_seq g -> answeredIn es2 (fedID d) (g_seq g))
}.

Lemma inv_init id : inv id [] (gco_init id).
Proof.
  constructor; cbn; try (split; (lia || discriminate)); try lia; try (intros; contradiction); try discriminate.
  - intros d [].
  - intros _ a y b q E. destruct a; discriminate.
Qed.

(** the entries after the message has been taken in *)
Lemma mid_resp id es e g1 : inv id es (grun id es) -> mid (grun id es) e g1 -> echoes id (es ++ [e]) -> g_rounds (grun id es) <= 32767 ->
  forall d, In d (g_deps g1) -> responseSequenceCounter d <= g_seq (grun id es)
   /\ forall es1 e1 es2, (forall d, In d (g_deps (grun id es)) -> responseSequenceCounter d = g_seq (grun id es) -> answeredIn es2 (fedID d) (g_seq (grun id es))) ->
      1 <= g_seq (grun id es) -> es = es1 ++ e1 :: es2 -> responseSequenceCounter d = g_seq (grun id es) -> answeredIn (es2 ++ [e]) (fedID d) (g_seq (grun id es)).
Proof.
  intros I M EC R d Id. destruct M as (M1 & M2 & M3 & M4 & M5 & M6 & M7). rewrite (i_id _ _ _ I) in M7. specialize (M7 (i_self _ _ _ I) d Id).
  assert (INC : forall es2 f S, answeredIn es2 f S -> answeredIn (es2 ++ [e]) f S).
  { intros es2 f S (x & c & A & B). exists x, c. split; [apply in_or_app; auto|exact B]. }
  destruct M7 as [[[(d0 & I0 & F0 & R0)|Z0] _]|(c & Ec & S1 & S2 & S3 & S4)].
  - split.
    + rewrite <- R0. apply (i_resp _ _ _ I); auto. apply (echoes_init _ _ _ EC).
    + intros es1 e1 es2 H _ _ Q. apply INC. rewrite <- F0. apply H; [exact I0|congruence].
  - split; [rewrite Z0; apply (i_seq _ _ _ I)|]. intros; lia.
  - destruct (EC es e [] c) as (C1 & C2 & C3); [reflexivity|exact Ec|].
    destruct S4 as [S4|S4]; [exfalso; apply C1; rewrite S2; apply S1, S4|].
    assert (L : getExtraDestData c <= g_seq (grun id es)).
    { pose proof (i_seq _ _ _ I). destruct S3 as [S3|S3]; [|rewrite (C2 S3); lia]. destruct (C3 S3) as [->|(a1 & y & a2 & q & E & Iq & _ & <- & N)]; [lia|].
      apply (i_sent _ _ _ I R a1 y a2 q E Iq N). }
    split; [lia|]. intros es1 e1 es2 _ P _ Q. exists e, c. split; [apply in_or_app; right; left; reflexivity|]. split; [exact Ec|]. split; [exact S2|].
    destruct S3 as [S3|S3]; [split; [exact S3|lia]|]. specialize (C2 S3). lia.
Qed.
Lemma mid_self id es e g1 : inv id es (grun id es) -> mid (grun id es) e g1 -> selfOnly id (g_deps g1).
Proof.
  intros I (_ & _ & _ & _ & _ & _ & M). rewrite (i_id _ _ _ I) in M. specialize (M (i_self _ _ _ I)). intros d Id C.
  destruct (M d Id) as [[_ T]|(c & _ & T & _)]; auto.
Qed.

Lemma inv_step id es e : inv id es (grun id es) -> inv id (es ++ [e]) (grun id (es ++ [e])).
Proof.
  intros I. rewrite grun_snoc. set (g := grun id es) in *. destruct (gstep_parts g e) as (g1 & g2 & o1 & o2 & o3 & M & H1 & A & T & OUT).
  pose proof M as (M1 & M2 & M3 & M4 & M5 & M6 & M7). destruct A as [A0 A]. destruct T as (H3 & T1 & T2 & T3 & T4 & T5 & T6).
  pose proof (mid_self id es e g1 I M) as SM. pose proof (mid_resp id es e g1 I M) as RM. fold g in RM.
  pose proof (i_id _ _ _ I) as ID. pose proof (i_seq _ _ _ I) as SQ. destruct (i_rounds _ _ _ I) as [R0 RS].
  set (g' := fst (gstep g e)) in *.
  assert (SENDS : sends id es e = o1 ++ o2 ++ o3) by exact OUT.
  destruct A as [A|[A|A]].
  - (* quiet *) destruct A as (B1 & B2 & B3 & B4 & B5 & B6). subst o2. cbn [app] in SENDS.
    assert (HH : harmless (sends id es e)) by (rewrite SENDS; apply harmless_app; assumption).
    constructor.
    + congruence.
    + rewrite T2, B2. exact SM.
    + rewrite T3, B3, M2. exact SQ.
    + rewrite T5, T3, B3, B5, M2, M5. auto.
    + rewrite T5, T3, B3, B5, M2, M5. intros R a y b q E Iq N. apply snoc_split in E as [(-> & -> & ->)|(b' & -> & E)].
      * exfalso. destruct (HH q Iq). destruct N; contradiction.
      * apply (i_sent _ _ _ I R a y b' q E Iq N).
    + rewrite T2, T5, T3, B2, B3, B5, M2, M5. intros EC R d Id. apply (RM EC R d Id).
    + intros S. destruct (T6 S) as [S2 N2]. destruct (B6 S2) as [S1 N1]. rewrite M3 in S1. destruct (i_round _ _ _ I S1) as (es1 & e1 & es2 & E & RB & SI & UN & AN).
      exists es1, e1, (es2 ++ [e]). rewrite N2, N1, M4, T3, B3, M2, T5, B5, M5, T2, B2, T4, B4. fold g in RB, UN, AN.
      split; [rewrite E, <- app_assoc; reflexivity|]. split; [exact RB|]. split; [|split].
      * intros a x b Q. apply snoc_split in Q as [(-> & -> & ->)|(b' & -> & Q)]; [|apply (SI a x b' Q)]. rewrite <- app_assoc. cbn [app]. rewrite <- E. exact HH.
      * intros N a x b Q. destruct M6 as [M6|[M6 NR]]; [congruence|]. apply snoc_split in Q as [(-> & -> & ->)|(b' & -> & Q)]; [|apply (UN ltac:(congruence) a x b' Q)].
        rewrite <- app_assoc. cbn [app]. rewrite <- E. exact NR.
      * intros EC R d Id Q. apply (RM EC R d Id) with (es1 := es1) (e1 := e1); auto; [|apply RB]. apply AN; [apply (echoes_init _ _ _ EC)|exact R].
  - (* a round *) destruct A as (B1 & B2 & B3 & B4 & B5 & B6 & B7 & B8).
    assert (HQ : forall q, In q (sends id es e) -> numbered q -> m_counter q = nextSeq (g_seq g)).
    { intros q Iq N. rewrite SENDS in Iq. apply in_app_or in Iq as [Iq|Iq]; [exfalso; destruct (H1 q Iq), N; contradiction|].
      apply in_app_or in Iq as [Iq|Iq]; [|exfalso; destruct (H3 q Iq), N; contradiction]. rewrite B6 in Iq. apply in_map_iff in Iq as (d & <- & _).
      cbn. rewrite B3, M2. reflexivity. }
    constructor.
    + congruence.
    + rewrite T2, B5. intros d Id C. apply in_map_iff in Id as (d0 & <- & Id). destruct (ask_fields (trigTime (g_next g2)) (g_seq g2) d0) as (F1 & F2 & F3 & F4 & F5 & F6 & F7).
      rewrite F1. rewrite F6 in C. apply SM; assumption.
    + rewrite T3, B3, M2. pose proof (next_bound _ SQ). lia.
    + rewrite T5, T3, B3, B4, M2, M5. split; [lia|]. intros R. rewrite RS by lia. unfold nextSeq. destruct (Z.ltb_spec 32767 (g_rounds g + 1)); lia.
    + rewrite T5, T3, B3, B4, M2, M5. intros R a y b q E Iq N. apply snoc_split in E as [(-> & -> & ->)|(b' & -> & E)].
      * rewrite (HQ q Iq N). lia.
      * assert (m_counter q <= g_seq g) by (apply (i_sent _ _ _ I) with (a := a) (y := y) (b := b'); auto; lia). rewrite RS in * by lia. unfold nextSeq. destruct (Z.ltb_spec 32767 (g_rounds g + 1)); lia.
    + rewrite T2, T5, T3, B5, B3, B4, M2, M5. intros EC R d Id. apply in_map_iff in Id as (d0 & <- & Id).
      destruct (ask_fields (trigTime (g_next g2)) (nextSeq (g_seq g)) d0) as (F1 & F2 & F3 & F4 & F5 & F6 & F7). rewrite F4.
      destruct (RM EC ltac:(lia) d0 Id) as [RR _]. rewrite RS in * by lia. unfold nextSeq. destruct (Z.ltb_spec 32767 (g_rounds g + 1)); lia.
    + intros S. destruct (T6 S) as [S2 N2]. exists es, e, []. rewrite N2, T3, T4, T5, T2.
      split; [reflexivity|]. split; [|split; [intros a x b Q; destruct a; discriminate|split; [intros _ a x b Q; destruct a; discriminate|]]].
      * split; [|split].
        -- unfold knows. rewrite grun_snoc. fold g. fold g'. rewrite T2, B5. intros d Id L1 L2. apply in_map_iff in Id as (d0 & <- & Id).
           destruct (ask_fields (trigTime (g_next g2)) (g_seq g2) d0) as (F1 & F2 & F3 & F4 & F5 & F6 & F7). rewrite F2 in L1, L2.
           exists (askMsg (g_id g1) (g_seq g2) d0). split; [|rewrite F1; repeat split; reflexivity]. rewrite SENDS. apply in_or_app. right. apply in_or_app. left.
           rewrite B6. apply in_map, filter_In. split; [exact Id|]. unfold addressed. apply andb_true_intro. split; [apply Z.leb_le; lia|apply Z.ltb_lt; lia].
        -- unfold knows. rewrite grun_snoc. fold g. fold g'. rewrite T2, B5. intros d Id NG. apply in_map_iff in Id as (d0 & <- & Id).
           destruct (ask_fields (trigTime (g_next g2)) (g_seq g2) d0) as (F1 & F2 & F3 & F4 & F5 & F6 & F7). rewrite F3. rewrite F5 in NG. specialize (B7 d0 Id NG).
           pose proof (trig_le (g_next g2)). lia.
        -- rewrite B3. apply next_bound. rewrite M2. exact SQ.
      * intros EC R d Id Q. exfalso. rewrite B5 in Id. apply in_map_iff in Id as (d0 & <- & Id).
        destruct (ask_fields (trigTime (g_next g2)) (g_seq g2) d0) as (F1 & F2 & F3 & F4 & F5 & F6 & F7). rewrite F4 in Q.
        destruct (RM EC ltac:(lia) d0 Id) as [RR _]. rewrite B3, M2 in Q. rewrite RS in * by lia. revert Q. unfold nextSeq. destruct (Z.ltb_spec 32767 (g_rounds g + 1)); lia.
  - (* the permission *) destruct A as (B1 & B2 & B3 & B4 & B5 & B6 & B7 & t & B8 & _).
    assert (HQ : forall q, In q (sends id es e) -> numbered q -> m_counter q = nextSeq (g_seq g)).
    { intros q Iq N. rewrite SENDS in Iq. apply in_app_or in Iq as [Iq|Iq]; [exfalso; destruct (H1 q Iq), N; contradiction|].
      apply in_app_or in Iq as [Iq|Iq]; [|exfalso; destruct (H3 q Iq), N; contradiction]. rewrite B8 in Iq. apply in_map_iff in Iq as (d & <- & _).
      cbn. rewrite B6, M2. reflexivity. }
    constructor.
    + congruence.
    + rewrite T2, B5. exact SM.
    + rewrite T3, B6, M2. pose proof (next_bound _ SQ). lia.
    + rewrite T5, T3, B6, B7, M2, M5. split; [lia|]. intros R. rewrite RS by lia. unfold nextSeq. destruct (Z.ltb_spec 32767 (g_rounds g + 1)); lia.
    + rewrite T5, T3, B6, B7, M2, M5. intros R a y b q E Iq N. apply snoc_split in E as [(-> & -> & ->)|(b' & -> & E)].
      * rewrite (HQ q Iq N). lia.
      * assert (m_counter q <= g_seq g) by (apply (i_sent _ _ _ I) with (a := a) (y := y) (b := b'); auto; lia). rewrite RS in * by lia. unfold nextSeq. destruct (Z.ltb_spec 32767 (g_rounds g + 1)); lia.
    + rewrite T2, T5, T3, B5, B6, B7, M2, M5. intros EC R d Id.
      destruct (RM EC ltac:(lia) d Id) as [RR _]. rewrite RS in * by lia. unfold nextSeq. destruct (Z.ltb_spec 32767 (g_rounds g + 1)); lia.
    + intros S. destruct (T6 S) as [S2 N2]. rewrite B3 in S2. discriminate.
Qed.
Lemma inv_run id es : inv id es (grun id es).
Proof. induction es as [|e es IH] using rev_ind; [apply inv_init|apply inv_step, IH]. Qed.

(** ** C48: the theorems *)
Lemma verify_spec t sq l : verifySequenceCounter t sq l = true <-> forall d, In d l -> mayActBy t d -> responseSequenceCounter d = sq.
Proof.
  unfold verifySequenceCounter. rewrite forallb_forall. split; intros H d I.
  - intros (M1 & M2 & M3 & M4 & M5). specialize (H d I). unfold checkSequenceCounter in H. rewrite M1, M2 in H. cbn in H. lia.
  - unfold checkSequenceCounter. destruct (dependency d) eqn:E1; [|reflexivity]. destruct (dependent d) eqn:E2; [|reflexivity]. cbn [negb orb].
    destruct (Z.leb_spec (timingVersion d) 0); [reflexivity|]. destruct (Z.ltb_spec t (next d)); [reflexivity|]. destruct (Z.leb_spec cTerminationTime (next d)); [reflexivity|].
    cbn. apply Z.eqb_eq. apply H; [exact I|]. unfold mayActBy. auto.
Qed.
Lemma next_mod s : 0 <= s <= 32767 -> nextSeq s = s mod 32767 + 1.
Proof.
  intros H. unfold nextSeq. destruct (Z.ltb_spec 32767 (s + 1)).
  - assert (s = 32767) as -> by lia. reflexivity.
  - rewrite Z.mod_small by lia. reflexivity.
Qed.

(** the permission [m] sent when [e] arrives after [es] belongs to a round with the number [S] which was asked up to [t0] *)
Definition permission (id : Z) (es : list bevent) (e : bevent) (m : amsg) : Prop := In m (sends id es e) /\ m_action m = CMD_TIME_REQUEST.
Lemma permission_parts id es e m : permission id es e m -> exists es1 e1 es2 t0 S, es = es1 ++ e1 :: es2 /\ roundBegins id es1 e1 t0 S
  /\ silent id (es1 ++ [e1]) es2 /\ undisturbed id (es1 ++ [e1]) (es2 ++ [e])
  /\ m_counter m = S mod 32767 + 1 /\ m_Te m = m_actionTime m /\ m_Tdemin m = m_actionTime m
  /\ (forall d, knows id (es ++ [e]) d -> mayActBy (m_actionTime m) d -> responseSequenceCounter d = S)
  /\ (forall d, knows id (es ++ [e]) d -> nonGranting d = false \/ t0 < next d -> m_actionTime m <= Te d + 1)
  /\ (forall d, knows id (es ++ [e]) d -> next d <= t0 -> nonGranting d = true -> triggered d = false)
  /\ (exists d, knows id (es ++ [e]) d /\ fedID d = m_dest_id m /\ next d <= m_actionTime m /\ next d < cTerminationTime)
  /\ (forall d, knows id (es ++ [e]) d -> next d <= m_actionTime m -> next d < cTerminationTime ->
        exists m', permission id es e m' /\ m_dest_id m' = fedID d /\ m_actionTime m' = m_actionTime m /\ m_counter m' = m_counter m)
  /\ (echoes id (es ++ [e]) -> g_rounds (grun id es) <= 32767 ->
        forall d, knows id (es ++ [e]) d -> mayActBy (m_actionTime m) d -> answeredIn (es2 ++ [e]) (fedID d) S).
Proof.
  intros [Im Am]. pose proof (inv_run id es) as I. set (g := grun id es) in *. destruct (gstep_parts g e) as (g1 & g2 & o1 & o2 & o3 & M & H1 & A & T & OUT).
  pose proof M as (M1 & M2 & M3 & M4 & M5 & M6 & M7). destruct A as [A0 A]. destruct T as (H3 & T1 & T2 & T3 & T4 & T5 & T6).
  pose proof (mid_resp id es e g1 I M) as RM. fold g in RM.
  assert (SENDS : sends id es e = o1 ++ o2 ++ o3) by exact OUT.
  rewrite SENDS in Im. apply in_app_or in Im as [Im|Im]; [exfalso; destruct (H1 m Im); contradiction|].
  apply in_app_or in Im as [Im|Im]; [|exfalso; destruct (H3 m Im); contradiction].
  destruct A as [A|[A|A]].
  { destruct A as (-> & _). destruct Im. }
  { destruct A as (_ & _ & _ & _ & _ & -> & _). apply in_map_iff in Im as (d & <- & _). discriminate Am. }
  destruct A as (B1 & B2 & B3 & B4 & B5 & B6 & B7 & t & B8 & B9 & B10 & B11 & B12).
  rewrite B8 in Im. apply in_map_iff in Im as (d & <- & Id). apply filter_In in Id as [Id Ad].
  rewrite M3 in B1. destruct (i_round _ _ _ I B1) as (es1 & e1 & es2 & E & RB & SI & UN & AN). fold g in RB, UN, AN.
  exists es1, e1, es2, (trigTime (g_next g)), (g_seq g). split; [exact E|]. split; [exact RB|]. split; [exact SI|].
  assert (KN : forall x, knows id (es ++ [e]) x <-> In x (g_deps g1)).
  { intros x. unfold knows. rewrite grun_snoc. fold g. rewrite T2, B5. reflexivity. }
  split; [|split; [|split; [reflexivity|split; [reflexivity|]]]].
  - intros a x b Q. destruct M6 as [M6|[M6 NR]]; [congruence|]. apply snoc_split in Q as [(-> & -> & ->)|(b' & -> & Q)]; [|apply (UN ltac:(congruence) a x b' Q)].
    rewrite <- app_assoc. cbn [app]. rewrite <- E. exact NR.
  - cbn. rewrite B6, M2. apply next_mod, (i_seq _ _ _ I).
  - change (m_actionTime (permitMsg (g_id g1) (g_seq g2) t d)) with t. rewrite verify_spec in B9. rewrite M2 in B9. rewrite M4 in B10, B11.
    split; [|split; [|split; [|split; [|split]]]].
    + intros x Kx. apply B9, KN, Kx.
    + intros x Kx D. pose proof (B10 x (proj1 (KN x) Kx) D). pose proof (trig_le (Te x)). lia.
    + intros x Kx. apply B11, KN, Kx.
    + exists d. split; [apply KN, Id|]. split; [reflexivity|]. unfold addressed in Ad. apply andb_prop in Ad as [L1 L2]. split; [apply Z.leb_le in L1; exact L1|apply Z.ltb_lt in L2; exact L2].
    + intros x Kx L1 L2. exists (permitMsg (g_id g1) (g_seq g2) t x). split; [|repeat split; reflexivity]. split; [|reflexivity]. rewrite SENDS. apply in_or_app. right. apply in_or_app. left.
      rewrite B8. apply in_map, filter_In. split; [apply KN, Kx|]. unfold addressed. apply andb_true_intro. split; [apply Z.leb_le; exact L1|apply Z.ltb_lt; exact L2].
    + intros EC R x Kx MA. apply (RM EC R x (proj1 (KN x) Kx)) with (es1 := es1) (e1 := e1); auto; [|apply RB|apply (B9 x (proj1 (KN x) Kx) MA)].
      apply AN; [apply (echoes_init _ _ _ EC)|exact R].
Qed.

(** **** C48: a permission ends a round; since that round began nothing else was asked or permitted and no executing federate
    has come with a new request; every federate which may act by the permitted time has confirmed with the number of this round *)
Theorem C48_permission_needs_everybody id es e m : permission id es e m ->
  exists es1 e1 es2 t0 S, es = es1 ++ e1 :: es2 /\ roundBegins id es1 e1 t0 S
    /\ silent id (es1 ++ [e1]) es2 /\ undisturbed id (es1 ++ [e1]) (es2 ++ [e])
    /\ m_counter m = S mod 32767 + 1
    /\ (forall d, knows id (es ++ [e]) d -> mayActBy (m_actionTime m) d -> responseSequenceCounter d = S)
    /\ (forall d, knows id (es ++ [e]) d -> next d <= t0 -> nonGranting d = true -> triggered d = false).
Proof.
  intros P. destruct (permission_parts id es e m P) as (es1 & e1 & es2 & t0 & S & H1 & H2 & H3 & H4 & H5 & H6 & H7 & H8 & H9 & H10 & H11 & H12 & H13).
  exists es1, e1, es2, t0, S. auto 10.
Qed.
(** **** C48: if federates number their requests as the library does, every federate which may act by the permitted time has
    sent a request since the questions of the round went out (fewer than 32768 rounds and permissions so far) *)
Theorem C48_permission_after_everyone_answered id es e m : permission id es e m -> echoes id (es ++ [e]) -> g_rounds (grun id es) <= 32767 ->
  exists es1 e1 es2 t0 S, es = es1 ++ e1 :: es2 /\ roundBegins id es1 e1 t0 S
    /\ silent id (es1 ++ [e1]) es2 /\ undisturbed id (es1 ++ [e1]) (es2 ++ [e])
    /\ forall d, knows id (es ++ [e]) d -> mayActBy (m_actionTime m) d -> answeredIn (es2 ++ [e]) (fedID d) S.
Proof.
  intros P EC R. destruct (permission_parts id es e m P) as (es1 & e1 & es2 & t0 & S & H1 & H2 & H3 & H4 & H5 & H6 & H7 & H8 & H9 & H10 & H11 & H12 & H13).
  exists es1, e1, es2, t0, S. auto 10.
Qed.
(** **** C48: the permitted time is not more than epsilon beyond the event of any federate that can be granted, all three times of
    the message agree, it goes to federates which asked for a time up to it, and to all of them *)
Theorem C48_permitted_time id es e m : permission id es e m ->
  m_Te m = m_actionTime m /\ m_Tdemin m = m_actionTime m
  /\ (forall d, knows id (es ++ [e]) d -> nonGranting d = false -> m_actionTime m <= Te d + 1)
  /\ (exists d, knows id (es ++ [e]) d /\ fedID d = m_dest_id m /\ next d <= m_actionTime m /\ next d < cTerminationTime)
  /\ (forall d, knows id (es ++ [e]) d -> next d <= m_actionTime m -> next d < cTerminationTime ->
        exists m', permission id es e m' /\ m_dest_id m' = fedID d /\ m_actionTime m' = m_actionTime m /\ m_counter m' = m_counter m).
Proof.
  intros P. destruct (permission_parts id es e m P) as (es1 & e1 & es2 & t0 & S & H1 & H2 & H3 & H4 & H5 & H6 & H7 & H8 & H9 & H10 & H11 & H12 & H13).
  repeat (split; [assumption|]). split; [|split; assumption]. intros d K N. apply H9; auto.
Qed.
