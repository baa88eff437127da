(** * The global time coordinator: what one step does, and the invariant of a round (proofs for C48) *)
From Coq Require Import ZArith Bool List Lia.
From Verif Require Import HTime Action TimeDep TimeDepProofs TimeCoord Forward GlobalTime.
Import ListNotations.
Open Scope Z_scope.

Lemma trig_mono a b : a <= b -> trigTime a <= trigTime b.
Proof. unfold trigTime. intros H. destruct (Z.ltb_spec a cTerminationTime), (Z.ltb_spec b cTerminationTime); lia. Qed.
Lemma trig_le a : trigTime a <= a + 1.
Proof. unfold trigTime. destruct (_ <? _); lia. Qed.
Lemma norm_next s : normalizeSeq (nextSeq s) = nextSeq s.
Proof. unfold normalizeSeq, nextSeq. destruct (32767 <? s + 1) eqn:E; [reflexivity|]. rewrite E. reflexivity. Qed.
Lemma ask_fields t sq d : fedID (askDep t sq d) = fedID d /\ next (askDep t sq d) = next d /\ Te (askDep t sq d) = Te d
  /\ responseSequenceCounter (askDep t sq d) = responseSequenceCounter d /\ nonGranting (askDep t sq d) = nonGranting d
  /\ connection (askDep t sq d) = connection d /\ addressed t (askDep t sq d) = addressed t d.
Proof. unfold askDep. destruct (addressed t d) eqn:E; repeat split; auto. Qed.

Lemma findNext_gen l : forall m0, let r := fold_left (fun m d => if negb (nonGranting d) && (Te d <? m) then Te d else m) l m0 in
  r <= m0 /\ (forall d, In d l -> nonGranting d = false -> r <= Te d) /\ (r = m0 \/ exists d, In d l /\ nonGranting d = false /\ r = Te d).
Proof.
  induction l as [|d l IH]; intros m0; cbn [fold_left]; [repeat split; auto; [lia|intros ? []]|].
  cbv zeta in IH |- *. set (m1 := if negb (nonGranting d) && (Te d <? m0) then Te d else m0).
  destruct (IH m1) as (A & B & C). assert (M : m1 <= m0) by (unfold m1; destruct (negb _); cbn; [destruct (Z.ltb_spec (Te d) m0)|]; lia).
  split; [lia|split].
  - intros x [->|I] N; [|auto]. assert (m1 <= Te x) by (unfold m1; rewrite N; cbn; destruct (Z.ltb_spec (Te x) m0); lia). lia.
  - destruct C as [C|(x & I & N & E)].
    + unfold m1 in C at 2. destruct (negb (nonGranting d) && (Te d <? m0)) eqn:Q; [|left; exact C]. right. exists d. apply andb_prop in Q as [Q _].
      split; [left; reflexivity|]. split; [destruct (nonGranting d); [discriminate|reflexivity]|exact C].
    + right. exists x. split; [right; exact I|auto].
Qed.
Lemma findNext_spec l : let r := findNextTriggerEvent l in
  (forall d, In d l -> nonGranting d = false -> r <= Te d) /\ (r = maxVal \/ exists d, In d l /\ r = Te d).
Proof. cbv zeta. unfold findNextTriggerEvent. destruct (findNext_gen l maxVal) as (_ & A & [B|(d & B & _ & C)]); split; auto. right. eauto. Qed.
Lemma checkTrig_gen e l : forall t0 m0, let r := fold_left (trigOne e) l (t0, m0) in
  snd r <= m0 /\ (forall d, In d l -> nonGranting d = false \/ e < next d -> snd r <= Te d) /\ (snd r = m0 \/ exists d, In d l /\ snd r = Te d)
  /\ (fst r = false -> t0 = false /\ forall d, In d l -> next d <= e -> nonGranting d = true -> triggered d = false).
Proof.
  induction l as [|d l IH]; intros t0 m0; cbn [fold_left]; [cbn [fst snd]; repeat split; auto; [lia|intros ? []|intros ? []]|].
  destruct (trigOne e (t0, m0) d) as [t1 m1] eqn:Q. cbv zeta in IH |- *. destruct (IH t1 m1) as (A & B & C & D). unfold trigOne in Q.
  assert (M : m1 <= m0 /\ (nonGranting d = false \/ e < next d -> m1 <= Te d) /\ (m1 = m0 \/ m1 = Te d)
    /\ (t1 = false -> t0 = false /\ (next d <= e -> nonGranting d = true -> triggered d = false))).
  { destruct (Z.ltb_spec e (next d)) as [L|L].
    - injection Q as <- <-. destruct (Z.ltb_spec (Te d) m0); (split; [lia|]); (split; [lia|]); (split; [auto|]); intros ->; (split; [reflexivity|]); lia.
    - destruct (nonGranting d) eqn:N; injection Q as <- <-.
      + split; [lia|]. split; [intros [U|U]; [discriminate|lia]|]. split; [auto|]. destruct (triggered d); [discriminate|]. auto.
      + destruct (Z.ltb_spec (Te d) m0); (split; [lia|]); (split; [lia|]); (split; [auto|]); intros ->; (split; [reflexivity|]); discriminate. }
  destruct M as (M1 & M2 & M3 & M4). split; [lia|split;[|split]].
  - intros x [->|I] N; [specialize (M2 N); lia|auto].
  - destruct C as [C|(x & I & E)]; [|right; exists x; split; [right; exact I|exact E]].
    destruct M3 as [M3|M3]; [left; congruence|right; exists d; split; [left; reflexivity|congruence]].
  - intros F. destruct (D F) as [D1 D2]. destruct (M4 D1) as [D3 D4]. split; [exact D3|]. intros x [->|I]; auto.
Qed.
Lemma checkTrig_spec e l : let r := checkForTriggered l e in
  (forall d, In d l -> nonGranting d = false \/ e < next d -> snd r <= Te d) /\ (snd r = maxVal \/ exists d, In d l /\ snd r = Te d)
  /\ (fst r = false -> forall d, In d l -> next d <= e -> nonGranting d = true -> triggered d = false).
Proof. cbv zeta. unfold checkForTriggered. destruct (checkTrig_gen e l false maxVal) as (_ & A & B & C). repeat split; auto. intros F. apply C, F. Qed.
Lemma verify_mono t t' sq l : t <= t' -> verifySequenceCounter t' sq l = true -> verifySequenceCounter t sq l = true.
Proof.
  intros L H. unfold verifySequenceCounter in *. rewrite forallb_forall in H |- *. intros d I. specialize (H d I).
  unfold checkSequenceCounter in *. destruct (Z.ltb_spec t (next d)) as [A|A]; [rewrite orb_true_r; reflexivity|].
  destruct (Z.ltb_spec t' (next d)) as [B|B]; [lia|exact H].
Qed.

(** what [gUpdate] does: nothing, a new round, or the permission *)
Definition quietStep (g g' : gco) (out : list amsg) : Prop :=
  out = [] /\ g_deps g' = g_deps g /\ g_seq g' = g_seq g /\ g_new g' = g_new g /\ g_rounds g' = g_rounds g
  /\ (g_st g' = ts_time_requested -> g_st g = ts_time_requested /\ g_next g' = g_next g).
Definition roundStep (g g' : gco) (out : list amsg) : Prop :=
  g_st g' = ts_time_requested /\ g_new g' = false /\ g_seq g' = nextSeq (g_seq g) /\ g_rounds g' = g_rounds g + 1
  /\ g_deps g' = map (askDep (trigTime (g_next g')) (g_seq g')) (g_deps g)
  /\ out = map (askMsg (g_id g) (g_seq g')) (filter (addressed (trigTime (g_next g'))) (g_deps g))
  /\ (forall d, In d (g_deps g) -> nonGranting d = false -> g_next g' <= Te d)
  /\ (g_next g' = maxVal \/ exists d, In d (g_deps g) /\ g_next g' = Te d).
Definition permitStep (g g' : gco) (out : list amsg) : Prop :=
  g_st g = ts_time_requested /\ g_new g = false /\ g_st g' = ts_time_granted /\ g_new g' = false /\ g_deps g' = g_deps g
  /\ g_seq g' = nextSeq (g_seq g) /\ g_rounds g' = g_rounds g + 1
  /\ exists t, out = map (permitMsg (g_id g) (g_seq g') t) (filter (addressed t) (g_deps g))
     /\ verifySequenceCounter t (g_seq g) (g_deps g) = true
     /\ (forall d, In d (g_deps g) -> nonGranting d = false \/ trigTime (g_next g) < next d -> t <= trigTime (Te d))
     /\ (forall d, In d (g_deps g) -> next d <= trigTime (g_next g) -> nonGranting d = true -> triggered d = false)
     /\ (t = maxVal \/ exists d, In d (g_deps g) /\ t = trigTime (Te d)).
Lemma eqb_st a b : ts_eqb a b = true <-> a = b.
Proof. unfold ts_eqb. destruct a, b; cbn; split; intros; (reflexivity || discriminate). Qed.
Lemma gConfirm_cases mt g : g_st g = ts_time_requested -> let r := gConfirm mt g in
  g_id (fst r) = g_id g /\ g_entered (fst r) = g_entered g /\ g_exec (fst r) = g_exec g /\ g_operating (fst r) = g_operating g
  /\ (quietStep g (fst r) (snd r) \/ roundStep g (fst r) (snd r) \/ permitStep g (fst r) (snd r)).
Proof.
  intros S. cbv zeta. unfold gConfirm. destruct (verifySequenceCounter (trigTime (g_next g)) (g_seq g) (g_deps g)) eqn:V.
  2:{ repeat split; auto. left. unfold quietStep. auto 10. }
  pose proof (checkTrig_spec (trigTime (g_next g)) (g_deps g)) as K. destruct (checkForTriggered (g_deps g) (trigTime (g_next g))) as [trig ev]. cbn [fst snd] in K.
  destruct K as (K1 & K2 & K3).
  destruct (trig || negb ((ev <=? g_next g) || verifySequenceCounter (trigTime ev) (g_seq g) (g_deps g)) || g_new (set_g_next ev g)) eqn:Q.
  - repeat split; auto. right. left. unfold roundStep. cbn. rewrite ?norm_next. repeat split; auto.
  - repeat split; auto. right. right. apply orb_false_elim in Q as [Q N]. apply orb_false_elim in Q as [Q Q'].
    unfold permitStep. cbn. split; [exact S|]. split; [exact N|]. split; [reflexivity|]. split; [exact N|]. repeat split. exists (trigTime ev).
    split; [reflexivity|]. split; [|split; [|split]].
    + apply negb_false_iff, orb_prop in Q' as [Q'|Q']; [|exact Q']. eapply verify_mono; [|exact V]. apply trig_mono. lia.
    + intros d I D. apply trig_mono. auto.
    + apply K3. exact Q.
    + destruct K2 as [->|(d & I & ->)]; [left; reflexivity|right; eauto].
Qed.
Lemma gUpdate_cases g : let r := gUpdate g in
  g_id (fst r) = g_id g /\ g_entered (fst r) = g_entered g /\ g_exec (fst r) = g_exec g /\ g_operating (fst r) = g_operating g
  /\ (quietStep g (fst r) (snd r) \/ roundStep g (fst r) (snd r) \/ permitStep g (fst r) (snd r)).
Proof.
  cbv zeta. unfold gUpdate. generalize (generateMinTimeUpstream (g_deps g) true (g_id g) invalidId 0). intros mt.
  destruct (negb (g_exec g) && ts_ltb (tst mt) ts_time_granted) eqn:Q.
  { repeat split; auto. left. unfold quietStep. cbn [fst snd]. do 5 (split; [reflexivity|]). intros E; exfalso; cbn in E; apply andb_prop in Q as [_ Q]; rewrite E in Q; discriminate. }
  destruct (ts_eqb (tst mt) ts_time_granted).
  { repeat split; auto. left. unfold quietStep. cbn [fst snd]. do 5 (split; [reflexivity|]). intros E; exfalso; cbn in E; discriminate. }
  assert (QN : quietStep g g []) by (unfold quietStep; auto 10).
  destruct (isRequested (tst mt)); [|cbn [fst snd]; auto 10].
  destruct (ts_eqb (g_st g) ts_time_granted).
  { destruct (findNext_spec (g_deps g)) as [A B]. repeat split; auto. right. left. unfold roundStep. cbn. rewrite ?norm_next. repeat split; auto. }
  destruct (ts_eqb (g_st g) ts_time_requested) eqn:S; [|cbn [fst snd]; auto 10].
  apply eqb_st in S. apply (gConfirm_cases mt g S).
Qed.

(** ** The part of a step before [gUpdate] or the exec entry *)
Definition evCmd (e : bevent) : option amsg := match e with B_timing c | B_exec c | B_disconnect c | B_error c => Some c | _ => None end.
(** a federate which was executing (the coordinator's last news was a grant) asks for its next time; a first request with the
    delayed-timing flag is not counted, as in the code (TimeDependencies.cpp:67-72, 104-106) *)
Definition newRequest (g : gco) (e : bevent) : Prop :=
  exists c d, e = B_timing c /\ m_action c = CMD_TIME_REQUEST /\ getDep (g_deps g) (m_source_id c) = Some d /\ dependency d = true
    /\ tst d = ts_time_granted /\ (checkFlag delayed_timing_flag c = true -> delayedTiming d = true).

(** *** Predicates on table entries which every change of the table keeps *)
Definition keeps (id : Z) (P : dinfo -> Prop) : Prop :=
  (forall b d, P d -> P (set_dependency b d)) /\ (forall b d, P d -> P (set_dependent b d)) /\ (forall g, P (newDep g))
  /\ (forall d, P d -> P (updTD (fun t => set_next negEpsilon (set_lastGrant timeZero (set_tst ts_initialized t))) d))
  /\ (forall d, P d -> fedID d = id -> P (set_connection c_SELF d)) /\ (forall k d, P d -> k = c_CHILD \/ k = c_PARENT -> P (set_connection k d))
  /\ (forall v d, P d -> P (updTD (set_timingVersion v) d)) /\ (forall c d, m_action c = CMD_TIMING_INFO -> P d -> P (fst (processMessage c d))).
Section K.
  Variables (id : Z) (P : dinfo -> Prop).
  Hypothesis K : keeps id P.
  Let K5 := proj1 (proj2 (proj2 (proj2 (proj2 K)))).
  Let K6 := proj1 (proj2 (proj2 (proj2 (proj2 (proj2 K))))).
  Let K7 := proj1 (proj2 (proj2 (proj2 (proj2 (proj2 (proj2 K)))))).
  Let K8 := proj2 (proj2 (proj2 (proj2 (proj2 (proj2 (proj2 K)))))).
  Definition okT (l : table) : Prop := forall d, In d l -> P d.
  Lemma okT_app a b : okT (a ++ b) <-> okT a /\ okT b.
  Proof. unfold okT. split; [intros H; split; intros d I; apply H, in_or_app; auto|intros [A B] d I; apply in_app_or in I as [I|I]; auto]. Qed.
  Lemma okT_cons d b : okT (d :: b) <-> P d /\ okT b.
  Proof. unfold okT. cbn. split; [intros H; split; auto|intros [A B] x [<-|I]; auto]. Qed.
  Lemma okT_nil : okT [].
  Proof. intros d []. Qed.
  Lemma upd_ok l g f : okT l -> (forall d, In d l -> fedID d = g -> P d -> P (f d)) -> okT (updDep l g f).
  Proof.
    intros O F. unfold updDep. destruct (lower_bound l g) as [a [|d b]] eqn:E; [exact O|]. apply lower_bound_app in E. subst l.
    apply okT_app in O as [O1 O2]. apply okT_cons in O2 as [O2 O3].
    destruct (Z.eqb_spec (fedID d) g) as [G|G]; apply okT_app; (split; [exact O1|]); apply okT_cons; (split; [|exact O3]); [|exact O2].
    apply F; auto. apply in_or_app. right. left. reflexivity.
  Qed.
  Lemma addDependency_ok l g : okT l -> okT (fst (addDependency l g)).
  Proof.
    pose proof K as (K1 & K2 & K3 & K4 & _). intros O. unfold addDependency. destruct (lower_bound l g) as [a [|d b]] eqn:E; apply lower_bound_app in E; subst l;
      apply okT_app in O as [O1 O2].
    - cbn [fst]. apply okT_app. split; [exact O1|]. apply okT_cons. split; [apply K1, K3|apply okT_nil].
    - apply okT_cons in O2 as [O2 O3]. destruct (fedID d =? g); [destruct (cTerminationTime <? next (set_dependency true d))|]; cbn [fst];
        apply okT_app; (split; [exact O1|]); rewrite ?okT_cons; repeat split; auto.
  Qed.
  Lemma addDependent_ok l g : okT l -> okT (fst (addDependent l g)).
  Proof.
    pose proof K as (K1 & K2 & K3 & K4 & _). intros O. unfold addDependent. destruct (lower_bound l g) as [a [|d b]] eqn:E; apply lower_bound_app in E; subst l;
      apply okT_app in O as [O1 O2].
    - cbn [fst]. apply okT_app. split; [exact O1|]. apply okT_cons. split; [apply K2, K3|apply okT_nil].
    - apply okT_cons in O2 as [O2 O3]. destruct (fedID d =? g); cbn [fst]; apply okT_app; (split; [exact O1|]); rewrite ?okT_cons; repeat split; auto.
  Qed.
  Lemma removeDependency_ok l g : okT l -> okT (removeDependency l g).
  Proof.
    pose proof K as (K1 & K2 & K3 & K4 & _). intros O. unfold removeDependency. destruct (lower_bound l g) as [a [|d b]] eqn:E; [exact O|].
    pose proof (lower_bound_app _ _ _ _ E) as L. pose proof O as OO. rewrite L in OO. apply okT_app in OO as [O1 O2]. apply okT_cons in O2 as [O2 O3].
    destruct (fedID d =? g); [|exact O]. destruct (negb _); apply okT_app; (split; [exact O1|]); [exact O3|]. apply okT_cons. auto.
  Qed.
  Lemma removeDependent_ok l g : okT l -> okT (removeDependent l g).
  Proof.
    pose proof K as (K1 & K2 & K3 & K4 & _). intros O. unfold removeDependent. destruct (lower_bound l g) as [a [|d b]] eqn:E; [exact O|].
    pose proof (lower_bound_app _ _ _ _ E) as L. pose proof O as OO. rewrite L in OO. apply okT_app in OO as [O1 O2]. apply okT_cons in O2 as [O2 O3].
    destruct (fedID d =? g); [|exact O]. destruct (negb _); apply okT_app; (split; [exact O1|]); [exact O3|]. apply okT_cons. auto.
  Qed.
  Definition okW (w : fwd) : Prop := w_id w = id /\ okT (w_deps w).
  Lemma fwdAdd_ok w g : okW w -> okW (fst (fwdAddDependency w g)).
  Proof.
    intros [W O]. unfold fwdAddDependency. pose proof (addDependency_ok (w_deps w) g O) as A. destruct (addDependency (w_deps w) g) as [deps added]. cbn [fst] in *.
    split; [exact W|]. cbn. destruct added; [|exact A]. cbn [andb]. destruct (Z.eqb_spec g (w_id w)) as [G|G]; [|exact A]. apply upd_ok; [exact A|].
    intros d _ Ed Pd. apply K5; [exact Pd|congruence].
  Qed.
  Lemma fwdDependent_ok w g : okW w -> okW (set_w_deps (fst (addDependent (w_deps w) g)) w).
  Proof. intros [W O]. split; [exact W|]. apply addDependent_ok, O. Qed.
  Lemma fwdConnection_ok w g k : k = c_CHILD \/ k = c_PARENT -> okW w -> okW (fwdConnection w g k).
  Proof.
    intros C [W O]. unfold fwdConnection. destruct (g =? w_id w); [split; assumption|].
    assert (X : okT (updDep (w_deps w) g (set_connection k))) by (apply upd_ok; [exact O|]; intros d _ _ Pd; apply K6; auto).
    destruct k; try (split; [exact W|exact X]). destruct (getDep (w_deps w) g); split; (exact W || exact X).
  Qed.
  Lemma timingInfo_ok l c : m_action c = CMD_TIMING_INFO -> okT l -> okT (fst (updateTime l c)).
  Proof.
    intros A O. unfold updateTime. destruct (getDep l (m_source_id c)); [|exact O]. destruct (negb _); [exact O|]. apply upd_ok; [exact O|].
    intros x _ _ Px. apply K8; auto.
  Qed.
  Lemma fwdDep_ok w c : okW w -> okW (fwdDependencyUpdate w c).
  Proof.
    intros O. unfold fwdDependencyUpdate.
    assert (T : forall r : fwd * bool, okW (fst r) -> okW (let '(w, added) := r in
      if added then
        let w := if checkFlag child_flag c then fwdConnection w (m_source_id c) c_CHILD else w in
        let w := if checkFlag parent_flag c then fwdConnection w (m_source_id c) c_PARENT else w in
        if 0 <? m_counter c then fwdVersion w (m_source_id c) (s8 (m_counter c)) else w
      else w)).
    { intros [w1 a] O1. cbn [fst] in O1. destruct a; [|exact O1]. cbv zeta.
      set (w2 := if checkFlag child_flag c then _ else w1). assert (O2 : okW w2) by (unfold w2; destruct (checkFlag child_flag c); [apply fwdConnection_ok; auto|exact O1]).
      set (w3 := if checkFlag parent_flag c then _ else w2). assert (O3 : okW w3) by (unfold w3; destruct (checkFlag parent_flag c); [apply fwdConnection_ok; auto|exact O2]).
      destruct (0 <? m_counter c); [|exact O3]. destruct O3 as [W3 O3]. split; [exact W3|]. cbn. apply upd_ok; [exact O3|]. intros d _ _ Pd. apply K7; auto. }
    apply T. clear T. pose proof O as [W OT].
    destruct (m_action c =? CMD_ADD_DEPENDENCY); [apply fwdAdd_ok; exact O|].
    destruct (m_action c =? CMD_REMOVE_DEPENDENCY); [split; [exact W|apply removeDependency_ok; exact OT]|].
    destruct (m_action c =? CMD_ADD_DEPENDENT); [apply fwdDependent_ok; exact O|].
    destruct (m_action c =? CMD_REMOVE_DEPENDENT); [split; [exact W|apply removeDependent_ok; exact OT]|].
    destruct (m_action c =? CMD_ADD_INTERDEPENDENCY).
    { pose proof (fwdAdd_ok w (m_source_id c) O) as A. destruct (fwdAddDependency w (m_source_id c)) as [w1 ad]. apply fwdDependent_ok, A. }
    destruct (m_action c =? CMD_REMOVE_INTERDEPENDENCY); [split; [exact W|apply removeDependent_ok, removeDependency_ok; exact OT]|].
    destruct (Z.eqb_spec (m_action c) CMD_TIMING_INFO) as [E|_]; [split; [exact W|apply timingInfo_ok; [exact E|exact OT]]|exact O].
  Qed.
  Lemma onTable_ok f g : g_id g = id -> (forall w, okW w -> okW (f w)) -> okT (g_deps g) -> okT (g_deps (onTable f g)).
  Proof. intros G F O. unfold onTable. apply (F (set_w_deps (g_deps g) (fwd_init (g_id g) false))). split; [exact G|exact O]. Qed.
End K.

(** *** Where the entries of the next table come from, as far as answers to rounds go *)
Definition traced (id : Z) (l : table) (d' : dinfo) : Prop :=
  ((exists d, In d l /\ fedID d = fedID d' /\ responseSequenceCounter d = responseSequenceCounter d') \/ responseSequenceCounter d' = 0)
  /\ (connection d' = c_SELF -> fedID d' = id).
Definition selfOnly (id : Z) (l : table) : Prop := forall d, In d l -> connection d = c_SELF -> fedID d = id.
Definition answersNow (id : Z) (l : table) (c : amsg) (d' : dinfo) : Prop :=
  (connection d' = c_SELF -> fedID d' = id) /\ m_source_id c = fedID d' /\ (m_action c = CMD_TIME_REQUEST \/ m_action c = CMD_EXEC_REQUEST)
  /\ (connection d' = c_SELF \/ responseSequenceCounter d' = getExtraDestData c).
Lemma keeps_traced id l : keeps id (traced id l).
Proof.
  unfold keeps, traced. split; [|split; [|split; [|split; [|split; [|split; [|split]]]]]].
  - intros b d H. exact H.
  - intros b d H. exact H.
  - intros g. split; [right; reflexivity|discriminate].
  - intros d H. exact H.
  - intros d [H1 H2] E. split; [exact H1|]. intros _. exact E.
  - intros k d [H1 H2] E. split; [exact H1|]. cbn. intros ->. destruct E; discriminate.
  - intros v d H. exact H.
  - intros c d A H. unfold processMessage. rewrite A. cbn. exact H.
Qed.
Lemma tkind_req a : tkind_of a = k_time_request -> a = CMD_TIME_REQUEST.
Proof.
  unfold tkind_of. destruct (a =? CMD_EXEC_REQUEST); [discriminate|]. destruct (a =? CMD_EXEC_GRANT); [discriminate|].
  destruct (Z.eqb_spec a CMD_TIME_REQUEST); [auto|]. repeat (destruct (_ : bool); [discriminate|]). discriminate.
Qed.
Lemma tkind_exec a : tkind_of a = k_exec_request -> a = CMD_EXEC_REQUEST.
Proof.
  unfold tkind_of. destruct (Z.eqb_spec a CMD_EXEC_REQUEST); [auto|]. repeat (destruct (_ : bool); [discriminate|]). discriminate.
Qed.
Lemma process_traced id l c d : traced id l d -> m_source_id c = fedID d ->
  traced id l (fst (processMessage c d)) \/ answersNow id l c (fst (processMessage c d)).
Proof.
  intros [H1 H2] Sc. unfold processMessage. destruct (tkind_of (m_action c)) eqn:Ek;
    try (left; split; [exact H1|exact H2]); try (left; split; [right; reflexivity|exact H2]).
  - right. apply tkind_exec in Ek. cbv zeta. cbn [fst]. unfold clearUpdateReq.
    match goal with |- context [if ?b then set_updateRequested false ?x else ?y] => destruct b end;
      (split; [exact H2|]); (split; [exact Sc|]); (split; [auto|]); cbn; destruct (connection d); auto.
  - destruct (checkFlag _ _); cbn [negb]; left; (split; [right; reflexivity|exact H2]).
  - right. apply tkind_req in Ek. cbv zeta. cbn [fst]. unfold clearUpdateReq.
    assert (X : forall x, connection x = connection d -> fedID x = fedID d ->
      responseSequenceCounter x = (if conn_eqb (connection d) c_SELF then m_counter c else getExtraDestData c) ->
      answersNow id l c (if responseSequenceCounter x =? grantedIteration x then set_updateRequested false x else x)).
    { intros x X1 X2 X3. destruct (_ =? _); unfold answersNow; cbn [connection fedID responseSequenceCounter d_td set_updateRequested]; rewrite X1, X2; (split; [exact H2|]);
        (split; [exact Sc|]); (split; [auto|]); rewrite X3; destruct (connection d); auto. }
    apply X; destruct (checkFlag non_granting_flag c), (ts_eqb (tst d) ts_time_granted); reflexivity.
Qed.
Definition tracedBy (id : Z) (l l' : table) (e : bevent) : Prop :=
  forall d', In d' l' -> traced id l d' \/ exists c, evCmd e = Some c /\ answersNow id l c d'.
Lemma traced_refl id l : selfOnly id l -> okT (traced id l) l.
Proof. intros S d I. split; [left; exists d; auto|apply S, I]. Qed.
Lemma updateTime_traced id l0 l c e : evCmd e = Some c -> okT (traced id l0) l -> tracedBy id l0 (fst (updateTime l c)) e.
Proof.
  intros E O. unfold updateTime. destruct (getDep l (m_source_id c)); [|intros d' I; left; apply O, I]. destruct (negb _); [intros d' I; left; apply O, I|].
  cbn [fst]. apply (upd_ok (fun d' => traced id l0 d' \/ exists c, evCmd e = Some c /\ answersNow id l0 c d')).
  - intros x I. left. apply O, I.
  - intros x I F _. destruct (process_traced id l0 c x (O x I) (eq_sym F)) as [T|T]; [left; exact T|right; eauto].
Qed.

(** the part of a step before [gUpdate] *)
Definition harmless (out : list amsg) : Prop := forall m, In m out -> m_action m <> CMD_TIME_REQUEST /\ m_action m <> CMD_REQUEST_CURRENT_TIME.
Definition mid (g : gco) (e : bevent) (g1 : gco) : Prop :=
  g_id g1 = g_id g /\ g_seq g1 = g_seq g /\ g_st g1 = g_st g /\ g_next g1 = g_next g /\ g_rounds g1 = g_rounds g
  /\ (g_new g1 = true \/ g_new g1 = g_new g /\ ~ newRequest g e)
  /\ (selfOnly (g_id g) (g_deps g) -> tracedBy (g_id g) (g_deps g) (g_deps g1) e).
Definition tail (g2 g3 : gco) (o : list amsg) : Prop :=
  harmless o /\ g_id g3 = g_id g2 /\ g_deps g3 = g_deps g2 /\ g_seq g3 = g_seq g2 /\ g_new g3 = g_new g2 /\ g_rounds g3 = g_rounds g2
  /\ (g_st g3 = ts_time_requested -> g_st g2 = ts_time_requested /\ g_next g3 = g_next g2).
Definition act (g1 g2 : gco) (o : list amsg) : Prop :=
  g_id g2 = g_id g1 /\ (quietStep g1 g2 o \/ roundStep g1 g2 o \/ permitStep g1 g2 o).

Lemma harmless_nil : harmless [].
Proof. intros m []. Qed.
Lemma harmless_app a b : harmless a -> harmless b -> harmless (a ++ b).
Proof. intros A B m I. apply in_app_or in I as [I|I]; auto. Qed.
Lemma act_none g : act g g [].
Proof. split; [reflexivity|]. left. unfold quietStep. auto 10. Qed.
Lemma tail_none g : tail g g [].
Proof. unfold tail. pose proof harmless_nil. auto 10. Qed.
Lemma act_update g : act g (fst (gUpdate g)) (snd (gUpdate g)).
Proof. destruct (gUpdate_cases g) as (A & _ & _ & _ & B). split; assumption. Qed.
Lemma execEntry_tail g : tail g (fst (fst (gExecEntry g))) (snd (fst (gExecEntry g))).
Proof.
  unfold gExecEntry. destruct (g_checking g && gExecAllowed g); [|apply tail_none]. cbn [fst snd]. unfold tail. cbn.
  split; [|do 5 (split; [reflexivity|]); discriminate].
  intros m I. apply in_app_or in I as [I|I]; apply in_map_iff in I as (d & <- & _); split; discriminate.
Qed.
Lemma note_tail g : tail g (fst (gNote (gExecEntry g))) (snd (gNote (gExecEntry g))).
Proof.
  pose proof (execEntry_tail g) as T. destruct (gExecEntry g) as [[g3 o] b]. cbn [fst snd gNote] in *. destruct b; exact T.
Qed.
Lemma tail_entered g2 g3 o b : tail g2 g3 o -> tail g2 (set_g_entered b g3) o.
Proof. intros T. exact T. Qed.
Lemma processNew c (d : dinfo) : m_action c = CMD_TIME_REQUEST -> tst d = ts_time_granted -> (checkFlag delayed_timing_flag c = true -> delayedTiming d = true) ->
  snd (processMessage c d) = PROCESSED_NEW_REQUEST.
Proof.
  intros A T D. unfold processMessage. rewrite A. change (tkind_of CMD_TIME_REQUEST) with k_time_request. cbv iota zeta. cbn [snd]. rewrite T. change (ts_eqb ts_time_granted ts_time_granted) with true. cbv iota.
  destruct (checkFlag delayed_timing_flag c); [|reflexivity]. cbn [andb]. change (delayedTiming (updTD (set_lastGrant (next d)) d)) with (delayedTiming d). rewrite D; reflexivity.
Qed.
Lemma message_mid g c e : evCmd e = Some c -> mid g e (fst (fst (gMessage g c))) /\ harmless (snd (fst (gMessage g c))).
Proof.
  intros E. unfold gMessage. set (g0 := if fwdRemoves (m_action c) then _ else g).
  assert (G0 : g_id g0 = g_id g /\ g_seq g0 = g_seq g /\ g_st g0 = g_st g /\ g_next g0 = g_next g /\ g_rounds g0 = g_rounds g /\ g_new g0 = g_new g)
    by (unfold g0; destruct (fwdRemoves _); repeat split; reflexivity).
  assert (O : selfOnly (g_id g) (g_deps g) -> okT (traced (g_id g) (g_deps g)) (g_deps g0)).
  { intros S. unfold g0. destruct (fwdRemoves _); [|apply traced_refl, S]. apply (removeDependent_ok (g_id g)); [apply keeps_traced|apply traced_refl, S]. }
  assert (U : selfOnly (g_id g) (g_deps g) -> tracedBy (g_id g) (g_deps g) (fst (updateTime (g_deps g0) c)) e) by (intros S; apply (updateTime_traced _ _ _ c); auto).
  assert (N : newRequest g e -> snd (updateTime (g_deps g0) c) = PROCESSED_NEW_REQUEST).
  { intros (c' & d & -> & A & Gd & Dd & T & F). cbn in E. injection E as <-. unfold g0. rewrite A. change (fwdRemoves CMD_TIME_REQUEST) with false. cbv iota.
    unfold updateTime. rewrite Gd, Dd. cbn [negb snd]. apply processNew; assumption. }
  destruct (updateTime (g_deps g0) c) as [deps r]. cbn [fst snd] in U, N. destruct G0 as (G1 & G2 & G3 & G4 & G5 & G6).
  assert (MN : (r = PROCESSED_NEW_REQUEST -> False) -> mid g e (set_g_deps deps g0)).
  { intros Q. unfold mid. cbn. do 5 (split; [assumption|]). split; [|exact U]. right. split; [exact G6|]. intros X. exact (Q (N X)). }
  destruct r; cbn [fst snd]; try (split; [apply MN; discriminate|apply harmless_nil]).
  - split; [apply MN; discriminate|]. destruct (checkForIssues false deps); [|apply harmless_nil]. intros m [<-|[]]. split; discriminate.
  - split; [|apply harmless_nil]. unfold mid. cbn. do 5 (split; [assumption|]). split; [|exact U]. left. reflexivity.
Qed.
Lemma table_mid g e f : (forall w, okW (g_id g) (traced (g_id g) (g_deps g)) w -> okW (g_id g) (traced (g_id g) (g_deps g)) (f w)) -> evCmd e = None -> mid g e (onTable f g).
Proof.
  intros F E. unfold mid. do 5 (split; [reflexivity|]). split.
  - right. split; [reflexivity|]. intros (c & d & -> & _). discriminate.
  - intros S d' I. left. revert d' I. apply (onTable_ok (g_id g)); auto. apply traced_refl, S.
Qed.
Lemma mid_none g e : ~ newRequest g e -> mid g e g.
Proof.
  intros N. unfold mid. do 5 (split; [reflexivity|]). split; [auto|]. intros S d' I. left. apply traced_refl; assumption.
Qed.

(** one step: the message, then nothing, a round or the permission, then possibly the exec grant *)
Lemma gstep_parts g e : exists g1 g2 o1 o2 o3,
  mid g e g1 /\ harmless o1 /\ act g1 g2 o2 /\ tail g2 (fst (gstep g e)) o3 /\ snd (gstep g e) = o1 ++ o2 ++ o3.
Proof.
  assert (UP : forall g1 o1, mid g e g1 -> harmless o1 -> exists ga gb oa ob oc, mid g e ga /\ harmless oa /\ act ga gb ob
     /\ tail gb (fst (let '(g, o) := gUpdate g1 in (g, o1 ++ o))) oc /\ snd (let '(g, o) := gUpdate g1 in (g, o1 ++ o)) = oa ++ ob ++ oc).
  { intros g1 o1 M H. pose proof (act_update g1) as A. destruct (gUpdate g1) as [g2 o2]. cbn [fst snd] in *. exists g1, g2, o1, o2, [].
    rewrite app_nil_r. pose proof (tail_none g2). auto 10. }
  assert (EN : forall g1 o1, mid g e g1 -> harmless o1 -> exists ga gb oa ob oc, mid g e ga /\ harmless oa /\ act ga gb ob
     /\ tail gb (fst (let '(g, o) := gNote (gExecEntry g1) in (g, o1 ++ o))) oc /\ snd (let '(g, o) := gNote (gExecEntry g1) in (g, o1 ++ o)) = oa ++ ob ++ oc).
  { intros g1 o1 M H. pose proof (note_tail g1) as A. destruct (gNote (gExecEntry g1)) as [g2 o2]. cbn [fst snd] in *. exists g1, g1, o1, [], o2.
    pose proof (act_none g1). auto 10. }
  assert (NO : forall g1 o1, mid g e g1 -> harmless o1 -> exists ga gb oa ob oc, mid g e ga /\ harmless oa /\ act ga gb ob
     /\ tail gb g1 oc /\ o1 = oa ++ ob ++ oc).
  { intros g1 o1 M H. exists g1, g1, o1, [], []. rewrite !app_nil_r. pose proof (act_none g1). pose proof (tail_none g1). auto 10. }
  destruct e as [c|c|c|c|c|x|x|]; cbn [gstep].
  - pose proof (message_mid g c (B_timing c) eq_refl) as [M H]. destruct (gMessage g c) as [[g1 o1] r]. cbn [fst snd] in M, H.
    destruct (tprProcessed r); cbn [negb]; [|apply NO; assumption]. destruct (g_entered g1); [apply UP; assumption|]. destruct (g_operating g1); [apply EN; assumption|apply NO; assumption].
  - pose proof (message_mid g c (B_exec c) eq_refl) as [M H]. destruct (gMessage g c) as [[g1 o1] r]. cbn [fst snd] in M, H.
    destruct (tprProcessed r); cbn [negb]; [|apply NO; assumption]. destruct (negb (g_entered g1) && g_operating g1); [|apply NO; assumption].
    destruct (gExecEntry g1) as [[g2 o2] b] eqn:Q. destruct b.
    + pose proof (execEntry_tail g1) as T. rewrite Q in T. cbn [fst snd] in *. exists g1, g1, o1, [], o2. pose proof (act_none g1). auto 10.
    + assert (g2 = g1 /\ o2 = []) as [-> ->]. { unfold gExecEntry in Q. destruct (g_checking g1 && gExecAllowed g1); [discriminate|]. injection Q as <- <-. auto. }
      specialize (UP g1 o1 M H). destruct (gUpdate g1) as [g3 o3]. exact UP.
  - pose proof (message_mid g c (B_disconnect c) eq_refl) as [M H]. destruct (negb (g_entered g)).
    + destruct (g_operating g); [|apply NO; [apply mid_none|apply harmless_nil]; intros (? & ? & Q & _); discriminate Q].
      destruct (gMessage g c) as [[g1 o1] r]. cbn [fst snd] in M, H. destruct (tprProcessed r); [apply EN; assumption|apply NO; assumption].
    + destruct (gMessage g c) as [[g1 o1] r]. cbn [fst snd] in M, H. destruct (tprProcessed r); [apply UP; assumption|apply NO; assumption].
  - pose proof (message_mid g c (B_error c) eq_refl) as [M H]. destruct (gMessage g c) as [[g1 o1] r]. cbn [fst snd] in M, H. apply NO; assumption.
  - apply NO; [|apply harmless_nil]. apply table_mid; [|reflexivity]. intros w. apply fwdDep_ok, keeps_traced.
  - apply NO; [|apply harmless_nil]. apply table_mid; [|reflexivity]. intros w W. cbn [bstep fst].
    apply (fwdConnection_ok (g_id g)); [apply keeps_traced|auto|]. apply (fwdDependent_ok (g_id g)); [apply keeps_traced|]. apply (fwdAdd_ok (g_id g)); [apply keeps_traced|exact W].
  - apply NO; [|apply harmless_nil]. apply table_mid; [|reflexivity]. intros w W. cbn [bstep].
    pose proof (fwdAdd_ok (g_id g) _ (keeps_traced (g_id g) (g_deps g)) w x W) as A. destruct (fwdAddDependency w x) as [w1 ad]. cbn [fst] in *. destruct ad; [|exact A].
    apply (fwdConnection_ok (g_id g)); [apply keeps_traced|auto|]. apply (fwdDependent_ok (g_id g)); [apply keeps_traced|exact A].
  - set (g0 := set_g_operating true g). assert (M0 : mid g B_init g) by (apply mid_none; intros (? & ? & Q & _); discriminate Q). assert (M1 : mid g B_init g0) by exact M0. clear M0. rename M1 into M0.
    assert (E : exists ga gb oa ob oc, mid g B_init ga /\ harmless oa /\ act ga gb ob /\ tail gb (fst (gEnteringExec g0)) oc /\ snd (gEnteringExec g0) = oa ++ ob ++ oc).
    { unfold gEnteringExec. destruct (g_exec g0); [apply (NO g0 []); [exact M0|apply harmless_nil]|].
      set (g1 := set_g_checking true g0). assert (M1 : mid g B_init g1) by exact M0.
      assert (HT : forall l, harmless (map (fun d : dinfo => set_m_dest_id (fedID d) (setExtraData 1 (newMsg CMD_TIMING_INFO (g_id l)))) (filter dependent (g_deps l))))
        by (intros l m I; apply in_map_iff in I as (d & <- & _); split; discriminate).
      destruct (g_deps g1) eqn:D.
      - cbn [fst snd app]. exists g1, g1, [], [], (map (fun d : dinfo => set_m_dest_id (fedID d) (setExtraData 1 (newMsg CMD_TIMING_INFO (g_id g1)))) (filter dependent (g_deps g1))).
        split; [exact M1|]. split; [apply harmless_nil|]. split; [apply act_none|]. split; [|reflexivity]. split; [apply HT|]. repeat split; auto.
      - clear D. pose proof (act_update g1) as A. destruct (gUpdate g1) as [g2 o2]. cbn [fst snd] in A. destruct (checkForIssues false (g_deps g2)); cbn [fst snd].
        + eexists g1, g2, [], o2, _. split; [exact M1|]. split; [apply harmless_nil|]. split; [exact A|]. split; [|reflexivity]. split; [|repeat split; auto].
          intros m [<-|[]]. split; discriminate.
        + eexists g1, g2, [], o2, _. split; [exact M1|]. split; [apply harmless_nil|]. split; [exact A|]. split; [|reflexivity]. split; [apply HT|repeat split; auto]. }
    destruct E as (ga & gb & oa & ob & oc & E1 & E2 & E3 & E4 & E5). destruct (gEnteringExec g0) as [gm om]. cbn [fst snd] in E4, E5.
    pose proof (note_tail gm) as T. destruct (gNote (gExecEntry gm)) as [g3 o3]. cbn [fst snd] in *. exists ga, gb, oa, ob, (oc ++ o3).
    split; [exact E1|]. split; [exact E2|]. split; [exact E3|]. split; [|rewrite E5, <- !app_assoc; reflexivity].
    destruct E4 as (A1 & A2 & A3 & A4 & A5 & A6 & A7), T as (B1 & B2 & B3 & B4 & B5 & B6 & B7). split; [apply harmless_app; assumption|].
    repeat (split; [congruence|]). intros X. destruct (B7 X) as [Y1 Y2]. destruct (A7 Y1) as [Z1 Z2]. split; [exact Z1|congruence].
Qed.
