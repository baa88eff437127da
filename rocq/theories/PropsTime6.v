(** * Property C07: iteration ends at the iteration limit *)
From Coq Require Import ZArith Bool List Lia ZifyBool.
From Verif Require Import HTime Action TimeDep TimeDepProofs TimeCoord TimeCoordProofs TimeProc TimeProcProofs TimeInitProofs TimeInv TimeAnswer TimeGrid PropsTime1 TimeTable MinTimeProofs TimeNotice NoticeStep Examples1 PropsTime2 PropsTime5.
Import ListNotations.
Open Scope Z_scope.

(** ** Which operations change the iteration counter *)
Definition ict (c : tc) := (c_iteration c, c_dynamic c).
Lemma send_ict c t : ict (fst (sendTimeRequest c t)) = ict c.
Proof.
  unfold sendTimeRequest. unfold checkAndSendTimeRequest.
  match goal with |- context [if ?b then _ else _] => destruct b end.
  - destruct (transmit c _ _) as [o s]. destruct (_ && _); reflexivity.
  - destruct (isValidId t); [|reflexivity]. destruct (getDep (c_deps c) t) as [d|]; [destruct (dependent d)|]; reflexivity.
Qed.
Lemma ptm_ict c cmd : ict (fst (fst (processTimeMessage c cmd))) = ict c.
Proof.
  unfold processTimeMessage.
  destruct (isBlockCmd _). { unfold processTimeBlockMessage. repeat match goal with |- context [if ?b then _ else _] => destruct b end; reflexivity. }
  destruct (_ =? CMD_FORCE_TIME_GRANT). { destruct (_ <? _); reflexivity. }
  destruct (_ =? CMD_REQUEST_CURRENT_TIME). { destruct (_ || _); [reflexivity|]. cbn zeta. destruct (_ && _); reflexivity. }
  cbn zeta. destruct (removesDependent _); destruct (updateTime _ cmd) as [d r]; destruct r; reflexivity.
Qed.
Lemma disconnect_ict c : ict (fst (disconnect c)) = ict c.
Proof.
  unfold disconnect. destruct (c_disconnected c); [reflexivity|]. cbv zeta. destruct (existsb _ _); [|reflexivity].
  pose proof (ptm_ict c (set_m_dest_id (c_id c) (newMsg CMD_DISCONNECT (c_id c)))) as P. destruct (processTimeMessage c _) as [[c1 o] r]. exact P.
Qed.
Lemma localError_ict c : ict (fst (localError c)) = ict c.
Proof.
  unfold localError. destruct (c_disconnected c); [reflexivity|].
  set (c1 := set_c_granted maxVal _). destruct (c_deps c1) eqn:E; [reflexivity|]. rewrite <- E. clear E.
  pose proof (ptm_ict c1 (set_m_dest_id (c_id c1) (newMsg CMD_LOCAL_ERROR (c_id c1)))) as P.
  destruct (existsb _ _); [|reflexivity]. destruct (processTimeMessage c1 _) as [[c2 o2] r2]. exact P.
Qed.
Lemma value_ict c t b : ict (fst (updateValueTime c t b)) = ict c.
Proof.
  unfold updateValueTime. destruct (negb (c_execMode c)); [destruct (t <? timeZero); reflexivity|].
  set (c1 := if t <=? c_granted c then set_c_hasIter true c else c).
  assert (F : ict c1 = ict c) by (unfold c1; destruct (t <=? c_granted c); reflexivity). clearbody c1.
  destruct (t <? c_value c1); [|exact F].
  match goal with |- context [if ?b then _ else _] => destruct b end; [|exact F].
  assert (N : ict (fst (updateNextExecutionTime (set_c_value (clampData c1 t) c1))) = ict c) by exact F.
  destruct (updateNextExecutionTime _) as [c2 ch]. cbn [fst] in N.
  destruct (ch && b); [|exact N]. rewrite send_ict. exact N.
Qed.
Lemma message_ict c t b : ict (fst (updateMessageTime c t b)) = ict c.
Proof.
  unfold updateMessageTime. destruct (negb (c_execMode c)); [destruct (t <? timeZero); reflexivity|].
  set (c1 := if t <=? c_granted c then set_c_hasIter true c else c).
  assert (F : ict c1 = ict c) by (unfold c1; destruct (t <=? c_granted c); reflexivity). clearbody c1.
  destruct (t <? c_message c1); [|exact F].
  match goal with |- context [if ?b then _ else _] => destruct b end; [|exact F].
  assert (N : ict (fst (updateNextExecutionTime (set_c_message (clampData c1 t) c1))) = ict c) by exact F.
  destruct (updateNextExecutionTime _) as [c2 ch]. cbn [fst] in N.
  destruct (ch && b); [|exact N]. rewrite send_ict. exact N.
Qed.
Lemma depUpdate_ict c cmd : ict (processDependencyUpdateMessage c cmd) = ict c.
Proof.
  rewrite depUpdate_eq. assert (F : ict (fst (depUpdateFirst c cmd)) = ict c).
  { unfold depUpdateFirst. assert (TA : ict (fst (tcAddDependency c (m_source_id cmd))) = ict c) by (unfold tcAddDependency; destruct (addDependency _ _); reflexivity).
    repeat match goal with |- context [if ?b then _ else _] => destruct b; try reflexivity; try exact TA end.
    destruct (tcAddDependency c _). exact TA. }
  destruct (depUpdateFirst c cmd) as [c1 a]. cbn [fst] in F. destruct a; [|exact F]. cbv zeta.
  assert (SC : forall c k, ict (setConnection c (m_source_id cmd) k) = ict c) by (intros c2 k; unfold setConnection; destruct (_ =? _); reflexivity).
  destruct (checkFlag child_flag cmd), (checkFlag parent_flag cmd), (0 <? m_counter cmd); unfold setVersion;
    repeat match goal with |- ict (set_c_deps _ ?x) = _ => change (ict (set_c_deps _ x)) with (ict x) end; rewrite ?SC; exact F.
Qed.
Lemma upd_ict c : ict (fst (updateTimeGrant c)) = ict c.
Proof. unfold updateTimeGrant. destruct (is_force_iter _), (is_no_iter _); reflexivity. Qed.
Lemma factors_ict c : ict (fst (updateTimeFactors c)) = ict c. Proof. reflexivity. Qed.
(** a grant attempt: completed steps reset the counter, iterations count *)
Definition counts (c c' : tc) (r : mpr) : Prop :=
  match r with NEXT_STEP => c_iteration c' = 0 | ITERATING => c_iteration c' = c_iteration c + 1 | _ => c_iteration c' = c_iteration c end
  /\ c_dynamic c' = c_dynamic c.
Lemma ict_counts c c' r : ict c' = ict c -> r = CONTINUE_PROCESSING \/ r = HALTED -> counts c c' r.
Proof. unfold ict, counts. intros E [->| ->]; injection E; auto. Qed.
Lemma actOn_counts c sa r t : let '(c', out, r') := actOn c sa r t in counts c c' r'.
Proof.
  unfold actOn. destruct r.
  - destruct sa; [|destruct (_ && _)].
    + pose proof (send_ict c invalidId) as S. destruct (sendTimeRequest c invalidId). apply ict_counts; auto.
    + pose proof (send_ict c t) as S. destruct (sendTimeRequest c t). apply ict_counts; auto.
    + apply ict_counts; auto.
  - destruct (is_force_iter (c_iterating c)).
    + match goal with |- context [updateTimeGrant ?x] => pose proof (upd_ict x) as U; destruct (updateTimeGrant x) as [c' o] end.
      unfold ict in U. injection U as U1 U2. split; assumption.
    + unfold grantStep. match goal with |- context [updateTimeGrant ?x] => pose proof (upd_ict x) as U; destruct (updateTimeGrant x) as [c' o] end.
      unfold ict in U. injection U as U1 U2. split; assumption.
  - match goal with |- context [updateTimeGrant ?x] => pose proof (upd_ict x) as U; destruct (updateTimeGrant x) as [c' o] end.
    unfold ict in U. injection U as U1 U2. split; assumption.
  - apply ict_counts; auto.
Qed.
Lemma apply_ict k rs c sa al : ict (fst (fst (applyRestriction k rs c sa al))) = ict c.
Proof. unfold applyRestriction. destruct (r_allowed k); [destruct (_ || _); [|destruct (negb _)]|destruct (r_advance k)]; reflexivity. Qed.
Lemma counts_ict c0 c c' r : ict c = ict c0 -> counts c c' r -> counts c0 c' r.
Proof. unfold ict, counts. intros E. injection E as E1 E2. rewrite E1, E2. auto. Qed.
Lemma step_counts c0 c : ict c = ict c0 -> let '(c', out, r) := grantStep c in counts c0 c' r.
Proof.
  intros E. unfold grantStep. match goal with |- context [updateTimeGrant ?x] => pose proof (upd_ict x) as U; destruct (updateTimeGrant x) as [c' o] end.
  unfold ict in *. injection U as U1 U2. injection E as E1 E2. split; [exact U1|]. rewrite U2. exact E2.
Qed.
Lemma grant_counts c t : let '(c', out, r) := checkTimeGrant c t in counts c c' r.
Proof.
  unfold checkTimeGrant. pose proof (factors_ict c) as F. generalize dependent (fst (updateTimeFactors c)). intros c1 F.
  assert (G : let '(c', out, r) := grantFrom c1 t in counts c1 c' r).
  2: { destruct (grantFrom c1 t) as [[c' o] r]. eapply counts_ict; [|exact G]. exact F. }
  clear F c. unfold grantFrom.
  assert (RF : let '(c', out, r) := refuse c1 t in counts c1 c' r).
  { unfold refuse. destruct (_ && _); [|apply ict_counts; auto]. pose proof (send_ict c1 t) as S. destruct (sendTimeRequest c1 t). apply ict_counts; auto. }
  destruct ((cTerminationTime <=? c_exec c1) && _).
  { pose proof (disconnect_ict (set_c_granted maxVal (set_c_grantBase maxVal c1))) as D. destruct (disconnect _) as [c' o]. apply ict_counts; auto. }
  destruct (_ && _); [exact RF|]. destruct (_ && _); [exact RF|]. clear RF.
  assert (E0 : ict (set_c_needSendAll false c1) = ict c1) by reflexivity.
  assert (AC : forall sa r, let '(c', out, r') := actOn (set_c_needSendAll false c1) sa r t in counts c1 c' r').
  { intros sa r. pose proof (actOn_counts (set_c_needSendAll false c1) sa r t) as A. destruct (actOn _ sa r t) as [[c' o] r']. eapply counts_ict; [exact E0|exact A]. }
  assert (GS : let '(c', out, r') := grantStep (set_c_needSendAll false c1) in counts c1 c' r') by (apply step_counts; reflexivity).
  set (c2 := set_c_needSendAll false c1) in *.
  assert (UG : forall c3, ict c3 = (c_iteration c1 + 1, c_dynamic c1) -> let '(c', out) := updateTimeGrant c3 in counts c1 c' ITERATING).
  { intros c3 E3. pose proof (upd_ict c3) as U. destruct (updateTimeGrant c3) as [c' o]. cbn [fst] in U. rewrite E3 in U. unfold ict in U. injection U as U1 U2. split; assumption. }
  assert (UN : forall c3, ict c3 = (0, c_dynamic c1) -> let '(c', out) := updateTimeGrant c3 in counts c1 c' NEXT_STEP).
  { intros c3 E3. pose proof (upd_ict c3) as U. destruct (updateTimeGrant c3) as [c' o]. cbn [fst] in U. rewrite E3 in U. unfold ict in U. injection U as U1 U2. split; assumption. }
  destruct (c_iterating c2).
  - repeat match goal with |- context [if ?b then _ else _] => destruct b; try exact GS; try apply AC end.
  - destruct (c_exec c2 <? c_allow c2).
    + destruct (_ || _).
      { match goal with |- context [updateTimeGrant ?x] => pose proof (UG x eq_refl) as U; destruct (updateTimeGrant x) as [c' o] end. exact U. }
      destruct (is_force_iter _).
      { match goal with |- context [updateTimeGrant ?x] => pose proof (UG x eq_refl) as U; destruct (updateTimeGrant x) as [c' o] end. exact U. }
      match goal with |- context [updateTimeGrant ?x] => pose proof (UN x eq_refl) as U; destruct (updateTimeGrant x) as [c' o] end. exact U.
    + destruct (c_allow c2 =? c_exec c2); [|apply AC].
      assert (ID : forall sa, ict (fst (fst (iterDecision c2 sa))) = ict c1).
      { intros sa. unfold iterDecision. destruct (_ =? _); [destruct (_ && _); reflexivity|]. destruct (checkIfReadyForTimeGrant _ _ _ _); [|reflexivity].
        destruct (c_hasIter c2); [reflexivity|]. destruct (_ <? _); [reflexivity|]. rewrite apply_ict. reflexivity. }
      specialize (ID (c_needSendAll c1)). destruct (iterDecision c2 _) as [[c3 sa] r]. cbn [fst] in ID.
      pose proof (actOn_counts c3 sa r t) as A. destruct (actOn c3 sa r t) as [[c' o] r']. eapply counts_ict; eassumption.
  - destruct (c_exec c2 <? c_allow c2).
    + destruct (_ || _).
      { match goal with |- context [updateTimeGrant ?x] => pose proof (UG x eq_refl) as U; destruct (updateTimeGrant x) as [c' o] end. exact U. }
      destruct (is_force_iter _).
      { match goal with |- context [updateTimeGrant ?x] => pose proof (UG x eq_refl) as U; destruct (updateTimeGrant x) as [c' o] end. exact U. }
      match goal with |- context [updateTimeGrant ?x] => pose proof (UN x eq_refl) as U; destruct (updateTimeGrant x) as [c' o] end. exact U.
    + destruct (c_allow c2 =? c_exec c2); [|apply AC].
      assert (ID : forall sa, ict (fst (fst (iterDecision c2 sa))) = ict c1).
      { intros sa. unfold iterDecision. destruct (_ =? _); [destruct (_ && _); reflexivity|]. destruct (checkIfReadyForTimeGrant _ _ _ _); [|reflexivity].
        destruct (c_hasIter c2); [reflexivity|]. destruct (_ <? _); [reflexivity|]. rewrite apply_ict. reflexivity. }
      specialize (ID (c_needSendAll c1)). destruct (iterDecision c2 _) as [[c3 sa] r]. cbn [fst] in ID.
      pose proof (actOn_counts c3 sa r t) as A. destruct (actOn c3 sa r t) as [[c' o] r']. eapply counts_ict; eassumption.
  - apply AC.
  - apply AC.
Qed.

Lemma prim_ict e c c' : prim e c c' -> ict c' = ict c.
Proof.
  intros H. destruct H as [c cmd E NF|c cmd k E D|c t c' out E _|c cmd t b E|c cmd t b E|c p v E|c g v E|c v E|c g E|c g E|c g E|c cmd E|c E].
  - apply ptm_ict.
  - apply ptm_ict.
  - pose proof (grant_counts c t) as G. rewrite E in G. destruct G as [G1 G2]. unfold ict. congruence.
  - apply value_ict.
  - apply message_ict.
  - reflexivity.
  - reflexivity.
  - reflexivity.
  - unfold tcAddDependency. destruct (addDependency _ _); reflexivity.
  - reflexivity.
  - reflexivity.
  - apply depUpdate_ict.
  - apply disconnect_ict.
Qed.
Lemma prims_ict e c c' : prims e c c' -> ict c' = ict c.
Proof. intros H. exact (prims_inv e (fun x => ict x = ict c) (fun a b P Q => eq_trans (prim_ict e a b P) Q) c c' H eq_refl). Qed.

(** ** Initialization *)
Lemma execDecision_limit c sa : let '(c', sa', r) := execDecision c sa in
  r = ITERATING -> is_force_iter (c_iterating c) = false -> c_iteration c < o_maxIterations (c_opts c).
Proof.
  unfold execDecision. assert (AR : forall k b, is_force_iter (c_iterating c) = false -> snd (applyRestriction k b c sa (if is_force_iter (c_iterating c) then ITERATING else NEXT_STEP)) <> ITERATING).
  { intros k b F. rewrite F. unfold applyRestriction. destruct (r_allowed k); [destruct (_ || _); [|destruct (negb _)]|destruct (r_advance k)]; discriminate. }
  destruct (c_iterating c) eqn:IT; cbn [is_force_iter] in *.
  - destruct (negb _); [discriminate|]. destruct (_ <? _); discriminate.
  - destruct (Z.leb_spec (o_maxIterations (c_opts c)) (c_iteration c)); [discriminate|]. destruct (c_hasInit c); [auto|].
    destruct (_ || _); [discriminate|]. destruct (applyRestriction _ _ _ _ _) as [[c' sa'] r]. discriminate.
  - destruct (Z.leb_spec (o_maxIterations (c_opts c)) (c_iteration c)); [discriminate|]. destruct (c_hasInit c); [auto|].
    match goal with |- context [if ?b then _ else _] => destruct b end; [discriminate|].
    specialize (AR (checkExecEntryRestriction (c_deps c) (c_id c) (c_seq c) (o_wait (c_opts c)) (o_restrictive (c_opts c))) (o_restrictive (c_opts c)) eq_refl).
    destruct (applyRestriction _ _ _ _ _) as [[c' sa'] r]. cbn [snd] in AR. congruence.
  - discriminate.
  - discriminate.
Qed.
Lemma exec_counts c t : let '(c', out, r) := checkExecEntry c t in
  c_dynamic c' = c_dynamic c
  /\ (r = ITERATING -> is_force_iter (c_iterating c) = false -> c_iteration c < o_maxIterations (c_opts c))
  /\ (c_dynamic c = false -> match r with ITERATING => c_iteration c' = c_iteration c + 1 | NEXT_STEP => True | _ => c_iteration c' = c_iteration c end).
Proof.
  unfold checkExecEntry. destruct (c_block c <=? timeZero); [repeat split; discriminate|].
  match goal with |- context [if ?b then _ else _] => destruct b end.
  { match goal with |- context [if ?b then _ else _] => destruct b end; [|repeat split; discriminate].
    match goal with |- context [if ?b then _ else _] => destruct b end; [|repeat split; discriminate].
    match goal with |- context [if ?b then _ else _] => destruct b end; [repeat split; discriminate|].
    destruct (getDep _ _); repeat split; discriminate. }
  set (c0 := set_c_needSendAll false c).
  pose proof (execDecision_limit c0 (c_needSendAll c)) as L. pose proof (execDecision_core c0 (c_needSendAll c)) as K.
  destruct (execDecision c0 (c_needSendAll c)) as [[c1 sa] r]. destruct K as (_&_&_&K1&K2).
  assert (EA : c_dynamic (fst (execAct c1 r)) = c_dynamic c1 /\ (c_dynamic c1 = false -> match r with ITERATING => c_iteration (fst (execAct c1 r)) = c_iteration c1 + 1 | NEXT_STEP => True | _ => c_iteration (fst (execAct c1 r)) = c_iteration c1 end)).
  { unfold execAct. destruct (c_dynamic c1) eqn:D; cbn [negb]; destruct r; try (split; [exact D|discriminate]); split; auto. }
  destruct (execAct c1 r) as [c2 o1]. cbn [fst] in EA. destruct EA as [EA1 EA2].
  assert (EF : ict (fst (execFollowUp c2 sa r t)) = ict c2).
  { unfold execFollowUp. destruct r; try reflexivity. destruct (_ && _); [|reflexivity]. destruct sa; [reflexivity|]. destruct (_ =? _); [reflexivity|].
    destruct (_ && _); [reflexivity|]. destruct (getDep _ _); reflexivity. }
  destruct (execFollowUp c2 sa r t) as [c3 o2]. cbn [fst] in EF. unfold ict in EF. injection EF as E1 E2.
  change (c_iteration c0) with (c_iteration c) in *. change (c_dynamic c0) with (c_dynamic c) in *.
  change (c_opts c0) with (c_opts c) in *. change (c_iterating c0) with (c_iterating c) in *.
  split; [congruence|]. split; [exact L|]. intros D. specialize (EA2 ltac:(congruence)).
  destruct r; auto; congruence.
Qed.

(** the application does not force iterations and does not change the limit *)
Definition neverForces (e : event) : Prop := e <> Ev_enterExec FORCE_ITERATION.
Definition keepsLimit (e : event) : Prop := forall v, e <> Ev_maxIter v.
(** while a federate is not executing: it is within the limit *)
Definition within (M : Z) (c : tc) : Prop :=
  o_maxIterations (c_opts c) = M /\ is_force_iter (c_iterating c) = false /\ (c_dynamic c = false -> 0 <= c_iteration c <= Z.max 0 M).
Lemma core_within M c c' : core c' = core c -> ict c' = ict c -> within M c -> within M c'.
Proof. intros K I (W1&W2&W3). unfold ict in I. injection I as I1 I2. core_inv K. unfold within. rewrite I1, I2. repeat split; try congruence; apply W3; assumption. Qed.
Lemma setTime_max p v o : o_maxIterations (setTimeProperty p v o) = o_maxIterations o.
Proof. unfold setTimeProperty. destruct p; try reflexivity. Qed.
Lemma setFlag_max g v o : o_maxIterations (setOptionFlag g v o) = o_maxIterations o.
Proof. unfold setOptionFlag. destruct g; try reflexivity. Qed.
Lemma prim_within M e c c' : keepsLimit e -> prim e c c' -> within M c -> within M c'.
Proof.
  intros KL P W. pose proof (prim_ict _ _ _ P) as I. pose proof (prim_cstep _ _ _ P) as CS.
  destruct W as (W1&W2&W3). unfold ict in I. injection I as I1 I2. unfold within. rewrite I1, I2.
  enough (Q : o_maxIterations (c_opts c') = M /\ is_force_iter (c_iterating c') = false) by (destruct Q; auto).
  destruct CS as [K|cmd t E L K|cmd t E L K|q v E K|gg v E K|v E K]; unfold core in K; cbn in K; core_inv K; try subst e; try (split; congruence).
  - split; [etransitivity; [apply (f_equal o_maxIterations); eassumption|rewrite setTime_max; exact W1]|congruence].
  - split; [etransitivity; [apply (f_equal o_maxIterations); eassumption|rewrite setFlag_max; exact W1]|congruence].
  - destruct (KL v eq_refl).
Qed.
Lemma localError_within M c : within M c -> within M (fst (localError c)).
Proof.
  intros (W1&W2&W3). pose proof (localError_ict c) as I. unfold ict in I. injection I as I1 I2. unfold within. rewrite I1, I2.
  enough (Q : c_opts (fst (localError c)) = c_opts c /\ c_iterating (fst (localError c)) = c_iterating c) by (destruct Q as [Q1 Q2]; rewrite Q1, Q2; auto).
  destruct (localError_core c) as [->|K]; [auto|]. core_inv K. auto.
Qed.
Lemma iprim_within M e c c' : keepsLimit e -> neverForces e -> iprim e c c' -> within M c ->
  within M c' /\ (c_dynamic c' = false -> c_dynamic c = false /\ c_iteration c <= c_iteration c').
Proof.
  intros KL NF H W. destruct H as [c c' H _|c t c' out r H HR|c it H|c|c|c cmd H1 H2].
  - split; [eapply prim_within; eassumption|]. pose proof (prim_ict _ _ _ H) as I. unfold ict in I. injection I as I1 I2. rewrite I1, I2. split; [assumption|lia].
  - pose proof (exec_counts c t) as X. pose proof (checkExecEntry_core c t) as K. rewrite H in X, K. destruct X as (X1&X2&X3). destruct K as [K _].
    assert (K0 : core c' = core c) by (destruct r; try exact K; contradiction). clear K. destruct W as (W1&W2&W3). core_inv K0.
    assert (EO : c_opts c' = c_opts c) by assumption. assert (EI : c_iterating c' = c_iterating c) by assumption.
    unfold within. rewrite EO, EI, X1. split.
    + split; [exact W1|]. split; [exact W2|]. intros D. specialize (X3 D). specialize (W3 D).
      destruct r; try contradiction; lia.
    + intros D. split; [exact D|]. specialize (X3 D). destruct r; try contradiction; lia.
  - subst e. assert (I : ict (fst (enteringExecMode c (execIter it))) = ict c).
    { unfold enteringExecMode. destruct (c_execMode c); [reflexivity|]. destruct (checkForIssues _ _); [reflexivity|]. destruct (is_no_iter _); reflexivity. }
    pose proof (enteringExecMode_core c (execIter it)) as K. cbn zeta in K. destruct K as (_&_&_&_&_&_&KO&_).
    assert (F : is_force_iter (c_iterating (fst (enteringExecMode c (execIter it)))) = false).
    { destruct W as (_&W2&_). unfold enteringExecMode. destruct (c_execMode c); [exact W2|].
      assert (FI : is_force_iter (execIter it) = false) by (destruct it; try reflexivity; destruct (NF eq_refl)).
      destruct (checkForIssues _ _); [exact FI|]. destruct (is_no_iter _); exact FI. }
    unfold ict in I. injection I as I1 I2. destruct W as (W1&W2&W3). unfold within. rewrite I1, I2, KO. auto with zarith.
  - destruct W as (W1&W2&W3). split; [|discriminate]. split; [exact W1|]. split; [exact W2|]. discriminate.
  - pose proof (localError_ict c) as I. split; [apply localError_within, W|]. unfold ict in I. injection I as I1 I2. rewrite I1, I2. split; [assumption|lia].
  - split; [exact W|]. split; [assumption|]. cbn. lia.
Qed.
Lemma iprims_within M e c c' : keepsLimit e -> neverForces e -> iprims e c c' -> within M c ->
  within M c' /\ (c_dynamic c' = false -> c_dynamic c = false /\ c_iteration c <= c_iteration c').
Proof.
  intros KL NF H W. induction H as [|x y z P IH Q]; [split; [exact W|]; split; [assumption|lia]|].
  destruct (IH W) as [A B]. destruct (iprim_within M e y z KL NF Q A) as [C D]. split; [exact C|]. intros E. destruct (D E) as [D1 D2]. destruct (B D1). split; [assumption|lia].
Qed.

(** how often the federate was told to iterate in initializing mode *)
Fixpoint initIters (f : fed) (es : list event) : Z :=
  match es with
  | [] => 0
  | e :: es => (match f_st f, e_ret (snd (step f e)) with INITIALIZING, Some (PR_ITER, _) => 1 | _, _ => 0 end) + initIters (fst (step f e)) es
  end.
Lemma timeRequest_ict c t it nv nm : ict (fst (timeRequest c t it nv nm)) = ict c.
Proof.
  unfold timeRequest. 
  match goal with |- context [let '(a, b) := ?p in _] => assert (PE : ict (fst p) = ict c) by (destruct (negb (is_no_iter it)); reflexivity); destruct p as [c1 nt]; cbn [fst] in PE end.
  cbv zeta. match goal with |- context [updateTimeFactors ?x] => assert (F : ict x = ict c) by exact PE; pose proof (factors_ict x) as F2; rewrite F in F2; generalize dependent (fst (updateTimeFactors x)) end.
  intros c2 F2. destruct (c_deps c2); [exact F2|]. rewrite send_ict. exact F2.
Qed.
Lemma aprim_dynamic e c c' : aprim e c c' -> c_dynamic c' = false -> c_dynamic c = false.
Proof.
  intros H. destruct H as [c c' P|c c' P|c t|c t it it' nv nm E|c|c cmd E L|c t|c].
  - pose proof (prim_ict _ _ _ P) as I. unfold ict in I. congruence.
  - destruct P as [c c' H _|c t c' out r H HR|c it H|c|c|c cmd H1 H2].
    + pose proof (prim_ict _ _ _ H) as I. unfold ict in I. congruence.
    + pose proof (exec_counts c t) as X. rewrite H in X. destruct X as (X&_). congruence.
    + unfold enteringExecMode. destruct (c_execMode c); [auto|]. destruct (checkForIssues _ _); [auto|]. destruct (is_no_iter _); auto.
    + discriminate.
    + pose proof (localError_ict c) as I. unfold ict in I. congruence.
    + auto.
  - pose proof (grant_counts c t) as G. destruct (checkTimeGrant c t) as [[c' o] r]. destruct G as [_ G]. cbn [fst]. congruence.
  - pose proof (timeRequest_ict c t it' nv nm) as I. unfold ict in I. congruence.
  - pose proof (localError_ict c) as I. unfold ict in I. congruence.
  - auto.
  - pose proof (exec_counts c t) as X. destruct (checkExecEntry c t) as [[c' o] r]. destruct X as (X&_). cbn [fst]. congruence.
  - auto.
Qed.
Lemma run_dynamic es : forall f, c_dynamic (f_tc (after f es)) = false -> c_dynamic (f_tc f) = false.
Proof.
  induction es as [|e es IH]; intros f H; [exact H|]. rewrite after_cons in H. apply IH in H.
  pose proof (step_any f e) as A. revert A H. generalize (f_tc (fst (step f e))). intros c A. induction A; [auto|]. intros HD. apply IHA. eapply aprim_dynamic; eassumption.
Qed.
Lemma started_no_init es : forall f, inv f -> Forall wf_event es -> started (f_st f) = true -> initIters f es = 0.
Proof.
  induction es as [|e es IH]; intros f I W H; [reflexivity|]. cbn [initIters]. inversion W as [|x xs W1 W2]; subst.
  destruct (step_mono f e H W1 I) as (M1&M2&_). rewrite (IH _ M1 W2 M2). destruct (f_st f); try discriminate H; reflexivity.
Qed.
Lemma initIters_bound M es : forall f, inv f -> Forall wf_event es -> Forall keepsLimit es -> Forall neverForces es -> within M (f_tc f) -> started (f_st f) = false ->
  c_dynamic (f_tc (after f es)) = false -> initIters f es + c_iteration (f_tc f) <= Z.max 0 M.
Proof.
  induction es as [|e es IH]; intros f I W KL NF WI ST D.
  { cbn [initIters]. destruct WI as (_&_&WI). specialize (WI D). lia. }
  inversion W as [|x1 xs1 We Wes]; subst. inversion KL as [|x2 xs2 Ke Kes]; subst. inversion NF as [|x3 xs3 Ne Nes]; subst.
  rewrite after_cons in D. pose proof (run_dynamic _ _ D) as D1. cbn [initIters].
  assert (I' : inv (fst (step f e))) by (apply step_inv; assumption).
  destruct (started (f_st (fst (step f e)))) eqn:ST'.
  - rewrite (started_no_init es _ I' Wes ST'). destruct (step_init f e ST) as [A _].
    destruct A as [A ST2|c0 t c' out A S0 B C S2 G|r t A S0 S2|c0 t out A S0 B S2 G|t cmd A S0 S2 E|A S2|t A S2];
      try (pose proof (iprims_within M e _ _ Ke Ne A WI) as [_ Q]; specialize (Q D1); destruct WI as (_&_&WI)).
    + destruct Q as [Q _]. specialize (WI Q). destruct (f_st f); lia.
    + pose proof (exec_counts c0 t) as X. rewrite B in X. destruct X as (X1&_). rewrite C in D1. change (c_dynamic c' = false) in D1. rewrite X1 in D1.
      pose proof (iprims_within M e _ _ Ke Ne A WI) as [_ Q]. destruct (Q D1) as [Q1 _]. destruct WI as (_&_&WI). specialize (WI Q1). rewrite S0. lia.
    + destruct S2 as [S2|S2]; rewrite S2 in ST'; discriminate.
    + rewrite S2 in ST'. discriminate.
    + rewrite S2 in ST'. discriminate.
    + destruct Q as [Q _]. specialize (WI Q). destruct (f_st f); lia.
    + destruct Q as [Q _]. specialize (WI Q). destruct (f_st f); lia.
  - assert (KEY : within M (f_tc (fst (step f e))) /\
      (match f_st f, e_ret (snd (step f e)) with INITIALIZING, Some (PR_ITER, _) => 1 | _, _ => 0 end) + c_iteration (f_tc f) <= c_iteration (f_tc (fst (step f e)))).
    { destruct (step_init f e ST) as [A _]. remember (f_tc (fst (step f e))) as cf eqn:EC. 
      destruct A as [A ST2|c0 t c' out A S0 B C S2 G|r t A S0 S2|c0 t out A S0 B S2 G|t cmd A S0 S2 E|A S2|t A S2]; rewrite <- ?EC in *;
        try (pose proof (iprims_within M e _ _ Ke Ne A WI) as [QW Q]).
      + destruct (Q D1). split; [exact QW|]. destruct (f_st f); lia.
      + rewrite S2 in ST'. discriminate.
      + destruct (Q D1). split; [exact QW|]. rewrite S0. lia.
      + pose proof (exec_counts c0 t) as X. pose proof (checkExecEntry_core c0 t) as K. rewrite B in X, K. destruct X as (X1&X2&X3). destruct K as [K _].
        rewrite X1 in D1. specialize (X3 D1). destruct (Q D1) as [Q1 Q2]. rewrite S0. destruct QW as (W1&W2&W3). specialize (X2 eq_refl W2). specialize (W3 D1).
        split; [|lia]. core_inv K. assert (EO : c_opts cf = c_opts c0) by assumption. assert (EI : c_iterating cf = c_iterating c0) by assumption.
        unfold within. rewrite EO, EI. split; [exact W1|]. split; [exact W2|]. lia.
      + destruct (Q D1). split; [exact QW|]. rewrite S0. lia.
      + rewrite S2 in ST'. discriminate.
      + rewrite S2 in ST'. discriminate. }
    destruct KEY as [K1 K2]. specialize (IH _ I' Wes Kes Nes K1 ST' D). lia.
Qed.

(** C07, initialization: a federate which does not force iterations is told to iterate at most as often as its
    limit allows, whatever arrives, for every history, every limit and every schedule of its dependencies *)
Theorem C07_initialization_iterations_are_bounded :
  forall id o n es, let f0 := fed_init id o n in
  opts_ok o -> Forall wf_event es -> Forall neverForces es -> Forall keepsLimit es ->
  c_dynamic (f_tc (after f0 es)) = false ->
  initIters f0 es <= Z.max 0 (o_maxIterations o).
Proof.
  intros id o n es f0 OK W NF KL D. assert (B := initIters_bound (o_maxIterations o) es f0 (init_inv id o n OK) W KL NF).
  assert (WI : within (o_maxIterations o) (f_tc f0)) by (split; [reflexivity|]; split; [reflexivity|]; intros _; cbn; lia).
  specialize (B WI eq_refl D). change (c_iteration (f_tc f0)) with 0 in B. lia.
Qed.
(** At the limit nothing but an unready dependency or a time barrier keeps the federate in initializing mode: data
    which arrived ([c_hasInit]) and what the dependencies ask for make no difference. *)
Theorem C07_at_the_limit_entry_exactly_when_ready :
  forall c t, c_iterating c = ITERATE_IF_NEEDED -> o_wait (c_opts c) = false -> o_maxIterations (c_opts c) <= c_iteration c ->
  (snd (checkExecEntry c t) = NEXT_STEP <->
   0 < c_block c /\ forall d, In d (c_deps c) -> dependency d = true -> tst d <> ts_initialized).
Proof.
  intros c t IT OW LI. unfold checkExecEntry. rewrite IT, OW. cbn [is_no_iter negb]. unfold timeZero.
  destruct (Z.leb_spec (c_block c) 0) as [L|L]; [split; [discriminate|lia]|].
  cbn [checkIfReadyForExecEntry]. rewrite negb_involutive.
  match goal with |- context [if existsb ?f (c_deps c) then _ else _] => destruct (existsb f (c_deps c)) eqn:X end.
  - split.
    + repeat match goal with |- context [if ?b then _ else _] => destruct b; try discriminate end. destruct (getDep _ _); discriminate.
    + intros [_ A]. exfalso. apply existsb_exists in X as (d&D1&D2). apply andb_true_iff in D2 as [D2 D3]. apply (A d D1 D2). destruct (tst d); try discriminate D3; reflexivity.
  - unfold execDecision. cbn [c_iterating set_c_needSendAll c_opts c_iteration]. rewrite IT. cbn [is_force_iter].
    destruct (Z.leb_spec (o_maxIterations (c_opts c)) (c_iteration c)); [|lia].
    destruct (execAct _ NEXT_STEP) as [c2 o2]. cbn [execFollowUp snd]. split; [|reflexivity]. intros _. split; [lia|].
    intros d D1 D2 TT. rewrite <- not_true_iff_false in X. apply X. apply existsb_exists. exists d. split; [exact D1|]. rewrite D2, TT. reflexivity.
Qed.

(** ** Executing mode *)
(** how often the federate was told to iterate since its time last advanced *)
Fixpoint itersSince (f : fed) (k : Z) (es : list event) : Z :=
  match es with
  | [] => k
  | e :: es => itersSince (fst (step f e))
      (match f_st f, e_ret (snd (step f e)) with EXECUTING, Some (PR_ITER, _) => k + 1 | _, Some (PR_NEXT, _) => 0 | _, _ => k end) es
  end.
Lemma execAct_zero c : c_iteration (fst (execAct c NEXT_STEP)) = 0.
Proof. unfold execAct. destruct (negb (c_dynamic c)); reflexivity. Qed.
Lemma entry_zero c t c' out : checkExecEntry c t = (c', out, NEXT_STEP) -> c_iteration c' = 0.
Proof.
  unfold checkExecEntry. destruct (c_block c <=? timeZero); [discriminate|].
  match goal with |- context [if ?b then _ else _] => destruct b end.
  { repeat match goal with |- context [if ?b then _ else _] => destruct b; try discriminate end. destruct (getDep _ _); discriminate. }
  destruct (execDecision _ _) as [[c1 sa] r]. pose proof (execAct_zero c1) as Z0. intros H.
  assert (r = NEXT_STEP) by (destruct (execAct c1 r) as [c2 o1]; destruct (execFollowUp c2 sa r t); congruence). subst r.
  destruct (execAct c1 NEXT_STEP) as [c2 o1]. cbn [fst] in Z0. cbn [execFollowUp] in H. congruence.
Qed.
Lemma itersSince_bound es : forall f k, inv f -> Forall wf_event es -> (f_st f = EXECUTING -> k <= c_iteration (f_tc f) /\ 0 <= c_iteration (f_tc f)) -> (started (f_st f) = false -> k = 0) ->
  f_st (after f es) = EXECUTING -> itersSince f k es <= c_iteration (f_tc (after f es)).
Proof.
  induction es as [|e es IH]; intros f k I W KB KZ ST.
  { apply KB. exact ST. }
  inversion W as [|x1 xs1 We Wes]; subst. rewrite after_cons in *. cbn [itersSince]. apply IH; try assumption.
  - apply step_inv; assumption.
  - intros S'. clear IH ST. destruct (started (f_st f)) eqn:S0.
    + clear KZ.
      assert (CASE : (f_st f = EXECUTING /\ exists t it nv nm, e = Ev_request t it nv nm) \/
                 (f_st f = EXECUTING -> forall t it nv nm, e <> Ev_request t it nv nm)).
      { destruct (f_st f); try (right; discriminate). destruct e; try (right; discriminate). left; eauto 10. }
      destruct CASE as [(ST0&t0&it&nv&nm&->)|NRQ].
      * destruct (KB ST0) as [KB1 KB2]. pose proof (step_request f t0 it nv nm ST0) as K. cbn zeta in K. destruct K as (out&r0&K1&K2&_&K4&K5). rewrite K5, ST0.
        pose proof (grant_counts (fst (timeRequest (f_tc f) t0 (effIter f it) nv nm)) invalidId) as G. rewrite K1 in G. destruct G as [G _].
        pose proof (timeRequest_ict (f_tc f) t0 (effIter f it) nv nm) as TI. unfold ict in TI. injection TI as TI1 TI2. rewrite TI1 in G.
        destruct r0; cbn [of_mpr]; lia.
      * pose proof (step_started f e S0 NRQ) as [O _].
        remember (f_tc (fst (step f e))) as cf eqn:EC.
        destruct O as [A1 A2 A3 A4 A5|A1 A2 A3|tt A1 A2 A3|cmd A1 A2 A3 A4 A5 A6 A7|c0 trig out r0 A1 A2 A3 A4 A5 A6 A7]; rewrite <- ?EC in *.
        -- pose proof (prims_ict _ _ _ A1) as PI. unfold ict in PI. injection PI as P1 P2. rewrite (A3 S'). destruct (KB (A3 S')). lia.
        -- congruence.
        -- destruct A3; congruence.
        -- rewrite A6 in S'. destruct (KB S'). assert (P1 : c_iteration cf = c_iteration (f_tc f)) by (rewrite A5; destruct (_ <? _); reflexivity). rewrite S'. lia.
        -- pose proof (prims_ict _ _ _ A1) as PI. unfold ict in PI. injection PI as P1 P2. destruct (KB A2).
           pose proof (grant_counts c0 trig) as G. rewrite A5 in G. destruct G as [G _]. rewrite P1 in G. rewrite A2.
           destruct r0; cbn [of_mpr]; try lia; contradiction.
    + rewrite (KZ eq_refl). clear KB KZ. destruct (step_init f e S0) as [A _].
      destruct A as [A ST2|c0 t c' out A ST0 B C S2 G|r t A ST0 S2|c0 t out A ST0 B S2 G|t cmd A ST0 S2 E|A S2|t A S2]; try congruence.
      * destruct ST2; [rewrite S' in *|congruence]. rewrite <- H in S0. discriminate.
      * rewrite C. change (c_iteration (fst (updateTimeFactors c'))) with (c_iteration c'). rewrite (entry_zero _ _ _ _ B). rewrite ST0. lia.
      * destruct S2; congruence.
  - intros S'. destruct (started (f_st f)) eqn:S0.
    + pose proof (run_started f [e] (Forall_cons _ We (Forall_nil _)) I S0) as [RS _]. rewrite run_cons in RS. cbn [run fst] in RS. change (started (f_st (fst (step f e))) = true) in RS. congruence.
    + rewrite (KZ eq_refl). destruct (e_ret (snd (step f e))) as [[p q]|]; [|destruct (f_st f); reflexivity]. destruct (f_st f), p; try reflexivity; discriminate.
Qed.

(** the iteration mode of a pending request is not changed by what the federate waits for *)
Lemma pending_iter (Q : event -> Prop) c c' : psteps Q c c' -> c_iterating c' = c_iterating c /\ c_granted c' = c_granted c.
Proof.
  intros P. refine (psteps_core Q (fun x => c_iterating x = c_iterating c /\ c_granted x = c_granted c) _ _ _ _ P (conj eq_refl eq_refl)).
  - intros a b K [H1 H2]. core_inv K. split; congruence.
  - intros e a b _ K [H1 H2]. destruct K as [K|? ? ? ? K|? ? ? ? K|? ? ? K|? ? ? K|? ? K]; unfold core in K; cbn in K; core_inv K; split; congruence.
Qed.
Lemma request_iter c t it nv nm : c_iterating (fst (timeRequest c t it nv nm)) = it /\ c_granted (fst (timeRequest c t it nv nm)) = c_granted c.
Proof.
  pose proof (timeRequest_core c t it nv nm) as K. cbn zeta in K. core_inv K. auto.
Qed.
Lemma attempt_facts c t c' out mr : checkTimeGrant c t = (c', out, mr) ->
  (mr = ITERATING -> is_no_iter (c_iterating c) = false /\ (is_force_iter (c_iterating c) = true -> c_granted c' = c_granted c))
  /\ (mr = NEXT_STEP -> is_force_iter (c_iterating c) = false).
Proof.
  intros H. pose proof (checkTimeGrant_spec c t) as SP. pose proof (updateTimeFactors_core c) as UC. cbn zeta in SP. rewrite H in SP.
  generalize dependent (fst (updateTimeFactors c)). intros c1 SP UC. destruct SP as [SP _]. core_inv UC.
  assert (EI : c_iterating c1 = c_iterating c) by assumption. assert (EG : c_granted c1 = c_granted c) by assumption.
  destruct mr; cbn [grantedFrom] in SP; split; try discriminate; intros _.
  - destruct SP as [SP _]. congruence.
  - destruct SP as [S1 SP]. cbv zeta in SP. split; [congruence|]. intros F. rewrite EI, F in SP. core_inv SP. congruence.
Qed.

Lemma after_coreMax es : forall f, f_coreMaxIter (after f es) = f_coreMaxIter f.
Proof.
  induction es as [|e es IH]; intros f; [reflexivity|]. rewrite after_cons, IH. destruct (started (f_st f)) eqn:S0.
  - assert (CASE : (f_st f = EXECUTING /\ exists t it nv nm, e = Ev_request t it nv nm) \/
                 (f_st f = EXECUTING -> forall t it nv nm, e <> Ev_request t it nv nm)).
    { destruct (f_st f); try (right; discriminate). destruct e; try (right; discriminate). left; eauto 10. }
    destruct CASE as [(ST0&t0&it&nv&nm&->)|NRQ].
    + pose proof (step_request f t0 it nv nm ST0) as K. cbn zeta in K. destruct K as (out&r0&_&_&K&_). exact K.
    + apply (step_started f e S0 NRQ).
  - apply (step_init f e S0).
Qed.
(** C07, executing mode: once the limit is reached, an ITERATE_IF_NEEDED request is never answered with a further
    iteration, whatever arrives while it waits. *)
Theorem C07_no_iteration_beyond_the_limit :
  forall id o n es tq nv nm ws r t, let f0 := fed_init id o n in let f := after f0 es in
  opts_ok o -> Forall wf_event (es ++ Ev_request tq ITERATE_IF_NEEDED nv nm :: ws) -> Forall waiting ws ->
  f_st f = EXECUTING -> n <= itersSince f0 0 es ->
  answer f (Ev_request tq ITERATE_IF_NEEDED nv nm :: ws) = Some (r, t) -> r <> PR_ITER.
Proof.
  intros id o n es tq nv nm ws r t f0 f OK W WT ST LI A ->. apply Forall_app in W as [W1 W2]. inversion W2 as [|x xs Wq Ww]; subst.
  assert (B := itersSince_bound es f0 0 (init_inv id o n OK) W1 ltac:(discriminate) ltac:(reflexivity) ST). fold f in B.
  destruct (request_answer wf_event f tq ITERATE_IF_NEEDED nv nm ws PR_ITER t ST WT Ww A (or_intror eq_refl)) as (c0&trig&c'&out&mr&P1&P2&P3&_).
  destruct (pending_iter _ _ _ P1) as [PI _]. rewrite (proj1 (request_iter _ _ _ _ _)) in PI.
  assert (EF : effIter f ITERATE_IF_NEEDED = NO_ITERATIONS).
  { cbn [effIter]. assert (CM : f_coreMaxIter f = n) by apply after_coreMax. rewrite CM. destruct (Z.leb_spec n (c_iteration (f_tc f))); [reflexivity|lia]. }
  rewrite EF in PI. destruct (attempt_facts _ _ _ _ _ P2) as [F _]. destruct mr; try discriminate P3. destruct (F eq_refl) as [F1 _]. rewrite PI in F1. discriminate.
Qed.
(** C07, forced iteration: the answer to a FORCE_ITERATION request is an iteration and leaves the time unchanged *)
Theorem C07_forced_iteration_keeps_the_time :
  forall id o n es tq nv nm ws r t, let f0 := fed_init id o n in let f := after f0 es in
  opts_ok o -> Forall wf_event (es ++ Ev_request tq FORCE_ITERATION nv nm :: ws) -> Forall waiting ws ->
  f_st f = EXECUTING ->
  answer f (Ev_request tq FORCE_ITERATION nv nm :: ws) = Some (r, t) -> isGrant r ->
  r = PR_ITER /\ t = c_granted (f_tc f).
Proof.
  intros id o n es tq nv nm ws r t f0 f OK W WT ST A G. apply Forall_app in W as [W1 W2]. inversion W2 as [|x xs Wq Ww]; subst.
  destruct (request_answer wf_event f tq FORCE_ITERATION nv nm ws r t ST WT Ww A G) as (c0&trig&c'&out&mr&P1&P2&P3&P4).
  destruct (pending_iter _ _ _ P1) as [PI PG]. destruct (request_iter (f_tc f) tq (effIter f FORCE_ITERATION) nv nm) as [RI RG]. rewrite RI in PI. rewrite RG in PG.
  cbn [effIter] in PI. destruct (attempt_facts _ _ _ _ _ P2) as [F1 F2].
  destruct mr; try (destruct G; subst r; discriminate).
  - specialize (F2 eq_refl). rewrite PI in F2. discriminate.
  - split; [exact P3|]. destruct (F1 eq_refl) as [_ F]. rewrite P4, F by (rewrite PI; reflexivity). exact PG.
Qed.

(** ** The hypotheses are met *)
(** a value published during initialization reaches the federate again and again *)
Definition initData : event := Ev_data (set_m_dest_id me (newMsg CMD_PUB other)) (DK_value (-1)).
Definition initRound : list event := [Ev_enterExec ITERATE_IF_NEEDED; saysIter CMD_EXEC_REQUEST; initData; saysIter CMD_EXEC_REQUEST].
Definition twoIters : tcopts := setMaxIterations 2 opts_default.
Definition initHistory : list event := [initGrant; Ev_addDependency other; Ev_addDependent other] ++ initRound ++ initRound ++ initRound.
(** with a limit of two the federate iterates twice and then enters executing mode although data still arrives;
    in executing mode a value for the current time makes it iterate, but not when the limit of the core is reached *)
Theorem C07_not_vacuous :
  let f0 := fed_init me twoIters 1 in
  let f := after f0 (firstn 13 initHistory) in
  let now := Ev_data (set_m_dest_id me (newMsg CMD_PUB other)) (DK_value 0) in
  let ws := [otherSays CMD_EXEC_GRANT 0 0 0; otherSays CMD_TIME_REQUEST 20 20 1] in
  let req it := Ev_request 4 it 0 1000 in
  opts_ok twoIters /\ Forall wf_event initHistory /\ Forall neverForces initHistory /\ Forall keepsLimit initHistory
  /\ c_dynamic (f_tc (after f0 initHistory)) = false
  /\ map e_ret (snd (run f0 initHistory)) =
       [Some (PR_NEXT, -1); None; None; None; None; None; Some (PR_ITER, -1); None; None; None; Some (PR_ITER, -1); None; Some (PR_NEXT, 0); None; None]
  /\ initIters f0 initHistory = 2
  /\ f_st f = EXECUTING /\ Forall waiting (now :: ws)
  /\ answer f (req ITERATE_IF_NEEDED :: now :: ws) = Some (PR_ITER, 0)
  /\ itersSince f0 0 (firstn 13 initHistory ++ req ITERATE_IF_NEEDED :: now :: ws) = 1
  /\ answer (after f (req ITERATE_IF_NEEDED :: now :: ws)) (req ITERATE_IF_NEEDED :: now :: ws) = Some (PR_NEXT, 1)
  /\ answer f (req FORCE_ITERATION :: now :: ws) = Some (PR_ITER, 0).
Proof.
  cbn zeta. split; [unfold opts_ok, bigTime; cbn; lia|]. split; [repeat constructor; cbn; unfold maxVal; lia|].
  split; [repeat constructor; discriminate|]. split; [repeat constructor; intros ?; discriminate|].
  split; [vm_compute; reflexivity|]. split; [vm_compute; reflexivity|]. split; [vm_compute; reflexivity|]. split; [vm_compute; reflexivity|].
  split; [repeat constructor; cbn; discriminate|]. split; [vm_compute; reflexivity|]. split; [vm_compute; reflexivity|]. split; vm_compute; reflexivity.
Qed.
(** The excluded case: for a federate which joined dynamically the iterations of the initialization are not counted
    (TimeCoordinator.cpp:1196-1211), and it is told to iterate beyond its limit. *)
Definition dynGrant : event := Ev_msg (setFlag dynamic_join_flag (set_m_dest_id me (newMsg CMD_INIT_GRANT parent_broker_id))).
Theorem C07_dynamic_federate_iterates_beyond_the_limit_refuted :
  exists es, let f0 := fed_init me twoIters 1 in
  opts_ok twoIters /\ Forall wf_event es /\ Forall neverForces es /\ Forall keepsLimit es /\ initIters f0 es > o_maxIterations twoIters.
Proof.
  exists ([dynGrant; Ev_addDependency other; Ev_addDependent other] ++ initRound ++ initRound ++ initRound). cbn zeta.
  split; [unfold opts_ok, bigTime; cbn; lia|]. split; [repeat constructor; cbn; unfold maxVal; lia|].
  split; [repeat constructor; discriminate|]. split; [repeat constructor; intros ?; discriminate|]. vm_compute. reflexivity.
Qed.
