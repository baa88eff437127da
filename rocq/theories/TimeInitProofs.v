(** * How one event of a federate which has not yet entered executing mode decomposes *)
From Coq Require Import ZArith Bool List Lia ZifyBool.
From Verif Require Import HTime Action TimeDep TimeDepProofs TimeCoord TimeCoordProofs TimeProc TimeProcProofs.
Import ListNotations.
Open Scope Z_scope.

(** the iteration request an application's entry request carries *)
Definition execIter (it : iter_req) : iter_req :=
  match it with FORCE_ITERATION => FORCE_ITERATION | ITERATE_IF_NEEDED => ITERATE_IF_NEEDED | _ => NO_ITERATIONS end.

(** coordinator operations before executing mode which do not enter it *)
Inductive iprim (e : event) : tc -> tc -> Prop :=
| ip_prim c c' : prim e c c' -> (forall t it nv nm, e <> Ev_request t it nv nm) -> iprim e c c'
| ip_exec c t c' out r : checkExecEntry c t = (c', out, r) -> r <> NEXT_STEP -> iprim e c c'
| ip_enter c it : e = Ev_enterExec it -> iprim e c (fst (enteringExecMode c (execIter it)))
| ip_dynamic c : iprim e c (set_c_dynamic true c)
| ip_localError c : iprim e c (fst (localError c))
| ip_force c cmd : e = Ev_msg cmd -> c_granted c < m_actionTime cmd ->
    iprim e c (fst (grantTo (m_actionTime cmd) c)).
Inductive iprims (e : event) : tc -> tc -> Prop :=
| is_refl c : iprims e c c
| is_step c c1 c2 : iprims e c c1 -> iprim e c1 c2 -> iprims e c c2.
Lemma is_one e c c' : iprim e c c' -> iprims e c c'.
Proof. intros H. eapply is_step; [apply is_refl|exact H]. Qed.
Lemma is_trans e a b c : iprims e a b -> iprims e b c -> iprims e a c.
Proof.
  intros H1 H2; revert H1; induction H2 as [x|x y z P IH S]; intros H1; [exact H1|].
  eapply is_step; [apply IH; exact H1|exact S].
Qed.
Lemma iprims_inv e (P : tc -> Prop) : (forall c c', iprim e c c' -> P c -> P c') ->
  forall c c', iprims e c c' -> P c -> P c'.
Proof. intros H c c' HP; induction HP; eauto. Qed.

(** what processing a command in created or initializing mode results in *)
Inductive iout (e : event) (c : tc) (st : fstate) (gm : bool) : tc -> fstate -> bool -> pres -> Prop :=
| io_none c' st' gm' : iprims e c c' -> st' = st \/ st' = TERMINATING ->
    (st = CREATED -> gm = true -> gm' = true) ->
    iout e c st gm c' st' gm' PR_CONTINUE
| io_init c' : iprims e c c' -> st = CREATED -> iout e c st gm c' INITIALIZING true PR_NEXT
| io_initIter c' : iprims e c c' -> st = CREATED -> iout e c st gm c' CREATED false PR_ITER
| io_iter c0 t c' out : iprims e c c0 -> st = INITIALIZING -> checkExecEntry c0 t = (c', out, ITERATING) ->
    iout e c st gm c' INITIALIZING true PR_ITER
| io_entry c0 t c' out : iprims e c c0 -> st = INITIALIZING -> checkExecEntry c0 t = (c', out, NEXT_STEP) ->
    iout e c st gm c' EXECUTING true PR_NEXT
| io_force c' : iprims e c c' -> iout e c st gm c' st true PR_NEXT
| io_halt c' : iprims e c c' -> iout e c st gm c' FINISHED gm PR_HALT
| io_error c' : iprims e c c' -> iout e c st gm c' ERRORED gm PR_ERROR
| io_reprocess c' st' cmd' : iprims e c c' ->
    (st' = INITIALIZING /\ st = INITIALIZING /\ m_action cmd' = CMD_EXEC_CHECK)
    \/ (st' = TERMINATING /\ coordStep cmd' c' st' gm = (c', [], st', PR_CONTINUE, gm)) ->
    iout e c st gm c' st' gm (PR_REPROCESS cmd').

Lemma checkExecEntry_res c t : let '(c', out, r) := checkExecEntry c t in r <> HALTED.
Proof.
  unfold checkExecEntry. destruct (_ <=? _); [discriminate|].
  match goal with |- context [if ?b then _ else _] => destruct b end.
  - match goal with |- context [if ?b then _ else _] => destruct b end; [|discriminate].
    match goal with |- context [if ?b then _ else _] => destruct b end; [|discriminate].
    match goal with |- context [if ?b then _ else _] => destruct b end; [discriminate|].
    destruct (getDep _ _); discriminate.
  - assert (H : snd (execDecision (set_c_needSendAll false c) (c_needSendAll c)) <> HALTED).
    { unfold execDecision. destruct (c_iterating _); cbn [is_force_iter snd]; try discriminate.
      - destruct (negb _); [discriminate|]. destruct (_ <? _); discriminate.
      - destruct (_ <=? _); [discriminate|]. destruct (c_hasInit _); [discriminate|].
        match goal with |- context [if ?b then _ else _] => destruct b end; [discriminate|].
        unfold applyRestriction. destruct (r_allowed _); [destruct (_ || _); [discriminate|destruct (negb _); discriminate]|].
        destruct (r_advance _); discriminate.
      - destruct (_ <=? _); [discriminate|]. destruct (c_hasInit _); [discriminate|].
        match goal with |- context [if ?b then _ else _] => destruct b end; [discriminate|].
        unfold applyRestriction. destruct (r_allowed _); [destruct (_ || _); [discriminate|destruct (negb _); discriminate]|].
        destruct (r_advance _); discriminate. }
    destruct (execDecision _ _) as [[c1 sa] r]. cbn [snd] in H.
    destruct (execAct c1 r) as [c2 out1]. destruct (execFollowUp c2 sa r t) as [c3 out2]. exact H.
Qed.

Lemma execCheck_iout e c0 cmd c st gm : iprims e c0 c -> started st = false ->
  let '(c', out, st', p, gm') := execCheck cmd c st gm in
  iout e c0 st gm c' st' gm' p /\ (forall m, p <> PR_REPROCESS m) /\ (p = PR_NEXT -> st' = EXECUTING).
Proof.
  intros HP HS. unfold execCheck. destruct (fst_eqb st INITIALIZING && negb gm) eqn:C.
  2: { split; [|split; discriminate]. apply io_none; auto. }
  assert (st = INITIALIZING) as -> by (destruct st; try discriminate; reflexivity).
  pose proof (checkExecEntry_res c (if m_action cmd =? CMD_EXEC_REQUEST then m_source_id cmd else invalidId)) as R.
  destruct (checkExecEntry c _) as [[c' out] r] eqn:E. destruct r; (split; [|split; [discriminate|try discriminate; reflexivity]]).
  - apply io_none; auto. eapply is_step; [exact HP|]. eapply ip_exec; eauto. discriminate.
  - eapply io_entry; eauto.
  - eapply io_iter; eauto.
  - contradiction.
Qed.

Lemma coordStep_iout cmd c st gm : started st = false -> isOwnRequest (c_id c) cmd = false ->
  let '(c', out, st', p, gm') := coordStep cmd c st gm in iout (Ev_msg cmd) c st gm c' st' gm' p.
Proof.
  intros HS HO. set (e := Ev_msg cmd).
  assert (IP : forall c c', prim e c c' -> iprims e c c') by (intros; apply is_one, ip_prim; [assumption|discriminate]).
  unfold coordStep.
  assert (PM : m_action cmd <> CMD_FORCE_TIME_GRANT -> iprims e c (fst (fst (processTimeMessage c cmd))))
    by (intros; apply IP, p_msg; auto; reflexivity).
  assert (PD : iprims e c (fst (disconnect c))) by (apply IP, p_disconnect; exists cmd; reflexivity).
  destruct (isBlockCmd (m_action cmd)) eqn:BC.
  { assert (N : m_action cmd <> CMD_FORCE_TIME_GRANT).
    { intros E; rewrite E in BC; discriminate. }
    specialize (PM N). destruct (processTimeMessage c cmd) as [[c' out] r]; cbn [fst] in PM.
    destruct (negb (tpr_notProcessed r) && negb gm).
    - destruct st; try discriminate HS; [apply io_none; auto|]. apply io_reprocess; auto.
    - apply io_none; auto. }
  destruct (m_action cmd =? CMD_INIT_GRANT).
  { destruct st; try discriminate HS; cbn [fst_eqb]; [|apply io_none; auto using is_refl].
    assert (PI : iprims e c (if checkFlag observer_flag cmd || checkFlag dynamic_join_flag cmd then set_c_dynamic true c else c))
      by (destruct (_ || _); [apply is_one, ip_dynamic|apply is_refl]).
    destruct (checkFlag iteration_requested_flag cmd); [apply io_initIter|apply io_init]; auto. }
  destruct ((m_action cmd =? CMD_EXEC_REQUEST) && (m_source_id cmd =? c_id c) && checkFlag indicator_flag cmd) eqn:OW.
  { exfalso. unfold isOwnRequest in HO. destruct (m_action cmd =? CMD_EXEC_REQUEST); cbn in *; [|discriminate].
    rewrite orb_true_r in HO. cbn in HO. congruence. }
  clear OW.
  destruct ((m_action cmd =? CMD_EXEC_REQUEST) || (m_action cmd =? CMD_EXEC_GRANT)) eqn:X.
  { assert (N : m_action cmd <> CMD_FORCE_TIME_GRANT).
    { intros E; rewrite E in X; discriminate. }
    specialize (PM N). destruct (processTimeMessage c cmd) as [[c' out] r]; cbn [fst] in PM.
    destruct (tpr_notProcessed r); [apply io_none; auto|].
    pose proof (execCheck_iout e c cmd c' st gm PM HS) as G.
    destruct (execCheck cmd c' st gm) as [[[[c'' o] s] p] g]. exact (proj1 G). }
  clear X. destruct (m_action cmd =? CMD_EXEC_CHECK).
  { pose proof (execCheck_iout e c cmd c st gm (is_refl _ _) HS) as G.
    destruct (execCheck cmd c st gm) as [[[[c'' o] s] p] g]. exact (proj1 G). }
  destruct (m_action cmd =? CMD_TERMINATE_IMMEDIATELY); [apply io_halt; auto using is_refl|].
  destruct (m_action cmd =? CMD_STOP).
  { destruct (disconnect c) as [c' out]; apply io_halt; auto. }
  destruct (m_action cmd =? CMD_DISCONNECT_FED_ACK).
  { destruct ((m_dest_id cmd =? c_id c) && (m_source_id cmd =? parent_broker_id)); [|apply io_none; auto using is_refl].
    destruct (disconnect c) as [c' out].
    destruct (negb (fst_eqb st FINISHED) && negb (fst_eqb st TERMINATING)); apply io_halt; auto using is_refl. }
  destruct ((m_action cmd =? CMD_REQUEST_CURRENT_TIME) || (m_action cmd =? CMD_TIMING_INFO)) eqn:X.
  { assert (N : m_action cmd <> CMD_FORCE_TIME_GRANT).
    { intros E; rewrite E in X; discriminate. }
    specialize (PM N). destruct (processTimeMessage c cmd) as [[c' out] r]; cbn [fst] in PM. apply io_none; auto. }
  assert (GC : forall c' t, iprims e c c' -> let '(c2, o2, s2, p2, g2) := grantCheck c' st gm t in iout e c st gm c2 s2 g2 p2).
  { intros c' t HP. unfold grantCheck. destruct st; try discriminate HS; cbn [fst_eqb andb]; apply io_none; auto. }
  clear X. destruct ((m_action cmd =? CMD_DISCONNECT_FED) || (m_action cmd =? CMD_DISCONNECT)) eqn:X.
  { assert (N : m_action cmd <> CMD_FORCE_TIME_GRANT).
    { intros E; rewrite E in X; discriminate. }
    specialize (PM N). destruct (m_source_id cmd =? c_id c) eqn:SRC.
    - destruct (negb (fst_eqb st FINISHED) && negb (fst_eqb st TERMINATING)); [|apply io_none; auto using is_refl].
      pose proof (disconnect_core c) as DC. destruct (disconnect c) as [c' out]. cbn [fst] in DC.
      apply io_reprocess; auto. right. split; [reflexivity|].
      assert (ID : c_id c' = c_id c) by (unfold core in DC; congruence).
      unfold coordStep.
      change (m_action (set_m_dest_id parent_broker_id cmd)) with (m_action cmd).
      change (m_source_id (set_m_dest_id parent_broker_id cmd)) with (m_source_id cmd).
      rewrite ID, SRC.
      assert (AA : m_action cmd = CMD_DISCONNECT_FED \/ m_action cmd = CMD_DISCONNECT) by lia.
      destruct AA as [AA|AA]; rewrite AA; reflexivity.
    - destruct (processTimeMessage c cmd) as [[c' out] r]; cbn [fst] in PM.
      specialize (GC c' invalidId PM). destruct (grantCheck c' st gm invalidId) as [[[[c'' o] s] p] g]. exact GC. }
  clear X. destruct ((m_action cmd =? CMD_BROADCAST_DISCONNECT) || (m_action cmd =? CMD_DISCONNECT_BROKER) || (m_action cmd =? CMD_DISCONNECT_CORE)) eqn:X.
  { assert (N : m_action cmd <> CMD_FORCE_TIME_GRANT).
    { intros E; rewrite E in X; discriminate. }
    specialize (PM N). destruct (processTimeMessage c cmd) as [[c' out] r]; cbn [fst] in PM.
    destruct (tpr_notProcessed r); [apply io_none; auto|].
    specialize (GC c' invalidId PM). destruct (grantCheck c' st gm invalidId) as [[[[c'' o] s] p] g]. exact GC. }
  assert (TC : forall c', iprims e c c' -> let '(c2, o2, s2, p2, g2) := timeCheck cmd c' st gm in iout e c st gm c2 s2 g2 p2).
  { intros c' HP. unfold timeCheck. destruct st; try discriminate HS; cbn [fst_eqb].
    - apply GC; exact HP.
    - apply io_reprocess; auto. }
  clear X. destruct ((m_action cmd =? CMD_TIME_REQUEST) || (m_action cmd =? CMD_TIME_GRANT)) eqn:X.
  { assert (N : m_action cmd <> CMD_FORCE_TIME_GRANT).
    { intros E; rewrite E in X; discriminate. }
    specialize (PM N). destruct (processTimeMessage c cmd) as [[c' out] r]; cbn [fst] in PM.
    destruct (tpr_notProcessed r); [apply io_none; auto|].
    specialize (TC c' PM). destruct (timeCheck cmd c' st gm) as [[[[c'' o] s] p] g]. exact TC. }
  clear X. destruct (m_action cmd =? CMD_TIME_CHECK).
  { apply TC, is_refl. }
  destruct (m_action cmd =? CMD_FORCE_TIME_GRANT) eqn:F.
  { destruct (m_actionTime cmd <? c_granted c) eqn:L; [apply io_none; auto using is_refl|].
    unfold processTimeMessage. rewrite BC, F.
    destruct (c_granted c <? m_actionTime cmd) eqn:L2; [|apply io_force; apply is_refl].
    pose proof (ip_force e c cmd eq_refl ltac:(lia)) as G.
    destruct (grantTo (m_actionTime cmd) c); apply io_force. apply is_one; exact G. }
  assert (N : m_action cmd <> CMD_FORCE_TIME_GRANT) by lia. specialize (PM N).
  destruct ((m_action cmd =? CMD_ERROR) || (m_action cmd =? CMD_LOCAL_ERROR) || (m_action cmd =? CMD_GLOBAL_ERROR)).
  { match goal with |- context [if ?b then _ else _] => destruct b end.
    - destruct (negb (fst_eqb st FINISHED) && negb (fst_eqb st TERMINATING)); [|apply io_none; auto using is_refl].
      destruct (m_action cmd =? CMD_GLOBAL_ERROR); [apply io_error; auto using is_refl|].
      pose proof (ip_localError e c) as G. destruct (localError c) as [c' out]. apply io_error, is_one, G.
    - destruct (processTimeMessage c cmd) as [[c' out] r]; cbn [fst] in PM.
      destruct (tpr_notProcessed r); [apply io_none; auto|].
      specialize (GC c' invalidId PM). destruct (grantCheck c' st gm invalidId) as [[[[c'' o] s] p] g]. exact GC. }
  match goal with |- context [if ?b then _ else _] => destruct b end; [|apply io_none; auto using is_refl].
  destruct (m_dest_id cmd =? c_id c); apply io_none; auto using is_refl.
  apply IP, p_depUpdate; reflexivity.
Qed.

(** checkProcResult from a mode before execution *)
Lemma checkProcResult_init f c out st p gm : started (f_st f) = false ->
  let '(f', out', p') := checkProcResult f (c, out, st, p, gm) in
  fedIs f' (match st with EXECUTING => fst (updateTimeFactors c) | _ => c end) st gm
  /\ p' = p /\ f_coreMaxIter f' = f_coreMaxIter f.
Proof.
  intros HS. unfold checkProcResult.
  destruct (f_st f) eqn:E; try discriminate HS; destruct st; cbn [fst_eqb]; destruct p, gm; repeat split.
Qed.
(** checkProcResult between modes which do not enter execution *)
Lemma checkProcResult_other f c out st p gm : st <> EXECUTING ->
  let '(f', out', p') := checkProcResult f (c, out, st, p, gm) in
  fedIs f' c st gm /\ p' = p /\ f_coreMaxIter f' = f_coreMaxIter f.
Proof.
  intros HS. unfold checkProcResult.
  destruct (f_st f); destruct st; try congruence; cbn [fst_eqb]; destruct p, gm; repeat split.
Qed.

(** the coordinator of the federate after an outcome *)
Definition afterEntry (st : fstate) (c : tc) : tc := match st with EXECUTING => fst (updateTimeFactors c) | _ => c end.

Lemma coordStep_execCheck e cmd c0 c st gm : iprims e c0 c -> started st = false -> m_action cmd = CMD_EXEC_CHECK ->
  let '(c', out, st', p, gm') := coordStep cmd c st gm in
  iout e c0 st gm c' st' gm' p /\ (forall m, p <> PR_REPROCESS m) /\ (p = PR_NEXT -> st' = EXECUTING).
Proof.
  intros HP HS HA.
  assert (E : coordStep cmd c st gm = execCheck cmd c st gm) by (unfold coordStep; rewrite HA; reflexivity).
  rewrite E. apply execCheck_iout; auto.
Qed.

Lemma iout_reprocess_inv e c st gm c' st' gm' cmd' : iout e c st gm c' st' gm' (PR_REPROCESS cmd') ->
  gm' = gm /\ iprims e c c' /\
  ((st' = INITIALIZING /\ st = INITIALIZING /\ m_action cmd' = CMD_EXEC_CHECK)
    \/ (st' = TERMINATING /\ coordStep cmd' c' st' gm = (c', [], st', PR_CONTINUE, gm))).
Proof. intros H. inversion H; subst. auto. Qed.

Lemma procMsg_iout cmd n f : started (f_st f) = false -> isOwnRequest (c_id (f_tc f)) cmd = false ->
  let '(f', out, p) := procMsg (S (S n)) f cmd in
  (exists c', iout (Ev_msg cmd) (f_tc f) (f_st f) (f_gm f) c' (f_st f') (f_gm f') p /\ f_tc f' = afterEntry (f_st f') c')
  /\ (forall m, p <> PR_REPROCESS m) /\ f_coreMaxIter f' = f_coreMaxIter f.
Proof.
  intros HS HO. cbn [procMsg].
  pose proof (coordStep_iout cmd (f_tc f) (f_st f) (f_gm f) HS HO) as G.
  destruct (coordStep cmd (f_tc f) (f_st f) (f_gm f)) as [[[[c1 o1] st1] p1] gm1].
  pose proof (checkProcResult_init f c1 o1 st1 p1 gm1 HS) as K.
  destruct (checkProcResult f (c1, o1, st1, p1, gm1)) as [[f1 out1] p'].
  destruct K as ((K1&K2&K3)&->&K4).
  assert (MAIN : forall p, p = p1 -> (forall m, p <> PR_REPROCESS m) ->
    (exists c', iout (Ev_msg cmd) (f_tc f) (f_st f) (f_gm f) c' (f_st f1) (f_gm f1) p /\ f_tc f1 = afterEntry (f_st f1) c')
  /\ (forall m, p <> PR_REPROCESS m) /\ f_coreMaxIter f1 = f_coreMaxIter f).
  { intros p -> NR. split; [|split; [exact NR|exact K4]]. exists c1. rewrite K2, K3, K1. split; [exact G|reflexivity]. }
  destruct p1 as [| | | | |cmd']; try (apply MAIN; [reflexivity|discriminate]).
  apply iout_reprocess_inv in G. destruct G as (->&HP&HR). clear MAIN.
  destruct (m_dest_id cmd' =? c_id (f_tc f1)).
  2: { split; [|split; [discriminate|exact K4]]. exists c1. rewrite K1, K2, K3. split; [|reflexivity].
       apply io_none; auto. destruct HR as [(->&->&_)|(->&_)]; auto. }
  destruct HR as [(->&E0&HA)|(->&HR)].
  - rewrite K1, K2, K3.
    pose proof (coordStep_execCheck (Ev_msg cmd) cmd' (f_tc f) c1 INITIALIZING (f_gm f) HP eq_refl HA) as T.
    destruct (coordStep cmd' c1 INITIALIZING (f_gm f)) as [[[[c2 o2] st2] p2] gm2]. destruct T as (T&NR&NX).
    pose proof (checkProcResult_init f1 c2 o2 st2 p2 gm2 ltac:(rewrite K2; reflexivity)) as L.
    destruct (checkProcResult f1 (c2, o2, st2, p2, gm2)) as [[f2 out2] p'].
    destruct L as ((L1&L2&L3)&->&L4).
    assert (R : (exists c', iout (Ev_msg cmd) (f_tc f) (f_st f) (f_gm f) c' (f_st f2) (f_gm f2) p2 /\ f_tc f2 = afterEntry (f_st f2) c')
      /\ (forall m, p2 <> PR_REPROCESS m) /\ f_coreMaxIter f2 = f_coreMaxIter f).
    { split; [|split; [exact NR|congruence]]. exists c2. rewrite L2, L3, L1, E0. split; [exact T|reflexivity]. }
    destruct p2 as [| | | | |m]; try exact R. exfalso; eapply NR; reflexivity.
  - rewrite K1, K2, K3, HR.
    pose proof (checkProcResult_other f1 c1 [] TERMINATING PR_CONTINUE (f_gm f) ltac:(discriminate)) as L.
    destruct (checkProcResult f1 _) as [[f2 out2] p']. destruct L as ((L1&L2&L3)&->&L4).
    split; [|split; [discriminate|congruence]]. exists c1. rewrite L2, L3, L1. split; [|reflexivity].
    apply io_none; auto.
Qed.

(** what the application and the network see of one event before executing mode *)
Inductive isout (e : event) (f f' : fed) : option (pres * Z) -> Prop :=
| ss_none : iprims e (f_tc f) (f_tc f') -> f_st f' = f_st f \/ f_st f' = TERMINATING -> isout e f f' None
| ss_entry c0 t c' out : iprims e (f_tc f) c0 -> f_st f = INITIALIZING -> checkExecEntry c0 t = (c', out, NEXT_STEP) ->
    f_tc f' = fst (updateTimeFactors c') -> f_st f' = EXECUTING -> f_gm f' = true ->
    isout e f f' (Some (PR_NEXT, c_granted c'))
| ss_init r t : iprims e (f_tc f) (f_tc f') -> f_st f = CREATED -> f_st f' = CREATED \/ f_st f' = INITIALIZING ->
    isout e f f' (Some (r, t))
| ss_iter c0 t out : iprims e (f_tc f) c0 -> f_st f = INITIALIZING -> checkExecEntry c0 t = (f_tc f', out, ITERATING) ->
    f_st f' = INITIALIZING -> f_gm f' = true ->
    isout e f f' (Some (PR_ITER, initializationTime))
| ss_force t cmd : iprims e (f_tc f) (f_tc f') -> f_st f = INITIALIZING -> f_st f' = INITIALIZING ->
    e = Ev_msg cmd -> isout e f f' (Some (PR_NEXT, t))
| ss_halt : iprims e (f_tc f) (f_tc f') -> f_st f' = FINISHED -> isout e f f' (Some (PR_HALT, maxVal))
| ss_error t : iprims e (f_tc f) (f_tc f') -> f_st f' = ERRORED -> isout e f f' (Some (PR_ERROR, t)).

Lemma returnTo_gen f r : let '(f', (r', t)) := returnTo f r in
  fedIs f' (f_tc f) (f_st f) (f_gm f) /\ f_coreMaxIter f' = f_coreMaxIter f /\ r' = r /\
  (r = PR_HALT -> t = maxVal) /\ (r = PR_NEXT -> f_st f = EXECUTING -> t = c_granted (f_tc f))
  /\ (r = PR_ITER -> f_st f = INITIALIZING -> t = initializationTime).
Proof.
  unfold returnTo. destruct r; destruct (f_st f) eqn:E; cbn; unfold fedIs; cbn; rewrite ?E; repeat split; try congruence; intros; try discriminate.
Qed.

Lemma finish_isout e f f1 out disc p c' : started (f_st f) = false ->
  (p = PR_NEXT -> f_st f1 = INITIALIZING -> f_st f = INITIALIZING -> exists cmd, e = Ev_msg cmd) ->
  iout e (f_tc f) (f_st f) (f_gm f) c' (f_st f1) (f_gm f1) p -> f_tc f1 = afterEntry (f_st f1) c' ->
  (forall m, p <> PR_REPROCESS m) -> f_coreMaxIter f1 = f_coreMaxIter f ->
  isout e f (fst (finish f1 out disc p)) (e_ret (snd (finish f1 out disc p)))
  /\ f_coreMaxIter (fst (finish f1 out disc p)) = f_coreMaxIter f.
Proof.
  intros HS HF H HT NR HM. unfold finish. destruct (returnable p) eqn:R.
  2: { destruct p; try discriminate R. cbn [fst snd e_ret]. split; [|exact HM].
       inversion H as [cc st' gm' Q1 Q2 Q3| | | | | | | |]; subst. apply ss_none; [|assumption].
       rewrite HT. destruct Q2 as [Q2|Q2]; rewrite Q2; [|exact Q1].
       destruct (f_st f); try discriminate HS; exact Q1. }
  pose proof (returnTo_gen f1 p) as T. destruct (returnTo f1 p) as [f2 [r' t]].
  destruct T as ((T1&T2&T3)&T4&->&T5&T6&T7). cbn [fst snd e_ret]. split; [|congruence].
  destruct H as [cc st' gm' Q1 Q2 Q3|cc Q1 Q2|cc Q1 Q2|c0 tt cc o Q1 Q2 Q3|c0 tt cc o Q1 Q2 Q3|cc Q1|cc Q1|cc Q1|cc st' cmd' Q1 Q2];
    try discriminate R.
  - apply ss_init; [rewrite T1, HT; exact Q1|exact Q2|right; exact T2].
  - apply ss_init; [rewrite T1, HT; exact Q1|exact Q2|left; exact T2].
  - rewrite T7 by auto. eapply ss_iter; eauto. rewrite T1, HT. exact Q3.
  - rewrite T6 by auto. rewrite HT. cbn [afterEntry].
    change (c_granted (fst (updateTimeFactors cc))) with (c_granted cc).
    eapply ss_entry; eauto. rewrite T1, HT. reflexivity.
  - destruct (f_st f) eqn:ST; try discriminate HS.
    + apply ss_init; [rewrite T1, HT; exact Q1|exact ST|left; exact T2].
    + destruct (HF eq_refl eq_refl eq_refl) as [cmd ->].
      eapply ss_force; [rewrite T1, HT; exact Q1|exact ST|exact T2|reflexivity].
  - rewrite T5 by auto. apply ss_halt; [rewrite T1, HT; exact Q1|exact T2].
  - apply ss_error; [rewrite T1, HT; exact Q1|exact T2].
  - exfalso; eapply NR; reflexivity.
Qed.

Lemma execDecision_core c sa : let '(c', sa', r) := execDecision c sa in
  core c' = core c /\ c_deps c' = c_deps c /\ c_block c' = c_block c /\ c_dynamic c' = c_dynamic c /\ c_iteration c' = c_iteration c.
Proof.
  unfold execDecision.
  assert (AR : forall al, let '(c', sa', r) := applyRestriction (checkExecEntryRestriction (c_deps c) (c_id c) (c_seq c) (o_wait (c_opts c)) (o_restrictive (c_opts c)))
      (o_restrictive (c_opts c)) c sa al in
    core c' = core c /\ c_deps c' = c_deps c /\ c_block c' = c_block c /\ c_dynamic c' = c_dynamic c /\ c_iteration c' = c_iteration c).
  { intros al. unfold applyRestriction. destruct (r_allowed _); [destruct (_ || _); [|destruct (negb _)]|destruct (r_advance _)]; repeat split. }
  destruct (c_iterating c); cbn [is_force_iter]; try (repeat split; fail).
  - destruct (negb (o_wait (c_opts c))); repeat split.
  - destruct (_ <=? _); [repeat split|]. destruct (c_hasInit c); [repeat split|].
    match goal with |- context [if ?b then _ else _] => destruct b end; [repeat split|]. apply AR.
  - destruct (_ <=? _); [repeat split|]. destruct (c_hasInit c); [repeat split|].
    match goal with |- context [if ?b then _ else _] => destruct b end; [repeat split|]. apply AR.
Qed.

(** the time a federate has when it enters executing mode *)
Definition entryTime (c : tc) : Z :=
  if c_dynamic c then
    let c := fst (updateTimeFactors c) in
    if 0 <? activeDependencyCount (c_deps c)
    then generateAllowedTime c (next (c_total c)) - Z.max (o_period (c_opts c)) (o_timeDelta (c_opts c))
    else timeZero
  else timeZero.

Lemma execAct_core c r : let '(c', out) := execAct c r in
  match r with
  | NEXT_STEP => core c' = (c_id c, entryTime c, entryTime c, c_requested c, c_value c, c_message c, c_opts c, c_iterating c, true)
                 /\ c_iteration c' = 0
  | ITERATING => core c' = core c /\ (c_dynamic c = false -> c_iteration c' = c_iteration c + 1)
  | _ => c' = c
  end /\ c_block c' = c_block c.
Proof.
  unfold execAct, entryTime. destruct (c_dynamic c); cbn [negb]; destruct r; repeat split; discriminate.
Qed.

Lemma execFollowUp_core c sa r t : let '(c', out) := execFollowUp c sa r t in
  core c' = core c /\ c_block c' = c_block c /\ c_iteration c' = c_iteration c /\ c_deps c' = c_deps c.
Proof.
  unfold execFollowUp. destruct r; try (repeat split; fail).
  destruct (_ && _); [|repeat split]. destruct sa; [repeat split|]. destruct (_ =? _); [repeat split|].
  destruct (_ && _); [repeat split|]. destruct (getDep _ _); repeat split.
Qed.

Lemma core_entryTime c c' : core c = core c' -> c_deps c = c_deps c' -> c_dynamic c = c_dynamic c' ->
  c_total (fst (updateTimeFactors c)) = c_total (fst (updateTimeFactors c')) -> entryTime c = entryTime c'.
Proof.
  intros H D Y T. unfold entryTime. rewrite Y, T. cbn [c_deps].
  rewrite !updateTimeFactors_deps, D.
  rewrite (core_allowed (fst (updateTimeFactors c)) (fst (updateTimeFactors c')) _ ltac:(rewrite !updateTimeFactors_core; exact H)).
  assert (O : c_opts (fst (updateTimeFactors c)) = c_opts (fst (updateTimeFactors c'))) by (core_inv H; assumption).
  rewrite O. reflexivity.
Qed.

(** what checkExecEntry does to the time state *)
Lemma checkExecEntry_core c t : let '(c', out, r) := checkExecEntry c t in
  match r with
  | NEXT_STEP => (exists g, (c_dynamic c = false -> g = timeZero) /\
        core c' = (c_id c, g, g, c_requested c, c_value c, c_message c, c_opts c, c_iterating c, true)
        /\ exists c1, core c1 = core c /\ g = entryTime c1)
  | _ => core c' = core c
  end /\ c_block c' = c_block c.
Proof.
  unfold checkExecEntry. destruct (c_block c <=? timeZero); [split; reflexivity|].
  match goal with |- context [if ?b then _ else _] => destruct b end.
  - match goal with |- context [if ?b then _ else _] => destruct b end; [|split; reflexivity].
    match goal with |- context [if ?b then _ else _] => destruct b end; [|split; reflexivity].
    match goal with |- context [if ?b then _ else _] => destruct b end; [split; reflexivity|].
    destruct (getDep _ _); split; reflexivity.
  - pose proof (execDecision_core (set_c_needSendAll false c) (c_needSendAll c)) as D.
    destruct (execDecision _ _) as [[c1 sa] r]. destruct D as (D1&D2&D3&D4&D5).
    pose proof (execAct_core c1 r) as A. destruct (execAct c1 r) as [c2 o2]. destruct A as [A AB].
    pose proof (execFollowUp_core c2 sa r t) as F. destruct (execFollowUp c2 sa r t) as [c3 o3]. destruct F as (F1&F2&F3&F4).
    change (core (set_c_needSendAll false c)) with (core c) in D1.
    split; [|rewrite F2, AB, D3; reflexivity].
    destruct r.
    + rewrite F1, A, D1. reflexivity.
    + exists (entryTime c1). split; [|split].
      * intros DY. unfold entryTime. rewrite D4. change (c_dynamic (set_c_needSendAll false c)) with (c_dynamic c). rewrite DY. reflexivity.
      * rewrite F1, (proj1 A). core_inv D1. repeat match goal with E : _ = _ |- _ => rewrite E; clear E end. reflexivity.
      * exists c1. split; [exact D1|reflexivity].
    + destruct A as [A _]. rewrite F1, A, D1. reflexivity.
    + rewrite F1, A, D1. reflexivity.
Qed.

Lemma enteringExecMode_core c it : let c' := fst (enteringExecMode c it) in
  c_id c' = c_id c /\ c_granted c' = c_granted c /\ c_grantBase c' = c_grantBase c /\ c_requested c' = c_requested c
  /\ c_value c' = c_value c /\ c_message c' = c_message c /\ c_opts c' = c_opts c /\ c_execMode c' = c_execMode c
  /\ c_deps c' = c_deps c /\ c_block c' = c_block c /\ c_blocks c' = c_blocks c.
Proof.
  cbn zeta. unfold enteringExecMode. destruct (c_execMode c) eqn:E; [cbn; rewrite ?E; repeat split|].
  destruct (checkForIssues _ _); [cbn; rewrite ?E; repeat split|].
  destruct (is_no_iter it); cbn; rewrite ?E; repeat split.
Qed.

Lemma localError_core c : let c' := fst (localError c) in
  (c' = c \/ core c' = (c_id c, maxVal, maxVal, c_requested c, c_value c, c_message c, c_opts c, c_iterating c, c_execMode c)).
Proof.
  cbn zeta. unfold localError. destruct (c_disconnected c); [left; reflexivity|]. right.
  set (c1 := set_c_granted maxVal _). destruct (c_deps c1) eqn:E; [reflexivity|]. rewrite <- E. clear E.
  pose proof (processTimeMessage_core c1 (set_m_dest_id (c_id c1) (newMsg CMD_LOCAL_ERROR (c_id c1))) ltac:(discriminate)) as P.
  destruct (existsb _ _); [|reflexivity].
  destruct (processTimeMessage c1 _) as [[c2 o2] r2]. exact P.
Qed.

Lemma iprim_id e c c' : iprim e c c' -> c_id c' = c_id c.
Proof.
  intros H. destruct H as [c c' H|c t c' out r H HR|c it H|c|c|c cmd H1 H2]; try reflexivity.
  - eapply prim_id; eassumption.
  - pose proof (checkExecEntry_core c t) as K. rewrite H in K. destruct K as [K _].
    destruct r; try contradiction; apply core_id; exact K.
  - apply enteringExecMode_core.
  - destruct (localError_core c) as [->|E]; [reflexivity|]. unfold core in E. congruence.
Qed.
Lemma iprims_id e c c' : iprims e c c' -> c_id c' = c_id c.
Proof. intros H; induction H as [|x y z P IH Q]; [reflexivity|]. rewrite (iprim_id _ _ _ Q). exact IH. Qed.

Lemma iout_none_inv e c st gm c' st' gm' : iout e c st gm c' st' gm' PR_CONTINUE ->
  iprims e c c' /\ (st' = st \/ st' = TERMINATING).
Proof. intros H; inversion H; subst; auto. Qed.

(** ** One event of a federate before executing mode *)
Theorem step_init f e : started (f_st f) = false ->
  isout e f (fst (step f e)) (e_ret (snd (step f e))) /\ f_coreMaxIter (fst (step f e)) = f_coreMaxIter f.
Proof.
  intros HS.
  assert (IP : forall c c', prim e c c' -> (forall t it nv nm, e <> Ev_request t it nv nm) -> iprims e c c')
    by (intros; apply is_one, ip_prim; assumption).
  destruct e as [cmd|it|t it nv nm|cmd k|p v|g v|v|g|g|g]; cbn [step].
  - destruct (isDataCmd (m_action cmd) || isOwnRequest (c_id (f_tc f)) cmd || fst_eqb (f_st f) FINISHED) eqn:SK.
    { split; [|reflexivity]. apply ss_none; auto using is_refl. }
    assert (HO : isOwnRequest (c_id (f_tc f)) cmd = false) by (destruct (isOwnRequest _ _); rewrite ?orb_true_r in SK; [discriminate|reflexivity]).
    assert (NE : fst_eqb (f_st f) ERRORED = false) by (destruct (f_st f); try discriminate HS; reflexivity).
    rewrite NE. cbn [maskError]. unfold deliver.
    pose proof (procMsg_iout cmd 1 f HS HO) as P. change (procMsg 3 f cmd) with (procMsg procDepth f cmd) in P.
    destruct (procMsg procDepth f cmd) as [[f1 out] p]. destruct P as ((c'&P1&PT)&P2&P3).
    destruct (returnable p) eqn:R. { eapply finish_isout; eauto. }
    assert (p = PR_CONTINUE) as -> by (destruct p; try discriminate R; reflexivity).
    pose proof (iout_none_inv _ _ _ _ _ _ _ P1) as [PP PS].
    assert (ET : f_tc f1 = c') by (rewrite PT; destruct PS as [->| ->]; [destruct (f_st f); try discriminate HS|]; reflexivity).
    rewrite <- ET in PP.
    match goal with |- context [if ?b then _ else _] => destruct b end.
    { unfold userDisconnect.
      assert (PD : iprims (Ev_msg cmd) (f_tc f) (fst (disconnect (f_tc f1)))).
      { eapply is_step; [exact PP|]. apply ip_prim; [apply p_disconnect; eauto|discriminate]. }
      destruct (disconnect (f_tc f1)) as [c2 out2]. cbn [fst] in PD.
      assert (NONE : isout (Ev_msg cmd) f (set_f_tc c2 (set_f_st TERMINATING f1)) None /\ f_coreMaxIter f1 = f_coreMaxIter f).
      { split; [|exact P3]. apply ss_none; auto. }
      assert (NONE2 : isout (Ev_msg cmd) f f1 None /\ f_coreMaxIter f1 = f_coreMaxIter f).
      { split; [|exact P3]. apply ss_none; auto. }
      destruct (f_st f1) eqn:E1; try exact NONE; try exact NONE2;
      exfalso; destruct PS as [PS|PS]; [rewrite <- PS in HS; discriminate HS|discriminate PS]. }
    match goal with |- context [if ?b then _ else _] => destruct b eqn:D end.
    2: { split; [|exact P3]. apply ss_none; auto. }
    unfold disconnectPhase2.
    assert (PM : iprims (Ev_msg cmd) (f_tc f) (fst (fst (processTimeMessage (f_tc f1) cmd)))).
    { eapply is_step; [exact PP|]. apply ip_prim; [|discriminate]. apply p_msg; [reflexivity|].
      intros Q. rewrite Q in D. discriminate D. }
    destruct (processTimeMessage (f_tc f1) cmd) as [[c2 out2] r2]. cbn [fst] in PM.
    assert (NX : fst_eqb (f_st (set_f_tc c2 f1)) EXECUTING = false).
    { cbn. destruct PS as [->| ->]; [destruct (f_st f); try discriminate HS|]; reflexivity. }
    rewrite NX. cbn [negb].
    destruct (tpr_notProcessed r2); (split; [|exact P3]); apply ss_none; auto.
  - unfold enterExecuting. assert (SAME : isout (Ev_enterExec it) f f None) by (apply ss_none; auto using is_refl).
    destruct (f_st f) eqn:ST; try discriminate HS; [split; [exact SAME|reflexivity]|]. clear SAME.
    set (m := setFlag indicator_flag _).
    assert (FI : checkFlag indicator_flag m = true).
    { unfold m, checkFlag, setFlag. cbn [m_flags set_m_flags]. rewrite Z.lor_spec. rewrite orb_true_iff. right. reflexivity. }
    assert (MA : m_action m = CMD_EXEC_REQUEST) by (unfold m; destruct it; reflexivity).
    assert (MS : m_source_id m = c_id (f_tc f)) by (unfold m; destruct it; reflexivity).
    assert (MD : m_dest_id m = c_id (f_tc f)) by (unfold m; destruct it; reflexivity).
    assert (C1 : coordStep m (f_tc f) INITIALIZING (f_gm f) =
       let '(c, out) := enteringExecMode (f_tc f) (iterOf m) in (c, out, INITIALIZING, PR_CONTINUE, false)).
    { unfold coordStep. rewrite MA, MS, FI, (Z.eqb_refl (c_id (f_tc f))). reflexivity. }
    assert (IT : iterOf m = execIter it) by (unfold m; destruct it; reflexivity).
    assert (PE : iprims (Ev_enterExec it) (f_tc f) (fst (enteringExecMode (f_tc f) (iterOf m)))).
    { rewrite IT. apply is_one. apply ip_enter. reflexivity. }
    cbn [procMsg procDepth]. rewrite ST, C1.
    destruct (enteringExecMode (f_tc f) (iterOf m)) as [c1 out1]. cbn [fst] in PE.
    pose proof (checkProcResult_init f c1 out1 INITIALIZING PR_CONTINUE false ltac:(rewrite ST; reflexivity)) as K.
    destruct (checkProcResult f _) as [[f1 o1] p1]. destruct K as ((K1&K2&K3)&->&K4). cbn [returnable].
    set (m2 := set_m_action CMD_EXEC_CHECK m). rewrite K1, K2, K3.
    pose proof (coordStep_execCheck (Ev_enterExec it) m2 (f_tc f) c1 INITIALIZING false PE eq_refl eq_refl) as T.
    destruct (coordStep m2 c1 INITIALIZING false) as [[[[c2 o2] st2] p2] gm2]. destruct T as (T&NR&NX).
    pose proof (checkProcResult_init f1 c2 o2 st2 p2 gm2 ltac:(rewrite K2; reflexivity)) as L.
    destruct (checkProcResult f1 (c2, o2, st2, p2, gm2)) as [[f2 o3] p']. destruct L as ((L1&L2&L3)&->&L4).
    assert (R : isout (Ev_enterExec it) (set_f_gm false f) (fst (finish f2 (o1 ++ o3) [] p2)) (e_ret (snd (finish f2 (o1 ++ o3) [] p2)))
        /\ f_coreMaxIter (fst (finish f2 (o1 ++ o3) [] p2)) = f_coreMaxIter f).
    { apply (finish_isout _ (set_f_gm false f) f2 _ _ p2 c2); cbn [f_st set_f_gm f_tc f_gm]; rewrite ?ST, ?L2, ?L3; try reflexivity; try assumption.
      - intros E1 E _. exfalso. specialize (NX E1). congruence.
      - transitivity (f_coreMaxIter f1); [exact L4|exact K4]. }
    assert (R' : isout (Ev_enterExec it) f (fst (finish f2 (o1 ++ o3) [] p2)) (e_ret (snd (finish f2 (o1 ++ o3) [] p2)))
        /\ f_coreMaxIter (fst (finish f2 (o1 ++ o3) [] p2)) = f_coreMaxIter f).
    { destruct R as [R RM]. split; [|exact RM]. clear - R ST.
      destruct R as [A1 A2|c0 t c' out A1 A2 A3 A4 A5 A6|r t A1 A2 A3|c0 t out A1 A2 A3 A4 A5|t cmd A1 A2 A3 A4|A1 A2|t A1 A2].
      - apply ss_none; auto.
      - eapply ss_entry; eauto.
      - apply ss_init; auto.
      - eapply ss_iter; eauto.
      - discriminate.
      - apply ss_halt; auto.
      - apply ss_error; auto. }
    destruct p2 as [| | | | |mm]; try exact R'. exfalso; eapply NR; reflexivity.
  - unfold requestTime. assert (SAME : isout (Ev_request t it nv nm) f f None) by (apply ss_none; auto using is_refl).
    destruct (f_st f) eqn:ST; try discriminate HS; split; try exact SAME; reflexivity.
  - assert (SAME : isout (Ev_data cmd k) f f None) by (apply ss_none; auto using is_refl).
    destruct (isDataCmd (m_action cmd) && negb (fst_eqb (f_st f) FINISHED)) eqn:DC; [|split; [exact SAME|reflexivity]].
    assert (D1 : isDataCmd (m_action cmd) = true) by (destruct (isDataCmd (m_action cmd)); [reflexivity|discriminate DC]).
    clear SAME DC. unfold deliverData. set (e := Ev_data cmd k).
    assert (PK : iprims e (f_tc f) (fst (match k with
                   | DK_value t => updateValueTime (f_tc f) t (negb (f_gm f))
                   | DK_message t => updateMessageTime (f_tc f) t (negb (f_gm f))
                   | DK_none => (f_tc f, [])
                   end))).
    { unfold e. destruct k; [apply IP; [eapply p_value; reflexivity|discriminate]|apply IP; [eapply p_message; reflexivity|discriminate]|apply is_refl]. }
    destruct (match k with DK_value t => _ | DK_message t => _ | DK_none => _ end) as [c1 out1]. cbn [fst] in PK.
    assert (PM : iprims e (f_tc f) (fst (fst (processTimeMessage c1 cmd)))).
    { eapply is_step; [exact PK|]. apply ip_prim; [|discriminate]. eapply p_datamsg; [reflexivity|exact D1]. }
    destruct (processTimeMessage c1 cmd) as [[c2 out2] r2]. cbn [fst] in PM.
    destruct (f_st f) eqn:ST; try discriminate HS; (split; [|reflexivity]);
      apply ss_none; cbn; rewrite ?ST; auto.
  - split; [|reflexivity]. apply ss_none; auto. apply IP; [apply p_timeProp; reflexivity|discriminate].
  - split; [|reflexivity]. apply ss_none; auto. apply IP; [apply p_flag; reflexivity|discriminate].
  - split; [|reflexivity]. apply ss_none; auto. apply IP; [apply p_maxIter; reflexivity|discriminate].
  - split; [|reflexivity]. apply ss_none; auto. apply IP; [apply p_addDependency; reflexivity|discriminate].
  - split; [|reflexivity]. apply ss_none; auto. apply IP; [apply p_addDependent; reflexivity|discriminate].
  - split; [|reflexivity]. apply ss_none; auto. apply IP; [apply p_resetDependency; reflexivity|discriminate].
Qed.
