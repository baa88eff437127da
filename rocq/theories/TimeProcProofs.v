(** * How one event of a started federate decomposes into coordinator operations *)
From Coq Require Import ZArith Bool List Lia ZifyBool.
From Verif Require Import HTime Action TimeDep TimeDepProofs TimeCoord TimeCoordProofs TimeProc.
Import ListNotations.
Open Scope Z_scope.

(** a federate which has entered executing mode at some point *)
Definition started (s : fstate) : bool :=
  match s with CREATED | INITIALIZING => false | _ => true end.

(** the iteration request after the core's iteration limit was applied *)
Definition effIter (f : fed) (it : iter_req) : iter_req :=
  match it with
  | ITERATE_IF_NEEDED => if f_coreMaxIter f <=? c_iteration (f_tc f) then NO_ITERATIONS else it
  | _ => it
  end.

(** one coordinator operation which does not grant time, caused by event [e] *)
Inductive prim (e : event) : tc -> tc -> Prop :=
| p_msg c cmd : e = Ev_msg cmd -> m_action cmd <> CMD_FORCE_TIME_GRANT ->
    prim e c (fst (fst (processTimeMessage c cmd)))
| p_datamsg c cmd k : e = Ev_data cmd k -> isDataCmd (m_action cmd) = true ->
    prim e c (fst (fst (processTimeMessage c cmd)))
| p_refused c t c' out : checkTimeGrant c t = (c', out, CONTINUE_PROCESSING) ->
    (exists cmd, e = Ev_msg cmd) -> prim e c c'
| p_value c cmd t b : e = Ev_data cmd (DK_value t) -> prim e c (fst (updateValueTime c t b))
| p_message c cmd t b : e = Ev_data cmd (DK_message t) -> prim e c (fst (updateMessageTime c t b))
| p_timeProp c p v : e = Ev_timeProp p v -> prim e c (set_c_opts (setTimeProperty p v (c_opts c)) c)
| p_flag c g v : e = Ev_flag g v -> prim e c (set_c_opts (setOptionFlag g v (c_opts c)) c)
| p_maxIter c v : e = Ev_maxIter v -> prim e c (set_c_opts (setMaxIterations v (c_opts c)) c)
| p_addDependency c g : e = Ev_addDependency g -> prim e c (fst (tcAddDependency c g))
| p_addDependent c g : e = Ev_addDependent g -> prim e c (set_c_deps (fst (addDependent (c_deps c) g)) c)
| p_resetDependency c g : e = Ev_resetDependency g -> prim e c (set_c_deps (resetDependency (c_deps c) g) c)
| p_depUpdate c cmd : e = Ev_msg cmd -> prim e c (processDependencyUpdateMessage c cmd)
| p_disconnect c : (exists cmd, e = Ev_msg cmd) -> prim e c (fst (disconnect c)).

Inductive prims (e : event) : tc -> tc -> Prop :=
| ps_refl c : prims e c c
| ps_step c c1 c2 : prims e c c1 -> prim e c1 c2 -> prims e c c2.

Lemma ps_one e c c' : prim e c c' -> prims e c c'.
Proof. intros H. eapply ps_step; [apply ps_refl|exact H]. Qed.
Lemma ps_trans e a b c : prims e a b -> prims e b c -> prims e a c.
Proof.
  intros H1 H2; revert H1; induction H2 as [x|x y z P IH S]; intros H1; [exact H1|].
  eapply ps_step; [apply IH; exact H1|exact S].
Qed.

(** an invariant of the coordinator closed under the operations *)
Lemma prims_inv e (P : tc -> Prop) : (forall c c', prim e c c' -> P c -> P c') ->
  forall c c', prims e c c' -> P c -> P c'.
Proof. intros H c c' HP; induction HP; eauto. Qed.

(** Outcome of processing one command, for a started federate.  [c0] is the coordinator before the
    grant decision, if there was one. *)
Inductive outcome (e : event) (c : tc) (st : fstate) (gm : bool) : tc -> fstate -> bool -> pres -> Prop :=
| o_none c' st' : prims e c c' -> started st' = true -> (st' = EXECUTING -> st = EXECUTING) ->
    outcome e c st gm c' st' gm PR_CONTINUE
| o_halt c' : prims e c c' -> outcome e c st gm c' FINISHED gm PR_HALT
| o_error c' : prims e c c' -> outcome e c st gm c' ERRORED gm PR_ERROR
| o_localError c' cmd : prims e c c' -> e = Ev_msg cmd -> outcome e c st gm (fst (localError c')) ERRORED gm PR_ERROR
| o_force cmd : e = Ev_msg cmd -> m_action cmd = CMD_FORCE_TIME_GRANT -> c_granted c <= m_actionTime cmd ->
    outcome e c st gm (if c_granted c <? m_actionTime cmd then fst (grantTo (m_actionTime cmd) c) else c)
            st true PR_NEXT
| o_grant c0 t c' out r : prims e c c0 -> st = EXECUTING -> gm = false ->
    checkTimeGrant c0 t = (c', out, r) -> r <> CONTINUE_PROCESSING ->
    outcome e c st gm c' EXECUTING true (of_mpr r)
| o_reprocess c' st' cmd' : prims e c c' -> started st' = true -> (st' = EXECUTING -> st = EXECUTING) ->
    (m_action cmd' = CMD_TIME_CHECK
     \/ coordStep cmd' c' st' gm = (c', [], st', PR_CONTINUE, gm)) ->
    (forall cmd, e = Ev_msg cmd -> m_action cmd <> CMD_FORCE_TIME_GRANT) ->
    outcome e c st gm c' st' gm (PR_REPROCESS cmd').

Lemma grantCheck_outcome e c0 c st gm t : prims e c0 c -> started st = true ->
  (exists cmd, e = Ev_msg cmd) ->
  let '(c', out, st', p, gm') := grantCheck c st gm t in outcome e c0 st gm c' st' gm' p.
Proof.
  intros HP HS HE. unfold grantCheck. destruct (fst_eqb st EXECUTING && negb gm) eqn:C.
  - assert (st = EXECUTING /\ gm = false) as [-> ->].
    { destruct st, gm; try discriminate; auto. }
    destruct (checkTimeGrant c t) as [[c' out] r] eqn:E. destruct r; cbn [of_mpr].
    + apply o_none; [|reflexivity|auto]. eapply ps_step; [exact HP|]. eapply p_refused; eauto.
    + eapply (o_grant e c0 EXECUTING false c t c' out NEXT_STEP); auto; discriminate.
    + eapply (o_grant e c0 EXECUTING false c t c' out ITERATING); auto; discriminate.
    + eapply (o_grant e c0 EXECUTING false c t c' out HALTED); auto; discriminate.
  - apply o_none; auto.
Qed.

Lemma timeCheck_outcome e c0 cmd c st gm : prims e c0 c -> started st = true ->
  (exists cmd, e = Ev_msg cmd) ->
  let '(c', out, st', p, gm') := timeCheck cmd c st gm in outcome e c0 st gm c' st' gm' p.
Proof.
  intros HP HS HE. unfold timeCheck. destruct st; try discriminate HS; cbn [fst_eqb];
  apply grantCheck_outcome; auto.
Qed.

Lemma coordStep_outcome cmd c st gm : started st = true -> isOwnRequest (c_id c) cmd = false ->
  let '(c', out, st', p, gm') := coordStep cmd c st gm in outcome (Ev_msg cmd) c st gm c' st' gm' p.
Proof.
  intros HS HO. set (e := Ev_msg cmd). assert (HM : exists cmd, e = Ev_msg cmd) by (exists cmd; reflexivity).
  unfold coordStep.
  assert (PM : m_action cmd <> CMD_FORCE_TIME_GRANT -> prims e c (fst (fst (processTimeMessage c cmd))))
    by (intros; apply ps_one, p_msg; auto).
  assert (PD : prims e c (fst (disconnect c))) by (apply ps_one, p_disconnect; auto).
  destruct (isBlockCmd (m_action cmd)) eqn:BC.
  { assert (N : m_action cmd <> CMD_FORCE_TIME_GRANT).
    { intros E; rewrite E in BC; discriminate. }
    specialize (PM N). destruct (processTimeMessage c cmd) as [[c' out] r]; cbn [fst] in PM.
    destruct (negb (tpr_notProcessed r) && negb gm).
    - destruct st; try discriminate HS; try (apply o_none; auto; fail). apply o_reprocess; auto.
      intros cmd0 E0; injection E0 as <-; exact N.
    - apply o_none; auto. }
  destruct (m_action cmd =? CMD_INIT_GRANT).
  { destruct st; try discriminate HS; apply o_none; auto using ps_refl. }
  destruct ((m_action cmd =? CMD_EXEC_REQUEST) && (m_source_id cmd =? c_id c) && checkFlag indicator_flag cmd) eqn:OW.
  { exfalso. unfold isOwnRequest in HO. destruct (m_action cmd =? CMD_EXEC_REQUEST); cbn in *; [|discriminate].
    rewrite orb_true_r in HO. cbn in HO. congruence. }
  clear OW.
  destruct ((m_action cmd =? CMD_EXEC_REQUEST) || (m_action cmd =? CMD_EXEC_GRANT)) eqn:X.
  { assert (N : m_action cmd <> CMD_FORCE_TIME_GRANT).
    { intros E; rewrite E in X; discriminate. }
    specialize (PM N). destruct (processTimeMessage c cmd) as [[c' out] r]; cbn [fst] in PM.
    destruct (tpr_notProcessed r); [apply o_none; auto|].
    unfold execCheck. destruct st; try discriminate HS; cbn [fst_eqb andb cpre]; apply o_none; auto. }
  clear X. destruct (m_action cmd =? CMD_EXEC_CHECK).
  { unfold execCheck. destruct st; try discriminate HS; cbn [fst_eqb andb]; apply o_none; auto using ps_refl. }
  destruct (m_action cmd =? CMD_TERMINATE_IMMEDIATELY); [apply o_halt; auto using ps_refl|].
  destruct (m_action cmd =? CMD_STOP).
  { destruct (disconnect c) as [c' out]; apply o_halt; auto. }
  destruct (m_action cmd =? CMD_DISCONNECT_FED_ACK).
  { destruct ((m_dest_id cmd =? c_id c) && (m_source_id cmd =? parent_broker_id)); [|apply o_none; auto using ps_refl].
    destruct (disconnect c) as [c' out].
    destruct (negb (fst_eqb st FINISHED) && negb (fst_eqb st TERMINATING)); apply o_halt; auto using ps_refl. }
  destruct ((m_action cmd =? CMD_REQUEST_CURRENT_TIME) || (m_action cmd =? CMD_TIMING_INFO)) eqn:X.
  { assert (N : m_action cmd <> CMD_FORCE_TIME_GRANT).
    { intros E; rewrite E in X; discriminate. }
    specialize (PM N). destruct (processTimeMessage c cmd) as [[c' out] r]; cbn [fst] in PM. apply o_none; auto. }
  clear X. destruct ((m_action cmd =? CMD_DISCONNECT_FED) || (m_action cmd =? CMD_DISCONNECT)) eqn:X.
  { assert (N : m_action cmd <> CMD_FORCE_TIME_GRANT).
    { intros E; rewrite E in X; discriminate. }
    specialize (PM N). destruct (m_source_id cmd =? c_id c) eqn:SRC.
    - destruct (negb (fst_eqb st FINISHED) && negb (fst_eqb st TERMINATING)); [|apply o_none; auto using ps_refl].
      pose proof (disconnect_core c) as DC. destruct (disconnect c) as [c' out]. cbn [fst] in DC.
      apply o_reprocess; auto; [discriminate| |intros cmd0 E0; injection E0 as <-; exact N]. right.
      assert (ID : c_id c' = c_id c) by (unfold core in DC; congruence).
      unfold coordStep.
      change (m_action (set_m_dest_id parent_broker_id cmd)) with (m_action cmd).
      change (m_source_id (set_m_dest_id parent_broker_id cmd)) with (m_source_id cmd).
      rewrite ID, SRC.
      assert (AA : m_action cmd = CMD_DISCONNECT_FED \/ m_action cmd = CMD_DISCONNECT) by lia.
      destruct AA as [AA|AA]; rewrite AA; reflexivity.
    - destruct (processTimeMessage c cmd) as [[c' out] r]; cbn [fst] in PM.
      pose proof (grantCheck_outcome e c c' st gm invalidId PM HS HM) as G.
      destruct (grantCheck c' st gm invalidId) as [[[[c'' o] s] p] g]. exact G. }
  clear X. destruct ((m_action cmd =? CMD_BROADCAST_DISCONNECT) || (m_action cmd =? CMD_DISCONNECT_BROKER) || (m_action cmd =? CMD_DISCONNECT_CORE)) eqn:X.
  { assert (N : m_action cmd <> CMD_FORCE_TIME_GRANT).
    { intros E; rewrite E in X; discriminate. }
    specialize (PM N). destruct (processTimeMessage c cmd) as [[c' out] r]; cbn [fst] in PM.
    destruct (tpr_notProcessed r); [apply o_none; auto|].
    pose proof (grantCheck_outcome e c c' st gm invalidId PM HS HM) as G.
    destruct (grantCheck c' st gm invalidId) as [[[[c'' o] s] p] g]. exact G. }
  clear X. destruct ((m_action cmd =? CMD_TIME_REQUEST) || (m_action cmd =? CMD_TIME_GRANT)) eqn:X.
  { assert (N : m_action cmd <> CMD_FORCE_TIME_GRANT).
    { intros E; rewrite E in X; discriminate. }
    specialize (PM N). destruct (processTimeMessage c cmd) as [[c' out] r]; cbn [fst] in PM.
    destruct (tpr_notProcessed r); [apply o_none; auto|].
    pose proof (timeCheck_outcome e c cmd c' st gm PM HS HM) as G.
    destruct (timeCheck cmd c' st gm) as [[[[c'' o] s] p] g]. exact G. }
  clear X. destruct (m_action cmd =? CMD_TIME_CHECK).
  { apply timeCheck_outcome; auto using ps_refl. }
  destruct (m_action cmd =? CMD_FORCE_TIME_GRANT) eqn:F.
  { destruct (m_actionTime cmd <? c_granted c) eqn:L; [apply o_none; auto using ps_refl|].
    pose proof (o_force e c st gm cmd eq_refl ltac:(lia) ltac:(lia)) as G.
    unfold processTimeMessage. rewrite BC, F.
    destruct (c_granted c <? m_actionTime cmd); [|exact G].
    destruct (grantTo (m_actionTime cmd) c); exact G. }
  assert (N : m_action cmd <> CMD_FORCE_TIME_GRANT) by lia. specialize (PM N).
  destruct ((m_action cmd =? CMD_ERROR) || (m_action cmd =? CMD_LOCAL_ERROR) || (m_action cmd =? CMD_GLOBAL_ERROR)).
  { match goal with |- context [if ?b then _ else _] => destruct b end.
    - destruct (negb (fst_eqb st FINISHED) && negb (fst_eqb st TERMINATING)); [|apply o_none; auto using ps_refl].
      destruct (m_action cmd =? CMD_GLOBAL_ERROR); [apply o_error; auto using ps_refl|].
      pose proof (o_localError e c st gm c cmd (ps_refl _ _) eq_refl) as G.
      destruct (localError c) as [c' out]. exact G.
    - destruct (processTimeMessage c cmd) as [[c' out] r]; cbn [fst] in PM.
      destruct (tpr_notProcessed r); [apply o_none; auto|].
      pose proof (grantCheck_outcome e c c' st gm invalidId PM HS HM) as G.
      destruct (grantCheck c' st gm invalidId) as [[[[c'' o] s] p] g]. exact G. }
  match goal with |- context [if ?b then _ else _] => destruct b end; [|apply o_none; auto using ps_refl].
  destruct (m_dest_id cmd =? c_id c); apply o_none; auto using ps_refl.
  apply ps_one, p_depUpdate; reflexivity.
Qed.

Lemma coordStep_timeCheck e cmd c0 c st gm : prims e c0 c -> started st = true -> m_action cmd = CMD_TIME_CHECK ->
  (exists cmd, e = Ev_msg cmd) ->
  let '(c', out, st', p, gm') := coordStep cmd c st gm in
  outcome e c0 st gm c' st' gm' p /\ (forall m, p <> PR_REPROCESS m).
Proof.
  intros HP HS HA HE.
  assert (EQ : coordStep cmd c st gm = timeCheck cmd c st gm) by (unfold coordStep; rewrite HA; reflexivity).
  rewrite EQ. pose proof (timeCheck_outcome e c0 cmd c st gm HP HS HE) as G.
  assert (NR : forall m, snd (fst (timeCheck cmd c st gm)) <> PR_REPROCESS m).
  { intros m. unfold timeCheck, grantCheck. destruct st; try discriminate HS; cbn [fst_eqb andb fst snd]; try discriminate.
    destruct gm; cbn [negb]; [discriminate|]. destruct (checkTimeGrant _ _) as [[? ?] r]. destruct r; discriminate. }
  destruct (timeCheck cmd c st gm) as [[[[c' out] st'] p] gm']. split; [exact G|exact NR].
Qed.

(** the state parts of a federate *)
Definition fedIs (f : fed) (c : tc) (st : fstate) (gm : bool) : Prop := f_tc f = c /\ f_st f = st /\ f_gm f = gm.

Lemma checkProcResult_spec f r : started (f_st f) = true ->
  (let '(c, out, st, p, gm) := r in started st = true /\ (st = EXECUTING -> f_st f = EXECUTING)) ->
  let '(c, out, st, p, gm) := r in
  let '(f', out', p') := checkProcResult f r in
  fedIs f' c st gm /\ p' = p /\ f_coreMaxIter f' = f_coreMaxIter f.
Proof.
  destruct r as [[[[c out] st] p] gm]. intros HS [H1 H2]. unfold checkProcResult.
  assert (E : (if fst_eqb (f_st f) st then (c, out)
     else match st with INITIALIZING => (c, out ++ enterInitialization c)
          | EXECUTING => (fst (updateTimeFactors c), out) | _ => (c, out) end) = (c, out)).
  { destruct st; try discriminate H1; try (destruct (fst_eqb _ _); reflexivity).
    rewrite (H2 eq_refl). reflexivity. }
  rewrite E. destruct p; [|destruct gm ..|]; repeat split.
Qed.

Lemma outcome_started e c st gm c' st' gm' p : started st = true -> outcome e c st gm c' st' gm' p ->
  started st' = true /\ (st' = EXECUTING -> st = EXECUTING).
Proof. intros HS H; inversion H; subst; auto; split; auto; discriminate. Qed.

Lemma outcome_shift e c0 c st gm st1 c' st' gm' p : prims e c0 c -> started st = true ->
  (st1 = EXECUTING -> st = EXECUTING) -> (forall m, p <> PR_REPROCESS m) ->
  p <> PR_NEXT \/ (forall cmd, e = Ev_msg cmd -> m_action cmd <> CMD_FORCE_TIME_GRANT) ->
  outcome e c st1 gm c' st' gm' p -> outcome e c0 st gm c' st' gm' p.
Proof.
  intros HP HS HE NR NF H. inversion H; subst.
  - apply o_none; eauto using ps_trans.
  - apply o_halt; eauto using ps_trans.
  - apply o_error; eauto using ps_trans.
  - eapply o_localError; [eapply ps_trans; eassumption|reflexivity].
  - exfalso. destruct NF as [NF|NF]; [apply NF; reflexivity|].
    match goal with HF : m_action ?x = _ |- _ => exact (NF x eq_refl HF) end.
  - eapply o_grant; [eapply ps_trans; eassumption|exact (HE eq_refl)|reflexivity|eassumption|assumption].
  - exfalso. eapply NR; reflexivity.
Qed.

Lemma outcome_reprocess_inv e c st gm c' st' gm' cmd' : outcome e c st gm c' st' gm' (PR_REPROCESS cmd') ->
  gm' = gm /\ prims e c c' /\ started st' = true /\ (st' = EXECUTING -> st = EXECUTING) /\
  (m_action cmd' = CMD_TIME_CHECK \/ coordStep cmd' c' st' gm = (c', [], st', PR_CONTINUE, gm)) /\
  (forall cmd, e = Ev_msg cmd -> m_action cmd <> CMD_FORCE_TIME_GRANT).
Proof.
  intros H. inversion H; subst; [|repeat split; assumption].
  match goal with HR : of_mpr ?r = _ |- _ => destruct r; discriminate HR end.
Qed.

(** [procMsg] for a command from the queue *)
Lemma procMsg_outcome cmd n f : started (f_st f) = true -> isOwnRequest (c_id (f_tc f)) cmd = false ->
  let '(f', out, p) := procMsg (S (S n)) f cmd in
  outcome (Ev_msg cmd) (f_tc f) (f_st f) (f_gm f) (f_tc f') (f_st f') (f_gm f') p
  /\ (forall m, p <> PR_REPROCESS m) /\ f_coreMaxIter f' = f_coreMaxIter f.
Proof.
  intros HS HO. cbn [procMsg].
  pose proof (coordStep_outcome cmd (f_tc f) (f_st f) (f_gm f) HS HO) as G.
  destruct (coordStep cmd (f_tc f) (f_st f) (f_gm f)) as [[[[c1 o1] st1] p1] gm1].
  pose proof (outcome_started _ _ _ _ _ _ _ _ HS G) as [S1 S2].
  pose proof (checkProcResult_spec f (c1, o1, st1, p1, gm1) HS (conj S1 S2)) as K. cbn iota beta in K.
  destruct (checkProcResult f (c1, o1, st1, p1, gm1)) as [[f1 out1] p'].
  destruct K as ((K1&K2&K3)&->&K4).
  destruct p1 as [| | | | |cmd']; try (rewrite K1, K2, K3; split; [exact G|split; [discriminate|exact K4]]).
  apply outcome_reprocess_inv in G. destruct G as (->&HP&HS'&HE'&HR&HNF).
  destruct (m_dest_id cmd' =? c_id (f_tc f1)).
  2: { rewrite K1, K2, K3. split; [apply o_none; auto|split; [discriminate|exact K4]]. }
  rewrite K1, K2, K3.
  assert (D : let '(c2, o2, st2, p2, gm2) := coordStep cmd' c1 st1 (f_gm f) in
              outcome (Ev_msg cmd) (f_tc f) (f_st f) (f_gm f) c2 st2 gm2 p2 /\ (forall m, p2 <> PR_REPROCESS m)
              /\ started st2 = true /\ (st2 = EXECUTING -> st1 = EXECUTING)).
  { destruct HR as [HR|HR].
    - pose proof (coordStep_timeCheck (Ev_msg cmd) cmd' c1 c1 st1 (f_gm f) (ps_refl _ _) HS' HR
                    (ex_intro _ cmd eq_refl)) as T.
      destruct (coordStep cmd' c1 st1 (f_gm f)) as [[[[c2 o2] st2] p2] gm2]. destruct T as [T NR].
      pose proof (outcome_started _ _ _ _ _ _ _ _ HS' T) as [Q1 Q2]. repeat split; auto.
      eapply outcome_shift; eauto.
    - rewrite HR. repeat split; auto; try discriminate. apply o_none; auto. }
  destruct (coordStep cmd' c1 st1 (f_gm f)) as [[[[c2 o2] st2] p2] gm2]. destruct D as (D1&D2&D3&D4).
  rewrite <- K2 in D4. rewrite <- K2 in HS'.
  pose proof (checkProcResult_spec f1 (c2, o2, st2, p2, gm2) HS' (conj D3 D4)) as K. cbn iota beta in K.
  destruct (checkProcResult f1 (c2, o2, st2, p2, gm2)) as [[f2 out2] p3].
  destruct K as ((L1&L2&L3)&->&L4).
  assert (R : outcome (Ev_msg cmd) (f_tc f) (f_st f) (f_gm f) (f_tc f2) (f_st f2) (f_gm f2) p2
    /\ (forall m, p2 <> PR_REPROCESS m) /\ f_coreMaxIter f2 = f_coreMaxIter f).
  { rewrite L1, L2, L3, L4, K4. auto. }
  destruct p2 as [| | | | |m]; try exact R. exfalso; eapply D2; reflexivity.
Qed.

(** the coordinator changes which come with an error return *)
Inductive errChange (e : event) (c : tc) : tc -> Prop :=
| ec_prims c' : prims e c c' -> errChange e c c'
| ec_local c' cmd : prims e c c' -> e = Ev_msg cmd -> errChange e c (fst (localError c'))
| ec_force cmd : e = Ev_msg cmd -> c_granted c < m_actionTime cmd ->
    errChange e c (fst (grantTo (m_actionTime cmd) c)).

(** Everything one event can do to a started federate: the new federate and the value returned. *)
Inductive sout (e : event) (f f' : fed) : option (pres * Z) -> Prop :=
| s_none : prims e (f_tc f) (f_tc f') -> started (f_st f') = true ->
    (f_st f' = EXECUTING -> f_st f = EXECUTING) ->
    f_gm f' = f_gm f ->
    (f_st f = FINISHED -> f_st f' = FINISHED) ->
    sout e f f' None
| s_halt : prims e (f_tc f) (f_tc f') -> f_st f <> FINISHED -> f_st f' = FINISHED ->
    sout e f f' (Some (PR_HALT, maxVal))
| s_error t : errChange e (f_tc f) (f_tc f') -> f_st f <> FINISHED -> f_st f' = ERRORED \/ f_st f' = FINISHED ->
    sout e f f' (Some (PR_ERROR, t))
| s_force cmd : e = Ev_msg cmd -> m_action cmd = CMD_FORCE_TIME_GRANT -> c_granted (f_tc f) <= m_actionTime cmd ->
    f_st f <> FINISHED ->
    f_tc f' = (if c_granted (f_tc f) <? m_actionTime cmd then fst (grantTo (m_actionTime cmd) (f_tc f)) else f_tc f) ->
    f_st f' = f_st f -> f_gm f' = true ->
    sout e f f' (Some (PR_NEXT, m_actionTime cmd))
| s_grant c0 trig out r : prims e (f_tc f) c0 -> f_st f = EXECUTING -> f_st f' = EXECUTING ->
    f_gm f = false ->
    checkTimeGrant c0 trig = (f_tc f', out, r) -> r <> CONTINUE_PROCESSING -> f_gm f' = true ->
    sout e f f' (Some (of_mpr r, match r with HALTED => maxVal | _ => c_granted (f_tc f') end)).

Lemma of_mpr_returnable r : r <> CONTINUE_PROCESSING -> returnable (of_mpr r) = true.
Proof. destruct r; auto; congruence. Qed.

Lemma returnTo_spec f r : started (f_st f) = true ->
  let '(f', (r', t)) := returnTo f r in
  fedIs f' (f_tc f) (f_st f) (f_gm f) /\ f_coreMaxIter f' = f_coreMaxIter f /\ r' = r /\
  match r with PR_HALT => t = maxVal | PR_ERROR => True | _ => t = c_granted (f_tc f) end.
Proof. intros HS. unfold returnTo. destruct r; destruct (f_st f) eqn:E; try discriminate HS; cbn; unfold fedIs; cbn; rewrite ?E; repeat split. Qed.

(** an outcome of a federate turned into what the application sees *)
Lemma finish_sout e f f1 out disc p : f_st f <> FINISHED -> f_st f <> ERRORED -> started (f_st f) = true ->
  outcome e (f_tc f) (f_st f) (f_gm f) (f_tc f1) (f_st f1) (f_gm f1) p ->
  (forall m, p <> PR_REPROCESS m) -> f_coreMaxIter f1 = f_coreMaxIter f ->
  sout e f (fst (finish f1 out disc p)) (e_ret (snd (finish f1 out disc p)))
  /\ f_coreMaxIter (fst (finish f1 out disc p)) = f_coreMaxIter f.
Proof.
  intros NF NE HS H NR HM. pose proof (outcome_started _ _ _ _ _ _ _ _ HS H) as [S1 S2].
  unfold finish. destruct (returnable p) eqn:R.
  2: { destruct p; try discriminate R. cbn [fst snd e_ret]. split; [|exact HM].
       inversion H; subst.
       - apply s_none; auto. congruence.
       - destruct r; try discriminate; congruence. }
  pose proof (returnTo_spec f1 p S1) as T. destruct (returnTo f1 p) as [f2 [r' t]].
  destruct T as ((T1&T2&T3)&T4&->&T5). cbn [fst snd e_ret]. split; [|congruence].
  inversion H; subst; try discriminate R.
  - rewrite T5. apply s_halt; congruence.
  - apply s_error; [|exact NF|left; congruence]. rewrite T1. apply ec_prims. assumption.
  - apply s_error; [|exact NF|left; congruence]. rewrite T1.
    match goal with HH : fst (localError _) = _ |- _ => rewrite <- HH end. eapply ec_local; eauto.
  - assert (TT : c_granted (f_tc f1) = m_actionTime cmd).
    { match goal with HH : (if _ then _ else _) = f_tc f1 |- _ => rewrite <- HH end.
      destruct (c_granted (f_tc f) <? m_actionTime cmd) eqn:L; [reflexivity|lia]. }
    rewrite T5, TT. eapply (s_force _ f f2 cmd); try assumption; try congruence; try reflexivity.
    rewrite T1. symmetry. assumption.
  - destruct r; try congruence.
    + cbn [of_mpr] in T5. rewrite T5, <- T1. eapply (s_grant _ f f2 c0 _ _ NEXT_STEP); try rewrite T1; eauto; congruence.
    + cbn [of_mpr] in T5. rewrite T5, <- T1. eapply (s_grant _ f f2 c0 _ _ ITERATING); try rewrite T1; eauto; congruence.
    + cbn [of_mpr] in T5. rewrite T5. eapply (s_grant _ f f2 c0 _ _ HALTED); try rewrite T1; eauto; congruence.
  - exfalso. eapply NR; reflexivity.
Qed.

(** the same for a federate in the error state, whose returns are all turned into errors *)
Lemma finish_errored e f f1 out disc p : f_st f = ERRORED ->
  outcome e (f_tc f) (f_st f) (f_gm f) (f_tc f1) (f_st f1) (f_gm f1) p ->
  (forall m, p <> PR_REPROCESS m) -> f_coreMaxIter f1 = f_coreMaxIter f ->
  let r := maskError true (finish f1 out disc p) in
  sout e f (fst r) (e_ret (snd r)) /\ f_coreMaxIter (fst r) = f_coreMaxIter f.
Proof.
  intros NE H NR HM. cbn zeta. assert (HS : started (f_st f) = true) by (rewrite NE; reflexivity).
  pose proof (outcome_started _ _ _ _ _ _ _ _ HS H) as [S1 S2].
  unfold finish, maskError. destruct (returnable p) eqn:R.
  2: { destruct p; try discriminate R. cbn [fst snd e_ret set_e_ret]. split; [|exact HM].
       inversion H; subst.
       - apply s_none; auto. congruence.
       - destruct r; try discriminate; congruence. }
  pose proof (returnTo_spec f1 p S1) as T. destruct (returnTo f1 p) as [f2 [r' t]].
  destruct T as ((T1&T2&T3)&T4&->&T5). cbn [fst snd e_ret set_e_ret]. split; [|congruence].
  inversion H; subst; try discriminate R; try congruence.
  - apply s_error; [rewrite T1; apply ec_prims; assumption|congruence|right; congruence].
  - apply s_error; [rewrite T1; apply ec_prims; assumption|congruence|left; congruence].
  - apply s_error; [|congruence|left; congruence]. rewrite T1.
    match goal with HH : fst (localError _) = _ |- _ => rewrite <- HH end. eapply ec_local; eauto.
  - apply s_error; [|congruence|left; congruence]. rewrite T1.
    match goal with HH : (if _ then _ else _) = f_tc f1 |- _ => rewrite <- HH end.
    destruct (c_granted (f_tc f) <? m_actionTime cmd) eqn:L.
    + eapply (ec_force _ _ cmd); [reflexivity|lia].
    + apply ec_prims, ps_refl.
Qed.

(** the second phase of a disconnect *)
Lemma disconnectPhase2_outcome f f0 cmd : prims (Ev_msg cmd) (f_tc f0) (f_tc f) -> started (f_st f0) = true ->
  f_st f = f_st f0 -> f_gm f = f_gm f0 -> m_action cmd <> CMD_FORCE_TIME_GRANT ->
  let '(f', out, disc, p) := disconnectPhase2 f cmd in
  outcome (Ev_msg cmd) (f_tc f0) (f_st f0) (f_gm f0) (f_tc f') (f_st f') (f_gm f') p
  /\ (forall m, p <> PR_REPROCESS m) /\ f_coreMaxIter f' = f_coreMaxIter f.
Proof.
  intros HP HS ES EG NF. unfold disconnectPhase2.
  assert (PM : prims (Ev_msg cmd) (f_tc f0) (fst (fst (processTimeMessage (f_tc f) cmd))))
    by (eapply ps_step; [exact HP|apply p_msg; auto]).
  destruct (processTimeMessage (f_tc f) cmd) as [[c1 out1] r1]. cbn [fst] in PM.
  assert (NONE : outcome (Ev_msg cmd) (f_tc f0) (f_st f0) (f_gm f0) c1 (f_st f) (f_gm f) PR_CONTINUE).
  { rewrite ES, EG. apply o_none; auto. }
  destruct (tpr_notProcessed r1); [split; [exact NONE|split; [discriminate|reflexivity]]|].
  change (f_st (set_f_tc c1 f)) with (f_st f). change (f_gm (set_f_tc c1 f)) with (f_gm f).
  destruct (negb (fst_eqb (f_st f) EXECUTING)) eqn:EX; [split; [exact NONE|split; [discriminate|reflexivity]]|].
  destruct (negb (f_gm f)) eqn:GM; [|split; [exact NONE|split; [discriminate|reflexivity]]].
  assert (f_st f0 = EXECUTING) as E1 by (rewrite ES in EX; destruct (f_st f0); try discriminate EX; reflexivity).
  assert (f_gm f0 = false) as E2 by (rewrite EG in GM; destruct (f_gm f0); [discriminate GM|reflexivity]).
  destruct (checkTimeGrant c1 invalidId) as [[c2 out2] r] eqn:CK.
  destruct r; (split; [|split; [discriminate|reflexivity]]); cbn; rewrite ?E2, ?ES, ?EG, E1, ?E2.
  - apply o_none; auto. eapply ps_step; [exact PM|]. eapply p_refused; eauto.
  - eapply (o_grant _ _ _ _ c1 invalidId c2 out2 NEXT_STEP); auto; discriminate.
  - eapply (o_grant _ _ _ _ c1 invalidId c2 out2 ITERATING); auto; discriminate.
  - eapply (o_grant _ _ _ _ c1 invalidId c2 out2 HALTED); auto; discriminate.
Qed.

Lemma outcome_none_inv e c st gm c' st' gm' : outcome e c st gm c' st' gm' PR_CONTINUE ->
  prims e c c' /\ gm' = gm.
Proof. intros H; inversion H; subst; auto. destruct r; try discriminate; congruence. Qed.

Lemma grantCheck_st c st gm t : snd (fst (fst (grantCheck c st gm t))) = st.
Proof.
  unfold grantCheck. destruct (fst_eqb st EXECUTING && negb gm); [|reflexivity].
  destruct (checkTimeGrant c t) as [[? ?] r]. reflexivity.
Qed.
Lemma otherDisconnect_st n f cmd : m_action cmd = CMD_DISCONNECT_FED \/ m_action cmd = CMD_DISCONNECT ->
  m_source_id cmd <> c_id (f_tc f) -> f_st (fst (fst (procMsg (S n) f cmd))) = f_st f.
Proof.
  intros HA HI. cbn [procMsg].
  assert (E : coordStep cmd (f_tc f) (f_st f) (f_gm f) =
    let '(c, out, _) := processTimeMessage (f_tc f) cmd in cpre out (grantCheck c (f_st f) (f_gm f) invalidId)).
  { unfold coordStep. destruct (Z.eqb_spec (m_source_id cmd) (c_id (f_tc f))) as [Q|Q]; [contradiction|].
    destruct HA as [HA|HA]; rewrite HA; reflexivity. }
  rewrite E. destruct (processTimeMessage (f_tc f) cmd) as [[c out] r].
  pose proof (grantCheck_st c (f_st f) (f_gm f) invalidId) as G.
  assert (NR : forall m, snd (fst (grantCheck c (f_st f) (f_gm f) invalidId)) <> PR_REPROCESS m).
  { intros m. unfold grantCheck. destruct (_ && _); [|discriminate].
    destruct (checkTimeGrant _ _) as [[? ?] q]; destruct q; discriminate. }
  destruct (grantCheck c (f_st f) (f_gm f) invalidId) as [[[[c' o] s] p] g]. cbn [fst snd] in G, NR. subst s.
  unfold cpre, checkProcResult.
  assert (B : fst_eqb (f_st f) (f_st f) = true) by (destruct (f_st f); reflexivity). rewrite B.
  destruct p as [| | | | |m]; [| destruct g ..|]; try reflexivity. exfalso; eapply NR; reflexivity.
Qed.

Lemma userDisconnect_spec f cmd : started (f_st f) = true ->
  let '(f', out) := userDisconnect f cmd in
  prims (Ev_msg cmd) (f_tc f) (f_tc f') /\ started (f_st f') = true /\ (f_st f' = EXECUTING -> f_st f = EXECUTING)
  /\ f_gm f' = f_gm f /\ f_coreMaxIter f' = f_coreMaxIter f.
Proof.
  intros HS. unfold userDisconnect.
  assert (PD : prims (Ev_msg cmd) (f_tc f) (fst (disconnect (f_tc f)))) by (apply ps_one, p_disconnect; eauto).
  destruct (disconnect (f_tc f)) as [c' out]; cbn [fst] in PD.
  destruct (f_st f) eqn:E; try discriminate HS; cbn; rewrite ?E; repeat split; auto using ps_refl; discriminate.
Qed.

Lemma core_id c c' : core c = core c' -> c_id c = c_id c'.
Proof. intros H. core_inv H. assumption. Qed.

Lemma timeRequest_id c t it nv nm : c_id (fst (timeRequest c t it nv nm)) = c_id c.
Proof.
  unfold timeRequest. destruct (negb (is_no_iter it)).
  - match goal with |- context [match ?d with [] => _ | _ :: _ => _ end] => destruct d end; [reflexivity|].
    rewrite (core_id _ _ (proj1 (sendTimeRequest_core _ _))). reflexivity.
  - match goal with |- context [match ?d with [] => _ | _ :: _ => _ end] => destruct d end; [reflexivity|].
    rewrite (core_id _ _ (proj1 (sendTimeRequest_core _ _))). reflexivity.
Qed.

Definition dataKeeps (c c' : tc) : Prop :=
  c_id c' = c_id c /\ c_granted c' = c_granted c /\ c_grantBase c' = c_grantBase c /\ c_requested c' = c_requested c
  /\ c_opts c' = c_opts c /\ c_iterating c' = c_iterating c /\ c_execMode c' = c_execMode c
  /\ c_deps c' = c_deps c /\ c_block c' = c_block c /\ c_blocks c' = c_blocks c.

Lemma grantedFrom_id c c' r : grantedFrom c c' r -> c_id c' = c_id c.
Proof.
  unfold grantedFrom. destruct r.
  - intros H; symmetry; apply core_id; auto.
  - intros [_ H]. unfold core in H. congruence.
  - intros [_ H]. unfold core in H. congruence.
  - intros [H _]. unfold core in H. congruence.
Qed.
Lemma checkTimeGrant_id c t : c_id (fst (fst (checkTimeGrant c t))) = c_id c.
Proof.
  pose proof (checkTimeGrant_spec c t) as H. destruct (checkTimeGrant c t) as [[c' out] r]. cbn [fst].
  rewrite (grantedFrom_id _ _ _ (proj1 H)). reflexivity.
Qed.

Lemma updateValueTime_id c t b : c_id (fst (updateValueTime c t b)) = c_id c.
Proof.
  unfold updateValueTime. destruct (negb (c_execMode c)); [destruct (_ <? _); reflexivity|].
  set (c1 := if t <=? c_granted c then set_c_hasIter true c else c).
  assert (E : c_id c1 = c_id c) by (unfold c1; destruct (_ <=? _); reflexivity). rewrite <- E. generalize c1. clear.
  intros c. destruct (_ <? _); [|reflexivity]. destruct (_ && _); [|reflexivity].
  destruct (updateNextExecutionTime _) as [c2 ch] eqn:U.
  assert (E : c_id c2 = c_id c) by (unfold updateNextExecutionTime in U; injection U as <- _; reflexivity).
  destruct (ch && b); [|exact E]. rewrite (core_id _ _ (proj1 (sendTimeRequest_core _ _))). exact E.
Qed.
Lemma updateMessageTime_id c t b : c_id (fst (updateMessageTime c t b)) = c_id c.
Proof.
  unfold updateMessageTime. destruct (negb (c_execMode c)); [destruct (_ <? _); reflexivity|].
  set (c1 := if t <=? c_granted c then set_c_hasIter true c else c).
  assert (E : c_id c1 = c_id c) by (unfold c1; destruct (_ <=? _); reflexivity). rewrite <- E. generalize c1. clear.
  intros c. destruct (_ <? _); [|reflexivity]. destruct (_ && _); [|reflexivity].
  destruct (updateNextExecutionTime _) as [c2 ch] eqn:U.
  assert (E : c_id c2 = c_id c) by (unfold updateNextExecutionTime in U; injection U as <- _; reflexivity).
  destruct (ch && b); [|exact E]. rewrite (core_id _ _ (proj1 (sendTimeRequest_core _ _))). exact E.
Qed.

Lemma depUpdate_core c cmd : core (processDependencyUpdateMessage c cmd) = core c
  /\ c_block (processDependencyUpdateMessage c cmd) = c_block c
  /\ c_blocks (processDependencyUpdateMessage c cmd) = c_blocks c.
Proof.
  unfold processDependencyUpdateMessage.
  assert (A : core (fst (tcAddDependency c (m_source_id cmd))) = core c /\ c_block (fst (tcAddDependency c (m_source_id cmd))) = c_block c
     /\ c_blocks (fst (tcAddDependency c (m_source_id cmd))) = c_blocks c).
  { unfold tcAddDependency. destruct (addDependency _ _). repeat split. }
  assert (F : forall c' : tc, core c' = core c /\ c_block c' = c_block c /\ c_blocks c' = c_blocks c -> forall added : bool,
    let r := (if added then
    let c := if checkFlag child_flag cmd then setConnection c' (m_source_id cmd) c_CHILD else c' in
    let c := if checkFlag parent_flag cmd then setConnection c (m_source_id cmd) c_PARENT else c in
    if 0 <? m_counter cmd then setVersion c (m_source_id cmd) (s8 (m_counter cmd)) else c
    else c') in core r = core c /\ c_block r = c_block c /\ c_blocks r = c_blocks c).
  { intros c' H [|]; [|exact H]. cbn zeta. unfold setConnection, setVersion.
    repeat match goal with |- context [if ?b then _ else _] => destruct b end; exact H. }
  unfold tcAddDependency in *. destruct (addDependency (c_deps c) (m_source_id cmd)) as [deps ad].
  repeat match goal with |- context [if m_action cmd =? ?x then _ else _] => destruct (m_action cmd =? x) end;
  cbn [fst] in *; try (apply F; exact A); try (apply F; repeat split).
all: repeat split.
Qed.

Lemma prim_id e c c' : prim e c c' -> c_id c' = c_id c.
Proof.
  intros H. destruct H; try reflexivity.
  - apply core_id. apply processTimeMessage_core. assumption.
  - apply core_id. apply processTimeMessage_core. intros E; rewrite E in *; discriminate.
  - pose proof (checkTimeGrant_id c t) as I. match goal with HH : checkTimeGrant _ _ = _ |- _ => rewrite HH in I end. exact I.
  - apply updateValueTime_id.
  - apply updateMessageTime_id.
  - unfold tcAddDependency. destruct (addDependency _ _); reflexivity.
  - apply core_id. apply depUpdate_core.
  - apply core_id. apply disconnect_core.
Qed.
Lemma prims_id e c c' : prims e c c' -> c_id c' = c_id c.
Proof. intros H; induction H as [|x y z P IH Q]; [reflexivity|]. rewrite (prim_id _ _ _ Q). exact IH. Qed.

(** ** One event of a started federate *)
Theorem step_started f e : started (f_st f) = true ->
  (f_st f = EXECUTING -> forall t it nv nm, e <> Ev_request t it nv nm) ->
  sout e f (fst (step f e)) (e_ret (snd (step f e))) /\ f_coreMaxIter (fst (step f e)) = f_coreMaxIter f.
Proof.
  intros HS NRQ. destruct e as [cmd|it|t it nv nm|cmd k|p v|g v|v|g|g|g]; cbn [step].
  - destruct (isDataCmd (m_action cmd) || isOwnRequest (c_id (f_tc f)) cmd || fst_eqb (f_st f) FINISHED) eqn:SK.
    { split; [|reflexivity]. apply s_none; auto using ps_refl. }
    assert (HO : isOwnRequest (c_id (f_tc f)) cmd = false) by (destruct (isOwnRequest _ _); rewrite ?orb_true_r in SK; [discriminate|reflexivity]).
    assert (NF : f_st f <> FINISHED) by (intros Q; rewrite Q, !orb_true_r in SK; discriminate).
    assert (K : exists f1 out disc p,
      ((deliver f cmd = finish f1 out disc p) \/
       (exists f2 out', deliver f cmd = (f2, effMsgs out') /\ p = PR_CONTINUE /\ f1 = f2)) /\
      outcome (Ev_msg cmd) (f_tc f) (f_st f) (f_gm f) (f_tc f1) (f_st f1) (f_gm f1) p
      /\ (forall m, p <> PR_REPROCESS m) /\ f_coreMaxIter f1 = f_coreMaxIter f).
    { unfold deliver. pose proof (procMsg_outcome cmd 1 f HS HO) as P.
      pose proof (otherDisconnect_st 2 f cmd) as OD.
      change (procMsg 3 f cmd) with (procMsg procDepth f cmd) in *.
      destruct (procMsg procDepth f cmd) as [[f1 out] p]. destruct P as (P1&P2&P3). cbn [fst] in OD.
      destruct (returnable p) eqn:R. { exists f1, out, [], p. auto. }
      assert (p = PR_CONTINUE) as -> by (destruct p; try discriminate R; reflexivity).
      pose proof (outcome_none_inv _ _ _ _ _ _ _ P1) as [PP PG].
      pose proof (outcome_started _ _ _ _ _ _ _ _ HS P1) as [S1 S2].
      match goal with |- context [if ?b then _ else _] => destruct b end.
      { pose proof (userDisconnect_spec f1 cmd S1) as U. destruct (userDisconnect f1 cmd) as [f2 out2].
        destruct U as (U1&U2&U3&U4&U5).
        exists f2, (out ++ out2), [], PR_CONTINUE. split; [right; do 2 eexists; split; [reflexivity|auto]|].
        split; [|split; [discriminate|congruence]]. rewrite U4, PG. apply o_none; auto. eapply ps_trans; eassumption. }
      match goal with |- context [if ?b then _ else _] => destruct b eqn:D end.
      2: { exists f1, out, [], PR_CONTINUE. split; [right; do 2 eexists; split; [reflexivity|auto]|auto]. }
      assert (AA : m_action cmd = CMD_DISCONNECT_FED \/ m_action cmd = CMD_DISCONNECT) by lia.
      assert (ID : c_id (f_tc f1) = c_id (f_tc f)).
      { eapply prims_id; eassumption. }
      specialize (OD AA ltac:(rewrite <- ID; lia)).
      pose proof (disconnectPhase2_outcome f1 f cmd PP HS OD PG ltac:(destruct AA as [AA|AA]; rewrite AA; discriminate)) as Q.
      destruct (disconnectPhase2 f1 cmd) as [[[f2 out'] disc] p2]. destruct Q as (Q1&Q2&Q3).
      exists f2, (out ++ out'), disc, p2. repeat split; auto. congruence. }
    destruct K as (f1&out&disc&p&[KD|(f2&out'&KD&->&->)]&K1&K2&K3).
    + destruct (f_st f) eqn:ST; try discriminate HS; try contradiction; cbn [fst_eqb];
      try (rewrite KD; cbn [maskError]; apply finish_sout; try assumption; rewrite ?ST; auto; discriminate).
      rewrite KD. apply finish_errored; rewrite ?ST; auto.
    + pose proof (outcome_none_inv _ _ _ _ _ _ _ K1) as [PP PG].
      pose proof (outcome_started _ _ _ _ _ _ _ _ HS K1) as [S1 S2].
      rewrite KD. assert (R : sout (Ev_msg cmd) f f2 None /\ f_coreMaxIter f2 = f_coreMaxIter f).
      { split; [|exact K3]. apply s_none; auto. intros; contradiction. }
      destruct (fst_eqb (f_st f) ERRORED); exact R.
  - assert (SAME : sout (Ev_enterExec it) f f None) by (apply s_none; auto using ps_refl). split.
    + unfold enterExecuting. destruct (f_st f) eqn:ST; try discriminate HS; exact SAME.
    + unfold enterExecuting. destruct (f_st f) eqn:ST; try discriminate HS; reflexivity.
  - assert (SAME : sout (Ev_request t it nv nm) f f None) by (apply s_none; auto using ps_refl).
    unfold requestTime. destruct (f_st f) eqn:ST; try discriminate HS; try (split; [exact SAME|reflexivity]).
    exfalso. eapply NRQ; eauto.
  - assert (SAME : sout (Ev_data cmd k) f f None) by (apply s_none; auto using ps_refl).
    destruct (isDataCmd (m_action cmd) && negb (fst_eqb (f_st f) FINISHED)) eqn:DC; [|split; [exact SAME|reflexivity]].
    assert (D1 : isDataCmd (m_action cmd) = true) by (destruct (isDataCmd (m_action cmd)); [reflexivity|discriminate DC]). clear SAME DC. unfold deliverData.
    set (e := Ev_data cmd k).
    assert (PK : prims e (f_tc f) (fst (match k with
                   | DK_value t => updateValueTime (f_tc f) t (negb (f_gm f))
                   | DK_message t => updateMessageTime (f_tc f) t (negb (f_gm f))
                   | DK_none => (f_tc f, [])
                   end))).
    { unfold e. destruct k; [apply ps_one; eapply p_value; reflexivity|apply ps_one; eapply p_message; reflexivity|apply ps_refl]. }
    destruct (match k with DK_value t => _ | DK_message t => _ | DK_none => _ end) as [c1 out1]. cbn [fst] in PK.
    assert (PM : prims e (f_tc f) (fst (fst (processTimeMessage c1 cmd))))
      by (eapply ps_step; [exact PK|eapply p_datamsg; [reflexivity|exact D1]]).
    destruct (processTimeMessage c1 cmd) as [[c2 out2] r2]. cbn [fst] in PM.
    destruct (f_st f) eqn:ST; try discriminate HS; (split; [|reflexivity]);
      apply s_none; cbn; rewrite ?ST; auto.
  - split; [|reflexivity]. apply s_none; auto. apply ps_one. apply p_timeProp. reflexivity.
  - split; [|reflexivity]. apply s_none; auto. apply ps_one. apply p_flag. reflexivity.
  - split; [|reflexivity]. apply s_none; auto. apply ps_one. apply p_maxIter. reflexivity.
  - split; [|reflexivity]. apply s_none; auto. apply ps_one. apply p_addDependency. reflexivity.
  - split; [|reflexivity]. apply s_none; auto. apply ps_one. apply p_addDependent. reflexivity.
  - split; [|reflexivity]. apply s_none; auto. apply ps_one. apply p_resetDependency. reflexivity.
Qed.

(** ** A time request of a federate in executing mode *)
Theorem step_request f t it nv nm : f_st f = EXECUTING ->
  let c1 := fst (timeRequest (f_tc f) t (effIter f it) nv nm) in
  let f' := fst (step f (Ev_request t it nv nm)) in
  let ret := e_ret (snd (step f (Ev_request t it nv nm))) in
  exists out r, checkTimeGrant c1 invalidId = (f_tc f', out, r)
  /\ f_st f' = EXECUTING /\ f_coreMaxIter f' = f_coreMaxIter f
  /\ f_gm f' = match r with CONTINUE_PROCESSING => false | _ => true end
  /\ ret = match r with
           | CONTINUE_PROCESSING => None
           | HALTED => Some (PR_HALT, maxVal)
           | _ => Some (of_mpr r, c_granted (f_tc f'))
           end.
Proof.
  intros ST. cbn zeta. cbn [step]. unfold requestTime. rewrite ST. fold (effIter f it).
  destruct (timeRequest (f_tc f) t (effIter f it) nv nm) as [c1 out1]. cbn [fst].
  set (m := set_m_dest_id (c_id c1) (newMsg CMD_TIME_CHECK (c_id c1))).
  assert (CS : coordStep m c1 EXECUTING false = grantCheck c1 EXECUTING false invalidId) by reflexivity.
  change procDepth with 3%nat.
  set (f1 := set_f_gm false (set_f_tc c1 f)).
  assert (PM : procMsg 3 f1 m =
     let '(f, out, p) := checkProcResult f1 (coordStep m (f_tc f1) (f_st f1) (f_gm f1)) in
      match p with
      | PR_REPROCESS cmd' =>
          if m_dest_id cmd' =? c_id (f_tc f)
          then let '(f, out', p) := procMsg 2 f cmd' in (f, out ++ out', p)
          else (f, out ++ [cmd'], PR_CONTINUE)
      | _ => (f, out, p)
      end) by reflexivity.
  rewrite PM. clear PM. change (f_tc f1) with c1. change (f_st f1) with (f_st f). change (f_gm f1) with false.
  rewrite ST, CS. clear CS. unfold grantCheck. cbn [fst_eqb negb andb].
  destruct (checkTimeGrant c1 invalidId) as [[c2 o2] r] eqn:CK. clear CK.
  exists o2, r. unfold checkProcResult. change (f_st f1) with (f_st f). rewrite ST. cbn [fst_eqb].
  destruct r; cbn [of_mpr]; unfold finish; cbn [returnable]; unfold returnTo, refreshTimes; repeat split.
Qed.
