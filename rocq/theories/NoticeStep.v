(** * The event which delivers a timing message of another federate *)
From Coq Require Import ZArith Bool List Lia ZifyBool.
From Verif Require Import HTime Action TimeDep TimeDepProofs TimeCoord TimeCoordProofs TimeProc TimeProcProofs TimeInitProofs TimeInv TimeAnswer TimeGrid PropsTime1 TimeTable MinTimeProofs TimeNotice.
Import ListNotations.
Open Scope Z_scope.

(** the four commands by which a federate tells its dependents about its time *)
Definition isTiming (a : Z) : Prop := a = CMD_EXEC_REQUEST \/ a = CMD_EXEC_GRANT \/ a = CMD_TIME_REQUEST \/ a = CMD_TIME_GRANT.

Lemma coord_time cmd c st gm : m_action cmd = CMD_TIME_REQUEST \/ m_action cmd = CMD_TIME_GRANT ->
  coordStep cmd c st gm = let '(c1, out, r) := processTimeMessage c cmd in
    if tpr_notProcessed r then (c1, out, st, PR_CONTINUE, gm) else cpre out (timeCheck cmd c1 st gm).
Proof. intros [H|H]; unfold coordStep; rewrite H; reflexivity. Qed.
Lemma coord_exec cmd c st gm : m_action cmd = CMD_EXEC_REQUEST \/ m_action cmd = CMD_EXEC_GRANT -> m_source_id cmd <> c_id c ->
  coordStep cmd c st gm = let '(c1, out, r) := processTimeMessage c cmd in
    if tpr_notProcessed r then (c1, out, st, PR_CONTINUE, gm) else cpre out (execCheck cmd c1 st gm).
Proof. intros [H|H] N; unfold coordStep; apply Z.eqb_neq in N; rewrite H, N; reflexivity. Qed.

(** a check of execution entry changes the coordinator by checkExecEntry only *)
Definition viaExec (c1 c2 : tc) : Prop := c2 = c1 \/ exists t, c2 = fst (fst (checkExecEntry c1 t)).
Definition viaFactors (c2 c3 : tc) : Prop := c3 = c2 \/ c3 = fst (updateTimeFactors c2).
Lemma execCheck_via cmd c st gm : let '(c', _, _, _, _) := execCheck cmd c st gm in viaExec c c'.
Proof.
  unfold execCheck. destruct (_ && _); [|left; reflexivity].
  destruct (checkExecEntry c _) as [[c' out] r] eqn:D.
  destruct r; right; eexists; rewrite D; reflexivity.
Qed.
Lemma cpr_tc f r : let '(c, _, _, _, _) := r in viaFactors c (f_tc (fst (fst (checkProcResult f r)))).
Proof.
  destruct r as [[[[c out] st] p] gm]. unfold checkProcResult.
  assert (K : forall (x : fed) (p0 : pres), f_tc (match p0 with PR_CONTINUE | PR_REPROCESS _ => x | _ => if gm then refreshTimes x else x end) = f_tc x).
  { intros x p0. destruct p0; destruct gm; reflexivity. }
  destruct (fst_eqb (f_st f) st); [left; exact (K (set_f_tc c (set_f_st st (set_f_gm gm f))) p)|].
  destruct st; try (left; exact (K (set_f_tc c (set_f_st _ (set_f_gm gm f))) p)).
  right. exact (K (set_f_tc (fst (updateTimeFactors c)) (set_f_st EXECUTING (set_f_gm gm f))) p).
Qed.
Lemma cpr_pres f c out st p gm : snd (checkProcResult f (c, out, st, p, gm)) = p.
Proof. unfold checkProcResult. destruct (if fst_eqb (f_st f) st then (c, out) else _). reflexivity. Qed.
Lemma cpr_st f c out st p gm : f_st (fst (fst (checkProcResult f (c, out, st, p, gm)))) = st /\ f_gm (fst (fst (checkProcResult f (c, out, st, p, gm)))) = gm.
Proof. unfold checkProcResult. destruct (if fst_eqb (f_st f) st then (c, out) else _). destruct p, gm; split; reflexivity. Qed.
Lemma finish_tc f out disc p : f_tc (fst (finish f out disc p)) = f_tc f.
Proof.
  unfold finish. destruct (returnable p); [|reflexivity]. unfold returnTo.
  destruct p; destruct (f_st f); reflexivity.
Qed.

Lemma timing_flags cmd : isTiming (m_action cmd) -> isDataCmd (m_action cmd) = false /\ isBlockCmd (m_action cmd) = false
   /\ m_action cmd <> CMD_FORCE_TIME_GRANT /\ m_action cmd <> CMD_REQUEST_CURRENT_TIME /\ removesDependent (m_action cmd) = false
   /\ ((m_action cmd =? CMD_GLOBAL_DISCONNECT) || (m_action cmd =? CMD_USER_DISCONNECT)) = false
   /\ ((m_action cmd =? CMD_DISCONNECT_FED) || (m_action cmd =? CMD_DISCONNECT)) = false.
Proof. intros [H|[H|[H|H]]]; rewrite H; repeat split; discriminate. Qed.

(** before execution: the message is recorded, then execution entry may be checked *)
Lemma notice_procMsg n f cmd : isTiming (m_action cmd) -> m_source_id cmd <> c_id (f_tc f) ->
  let c1 := fst (fst (processTimeMessage (f_tc f) cmd)) in
  f_st f <> EXECUTING ->
  exists c2, viaExec c1 c2 /\ viaFactors c2 (f_tc (fst (fst (procMsg (S (S n)) f cmd)))).
Proof.
  intros T NS c1 ST.
  assert (CS : exists out r, coordStep cmd (f_tc f) (f_st f) (f_gm f) =
     if tpr_notProcessed r then (c1, out, f_st f, PR_CONTINUE, f_gm f) else
     cpre out (if (m_action cmd =? CMD_TIME_REQUEST) || (m_action cmd =? CMD_TIME_GRANT) then timeCheck cmd c1 (f_st f) (f_gm f) else execCheck cmd c1 (f_st f) (f_gm f))).
  { unfold c1. destruct T as [T|[T|T]].
    - rewrite coord_exec by auto. destruct (processTimeMessage _ _) as [[c out] r]. exists out, r. rewrite T. reflexivity.
    - rewrite coord_exec by auto. destruct (processTimeMessage _ _) as [[c out] r]. exists out, r. rewrite T. reflexivity.
    - rewrite coord_time by auto. destruct (processTimeMessage _ _) as [[c out] r]. exists out, r. destruct T as [T|T]; rewrite T; reflexivity. }
  destruct CS as (out&r&CS). 
  change (procMsg (S (S n)) f cmd) with
     (let '(f1, out, p) := checkProcResult f (coordStep cmd (f_tc f) (f_st f) (f_gm f)) in
      match p with
      | PR_REPROCESS cmd' =>
          if m_dest_id cmd' =? c_id (f_tc f1)
          then let '(f1, out', p) := procMsg (S n) f1 cmd' in (f1, out ++ out', p)
          else (f1, out ++ [cmd'], PR_CONTINUE)
      | _ => (f1, out, p)
      end).
  rewrite CS. clear CS. clearbody c1.
  assert (BASE : forall c' st' gm' out' p, viaExec c1 c' -> (forall m, p <> PR_REPROCESS m) ->
     exists c2, viaExec c1 c2 /\ viaFactors c2 (f_tc (fst (fst 
      (let '(f1, out, p) := checkProcResult f (c', out', st', p, gm') in
      match p with
      | PR_REPROCESS cmd' =>
          if m_dest_id cmd' =? c_id (f_tc f1)
          then let '(f1, out', p) := procMsg (S n) f1 cmd' in (f1, out ++ out', p)
          else (f1, out ++ [cmd'], PR_CONTINUE)
      | _ => (f1, out, p)
      end))))).
  { intros c' st' gm' out' p V NR. exists c'. split; [exact V|]. pose proof (cpr_tc f (c', out', st', p, gm')) as F. cbn iota in F.
    pose proof (cpr_pres f c' out' st' p gm') as PP.
    destruct (checkProcResult f (c', out', st', p, gm')) as [[f1 o1] p1]. cbn [snd fst] in *. subst p1.
    destruct p; try exact F. destruct (NR m); reflexivity. }
  destruct (tpr_notProcessed r); [apply BASE; [left; reflexivity|discriminate]|].
  assert (EX : forall k, exists c2, viaExec c1 c2 /\ viaFactors c2 (f_tc (fst (fst 
      (let '(f1, out, p) := checkProcResult f (cpre out (execCheck k c1 (f_st f) (f_gm f))) in
      match p with
      | PR_REPROCESS cmd' =>
          if m_dest_id cmd' =? c_id (f_tc f1)
          then let '(f1, out', p) := procMsg (S n) f1 cmd' in (f1, out ++ out', p)
          else (f1, out ++ [cmd'], PR_CONTINUE)
      | _ => (f1, out, p)
      end))))).
  { intros k. pose proof (execCheck_via k c1 (f_st f) (f_gm f)) as V.
    assert (NR : forall m, snd (fst (execCheck k c1 (f_st f) (f_gm f))) <> PR_REPROCESS m).
    { intros m. unfold execCheck. destruct (_ && _); [|discriminate]. destruct (checkExecEntry _ _) as [[? ?] []]; discriminate. }
    destruct (execCheck k c1 (f_st f) (f_gm f)) as [[[[c' o'] st'] p] gm']. cbn [cpre]. apply BASE; [exact V|exact NR]. }
  destruct (_ || _); [|apply EX].
  unfold timeCheck. destruct (f_st f) eqn:FS; cbn [fst_eqb]; try (unfold grantCheck; cbn [fst_eqb andb cpre]; apply BASE; [left; reflexivity|discriminate]).
  - (* initializing: reprocessed as an execution check *)
    cbn [cpre]. pose proof (cpr_pres f c1 (out ++ []) INITIALIZING (PR_REPROCESS (set_m_action CMD_EXEC_CHECK cmd)) (f_gm f)) as PP.
    pose proof (cpr_tc f (c1, out ++ [], INITIALIZING, PR_REPROCESS (set_m_action CMD_EXEC_CHECK cmd), f_gm f)) as F. cbn iota in F.
    pose proof (cpr_st f c1 (out ++ []) INITIALIZING (PR_REPROCESS (set_m_action CMD_EXEC_CHECK cmd)) (f_gm f)) as [SS GG].
    assert (F1 : f_tc (fst (fst (checkProcResult f (c1, out ++ [], INITIALIZING, PR_REPROCESS (set_m_action CMD_EXEC_CHECK cmd), f_gm f)))) = c1).
    { unfold checkProcResult. rewrite FS. reflexivity. }
    destruct (checkProcResult f _) as [[f1 o1] p1]. cbn [snd fst] in *. subst p1.
    destruct (_ =? _); [|exists c1; split; [left; reflexivity|left; cbn [fst]; exact F1]].
    change (procMsg (S n) f1 (set_m_action CMD_EXEC_CHECK cmd)) with
     (let '(f2, out, p) := checkProcResult f1 (coordStep (set_m_action CMD_EXEC_CHECK cmd) (f_tc f1) (f_st f1) (f_gm f1)) in
      match p with
      | PR_REPROCESS cmd' =>
          if m_dest_id cmd' =? c_id (f_tc f2)
          then let '(f2, out', p) := procMsg n f2 cmd' in (f2, out ++ out', p)
          else (f2, out ++ [cmd'], PR_CONTINUE)
      | _ => (f2, out, p)
      end).
    assert (CE : coordStep (set_m_action CMD_EXEC_CHECK cmd) (f_tc f1) (f_st f1) (f_gm f1) = execCheck (set_m_action CMD_EXEC_CHECK cmd) (f_tc f1) (f_st f1) (f_gm f1)) by reflexivity.
    rewrite CE, F1. clear CE. pose proof (execCheck_via (set_m_action CMD_EXEC_CHECK cmd) c1 (f_st f1) (f_gm f1)) as V.
    assert (NR : forall m, snd (fst (execCheck (set_m_action CMD_EXEC_CHECK cmd) c1 (f_st f1) (f_gm f1))) <> PR_REPROCESS m).
    { intros m. unfold execCheck. destruct (_ && _); [|discriminate]. destruct (checkExecEntry _ _) as [[? ?] []]; discriminate. }
    destruct (execCheck _ _ _ _) as [[[[c' o'] st'] p] gm']. cbn [fst snd] in NR. exists c'. split; [exact V|].
    pose proof (cpr_tc f1 (c', o', st', p, gm')) as F2. cbn iota in F2. pose proof (cpr_pres f1 c' o' st' p gm') as PP2.
    destruct (checkProcResult f1 _) as [[f2 o2] p2]. cbn [fst snd] in *. subst p2.
    destruct p; try exact F2. destruct (NR m); reflexivity.
  - contradiction.
Qed.
Lemma notice_init f cmd : isTiming (m_action cmd) -> m_source_id cmd <> c_id (f_tc f) -> f_st f <> EXECUTING -> f_st f <> FINISHED ->
  let c1 := fst (fst (processTimeMessage (f_tc f) cmd)) in
  exists c2, viaExec c1 c2 /\ viaFactors c2 (f_tc (fst (step f (Ev_msg cmd)))).
Proof.
  intros T NS ST NF c1. cbn [step]. destruct (timing_flags cmd T) as (D&_&_&_&_&U1&U2).
  assert (OW : isOwnRequest (c_id (f_tc f)) cmd = false) by (unfold isOwnRequest; apply Z.eqb_neq in NS; rewrite NS, andb_false_r; reflexivity).
  assert (FF : fst_eqb (f_st f) FINISHED = false) by (destruct (f_st f); try reflexivity; contradiction).
  rewrite D, OW, FF. cbn [orb]. 
  destruct (notice_procMsg 1 f cmd T NS ST) as (c2&V&F). exists c2. split; [exact V|].
  assert (E : f_tc (fst (maskError (fst_eqb (f_st f) ERRORED) (deliver f cmd))) = f_tc (fst (fst (procMsg 3 f cmd)))).
  { transitivity (f_tc (fst (deliver f cmd))); [unfold maskError; destruct (fst_eqb (f_st f) ERRORED); reflexivity|].
    unfold deliver. change procDepth with 3%nat. destruct (procMsg 3 f cmd) as [[f1 out] p]. cbn [fst].
    destruct (returnable p); [apply finish_tc|]. rewrite U1, U2. reflexivity. }
  rewrite E. exact F.
Qed.
(** in executing mode: the message is recorded, then a grant may be checked *)
Lemma notice_exec f cmd : isTiming (m_action cmd) -> m_source_id cmd <> c_id (f_tc f) -> f_st f = EXECUTING ->
  let c1 := fst (fst (processTimeMessage (f_tc f) cmd)) in
  let f' := fst (step f (Ev_msg cmd)) in
  (f_tc f' = c1 /\ e_ret (snd (step f (Ev_msg cmd))) = None) \/
  exists trig out r, checkTimeGrant c1 trig = (f_tc f', out, r) /\
    e_ret (snd (step f (Ev_msg cmd))) = match r with CONTINUE_PROCESSING => None | HALTED => Some (PR_HALT, maxVal) | _ => Some (of_mpr r, c_granted (f_tc f')) end.
Proof.
  intros T NS ST c1. cbn [step]. destruct (timing_flags cmd T) as (D&_&_&_&_&U1&U2).
  assert (OW : isOwnRequest (c_id (f_tc f)) cmd = false) by (unfold isOwnRequest; apply Z.eqb_neq in NS; rewrite NS, andb_false_r; reflexivity).
  rewrite D, OW, ST. cbn [orb fst_eqb]. unfold maskError. cbn zeta. unfold deliver. change procDepth with 3%nat.
  change (procMsg 3 f cmd) with
     (let '(f1, out, p) := checkProcResult f (coordStep cmd (f_tc f) (f_st f) (f_gm f)) in
      match p with
      | PR_REPROCESS cmd' =>
          if m_dest_id cmd' =? c_id (f_tc f1)
          then let '(f1, out', p) := procMsg 2 f1 cmd' in (f1, out ++ out', p)
          else (f1, out ++ [cmd'], PR_CONTINUE)
      | _ => (f1, out, p)
      end).
  assert (CS : exists out r, coordStep cmd (f_tc f) (f_st f) (f_gm f) =
     if tpr_notProcessed r then (c1, out, f_st f, PR_CONTINUE, f_gm f) else
     cpre out (if (m_action cmd =? CMD_TIME_REQUEST) || (m_action cmd =? CMD_TIME_GRANT) then timeCheck cmd c1 (f_st f) (f_gm f) else execCheck cmd c1 (f_st f) (f_gm f))).
  { unfold c1. destruct T as [T|[T|T]].
    - rewrite coord_exec by auto. destruct (processTimeMessage _ _) as [[c out] r]. exists out, r. rewrite T. reflexivity.
    - rewrite coord_exec by auto. destruct (processTimeMessage _ _) as [[c out] r]. exists out, r. rewrite T. reflexivity.
    - rewrite coord_time by auto. destruct (processTimeMessage _ _) as [[c out] r]. exists out, r. destruct T as [T|T]; rewrite T; reflexivity. }
  destruct CS as (out&r&CS). rewrite CS. clear CS. clearbody c1. rewrite ST.
  assert (NONE : forall o g, let x := let '(f1, out0, p) := (let '(f1, out0, p) := checkProcResult f (c1, o, EXECUTING, PR_CONTINUE, g) in
          match p with
          | PR_REPROCESS cmd' => if m_dest_id cmd' =? c_id (f_tc f1) then let '(f2, out', p0) := procMsg 2 f1 cmd' in (f2, out0 ++ out', p0) else (f1, out0 ++ [cmd'], PR_CONTINUE)
          | _ => (f1, out0, p)
          end) in
        if returnable p then finish f1 out0 [] p
        else if (m_action cmd =? CMD_GLOBAL_DISCONNECT) || (m_action cmd =? CMD_USER_DISCONNECT) then let '(f2, out') := userDisconnect f1 cmd in (f2, effMsgs (out0 ++ out'))
        else if ((m_action cmd =? CMD_DISCONNECT_FED) || (m_action cmd =? CMD_DISCONNECT)) && negb (m_source_id cmd =? c_id (f_tc f1))
          then let '(f2, out', disc, p0) := disconnectPhase2 f1 cmd in finish f2 (out0 ++ out') disc p0 else (f1, effMsgs out0) in
     f_tc (fst x) = c1 /\ e_ret (snd x) = None).
  { intros o g. unfold checkProcResult. rewrite ST. cbn [fst_eqb]. cbn [returnable]. rewrite U1, U2. split; reflexivity. }
  destruct (tpr_notProcessed r); [left; apply NONE|].
  destruct ((m_action cmd =? CMD_TIME_REQUEST) || (m_action cmd =? CMD_TIME_GRANT)).
  2: { unfold execCheck. cbn [fst_eqb andb cpre]. left; apply NONE. }
  unfold timeCheck. cbn [fst_eqb]. unfold grantCheck. cbn [fst_eqb andb]. destruct (f_gm f) eqn:GM; cbn [negb]; [left; cbn [cpre]; apply NONE|].
  destruct (checkTimeGrant c1 _) as [[c' o'] r'] eqn:CG. cbn [cpre]. right. eexists _, _, _. split; [rewrite CG; f_equal; f_equal|].
  - unfold checkProcResult. rewrite ST. cbn [fst_eqb].
    destruct r'; cbn [of_mpr returnable]; [rewrite U1, U2; reflexivity|rewrite finish_tc; reflexivity..].
  - unfold checkProcResult. rewrite ST. cbn [fst_eqb].
    destruct r'; cbn [of_mpr returnable]; [rewrite U1, U2; reflexivity|reflexivity..].
Qed.
