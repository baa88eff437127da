(** * Property C02: no federate is granted a time its dependencies have not released *)
From Coq Require Import ZArith Bool List Lia ZifyBool.
From Verif Require Import HTime Action TimeDep TimeDepProofs TimeCoord TimeCoordProofs TimeProc TimeProcProofs TimeInitProofs TimeInv TimeAnswer TimeGrid PropsTime1 TimeTable MinTimeProofs TimeNotice NoticeStep Examples1.
Import ListNotations.
Open Scope Z_scope.

(** ** The specification of what a timing message promises
    [announces cmd]: the sender will produce nothing before this time.  A request to enter execution and
    the grant of execution promise time zero; a time grant its time; a time request the later of its next
    time and the earliest time at which its own dependencies can still reach it. *)
Definition announcesNext (cmd : amsg) : Z :=
  if (m_action cmd =? CMD_TIME_REQUEST) || (m_action cmd =? CMD_TIME_GRANT) then m_actionTime cmd else 0.
Definition announces (cmd : amsg) : Z :=
  if m_action cmd =? CMD_TIME_REQUEST then Z.max (m_actionTime cmd) (Z.min (m_Te cmd) (m_Tdemin cmd)) else announcesNext cmd.

(** ** Entries of other federates are never marked as the federate itself *)
Definition selfFree (id : Z) (l : table) : Prop := forall g d, g <> id -> getDep l g = Some d -> connection d <> c_SELF.
Definition keeps (F : option dinfo -> option dinfo) : Prop :=
  forall o, (forall d, o = Some d -> connection d <> c_SELF) -> forall d, F o = Some d -> connection d <> c_SELF.
Lemma processMessage_connection cmd d : connection (fst (processMessage cmd d)) = connection d.
Proof.
  unfold processMessage. destruct (tkind_of (m_action cmd)); try reflexivity.
  - unfold clearUpdateReq. match goal with |- context [if ?b then _ else _] => destruct b end; reflexivity.
  - match goal with |- context [if ?b then _ else _] => destruct b end; reflexivity.
  - cbv zeta. unfold clearUpdateReq. cbn [fst].
    match goal with |- connection (if ?b then _ else _) = _ => destruct b end;
    destruct (ts_eqb (tst d) ts_time_granted), (checkFlag non_granting_flag cmd); reflexivity.
Qed.
Lemma op_keeps o : keeps (opFun o).
Proof.
  intros x H d E. destruct o; cbn [opFun] in E.
  - destruct x as [y|]; cbn in E; injection E as <-; [|discriminate]. specialize (H y eq_refl). destruct (cTerminationTime <? next y); exact H.
  - destruct x as [y|]; cbn in E; [|discriminate]. destruct (dependent y); [injection E as <-; exact (H y eq_refl)|discriminate].
  - destruct x as [y|]; cbn in E; injection E as <-; [exact (H y eq_refl)|discriminate].
  - destruct x as [y|]; cbn in E; [|discriminate]. destruct (dependency y); [injection E as <-; exact (H y eq_refl)|discriminate].
  - discriminate E.
  - destruct x as [y|]; cbn in E; [|discriminate]. injection E as <-. destruct (dependency y); [rewrite processMessage_connection|]; exact (H y eq_refl).
Qed.
Lemma op_selfFree id l o : tsorted l -> selfFree id l -> selfFree id (applyOp l o).
Proof.
  intros S H g d N E. rewrite applyOp_lookup in E by exact S. destruct (g =? opTarget o); [|eapply H; eassumption].
  eapply op_keeps; [|exact E]. intros y Y. eapply H; eassumption.
Qed.
Lemma msgTable_selfFree id l cmd : tsorted l -> selfFree id l -> selfFree id (msgTable l cmd).
Proof.
  intros S H. unfold msgTable. destruct (removesDependent (m_action cmd)).
  - apply (op_selfFree id _ (OpMessage cmd)); [apply (applyOp_sorted _ (OpRemoveDependent (m_source_id cmd))); exact S|].
    apply (op_selfFree id _ (OpRemoveDependent (m_source_id cmd))); assumption.
  - apply (op_selfFree id _ (OpMessage cmd)); assumption.
Qed.
Lemma map_selfFree id f l : (forall d, fedID (f d) = fedID d) -> (forall d, connection (f d) = connection d) -> tsorted l -> selfFree id l -> selfFree id (map f l).
Proof.
  intros F C S H g d N E. rewrite map_getDep in E by assumption. destruct (getDep l g) as [y|] eqn:Y; [|discriminate]. injection E as <-.
  rewrite C. eapply H; eassumption.
Qed.
Lemma tcAdd_selfFree c x : tsorted (c_deps c) -> selfFree (c_id c) (c_deps c) -> selfFree (c_id c) (c_deps (fst (tcAddDependency c x))).
Proof.
  intros S H. unfold tcAddDependency.
  pose proof (applyOp_sorted _ (OpAddDependency x) S) as S2. pose proof (op_selfFree (c_id c) _ (OpAddDependency x) S H) as H2. cbn [applyOp] in S2, H2.
  destruct (addDependency (c_deps c) x) as [deps added]. cbn [fst] in *.
  change (c_deps (set_c_deps (if added && (x =? c_id c) then updDep deps x (set_connection c_SELF) else deps) c))
    with (if added && (x =? c_id c) then updDep deps x (set_connection c_SELF) else deps).
  destruct (added && (x =? c_id c)) eqn:E; [|exact H2]. apply andb_true_iff in E as [_ E]. apply Z.eqb_eq in E.
  intros g d N G. rewrite updDep_getDep in G; [|reflexivity|exact S2]. destruct (Z.eqb_spec g x); [congruence|]. eapply H2; eassumption.
Qed.
Lemma upd_selfFree id l g f : (forall d, fedID (f d) = fedID d) -> (forall d, connection d <> c_SELF -> connection (f d) <> c_SELF) -> tsorted l -> selfFree id l -> selfFree id (updDep l g f).
Proof.
  intros F C S H x d N E. rewrite updDep_getDep in E by assumption. destruct (x =? g); [|eapply H; eassumption].
  destruct (getDep l x) as [y|] eqn:Y; [|discriminate]. injection E as <-. apply C. eapply H; eassumption.
Qed.
Lemma setConnection_selfFree c x k : k <> c_SELF -> tsorted (c_deps c) -> selfFree (c_id c) (c_deps c) ->
  selfFree (c_id c) (c_deps (setConnection c x k)) /\ c_id (setConnection c x k) = c_id c.
Proof.
  intros K S H. unfold setConnection. destruct (x =? c_id c); [split; [assumption|reflexivity]|]. split; [|reflexivity].
  apply upd_selfFree; auto.
Qed.
Lemma depUpdate_selfFree c cmd : tsorted (c_deps c) -> selfFree (c_id c) (c_deps c) -> selfFree (c_id c) (c_deps (processDependencyUpdateMessage c cmd)).
Proof.
  intros S H. rewrite depUpdate_eq. pose proof (depFirst_table c cmd S) as [S1 _].
  assert (H1 : selfFree (c_id c) (c_deps (fst (depUpdateFirst c cmd))) /\ c_id (fst (depUpdateFirst c cmd)) = c_id c).
  { clear S1. unfold depUpdateFirst.
    assert (TA : c_id (fst (tcAddDependency c (m_source_id cmd))) = c_id c) by (unfold tcAddDependency; destruct (addDependency _ _); reflexivity).
    destruct (_ =? CMD_ADD_DEPENDENCY); [split; [apply tcAdd_selfFree; assumption|exact TA]|].
    destruct (_ =? CMD_REMOVE_DEPENDENCY); [split; [apply (op_selfFree _ _ (OpRemoveDependency (m_source_id cmd))); assumption|reflexivity]|].
    destruct (_ =? CMD_ADD_DEPENDENT); [split; [apply (op_selfFree _ _ (OpAddDependent (m_source_id cmd))); assumption|reflexivity]|].
    destruct (_ =? CMD_REMOVE_DEPENDENT); [split; [apply (op_selfFree _ _ (OpRemoveDependent (m_source_id cmd))); assumption|reflexivity]|].
    destruct (_ =? CMD_ADD_INTERDEPENDENCY).
    { pose proof (tcAddDependency_table c (m_source_id cmd) S) as [A1 _]. pose proof (tcAdd_selfFree c (m_source_id cmd) S H) as A2.
      destruct (tcAddDependency c _) as [c1 ad]. cbn [fst] in *. split; [|exact TA].
      apply (op_selfFree _ _ (OpAddDependent (m_source_id cmd))); assumption. }
    destruct (_ =? CMD_REMOVE_INTERDEPENDENCY).
    { split; [|reflexivity]. apply (op_selfFree _ _ (OpRemoveDependent (m_source_id cmd))).
      - apply (applyOp_sorted _ (OpRemoveDependency (m_source_id cmd))); exact S.
      - apply (op_selfFree _ _ (OpRemoveDependency (m_source_id cmd))); assumption. }
    destruct (_ =? CMD_TIMING_INFO); [split; [apply (op_selfFree _ _ (OpMessage cmd)); assumption|reflexivity]|]. split; [assumption|reflexivity]. }
  destruct (depUpdateFirst c cmd) as [c1 ad]. cbn [fst] in *. destruct H1 as [H1 I1]. destruct ad; [|exact H1].
  cbv zeta. set (c2 := if checkFlag child_flag cmd then setConnection c1 (m_source_id cmd) c_CHILD else c1).
  assert (P2 : tsorted (c_deps c2) /\ selfFree (c_id c) (c_deps c2) /\ c_id c2 = c_id c).
  { unfold c2. destruct (checkFlag child_flag cmd); [|auto]. rewrite <- I1 in *.
    destruct (setConnection_selfFree c1 (m_source_id cmd) c_CHILD ltac:(discriminate) S1 H1) as [X Y].
    split; [apply setConnection_table; exact S1|]. auto. }
  clearbody c2. destruct P2 as (S2&H2&I2).
  set (c3 := if checkFlag parent_flag cmd then setConnection c2 (m_source_id cmd) c_PARENT else c2).
  assert (P3 : tsorted (c_deps c3) /\ selfFree (c_id c) (c_deps c3) /\ c_id c3 = c_id c).
  { unfold c3. destruct (checkFlag parent_flag cmd); [|auto]. rewrite <- I2 in *.
    destruct (setConnection_selfFree c2 (m_source_id cmd) c_PARENT ltac:(discriminate) S2 H2) as [X Y].
    split; [apply setConnection_table; exact S2|]. auto. }
  clearbody c3. destruct P3 as (S3&H3&I3).
  destruct (0 <? m_counter cmd); [|exact H3]. unfold setVersion. cbn [c_deps set_c_deps]. apply upd_selfFree; auto.
Qed.
Lemma tabStep_selfFree e id G l l' : tabStep e id G l l' -> tsorted l -> selfFree id l -> selfFree id l'.
Proof.
  intros H S F. destruct H as [->|cmd _ _ _ ->|a _ ->|cmd c _ <- <- ->|x c _ <- <- ->|x _ ->|x _ ->|t it nv nm _ ->|t ->| ->].
  - exact F.
  - apply msgTable_selfFree; assumption.
  - apply msgTable_selfFree; assumption.
  - apply depUpdate_selfFree; assumption.
  - apply tcAdd_selfFree; assumption.
  - apply (op_selfFree id _ (OpAddDependent x)); assumption.
  - intros g d N E. rewrite resetDependency_alter, getDep_lookup in E by (apply alter_sorted; [apply keepsId_reset|exact S]).
    rewrite lookup_alter in E by (try apply keepsId_reset; exact S). destruct (Z.eqb_spec g x) as [->|].
    + rewrite <- getDep_lookup in E by exact S. destruct (getDep l x) as [y|] eqn:Y; [|discriminate]. cbn in E.
      destruct (_ && _); injection E as <-; [discriminate|]. eapply F; eassumption.
    + rewrite <- getDep_lookup in E by exact S. eapply F; eassumption.
  - apply (map_selfFree id (f_events G)); auto; [apply f_events_id|]. intros d. unfold f_events. destruct (dependency d); reflexivity.
  - apply (map_selfFree id (f_iterTime t)); auto; [apply f_iterTime_id|]. intros d. unfold f_iterTime. destruct (_ && _); reflexivity.
  - apply (map_selfFree id f_iterExec); auto; [apply f_iterExec_id|]. intros d. unfold f_iterExec. destruct (_ && _); reflexivity.
Qed.

(** ** Every reachable table is sorted and free of foreign self marks *)
Definition tabOk (id : Z) (c : tc) : Prop := c_id c = id /\ tsorted (c_deps c) /\ selfFree id (c_deps c).
Lemma aprim_tabOk id e c c' : aprim e c c' -> tabOk id c -> tabOk id c'.
Proof.
  intros H (A&B&C). destruct (aprim_tabOf e c c' H) as (T&_&I). rewrite A in *.
  split; [exact I|]. split; [eapply tabStep_sorted; eassumption|eapply tabStep_selfFree; eassumption].
Qed.
Lemma step_tabOk id f e : tabOk id (f_tc f) -> tabOk id (f_tc (fst (step f e))).
Proof. apply (aprims_inv e (tabOk id)); [intros; eapply aprim_tabOk; eassumption|apply step_any]. Qed.
Lemma init_tabOk id o n : tabOk id (f_tc (fed_init id o n)).
Proof. split; [reflexivity|]. split; [constructor|]. intros g d _ E. discriminate E. Qed.
Lemma after_tabOk id f es : tabOk id (f_tc f) -> tabOk id (f_tc (after f es)).
Proof.
  revert f. induction es as [|e es IH]; intros f H; [exact H|]. rewrite after_cons. apply IH, step_tabOk, H.
Qed.

(** ** The entry keeps agreeing with the last message *)
Definition agrees (N B lo : Z) (d : dinfo) : Prop :=
  connection d <> c_SELF /\ (ts_ltb (tst d) ts_time_granted = true \/ (next d <= N /\ minDe d <= Z.max B lo)).
Lemma agrees_key N B lo d d' : key d' = key d -> agrees N B lo d -> agrees N B lo d'.
Proof. unfold key, agrees. intros K. injection K as K1 K2 K3 K4 K5. rewrite K1, K2, K3, K5. auto. Qed.
Lemma agrees_events N B lo G d : N <= B -> G <= lo -> dependency d = true -> agrees N B lo d -> agrees N B lo (f_events G d).
Proof.
  intros NB GL D [C [H|[H1 H2]]]; (split; [unfold f_events; rewrite D; exact C|]).
  - left. unfold f_events. rewrite D. exact H.
  - right. unfold f_events. rewrite D. cbn. lia.
Qed.
Lemma agrees_iterTime N B lo t d : N <= B -> agrees N B lo d -> agrees N B lo (f_iterTime t d).
Proof.
  intros NB [C H]; (split; [unfold f_iterTime; destruct (_ && _); exact C|]).
  unfold f_iterTime. destruct (dependency d && ts_eqb (tst d) ts_time_requested_iterative && (next d =? t)) eqn:E; [|exact H].
  apply andb_true_iff in E as [E E3]. apply andb_true_iff in E as [E1 E2]. destruct H as [H|[H1 H2]].
  - destruct (tst d); try discriminate E2. discriminate H.
  - right. cbn. split; [exact H1|]. lia.
Qed.
Lemma agrees_iterExec N B lo d : agrees N B lo d -> agrees N B lo (f_iterExec d).
Proof.
  intros [C H]; (split; [unfold f_iterExec; destruct (_ && _); exact C|]).
  unfold f_iterExec. destruct (_ && _); [left; reflexivity|exact H].
Qed.
Lemma agrees_lo N B lo lo' d : lo <= lo' -> agrees N B lo d -> agrees N B lo' d.
Proof. intros L [C [H|[H1 H2]]]; (split; [exact C|]); [left; exact H|right; lia]. Qed.

Lemma aprim_agrees e c c' id g N B lo : aprim e c c' -> tabOk id c -> g <> id -> quiet g e -> N <= B ->
  (forall t it nv nm, e <> Ev_request t it nv nm) -> has (c_deps c) g (agrees N B lo) -> has (c_deps c') g (agrees N B lo).
Proof.
  intros H (I&S&_) NG Q NB NR HA. destruct (aprim_tabOf e c c' H) as (T&_). rewrite I in T.
  eapply entry_preserved; try eassumption.
  - intros d d' K A. eapply agrees_key; eassumption.
  - intros d _ _ (t&it&nv&nm&E). destruct (NR t it nv nm E).
  - intros t d _ A. apply agrees_iterTime; assumption.
  - intros d _ A. apply agrees_iterExec; assumption.
Qed.
Lemma aprims_agrees e c c' id g N B lo : aprims e c c' -> tabOk id c -> g <> id -> quiet g e -> N <= B ->
  (forall t it nv nm, e <> Ev_request t it nv nm) -> has (c_deps c) g (agrees N B lo) -> has (c_deps c') g (agrees N B lo).
Proof.
  intros H T NG Q NB NR HA.
  assert (K : tabOk id c' /\ has (c_deps c') g (agrees N B lo)); [|apply K].
  pose proof (conj T HA) as P. clear T HA. revert c c' H P. apply (aprims_inv e (fun c => tabOk id c /\ has (c_deps c) g (agrees N B lo))).
  intros c1 c2 H [T1 A1]. split; [eapply aprim_tabOk; eassumption|eapply aprim_agrees; eassumption].
Qed.
Lemma grant_agrees c t id g N B lo : tabOk id c -> g <> id -> N <= B ->
  has (c_deps c) g (agrees N B lo) -> has (c_deps (fst (fst (checkTimeGrant c t)))) g (agrees N B lo).
Proof.
  intros T NG NB HA. refine (aprim_agrees (Ev_maxIter 0) _ _ id g N B lo (ap_grant _ c t) T NG I NB _ HA). discriminate.
Qed.
Lemma request_agrees c tq it nv nm id g N B lo : tabOk id c -> g <> id -> N <= B -> c_granted c <= lo ->
  has (c_deps c) g (agrees N B lo) -> tabOk id (fst (timeRequest c tq it nv nm)) /\ has (c_deps (fst (timeRequest c tq it nv nm))) g (agrees N B lo).
Proof.
  intros T NG NB G HA. split.
  - eapply (aprim_tabOk id (Ev_request tq it nv nm)); [eapply ap_request; reflexivity|exact T].
  - rewrite (proj1 (timeRequest_table c tq it nv nm)). destruct T as (_&S&_). destruct HA as (d&D1&D2&D3).
    exists (f_events (c_granted c) d). change (resetDependentEvents (c_granted c) (c_deps c)) with (map (f_events (c_granted c)) (c_deps c)).
    rewrite map_getDep by (try apply f_events_id; exact S). rewrite D1. split; [reflexivity|].
    split; [unfold f_events; rewrite D2; exact D2|]. apply agrees_events; assumption.
Qed.

(** the promise before the start; at least the granted time afterwards *)
Definition lowOf (B : Z) (f : fed) : Z := if started (f_st f) then Z.max B (floor f) else B.
Lemma lowOf_mono B f e : wf_event e -> inv f -> lowOf B f <= lowOf B (fst (step f e)).
Proof.
  intros W I. unfold lowOf. destruct (started (f_st f)) eqn:S.
  - pose proof (step_mono f e S W I) as (_&S2&M&_). rewrite S2. lia.
  - destruct (started (f_st (fst (step f e)))); lia.
Qed.
Lemma quiet_step f e id g N B : tabOk id (f_tc f) -> g <> id -> quiet g e -> N <= B -> wf_event e -> inv f ->
  has (c_deps (f_tc f)) g (agrees N B (lowOf B f)) -> has (c_deps (f_tc (fst (step f e)))) g (agrees N B (lowOf B (fst (step f e)))).
Proof.
  intros T NG Q NB W I HA. pose proof (lowOf_mono B f e W I) as LM.
  assert (UP : forall l, has l g (agrees N B (lowOf B f)) -> has l g (agrees N B (lowOf B (fst (step f e))))).
  { intros l (d&D1&D2&D3). exists d. split; [exact D1|]. split; [exact D2|]. eapply agrees_lo; [|exact D3]. lia. }
  apply UP. clear UP LM.
  assert (CASE : (exists t it nv nm, e = Ev_request t it nv nm) \/ (forall t it nv nm, e <> Ev_request t it nv nm)).
  { destruct e; try (right; intros; discriminate). left. repeat eexists. }
  destruct CASE as [(t&it&nv&nm&->)|NR].
  - destruct (f_st f) eqn:ST; try (cbn [step]; unfold requestTime; rewrite ST; exact HA).
    destruct (step_request f t it nv nm ST) as (out&r&E&_).
    destruct (request_agrees (f_tc f) t (effIter f it) nv nm id g N B (lowOf B f) T NG NB) as [T2 A2].
    + unfold lowOf, floor. rewrite ST. cbn [started fst_eqb]. lia.
    + exact HA.
    + pose proof (grant_agrees _ invalidId id g N B (lowOf B f) T2 NG NB A2) as A3.
      replace (f_tc (fst (step f (Ev_request t it nv nm)))) with (fst (fst (checkTimeGrant (fst (timeRequest (f_tc f) t (effIter f it) nv nm)) invalidId))) by (rewrite E; reflexivity).
      exact A3.
  - exact (aprims_agrees e _ _ id g N B _ (step_any f e) T NG Q NB NR HA).
Qed.
Lemma quiet_steps es f id g N B : tabOk id (f_tc f) -> g <> id -> Forall (quiet g) es -> N <= B -> Forall wf_event es -> inv f ->
  has (c_deps (f_tc f)) g (agrees N B (lowOf B f)) -> has (c_deps (f_tc (after f es))) g (agrees N B (lowOf B (after f es))).
Proof.
  intros T NG Q NB W. revert f T. induction es as [|e es IH]; intros f T I HA; [exact HA|].
  inversion Q; inversion W; subst. rewrite after_cons. apply IH; auto.
  - apply step_tabOk, T.
  - apply step_inv; assumption.
  - eapply quiet_step; eassumption.
Qed.

(** ** The notice itself *)
Lemma notice_recorded c cmd id lo : tabOk id c -> isTiming (m_action cmd) -> m_source_id cmd <> id -> isDependency (c_deps c) (m_source_id cmd) = true ->
  has (c_deps (fst (fst (processTimeMessage c cmd)))) (m_source_id cmd) (agrees (announcesNext cmd) (announces cmd) lo).
Proof.
  intros (I&S&F) T NG D. destruct (timing_flags cmd T) as (_&NB&NF&NRC&RD&_).
  rewrite (proj1 (ptm_table c cmd) NF), NB. apply Z.eqb_neq in NRC. rewrite NRC. cbn [andb].
  rewrite isDependency_getDep in D. destruct (getDep (c_deps c) (m_source_id cmd)) as [d|] eqn:G; [|discriminate].
  pose proof (F _ d NG G) as C.
  exists (fst (processMessage cmd d)). rewrite msgTable_getDep by exact S. rewrite Z.eqb_refl. unfold f_msg. rewrite RD, G. cbn [f_upd]. rewrite D.
  split; [reflexivity|].
  assert (DP : dependency (fst (processMessage cmd d)) = dependency d).
  { clear. unfold processMessage. destruct (tkind_of (m_action cmd)); try reflexivity.
    - unfold clearUpdateReq. match goal with |- context [if ?b then _ else _] => destruct b end; reflexivity.
    - match goal with |- context [if ?b then _ else _] => destruct b end; reflexivity.
    - cbv zeta. unfold clearUpdateReq. cbn [fst].
      match goal with |- dependency (if ?b then _ else _) = _ => destruct b end;
      destruct (ts_eqb (tst d) ts_time_granted), (checkFlag non_granting_flag cmd); reflexivity. }
  split; [congruence|]. split; [rewrite processMessage_connection; exact C|].
  unfold announces, announcesNext.
  destruct T as [T|[T|[T|T]]]; unfold processMessage; rewrite T.
  - left. change (tkind_of CMD_EXEC_REQUEST) with k_exec_request. cbv zeta. unfold clearUpdateReq. cbn [fst].
    match goal with |- context [responseSequenceCounter ?x =? grantedIteration ?y] => destruct (responseSequenceCounter x =? grantedIteration y) end;
    destruct (checkFlag iteration_requested_flag cmd); try destruct (checkFlag required_flag cmd); reflexivity.
  - change (tkind_of CMD_EXEC_GRANT) with k_exec_grant. destruct (checkFlag iteration_requested_flag cmd); [left; reflexivity|].
    right. cbn. unfold timeZero. lia.
  - right. change (tkind_of CMD_TIME_REQUEST) with k_time_request. cbv zeta. unfold clearUpdateReq. cbn [fst].
    change ((CMD_TIME_REQUEST =? CMD_TIME_REQUEST) || (CMD_TIME_REQUEST =? CMD_TIME_GRANT)) with true.
    change (CMD_TIME_REQUEST =? CMD_TIME_REQUEST) with true. cbn iota.
    set (md := if m_Te cmd <? m_Tdemin cmd then m_Te cmd else m_Tdemin cmd).
    assert (MD : md <= Z.min (m_Te cmd) (m_Tdemin cmd)) by (unfold md; destruct (Z.ltb_spec (m_Te cmd) (m_Tdemin cmd)); lia). clearbody md.
    match goal with |- context [responseSequenceCounter ?x =? grantedIteration ?y] => destruct (responseSequenceCounter x =? grantedIteration y) end;
    destruct (ts_eqb (tst d) ts_time_granted), (checkFlag non_granting_flag cmd); cbn; lia.
  - right. change (tkind_of CMD_TIME_GRANT) with k_time_grant. cbn. lia.
Qed.
Lemma announcesNext_le cmd : announcesNext cmd <= announces cmd.
Proof. unfold announces, announcesNext. destruct (m_action cmd =? CMD_TIME_REQUEST); cbn [orb]; lia. Qed.

Lemma exec_agrees c t id g N B lo : tabOk id c -> g <> id -> N <= B ->
  has (c_deps c) g (agrees N B lo) -> has (c_deps (fst (fst (checkExecEntry c t)))) g (agrees N B lo).
Proof.
  intros T NG NB HA. refine (aprim_agrees (Ev_maxIter 0) _ _ id g N B lo (ap_exec _ c t) T NG I NB _ HA). discriminate.
Qed.
Lemma notice_agrees f cmd id lo : tabOk id (f_tc f) -> isTiming (m_action cmd) -> m_source_id cmd <> id -> isDependency (c_deps (f_tc f)) (m_source_id cmd) = true ->
  f_st f <> FINISHED ->
  has (c_deps (f_tc (fst (step f (Ev_msg cmd))))) (m_source_id cmd) (agrees (announcesNext cmd) (announces cmd) lo).
Proof.
  intros T TM NS D NF. pose proof (announcesNext_le cmd) as NB.
  pose proof (notice_recorded (f_tc f) cmd id lo T TM NS D) as R.
  assert (NS' : m_source_id cmd <> c_id (f_tc f)) by (destruct T as (E&_); rewrite E; exact NS).
  assert (T1 : tabOk id (fst (fst (processTimeMessage (f_tc f) cmd)))).
  { destruct (timing_flags cmd TM) as (_&_&NFG&_). eapply (aprim_tabOk id (Ev_msg cmd)); [|exact T]. apply ap_prim. apply p_msg; [reflexivity|exact NFG]. }
  assert (CASE : f_st f = EXECUTING \/ f_st f <> EXECUTING) by (destruct (f_st f); auto; right; discriminate).
  destruct CASE as [ST|ST].
  - destruct (notice_exec f cmd TM NS' ST) as [[E _]|(trig&out&r&E&_)]; [rewrite E; exact R|].
    replace (f_tc (fst (step f (Ev_msg cmd)))) with (fst (fst (checkTimeGrant (fst (fst (processTimeMessage (f_tc f) cmd))) trig))) by (rewrite E; reflexivity).
    eapply grant_agrees; eassumption.
  - destruct (notice_init f cmd TM NS' ST NF) as (c2&V&F).
    assert (E2 : has (c_deps c2) (m_source_id cmd) (agrees (announcesNext cmd) (announces cmd) lo)).
    { destruct V as [->|[t ->]]; [exact R|]. eapply exec_agrees; eassumption. }
    destruct F as [F|F]; rewrite F; [exact E2|]. rewrite updateTimeFactors_deps. exact E2.
Qed.

(** ** The grant decision *)
(** times at which the code does not yet switch to its end-of-time rules (TimeCoordinator.cpp:574) *)
Definition farFromEnd (o : tcopts) (t : Z) : Prop := t < cTerminationTime - o_outputDelay o - Z.max (o_period o) (o_timeDelta o).
Lemma allow_bound c id g N B lo : tabOk id c -> g <> id -> isValidId g = true -> N <= B -> has (c_deps c) g (agrees N B lo) ->
  let a := c_allow (fst (updateTimeFactors c)) in
  let m := if o_restrictive (c_opts c) then Z.max 0 N else Z.max 0 (Z.max B lo) in
  farFromEnd (c_opts c) m -> a <= o_inputDelay (c_opts c) + m.
Proof.
  intros (I&S&F) NG VG NB (d&D1&D2&D3&D4) a m FE.
  assert (IN : In d (c_deps c) /\ fedID d = g).
  { clear - D1. unfold getDep in D1. destruct (lower_bound (c_deps c) g) as [x y] eqn:E. cbn [snd] in D1. destruct y as [|z y]; [discriminate|].
    destruct (Z.eqb_spec (fedID z) g); [|discriminate]. injection D1 as <-. split; [|assumption].
    assert (c_deps c = x ++ z :: y). { clear e. revert x E. induction (c_deps c) as [|w l IH]; intros; cbn in E; [discriminate|].
      destruct (fedID w <? g); [|injection E as <- <- <-; reflexivity]. destruct (lower_bound l g) as [x' y'] eqn:E'. injection E as <- ->.
      cbn. f_equal. eapply IH; reflexivity. }
    rewrite H. apply in_or_app. right. left. reflexivity. }
  destruct IN as [IN FD].
  assert (NI : fedID d <> invalidId) by (rewrite FD; intros ->; discriminate VG).
  set (r := o_restrictive (c_opts c) || c_globalTime c).
  pose proof (total_released (c_deps c) r invalidId (c_seq c) d IN D2 eq_refl NI D3) as TR.
  assert (LE : next (generateMinTimeTotal (c_deps c) r invalidId invalidId (c_seq c)) <= m).
  { unfold released in TR. unfold m. subst r. destruct (ts_ltb (tst d) ts_time_granted) eqn:TS; [destruct (o_restrictive (c_opts c)); lia|].
    destruct D4 as [D4|[D4 D5]]; [discriminate D4|].
    destruct (o_restrictive (c_opts c)); cbn [orb] in *; [lia|]. destruct (c_globalTime c || negb (answered (c_seq c) d)); lia. }
  assert (AL : a = let n := next (generateMinTimeTotal (c_deps c) r invalidId invalidId (c_seq c)) in
     if n <? cTerminationTime - o_outputDelay (c_opts c) - Z.max (o_period (c_opts c)) (o_timeDelta (c_opts c)) then o_inputDelay (c_opts c) + n else maxVal).
  { unfold a, updateTimeFactors, r. generalize (generateMinTimeTotal (c_deps c) (o_restrictive (c_opts c) || c_globalTime c) invalidId invalidId (c_seq c)). intros tot.
    destruct (minDe tot <? _); reflexivity. }
  rewrite AL. cbv zeta. unfold farFromEnd in FE. destruct (Z.ltb_spec (next (generateMinTimeTotal (c_deps c) r invalidId invalidId (c_seq c)))
    (cTerminationTime - o_outputDelay (c_opts c) - Z.max (o_period (c_opts c)) (o_timeDelta (c_opts c)))); lia.
Qed.

Lemma finished_stays f es : f_st f = FINISHED -> f_st (after f es) = FINISHED.
Proof.
  revert f. induction es as [|e es IH]; intros f H; [exact H|]. rewrite after_cons. apply IH.
  pose proof (step_started f e ltac:(rewrite H; reflexivity) ltac:(rewrite H; discriminate)) as [S _].
  remember (e_ret (snd (step f e))) as r. destruct S; try congruence; auto.
Qed.

(** the decision behind a grant, with the entry of the dependency as it was then *)
Lemma grant_with_entry id o maxIter es e t pre cmd post :
  let f0 := fed_init id o maxIter in
  let f := after f0 es in
  let g := m_source_id cmd in
  opts_ok o -> Forall wf_event (es ++ [e]) -> f_st f = EXECUTING -> returnAt f0 es e = Some (PR_NEXT, t) ->
  (forall m, e = Ev_msg m -> m_action m <> CMD_FORCE_TIME_GRANT) ->
  es ++ [e] = pre ++ Ev_msg cmd :: post -> isTiming (m_action cmd) -> g <> id ->
  isDependency (c_deps (f_tc (after f0 pre))) g = true -> Forall (quiet g) post ->
  exists c0 trig out, checkTimeGrant c0 trig = (f_tc (after f0 (es ++ [e])), out, NEXT_STEP) /\ tabOk id c0
    /\ t = c_granted (f_tc (after f0 (es ++ [e])))
    /\ has (c_deps c0) g (agrees (announcesNext cmd) (announces cmd) (Z.max (announces cmd) (c_granted (f_tc f)))).
Proof.
  intros f0 f g O W ST R NF EQ TM NG DP Q.
  assert (T0 : forall l, tabOk id (f_tc (after f0 l))) by (intros; apply after_tabOk, init_tabOk).
  assert (IV : forall l, Forall wf_event l -> inv (after f0 l)) by (intros; apply run_inv; [assumption|apply init_inv; assumption]).
  apply Forall_app in W as [W1 W2]. inversion W2 as [|? ? W3 _]; subst.
  set (B := announces cmd) in *. set (N := announcesNext cmd) in *. assert (NB : N <= B) by apply announcesNext_le.
  assert (LO : lowOf B f = Z.max B (c_granted (f_tc f))) by (unfold lowOf, floor; rewrite ST; reflexivity).
  rewrite after_snoc. fold f. unfold returnAt in R. fold f in R.
  assert (POST : post = [] \/ exists p, post = p ++ [e]).
  { destruct post as [|x p] using rev_ind; [left; reflexivity|right]. exists p.
    change (Ev_msg cmd :: p ++ [x]) with ((Ev_msg cmd :: p) ++ [x]) in EQ. rewrite app_assoc in EQ. apply app_inj_tail in EQ as [_ ->]. reflexivity. }
  destruct POST as [->|[p ->]].
  - (* the granting event is the notice *)
    apply app_inj_tail in EQ as [<- ->]. fold f in DP.
    pose proof (T0 es) as TE. fold f in TE.
    destruct (notice_exec f cmd TM ltac:(rewrite (proj1 TE); exact NG) ST) as [[_ E]|(trig&out&r&E&ER)]; [congruence|].
    assert (r = NEXT_STEP) as -> by (destruct r; try reflexivity; rewrite R in ER; discriminate ER).
    exists (fst (fst (processTimeMessage (f_tc f) cmd))), trig, out. split; [exact E|].
    split; [eapply (aprim_tabOk id (Ev_msg cmd)); [|exact TE]; apply ap_prim, p_msg; [reflexivity|exact (NF cmd eq_refl)]|].
    split; [rewrite R in ER; injection ER as ->; reflexivity|]. eapply notice_recorded; eassumption.
  - (* the notice came earlier *)
    change (Ev_msg cmd :: p ++ [e]) with ((Ev_msg cmd :: p) ++ [e]) in EQ. rewrite app_assoc in EQ. apply app_inj_tail in EQ as [EQ _].
    apply Forall_app in Q as [Q1 Q2]. inversion Q2 as [|? ? Q3 _]; subst. clear Q2.
    assert (HA : has (c_deps (f_tc f)) g (agrees N B (lowOf B f))).
    { unfold f. rewrite after_app, after_cons. apply Forall_app in W1 as [WA WB]. inversion WB as [|? ? WC WD]; subst.
      apply (quiet_steps p _ id g N B).
      - apply step_tabOk, T0.
      - exact NG.
      - exact Q1.
      - exact NB.
      - exact WD.
      - apply step_inv; auto.
      - eapply notice_agrees; eauto. intros FI. pose proof (finished_stays (after f0 pre) (Ev_msg cmd :: p) FI) as FS.
        rewrite <- after_app in FS. fold f in FS. congruence. }
    rewrite LO in HA. pose proof (T0 (pre ++ Ev_msg cmd :: p)) as TE. fold f in TE.
    assert (CASE : (exists t it nv nm, e = Ev_request t it nv nm) \/ (forall t it nv nm, e <> Ev_request t it nv nm)).
    { destruct e; try (right; intros; discriminate). left. repeat eexists. }
    destruct CASE as [(tq&it&nv&nm&->)|NR].
    + destruct (step_request f tq it nv nm ST) as (out&r&E&_&_&_&ER). rewrite R in ER.
      assert (r = NEXT_STEP) as -> by (destruct r; try reflexivity; discriminate ER).
      exists (fst (timeRequest (f_tc f) tq (effIter f it) nv nm)), invalidId, out. split; [exact E|].
      destruct (request_agrees (f_tc f) tq (effIter f it) nv nm id g N B (Z.max B (c_granted (f_tc f))) TE NG NB ltac:(lia) HA) as [T2 A2].
      split; [exact T2|]. split; [injection ER as ->; reflexivity|exact A2].
    + pose proof (step_started f e ltac:(rewrite ST; reflexivity) ltac:(intros _; exact NR)) as [S _]. rewrite R in S.
      inversion S as [ |A1 A2 A3|tt A1 A2 A3|cm A1 A2 A3 A4 A5 A6 A7|c1 trig1 out1 r1 A1 A2 A3 A4 A5 A6 A7]; subst.
      * destruct (NF cm eq_refl A2).
      * assert (r1 = NEXT_STEP) as -> by (destruct r1; try discriminate; reflexivity).
        exists c1, trig1, out1. split; [exact A5|].
        split; [exact (aprims_inv e (tabOk id) (fun c c' h => aprim_tabOk id e c c' h) _ _ (prims_aprims _ _ _ A1) TE)|]. split; [reflexivity|].
        exact (aprims_agrees e _ _ id g N B _ (prims_aprims _ _ _ A1) TE NG Q3 NB NR HA).
Qed.

(** ** C02
    [es ++ [e]] is any history of a federate; its last event [e] makes a time request return at time [t],
    later than the federate's current time.  [cmd] is the last timing message received from a federate it
    depends on.  Then [t] does not exceed what [cmd] promised by more than the input delay.

    Restrictive time policy, or no (positive) input delay: exactly the property.  *)
Theorem C02_grant_only_what_dependencies_released :
  forall id o maxIter es e t pre cmd post,
  let f0 := fed_init id o maxIter in
  let f := after f0 es in
  let f' := after f0 (es ++ [e]) in
  let cfg := c_opts (f_tc f') in
  let g := m_source_id cmd in
  opts_ok o -> Forall wf_event (es ++ [e]) -> f_st f = EXECUTING ->
  returnAt f0 es e = Some (PR_NEXT, t) -> c_granted (f_tc f) < t ->
  (forall m, e = Ev_msg m -> m_action m <> CMD_FORCE_TIME_GRANT) ->
  es ++ [e] = pre ++ Ev_msg cmd :: post -> isTiming (m_action cmd) -> g <> id -> isValidId g = true ->
  isDependency (c_deps (f_tc (after f0 pre))) g = true -> Forall (quiet g) post ->
  farFromEnd cfg (Z.max 0 (Z.max (announces cmd) t)) ->
  (o_inputDelay cfg <= 0 -> t <= o_inputDelay cfg + Z.max 0 (announces cmd)) /\
  (o_restrictive cfg = true -> t <= o_inputDelay cfg + Z.max 0 (announcesNext cmd)) /\
  t <= o_inputDelay cfg + Z.max 0 (Z.max (announces cmd) (c_granted (f_tc f))).
Proof.
  intros id o maxIter es e t pre cmd post f0 f f' cfg g O W ST R ADV NF EQ TM NG VG DP Q FE.
  destruct (grant_with_entry id o maxIter es e t pre cmd post O W ST R NF EQ TM NG DP Q) as (c0&trig&out&E&T&TT&HA).
  fold f0 in E, HA, TT. fold f' in E, TT. fold f in HA. 
  destruct (decision c0 trig (f_tc f') out NEXT_STEP E eq_refl) as (_&D1&D2&_&D3&_).
  pose proof (announcesNext_le cmd) as NB.
  pose proof (allow_bound c0 id g _ _ _ T NG VG NB HA) as AB. cbv zeta in AB. unfold cfg, farFromEnd in *. rewrite D2 in *.
  set (a := c_allow (fst (updateTimeFactors c0))) in *. clearbody a. set (n := nextExec c0) in *. clearbody n.
  destruct (o_restrictive (c_opts c0)); (split; [|split; [try discriminate|]]); try (intros H; specialize (AB ltac:(lia)); lia); specialize (AB ltac:(lia)); lia.
Qed.

(** The property as stated fails for a positive input delay without the restrictive policy: a federate whose
    only dependency has announced nothing beyond 5 is granted 15, 25, 35, ... with an input delay of 10. *)
Definition runaway : list event :=
  [initGrant; Ev_addDependency other; Ev_enterExec NO_ITERATIONS; otherSays CMD_EXEC_REQUEST 0 0 0; otherSays CMD_EXEC_GRANT 0 0 0;
   otherSays CMD_TIME_REQUEST 5 5 0; Ev_request 15 NO_ITERATIONS 1000 1000; Ev_request 25 NO_ITERATIONS 1000 1000].
Theorem C02_input_delay_runaway_refuted :
  let o := set_o_inputDelay 10 opts_default in
  let f0 := fed_init me o 50 in
  opts_ok o /\ returnAt f0 runaway (Ev_request 35 NO_ITERATIONS 1000 1000) = Some (PR_NEXT, 35)
  /\ (exists pre post cmd, runaway = pre ++ Ev_msg cmd :: post /\ m_source_id cmd = other /\ isTiming (m_action cmd) /\ Forall (quiet other) post
        /\ isDependency (c_deps (f_tc (after f0 pre))) other = true
        /\ 35 > o_inputDelay o + announces cmd).
Proof.
  cbv zeta. split; [unfold opts_ok, bigTime; cbn; lia|]. split; [vm_compute; reflexivity|].
  exists (firstn 5 runaway), (skipn 6 runaway). eexists. split; [reflexivity|]. split; [reflexivity|].
  split; [right; right; left; reflexivity|]. split; [repeat constructor|]. split; [vm_compute; reflexivity|]. cbn. lia.
Qed.

(** the hypotheses are met: history1 followed by a request which the other federate's message releases *)
Example C02_not_vacuous :
  let o := cfgPOD 10 3 1 in
  let f0 := fed_init me o 50 in
  let es := history1 ++ [Ev_request 4 NO_ITERATIONS 1000 1000; otherSays CMD_EXEC_GRANT 0 0 0] in
  let e := otherSays CMD_TIME_REQUEST 20 20 1 in
  exists cmd, e = Ev_msg cmd /\ opts_ok o /\ Forall wf_event (es ++ [e]) /\ f_st (after f0 es) = EXECUTING
  /\ returnAt f0 es e = Some (PR_NEXT, 13) /\ c_granted (f_tc (after f0 es)) < 13
  /\ isTiming (m_action cmd) /\ isDependency (c_deps (f_tc (after f0 es))) (m_source_id cmd) = true
  /\ announces cmd = 20 /\ farFromEnd o 20.
Proof.
  cbv zeta. eexists. split; [reflexivity|]. split; [unfold opts_ok, bigTime; cbn; lia|].
  split; [repeat constructor; cbn; unfold maxVal; lia|]. split; [vm_compute; reflexivity|]. split; [vm_compute; reflexivity|].
  split; [vm_compute; reflexivity|]. split; [right; right; left; reflexivity|]. split; [vm_compute; reflexivity|].
  split; [reflexivity|]. vm_compute. reflexivity.
Qed.
