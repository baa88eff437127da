(** * C02, what is waited for at the granted time itself: grants before the requested time and the option wait_for_current_time

    C02 bounds the granted time by what the dependencies have promised.  A federate which is granted exactly the promised time
    may still receive data for it.  Two kinds of grants are strict: those before the requested time (because of data, TimeCoordinator.cpp:632-650),
    and all grants of a federate with the option wait_for_current_time. *)
From Coq Require Import ZArith Bool List Lia ZifyBool.
From Verif Require Import HTime Action TimeDep TimeDepProofs TimeCoord TimeCoordProofs TimeProc TimeProcProofs TimeInitProofs TimeInv TimeAnswer TimeGrid PropsTime1 TimeTable MinTimeProofs TimeNotice NoticeStep Examples1 PropsTime2.
Import ListNotations.
Open Scope Z_scope.

(** ** Following a property of the entry of one dependency from its last notice to the decision
    (as in PropsTime2, for a property [P lo] of the entry) *)
Section Follow.
  Context (P : Z -> dinfo -> Prop) (B : Z).
  Hypothesis PK : forall lo d d', key d' = key d -> P lo d -> P lo d'.
  Hypothesis PE : forall lo G d, G <= lo -> dependency d = true -> P lo d -> P lo (f_events G d).
  Hypothesis PT : forall lo t d, P lo d -> P lo (f_iterTime t d).
  Hypothesis PX : forall lo d, P lo d -> P lo (f_iterExec d).
  Hypothesis PL : forall lo lo' d, lo <= lo' -> P lo d -> P lo' d.

  Lemma aprim_P e c c' id g lo : aprim e c c' -> tabOk id c -> g <> id -> quiet g e ->
    (forall t it nv nm, e <> Ev_request t it nv nm) -> has (c_deps c) g (P lo) -> has (c_deps c') g (P lo).
  Proof.
    intros H (I&S&_) NG Q NR HA. destruct (aprim_tabOf e c c' H) as (T&_). rewrite I in T.
    eapply entry_preserved; try eassumption.
    - intros d d' K A. eapply PK; eassumption.
    - intros d _ _ (t&it&nv&nm&E). destruct (NR t it nv nm E).
    - intros t d _ A. apply PT; assumption.
    - intros d _ A. apply PX; assumption.
  Qed.
  Lemma aprims_P e c c' id g lo : aprims e c c' -> tabOk id c -> g <> id -> quiet g e ->
    (forall t it nv nm, e <> Ev_request t it nv nm) -> has (c_deps c) g (P lo) -> has (c_deps c') g (P lo).
  Proof.
    intros H T NG Q NR HA.
    assert (K : tabOk id c' /\ has (c_deps c') g (P lo)); [|apply K].
    pose proof (conj T HA) as K. clear T HA. revert c c' H K. apply (aprims_inv e (fun c => tabOk id c /\ has (c_deps c) g (P lo))).
    intros c1 c2 H [T1 A1]. split; [eapply aprim_tabOk; eassumption|eapply aprim_P; eassumption].
  Qed.
  Lemma grant_P c t id g lo : tabOk id c -> g <> id -> has (c_deps c) g (P lo) -> has (c_deps (fst (fst (checkTimeGrant c t)))) g (P lo).
  Proof. intros T NG HA. refine (aprim_P (Ev_maxIter 0) _ _ id g lo (ap_grant _ c t) T NG I _ HA). discriminate. Qed.
  Lemma exec_P c t id g lo : tabOk id c -> g <> id -> has (c_deps c) g (P lo) -> has (c_deps (fst (fst (checkExecEntry c t)))) g (P lo).
  Proof. intros T NG HA. refine (aprim_P (Ev_maxIter 0) _ _ id g lo (ap_exec _ c t) T NG I _ HA). discriminate. Qed.
  Lemma request_P c tq it nv nm id g lo : tabOk id c -> g <> id -> c_granted c <= lo ->
    has (c_deps c) g (P lo) -> tabOk id (fst (timeRequest c tq it nv nm)) /\ has (c_deps (fst (timeRequest c tq it nv nm))) g (P lo).
  Proof.
    intros T NG G HA. split.
    - eapply (aprim_tabOk id (Ev_request tq it nv nm)); [eapply ap_request; reflexivity|exact T].
    - rewrite (proj1 (timeRequest_table c tq it nv nm)). destruct T as (_&S&_). destruct HA as (d&D1&D2&D3).
      exists (f_events (c_granted c) d). change (resetDependentEvents (c_granted c) (c_deps c)) with (map (f_events (c_granted c)) (c_deps c)).
      rewrite map_getDep by (try apply f_events_id; exact S). rewrite D1. split; [reflexivity|].
      split; [unfold f_events; rewrite D2; exact D2|]. apply PE; assumption.
  Qed.
  Lemma quiet_step_P f e id g : tabOk id (f_tc f) -> g <> id -> quiet g e -> wf_event e -> inv f ->
    has (c_deps (f_tc f)) g (P (lowOf B f)) -> has (c_deps (f_tc (fst (step f e)))) g (P (lowOf B (fst (step f e)))).
  Proof.
    intros T NG Q W I HA. pose proof (lowOf_mono B f e W I) as LM.
    assert (UP : forall l, has l g (P (lowOf B f)) -> has l g (P (lowOf B (fst (step f e))))).
    { intros l (d&D1&D2&D3). exists d. split; [exact D1|]. split; [exact D2|]. eapply PL; [|exact D3]. lia. }
    apply UP. clear UP LM.
    assert (CASE : (exists t it nv nm, e = Ev_request t it nv nm) \/ (forall t it nv nm, e <> Ev_request t it nv nm)).
    { destruct e; try (right; intros; discriminate). left. repeat eexists. }
    destruct CASE as [(t&it&nv&nm&->)|NR].
    - destruct (f_st f) eqn:ST; try (cbn [step]; unfold requestTime; rewrite ST; exact HA).
      destruct (step_request f t it nv nm ST) as (out&r&E&_).
      destruct (request_P (f_tc f) t (effIter f it) nv nm id g (lowOf B f) T NG) as [T2 A2].
      + unfold lowOf, floor. rewrite ST. cbn [started fst_eqb]. lia.
      + exact HA.
      + pose proof (grant_P _ invalidId id g (lowOf B f) T2 NG A2) as A3.
        replace (f_tc (fst (step f (Ev_request t it nv nm)))) with (fst (fst (checkTimeGrant (fst (timeRequest (f_tc f) t (effIter f it) nv nm)) invalidId))) by (rewrite E; reflexivity).
        exact A3.
    - exact (aprims_P e _ _ id g _ (step_any f e) T NG Q NR HA).
  Qed.
  Lemma quiet_steps_P es f id g : tabOk id (f_tc f) -> g <> id -> Forall (quiet g) es -> Forall wf_event es -> inv f ->
    has (c_deps (f_tc f)) g (P (lowOf B f)) -> has (c_deps (f_tc (after f es))) g (P (lowOf B (after f es))).
  Proof.
    intros T NG Q W. revert f T. induction es as [|e es IH]; intros f T I HA; [exact HA|].
    inversion Q; inversion W; subst. rewrite after_cons. apply IH; auto.
    - apply step_tabOk, T.
    - apply step_inv; assumption.
    - eapply quiet_step_P; eassumption.
  Qed.

  Context (cmd : amsg).
  Hypothesis PN : forall c id lo, tabOk id c -> isTiming (m_action cmd) -> m_source_id cmd <> id -> isDependency (c_deps c) (m_source_id cmd) = true ->
    has (c_deps (fst (fst (processTimeMessage c cmd)))) (m_source_id cmd) (P lo).
  Lemma notice_P f id lo : tabOk id (f_tc f) -> isTiming (m_action cmd) -> m_source_id cmd <> id -> isDependency (c_deps (f_tc f)) (m_source_id cmd) = true ->
    f_st f <> FINISHED -> has (c_deps (f_tc (fst (step f (Ev_msg cmd))))) (m_source_id cmd) (P lo).
  Proof.
    intros T TM NS D NF. pose proof (PN (f_tc f) id lo T TM NS D) as R.
    assert (NS' : m_source_id cmd <> c_id (f_tc f)) by (destruct T as (E&_); rewrite E; exact NS).
    assert (T1 : tabOk id (fst (fst (processTimeMessage (f_tc f) cmd)))).
    { destruct (timing_flags cmd TM) as (_&_&NFG&_). eapply (aprim_tabOk id (Ev_msg cmd)); [|exact T]. apply ap_prim. apply p_msg; [reflexivity|exact NFG]. }
    assert (CASE : f_st f = EXECUTING \/ f_st f <> EXECUTING) by (destruct (f_st f); auto; right; discriminate).
    destruct CASE as [ST|ST].
    - destruct (notice_exec f cmd TM NS' ST) as [[E _]|(trig&out&r&E&_)]; [rewrite E; exact R|].
      replace (f_tc (fst (step f (Ev_msg cmd)))) with (fst (fst (checkTimeGrant (fst (fst (processTimeMessage (f_tc f) cmd))) trig))) by (rewrite E; reflexivity).
      eapply grant_P; eassumption.
    - destruct (notice_init f cmd TM NS' ST NF) as (c2&V&F).
      assert (E2 : has (c_deps c2) (m_source_id cmd) (P lo)).
      { destruct V as [->|[t ->]]; [exact R|]. eapply exec_P; eassumption. }
      destruct F as [F|F]; rewrite F; [exact E2|]. rewrite updateTimeFactors_deps. exact E2.
  Qed.

  Lemma grant_with_P id o maxIter es e t pre post :
    let f0 := fed_init id o maxIter in
    let f := after f0 es in
    let g := m_source_id cmd in
    opts_ok o -> Forall wf_event (es ++ [e]) -> f_st f = EXECUTING -> returnAt f0 es e = Some (PR_NEXT, t) ->
    (forall m, e = Ev_msg m -> m_action m <> CMD_FORCE_TIME_GRANT) ->
    es ++ [e] = pre ++ Ev_msg cmd :: post -> isTiming (m_action cmd) -> g <> id ->
    isDependency (c_deps (f_tc (after f0 pre))) g = true -> Forall (quiet g) post ->
    exists c0 trig out, checkTimeGrant c0 trig = (f_tc (after f0 (es ++ [e])), out, NEXT_STEP) /\ tabOk id c0
      /\ t = c_granted (f_tc (after f0 (es ++ [e])))
      /\ has (c_deps c0) g (P (Z.max B (c_granted (f_tc f)))).
  Proof.
    intros f0 f g O W ST R NF EQ TM NG DP Q.
    assert (T0 : forall l, tabOk id (f_tc (after f0 l))) by (intros; apply after_tabOk, init_tabOk).
    assert (IV : forall l, Forall wf_event l -> inv (after f0 l)) by (intros; apply run_inv; [assumption|apply init_inv; assumption]).
    apply Forall_app in W as [W1 W2]. inversion W2 as [|? ? W3 _]; subst.
    assert (LO : lowOf B f = Z.max B (c_granted (f_tc f))) by (unfold lowOf, floor; rewrite ST; reflexivity).
    rewrite after_snoc. fold f. unfold returnAt in R. fold f in R.
    assert (POST : post = [] \/ exists p, post = p ++ [e]).
    { destruct post as [|x p] using rev_ind; [left; reflexivity|right]. exists p.
      change (Ev_msg cmd :: p ++ [x]) with ((Ev_msg cmd :: p) ++ [x]) in EQ. rewrite app_assoc in EQ. apply app_inj_tail in EQ as [_ ->]. reflexivity. }
    destruct POST as [->|[p ->]].
    - apply app_inj_tail in EQ as [<- ->]. fold f in DP.
      pose proof (T0 es) as TE. fold f in TE.
      destruct (notice_exec f cmd TM ltac:(rewrite (proj1 TE); exact NG) ST) as [[_ E]|(trig&out&r&E&ER)]; [congruence|].
      assert (r = NEXT_STEP) as -> by (destruct r; try reflexivity; rewrite R in ER; discriminate ER).
      exists (fst (fst (processTimeMessage (f_tc f) cmd))), trig, out. split; [exact E|].
      split; [eapply (aprim_tabOk id (Ev_msg cmd)); [|exact TE]; apply ap_prim, p_msg; [reflexivity|exact (NF cmd eq_refl)]|].
      split; [rewrite R in ER; injection ER as ->; reflexivity|]. eapply PN; eassumption.
    - change (Ev_msg cmd :: p ++ [e]) with ((Ev_msg cmd :: p) ++ [e]) in EQ. rewrite app_assoc in EQ. apply app_inj_tail in EQ as [EQ _].
      apply Forall_app in Q as [Q1 Q2]. inversion Q2 as [|? ? Q3 _]; subst. clear Q2.
      assert (HA : has (c_deps (f_tc f)) g (P (lowOf B f))).
      { unfold f. rewrite after_app, after_cons. apply Forall_app in W1 as [WA WB]. inversion WB as [|? ? WC WD]; subst.
        apply (quiet_steps_P p _ id g).
        - apply step_tabOk, T0.
        - exact NG.
        - exact Q1.
        - exact WD.
        - apply step_inv; auto.
        - eapply notice_P; eauto. intros FI. pose proof (finished_stays (after f0 pre) (Ev_msg cmd :: p) FI) as FS.
          rewrite <- after_app in FS. fold f in FS. congruence. }
      rewrite LO in HA. pose proof (T0 (pre ++ Ev_msg cmd :: p)) as TE. fold f in TE.
      assert (CASE : (exists t it nv nm, e = Ev_request t it nv nm) \/ (forall t it nv nm, e <> Ev_request t it nv nm)).
      { destruct e; try (right; intros; discriminate). left. repeat eexists. }
      destruct CASE as [(tq&it&nv&nm&->)|NR].
      + destruct (step_request f tq it nv nm ST) as (out&r&E&_&_&_&ER). rewrite R in ER.
        assert (r = NEXT_STEP) as -> by (destruct r; try reflexivity; discriminate ER).
        exists (fst (timeRequest (f_tc f) tq (effIter f it) nv nm)), invalidId, out. split; [exact E|].
        destruct (request_P (f_tc f) tq (effIter f it) nv nm id g (Z.max B (c_granted (f_tc f))) TE NG ltac:(lia) HA) as [T2 A2].
        split; [exact T2|]. split; [injection ER as ->; reflexivity|exact A2].
      + pose proof (step_started f e ltac:(rewrite ST; reflexivity) ltac:(intros _; exact NR)) as [S _]. rewrite R in S.
        inversion S as [ |A1 A2 A3|tt A1 A2 A3|cm A1 A2 A3 A4 A5 A6 A7|c1 trig1 out1 r1 A1 A2 A3 A4 A5 A6 A7]; subst.
        * destruct (NF cm eq_refl A2).
        * assert (r1 = NEXT_STEP) as -> by (destruct r1; try discriminate; reflexivity).
          exists c1, trig1, out1. split; [exact A5|].
          split; [exact (aprims_inv e (tabOk id) (fun c c' h => aprim_tabOk id e c c' h) _ _ (prims_aprims _ _ _ A1) TE)|]. split; [reflexivity|].
          exact (aprims_P e _ _ id g _ (prims_aprims _ _ _ A1) TE NG Q3 NR HA).
  Qed.
End Follow.

(** the conditions of a grant without iteration, at the state of the decision *)
Lemma decision_ready c trig c' out : checkTimeGrant c trig = (c', out, NEXT_STEP) -> is_no_iter (c_iterating c') = true ->
  c_granted c' = nextExec c /\ c_requested c' = c_requested c /\ c_opts c' = c_opts c
  /\ nextExec c < cTerminationTime /\ nextExec c <= c_allow (fst (updateTimeFactors c))
  /\ (nextExec c = c_allow (fst (updateTimeFactors c)) ->
      (o_wait (c_opts c) = false /\ c_requested c <= nextExec c)
      \/ checkIfReadyForTimeGrant false (nextExec c) (getDelayMode (o_wait (c_opts c)) (nextExec c <? c_requested c)) (c_deps c) = true).
Proof.
  intros H NI. destruct (decision c trig c' out NEXT_STEP H eq_refl) as (_ & D1 & D2 & D3 & D4 & _).
  pose proof (checkTimeGrant_spec c trig) as S. cbn zeta in S. rewrite H in S. destruct S as [[S1 S2] S3]. specialize (S3 eq_refl). destruct S3 as (_&_&_&_&S3).
  pose proof (updateTimeFactors_core c) as U. rewrite updateTimeFactors_exec in *. pose proof (updateTimeFactors_deps c) as UD. set (c1 := fst (updateTimeFactors c)) in *.
  rewrite UD in S3. clearbody c1. core_inv S2. core_inv U.
  split; [assumption|]. split; [congruence|]. split; [congruence|]. split; [assumption|]. split; [assumption|]. intros E. specialize (S3 E ltac:(congruence)).
  repeat match goal with E : _ c1 = _ |- _ => rewrite E in S3; clear E end. exact S3.
Qed.
Lemma ready_entry c g (Q : dinfo -> Prop) t dm : tsorted (c_deps c) -> has (c_deps c) g Q -> checkIfReadyForTimeGrant false t dm (c_deps c) = true ->
  exists d, dependency d = true /\ Q d /\ grantCheckOne t dm d = true.
Proof.
  intros S (d & D1 & D2 & D3) H. unfold checkIfReadyForTimeGrant in H. rewrite forallb_forall in H. exists d. split; [exact D2|]. split; [exact D3|]. apply H.
  revert D1. clear. unfold getDep. destruct (lower_bound (c_deps c) g) as [x y] eqn:E. cbn [snd]. intros D1. destruct y as [|z y]; [discriminate|].
  destruct (fedID z =? g); [|discriminate]. injection D1 as <-.
  assert (c_deps c = x ++ z :: y) as ->. { revert x E. induction (c_deps c) as [|w l IH]; intros; cbn in E; [discriminate|].
      destruct (fedID w <? g); [|injection E as <- <- <-; reflexivity]. destruct (lower_bound l g) as [x' y'] eqn:E'. injection E as <- ->.
      cbn. f_equal. eapply IH; reflexivity. }
  apply in_or_app. right. left. reflexivity.
Qed.

(** **** C02: with the option wait_for_current_time a federate is granted a time only after each of its dependencies has promised to
    produce nothing at that time any more *)
Theorem C02_waiting_grant_is_strict :
  forall id o maxIter es e t pre cmd post,
  let f0 := fed_init id o maxIter in
  let f := after f0 es in
  let f' := after f0 (es ++ [e]) in
  let cfg := c_opts (f_tc f') in
  let g := m_source_id cmd in
  opts_ok o -> Forall wf_event (es ++ [e]) -> f_st f = EXECUTING ->
  returnAt f0 es e = Some (PR_NEXT, t) -> 0 <= c_granted (f_tc f) < t ->
  (forall m, e = Ev_msg m -> m_action m <> CMD_FORCE_TIME_GRANT) ->
  es ++ [e] = pre ++ Ev_msg cmd :: post -> isTiming (m_action cmd) -> g <> id -> isValidId g = true ->
  isDependency (c_deps (f_tc (after f0 pre))) g = true -> Forall (quiet g) post ->
  farFromEnd cfg (Z.max 0 (Z.max (announces cmd) t)) ->
  o_wait cfg = true -> o_inputDelay cfg <= 0 -> is_no_iter (c_iterating (f_tc f')) = true ->
  t < announces cmd.
Proof.
  intros id o maxIter es e t pre cmd post f0 f f' cfg g O W ST R ADV NF EQ TM NG VG DP Q FE WT ID NI.
  destruct (grant_with_entry id o maxIter es e t pre cmd post O W ST R NF EQ TM NG DP Q) as (c0&trig&out&E&T&TT&HA).
  fold f0 in E, HA, TT. fold f' in E, TT. fold f in HA.
  destruct (decision_ready c0 trig (f_tc f') out E NI) as (D1 & DR & D2 & D3 & D4 & D5).
  pose proof (announcesNext_le cmd) as NB.
  pose proof (allow_bound c0 id g _ _ _ T NG VG NB HA) as AB. cbv zeta in AB.
  pose proof (allow_bound c0 id g 0 0 0 T NG VG ltac:(lia)) as AB0. cbv zeta in AB0.
  unfold cfg, farFromEnd in *. rewrite D2 in *. rewrite TT, D1 in *. 
  set (a := c_allow (fst (updateTimeFactors c0))) in *. clearbody a. set (n := nextExec c0) in *. clearbody n.
  assert (LT : n < a -> n < announces cmd) by (destruct (o_restrictive (c_opts c0)); specialize (AB ltac:(lia)); lia).
  destruct (Z.eq_dec n a) as [EA|NA]; [|apply LT; lia]. destruct (D5 EA) as [[D6 _]|D6]; [congruence|].
  destruct T as (I0 & S0 & F0). destruct HA as (d & G1 & G2 & G3 & G4).
  destruct (ready_entry c0 g (fun x => x = d) n _ S0 (ex_intro _ d (conj G1 (conj G2 eq_refl))) D6) as (d' & _ & -> & CK).
  assert (CASE : ts_ltb (tst d) ts_time_granted = true \/ ts_ltb (tst d) ts_time_granted = false) by (destruct (ts_ltb (tst d) ts_time_granted); auto).
  destruct CASE as [TS|TS].
  { assert (a <= 0); [|lia]. specialize (AB0 ltac:(exists d; split; [exact G1|]; split; [exact G2|]; split; [exact G3|]; left; exact TS)).
    destruct (o_restrictive (c_opts c0)); specialize (AB0 ltac:(lia)); lia. }
  destruct G4 as [G4|[G4 _]]; [congruence|].
  unfold grantCheckOne in CK. rewrite G2 in CK. cbn [negb orb] in CK. rewrite WT in CK. cbn [getDelayMode] in CK.
  assert (conn_eqb (connection d) c_SELF = false) as CS by (destruct (connection d); try reflexivity; contradiction). rewrite CS in CK.
  destruct (Z.leb_spec cTerminationTime (next d)); [lia|]. destruct (Z.leb_spec (next d) n); [discriminate|]. lia.
Qed.

(** the entry of a dependency which has last been granted [N] *)
Definition executingAt (N lo : Z) (d : dinfo) : Prop := agrees N N lo d /\ tst d = ts_time_granted /\ next d = N.

(** **** C02: a grant before the requested time (because of data) is never given for a time at which a dependency is still executing: if the last
    notice of a dependency is that it was granted T, the federate gets only times before T *)
Theorem C02_early_grant_is_strict :
  forall id o maxIter es e t pre cmd post,
  let f0 := fed_init id o maxIter in
  let f := after f0 es in
  let f' := after f0 (es ++ [e]) in
  let cfg := c_opts (f_tc f') in
  let g := m_source_id cmd in
  opts_ok o -> Forall wf_event (es ++ [e]) -> f_st f = EXECUTING ->
  returnAt f0 es e = Some (PR_NEXT, t) -> 0 <= c_granted (f_tc f) < t ->
  (forall m, e = Ev_msg m -> m_action m <> CMD_FORCE_TIME_GRANT) ->
  es ++ [e] = pre ++ Ev_msg cmd :: post -> m_action cmd = CMD_TIME_GRANT -> g <> id -> isValidId g = true ->
  isDependency (c_deps (f_tc (after f0 pre))) g = true -> Forall (quiet g) post ->
  farFromEnd cfg (Z.max 0 (Z.max (m_actionTime cmd) t)) ->
  o_inputDelay cfg <= 0 -> is_no_iter (c_iterating (f_tc f')) = true -> t < c_requested (f_tc f') ->
  t < m_actionTime cmd.
Proof.
  intros id o maxIter es e t pre cmd post f0 f f' cfg g O W ST R ADV NF EQ TA NG VG DP Q FE ID NI EARLY.
  assert (TM : isTiming (m_action cmd)) by (rewrite TA; right; right; right; reflexivity).
  set (N := m_actionTime cmd) in *.
  assert (AN : announcesNext cmd = N /\ announces cmd = N) by (unfold announces, announcesNext; rewrite TA; split; reflexivity). destruct AN as [AN1 AN2].
  destruct (grant_with_P (executingAt N) N) with (cmd := cmd) (id := id) (o := o) (maxIter := maxIter) (es := es) (e := e) (t := t) (pre := pre) (post := post) as (c0&trig&out&E&T&TT&HA); auto.
  - intros lo d d' K (A1 & A2 & A3). split; [eapply agrees_key; eassumption|]. unfold key in K. injection K as K1 K2 K3 K4 K5 K6. split; congruence.
  - intros lo G d L D (A1 & A2 & A3). split; [apply agrees_events; auto; lia|]. unfold f_events. rewrite D. split; assumption.
  - intros lo t1 d (A1 & A2 & A3). split; [apply agrees_iterTime; auto; lia|]. unfold f_iterTime. rewrite A2. cbn [ts_eqb]. rewrite andb_false_r. cbn [andb]. auto.
  - intros lo d (A1 & A2 & A3). split; [apply agrees_iterExec; auto|]. unfold f_iterExec. rewrite A2. change (ts_leb ts_time_granted ts_exec_requested_iterative) with false. rewrite andb_false_r. auto.
  - intros lo lo' d L (A1 & A2). split; [eapply agrees_lo; eassumption|exact A2].
  - intros c id0 lo TB TM' NS D. destruct (notice_recorded c cmd id0 lo TB TM' NS D) as (d & G1 & G2 & G3). rewrite AN1, AN2 in G3. exists d. split; [exact G1|]. split; [exact G2|].
    split; [exact G3|]. destruct TB as (I0 & S0 & F0).
    destruct (timing_flags cmd TM') as (_&NB&NFG&NRC&RD&_).
    rewrite (proj1 (ptm_table c cmd) NFG), NB in G1. apply Z.eqb_neq in NRC. rewrite NRC in G1. cbn [andb] in G1.
    rewrite isDependency_getDep in D. destruct (getDep (c_deps c) (m_source_id cmd)) as [x|] eqn:GX; [|discriminate].
    rewrite msgTable_getDep in G1 by exact S0. rewrite Z.eqb_refl in G1. unfold f_msg in G1. rewrite RD, GX in G1. cbn [f_upd] in G1. rewrite D in G1. injection G1 as <-.
    unfold processMessage. rewrite TA. change (tkind_of CMD_TIME_GRANT) with k_time_grant. split; reflexivity.
  - fold f0 in E, TT. fold f' in E, TT. fold f0 f g in HA.
    destruct (decision_ready c0 trig (f_tc f') out E NI) as (D1 & DR & D2 & D3 & D4 & D5).
    assert (HB : has (c_deps c0) g (agrees N N (Z.max N (c_granted (f_tc f))))) by (destruct HA as (d & G1 & G2 & G3 & G4); exists d; auto).
    pose proof (allow_bound c0 id g _ _ _ T NG VG (Z.le_refl N) HB) as AB. cbv zeta in AB. unfold cfg, farFromEnd in *. rewrite D2 in *. rewrite DR in *. rewrite TT, D1 in *.
    set (a := c_allow (fst (updateTimeFactors c0))) in *. clearbody a. set (n := nextExec c0) in *. clearbody n.
    assert (LT : n < a -> n < N) by (destruct (o_restrictive (c_opts c0)); specialize (AB ltac:(lia)); lia).
    destruct (Z.eq_dec n a) as [EA|NA]; [|apply LT; lia]. destruct (D5 EA) as [[_ D6]|D6]; [lia|].
    destruct T as (I0 & S0 & F0). destruct (ready_entry c0 g _ n _ S0 HA D6) as (d & G2 & ((G3 & _) & G4 & G5) & CK).
    unfold grantCheckOne in CK. rewrite G2 in CK. cbn [negb orb] in CK. assert (conn_eqb (connection d) c_SELF = false) as CS by (destruct (connection d); try reflexivity; contradiction). rewrite CS, G5 in CK.
    destruct (Z.leb_spec cTerminationTime N); [lia|]. rewrite G4 in CK. cbn [ts_eqb] in CK.
    destruct (getDelayMode _ _).
    + destruct (Z.ltb_spec N n); [discriminate|]. destruct (Z.eqb_spec N n); [discriminate|]. lia.
    + destruct (Z.ltb_spec N n); [discriminate|]. destruct (Z.eqb_spec N n); [discriminate|]. lia.
    + destruct (Z.leb_spec N n); [discriminate|]. lia.
Qed.

(** ** The hypotheses are met, and the strictness matters: one tick less and nothing is granted *)
Definition earlyStart (tq nv : Z) : list event :=
  [initGrant; Ev_addDependency other; Ev_enterExec NO_ITERATIONS; otherSays CMD_EXEC_REQUEST 0 0 0; otherSays CMD_EXEC_GRANT 0 0 0; Ev_request tq NO_ITERATIONS nv 1000].
Example C02_waiting_grant_not_vacuous :
  let o := set_o_wait true opts_default in
  let f0 := fed_init me o 50 in
  let es := [initGrant; Ev_addDependency other; Ev_enterExec NO_ITERATIONS; otherSays CMD_EXEC_REQUEST 0 0 0; otherSays CMD_EXEC_GRANT 0 0 0; otherSays CMD_TIME_REQUEST 3 3 1; Ev_request 5 NO_ITERATIONS 1000 1000] in
  let e := otherSays CMD_TIME_REQUEST 6 6 1 in
  exists cmd, e = Ev_msg cmd /\ opts_ok o /\ Forall wf_event (es ++ [e]) /\ f_st (after f0 es) = EXECUTING
  /\ returnAt f0 es e = Some (PR_NEXT, 5) /\ 0 <= c_granted (f_tc (after f0 es)) < 5
  /\ isTiming (m_action cmd) /\ isDependency (c_deps (f_tc (after f0 es))) (m_source_id cmd) = true /\ isValidId (m_source_id cmd) = true
  /\ announces cmd = 6 /\ farFromEnd o 6 /\ o_wait (c_opts (f_tc (after f0 (es ++ [e])))) = true /\ o_inputDelay (c_opts (f_tc (after f0 (es ++ [e])))) = 0
  /\ is_no_iter (c_iterating (f_tc (after f0 (es ++ [e])))) = true
  /\ returnAt f0 es (otherSays CMD_TIME_REQUEST 5 5 1) = None
  /\ returnAt (fed_init me opts_default 50) es (otherSays CMD_TIME_REQUEST 5 5 1) = Some (PR_NEXT, 5).
Proof.
  cbv zeta. eexists. split; [reflexivity|]. split; [unfold opts_ok, bigTime; cbn; lia|].
  split; [repeat constructor; cbn; unfold maxVal; lia|]. split; [vm_compute; reflexivity|]. split; [vm_compute; reflexivity|].
  split; [vm_compute; split; [discriminate|reflexivity]|]. split; [right; right; left; reflexivity|]. split; [vm_compute; reflexivity|]. split; [vm_compute; reflexivity|].
  split; [reflexivity|]. split; [vm_compute; reflexivity|]. split; [vm_compute; reflexivity|]. split; [vm_compute; reflexivity|]. split; [vm_compute; reflexivity|].
  split; vm_compute; reflexivity.
Qed.
Example C02_early_grant_not_vacuous :
  let o := opts_default in
  let f0 := fed_init me o 50 in
  let es := earlyStart 10 3 in
  let e := otherSays CMD_TIME_GRANT 4 4 1 in
  exists cmd, e = Ev_msg cmd /\ opts_ok o /\ Forall wf_event (es ++ [e]) /\ f_st (after f0 es) = EXECUTING
  /\ returnAt f0 es e = Some (PR_NEXT, 3) /\ 0 <= c_granted (f_tc (after f0 es)) < 3
  /\ m_action cmd = CMD_TIME_GRANT /\ isDependency (c_deps (f_tc (after f0 es))) (m_source_id cmd) = true /\ isValidId (m_source_id cmd) = true
  /\ m_actionTime cmd = 4 /\ farFromEnd o 4 /\ o_inputDelay (c_opts (f_tc (after f0 (es ++ [e])))) = 0
  /\ is_no_iter (c_iterating (f_tc (after f0 (es ++ [e])))) = true /\ c_requested (f_tc (after f0 (es ++ [e]))) = 10
  /\ returnAt f0 es (otherSays CMD_TIME_GRANT 3 3 1) = None.
Proof.
  cbv zeta. eexists. split; [reflexivity|]. split; [unfold opts_ok, bigTime; cbn; lia|].
  split; [repeat constructor; cbn; unfold maxVal; lia|]. split; [vm_compute; reflexivity|]. split; [vm_compute; reflexivity|].
  split; [vm_compute; split; [discriminate|reflexivity]|]. split; [reflexivity|]. split; [vm_compute; reflexivity|]. split; [vm_compute; reflexivity|].
  split; [reflexivity|]. split; [vm_compute; reflexivity|]. split; [vm_compute; reflexivity|]. split; [vm_compute; reflexivity|]. split; [vm_compute; reflexivity|].
  vm_compute. reflexivity.
Qed.
