(** * Properties C01, C03, C04: which times a federate is granted

    A federate is the state machine [step] of TimeProc.v: its application's calls, the commands its
    queue delivers and the data it receives are events, in any order.  The theorems quantify over all
    histories. *)
From Coq Require Import ZArith Bool List Lia ZifyBool.
From Verif Require Import HTime Action TimeDep TimeDepProofs TimeCoord TimeCoordProofs TimeProc TimeProcProofs TimeInitProofs MinTimeProofs TimeInv TimeAnswer TimeGrid.
Import ListNotations.
Open Scope Z_scope.

(** the federate after a history *)
Definition after (f : fed) (es : list event) : fed := fst (run f es).
(** what event [e] returns to the application when it follows history [es] *)
Definition returnAt (f : fed) (es : list event) (e : event) : option (pres * Z) := e_ret (snd (step (after f es) e)).
(** the federate is past initialization *)
Definition hasStarted (f : fed) : Prop := started (f_st f) = true.
(** a return that grants a time *)
Definition isGrant (r : pres) : Prop := r = PR_NEXT \/ r = PR_ITER.

Lemma after_cons f e es : after f (e :: es) = after (fst (step f e)) es.
Proof. unfold after. rewrite run_cons. reflexivity. Qed.
Lemma after_app f es1 es2 : after f (es1 ++ es2) = after (after f es1) es2.
Proof. unfold after. rewrite run_app. reflexivity. Qed.
Lemma after_snoc f es e : after f (es ++ [e]) = fst (step (after f es) e).
Proof. rewrite after_app, after_cons. reflexivity. Qed.

(** a grant returned in executing mode is the granted time of the coordinator *)
Lemma return_granted f e r t : e_ret (snd (step f e)) = Some (r, t) -> isGrant r -> f_st (fst (step f e)) = EXECUTING ->
  c_granted (f_tc (fst (step f e))) = t.
Proof.
  intros E R ST. destruct (started (f_st f)) eqn:S.
  - assert (CASE : (f_st f = EXECUTING /\ exists t it nv nm, e = Ev_request t it nv nm) \/
                 (f_st f = EXECUTING -> forall t it nv nm, e <> Ev_request t it nv nm)).
    { destruct (f_st f); try (right; discriminate). destruct e; try (right; discriminate). left; eauto 10. }
    destruct CASE as [(ST0&t0&it&nv&nm&->)|NRQ].
    + pose proof (step_request f t0 it nv nm ST0) as K. cbn zeta in K. destruct K as (out&r0&K1&K2&_&K4&K5).
      rewrite K5 in E. destruct r0; try discriminate E; injection E as <- <-; try reflexivity. destruct R; discriminate.
    + pose proof (step_started f e S NRQ) as [O _]. rewrite E in O. set (f' := fst (step f e)) in *. clearbody f'.
      inversion O as [ |A1 A2 A3|tt A1 A2 A3|cmd A1 A2 A3 A4 A5 A6 A7|c0 trig out r0 A1 A2 A3 A4 A5 A6 A7]; subst.
      * congruence.
      * destruct R; discriminate.
      * rewrite A5. destruct (Z.ltb_spec (c_granted (f_tc f)) (m_actionTime cmd)); [reflexivity|lia].
      * destruct r0; try reflexivity. destruct R; discriminate.
  - pose proof (step_init f e S) as [O _]. rewrite E in O. set (f' := fst (step f e)) in *. clearbody f'.
    inversion O; subst; try congruence.
    + match goal with H : f_tc f' = _ |- _ => rewrite H end. reflexivity.
    + intuition congruence.
Qed.
Lemma return_floor f e r t : wf_event e -> inv f -> e_ret (snd (step f e)) = Some (r, t) -> r <> PR_ERROR -> hasStarted (fst (step f e)) ->
  t <= floor (fst (step f e)).
Proof.
  intros W I E R ST. destruct (started (f_st f)) eqn:S.
  - pose proof (step_mono f e S W I) as (_&_&_&M). eapply M; eassumption.
  - pose proof (step_init f e S) as [O _]. rewrite E in O. unfold hasStarted in ST. set (f' := fst (step f e)) in *. clearbody f'.
    inversion O; subst; try congruence.
    + unfold floor. repeat match goal with H : _ = EXECUTING |- _ => rewrite H; clear H end. cbn [fst_eqb].
      match goal with H : f_tc f' = _ |- _ => rewrite H end. apply Z.le_refl.
    + match goal with H : _ \/ _ |- _ => destruct H as [Q|Q]; rewrite Q in ST; discriminate end.
    + unfold floor. match goal with H : f_st f' = _ |- _ => rewrite H end. cbn. lia.
Qed.

(** ** C01: granted time never goes backwards *)
(** Whatever happens in between, a later return never carries an earlier time. *)
Theorem C01_granted_time_never_decreases :
  forall id o maxIter es1 e1 es2 e2 r1 t1 r2 t2,
  let f0 := fed_init id o maxIter in
  opts_ok o -> Forall wf_event (es1 ++ e1 :: es2 ++ [e2]) ->
  returnAt f0 es1 e1 = Some (r1, t1) -> r1 <> PR_ERROR -> hasStarted (after f0 (es1 ++ [e1])) ->
  returnAt f0 (es1 ++ e1 :: es2) e2 = Some (r2, t2) -> r2 <> PR_ERROR ->
  t1 <= t2.
Proof.
  intros id o n es1 e1 es2 e2 r1 t1 r2 t2 f0 O W E1 R1 S E2 R2.
  apply Forall_app in W as [W1 W]. inversion W as [|? ? W2 W3]; subst. apply Forall_app in W3 as [W3 W4]. inversion W4; subst.
  unfold returnAt in *. rewrite after_snoc in S.
  pose proof (run_inv f0 es1 W1 (init_inv id o n O)) as I1. fold (after f0 es1) in I1.
  pose proof (step_inv (after f0 es1) e1 W2 I1) as I2.
  pose proof (return_floor _ _ _ _ W2 I1 E1 R1 S) as F1.
  rewrite after_app, after_cons in E2. set (f1 := fst (step (after f0 es1) e1)) in *.
  pose proof (run_started f1 es2 W3 I2 S) as [S2 F2]. pose proof (run_inv f1 es2 W3 I2) as I3.
  fold (after f1 es2) in *. pose proof (step_mono (after f1 es2) e2 S2 ltac:(assumption) I3) as (_&_&_&M).
  specialize (M _ _ E2 R2). lia.
Qed.

(** A non-iterative request is granted strictly later than everything returned before it ... *)
Theorem C01_grant_strictly_later :
  forall id o maxIter es1 e1 es2 tq nv nm es3 r1 t1 t2,
  let f0 := fed_init id o maxIter in
  let f := after f0 (es1 ++ e1 :: es2) in
  opts_ok o -> Forall wf_event (es1 ++ e1 :: es2) ->
  returnAt f0 es1 e1 = Some (r1, t1) -> r1 <> PR_ERROR -> hasStarted (after f0 (es1 ++ [e1])) ->
  f_st f = EXECUTING -> wf_event (Ev_request tq NO_ITERATIONS nv nm) -> Forall waiting es3 -> Forall wf_event es3 ->
  answer f (Ev_request tq NO_ITERATIONS nv nm :: es3) = Some (PR_NEXT, t2) ->
  t1 < t2.
Proof.
  intros id o n es1 e1 es2 tq nv nm es3 r1 t1 t2 f0 f O W E1 R1 S ST WR WA WF A.
  apply Forall_app in W as [W1 W]. inversion W as [|? ? W2 W3]; subst.
  unfold returnAt in *. rewrite after_snoc in S.
  pose proof (run_inv f0 es1 W1 (init_inv id o n O)) as I1. fold (after f0 es1) in I1.
  pose proof (step_inv (after f0 es1) e1 W2 I1) as I2.
  pose proof (return_floor _ _ _ _ W2 I1 E1 R1 S) as F1.
  unfold f in *. rewrite after_app, after_cons in *. set (f1 := fst (step (after f0 es1) e1)) in *.
  pose proof (run_started f1 es2 W3 I2 S) as [S2 F2]. pose proof (run_inv f1 es2 W3 I2) as I3. fold (after f1 es2) in *.
  pose proof (grant_strict (after f1 es2) tq nv nm es3 t2 I3 ST WA WF WR A) as G.
  unfold floor in F2 at 2. rewrite ST in F2. cbn [fst_eqb] in F2. lia.
Qed.

(** ... by at least the time delta, and after the first step (or without offset) by at least the period *)
Theorem C01_grant_minimum_step :
  forall id o maxIter es1 e1 es2 tq nv nm es3 r1 t1 t2,
  let f0 := fed_init id o maxIter in
  let f := after f0 (es1 ++ e1 :: es2) in
  let cfg := c_opts (f_tc f) in
  opts_ok o -> Forall wf_event (es1 ++ e1 :: es2) ->
  returnAt f0 es1 e1 = Some (r1, t1) -> r1 <> PR_ERROR -> hasStarted (after f0 (es1 ++ [e1])) ->
  f_st f = EXECUTING -> wf_event (Ev_request tq NO_ITERATIONS nv nm) -> Forall waiting es3 -> Forall calm es3 ->
  0 <= o_inputDelay cfg ->
  answer f (Ev_request tq NO_ITERATIONS nv nm :: es3) = Some (PR_NEXT, t2) ->
  t1 + o_timeDelta cfg <= t2 /\ (0 < t1 \/ o_offset cfg = 0 -> t1 + o_period cfg <= t2).
Proof.
  intros id o n es1 e1 es2 tq nv nm es3 r1 t1 t2 f0 f cfg O W E1 R1 S ST WR WA WF ID A.
  apply Forall_app in W as [W1 W]. inversion W as [|? ? W2 W3]; subst.
  unfold returnAt in *. rewrite after_snoc in S.
  pose proof (run_inv f0 es1 W1 (init_inv id o n O)) as I1. fold (after f0 es1) in I1.
  pose proof (step_inv (after f0 es1) e1 W2 I1) as I2.
  pose proof (return_floor _ _ _ _ W2 I1 E1 R1 S) as F1.
  unfold cfg, f in *. rewrite after_app, after_cons in *. set (f1 := fst (step (after f0 es1) e1)) in *.
  pose proof (run_started f1 es2 W3 I2 S) as [S2 F2]. pose proof (run_inv f1 es2 W3 I2) as I3. fold (after f1 es2) in *.
  pose proof (grant_min_step (after f1 es2) tq nv nm es3 t2 I3 ST WA WF WR ID A) as [G1 G2].
  unfold floor in F2 at 2. rewrite ST in F2. cbn [fst_eqb] in F2. split; [lia|]. intros H.
  assert (K : c_granted (f_tc (after f1 es2)) <> 0 \/ o_offset (c_opts (f_tc (after f1 es2))) = 0) by lia.
  specialize (G2 K). lia.
Qed.

(** ** C03: granted times stay on the period/offset grid *)
(** Once the federate was granted time zero (its entry to executing mode), every later grant is at zero
    or at offset + k*period at or after the offset. *)
Theorem C03_grants_on_grid :
  forall id o maxIter es1 e1 es2 e2 r1 r2 t,
  let f0 := fed_init id o maxIter in
  let cfg := c_opts (f_tc (after f0 (es1 ++ [e1]))) in
  opts_ok o -> Forall wf_event (es1 ++ e1 :: es2 ++ [e2]) -> Forall keepsGrid (es2 ++ [e2]) ->
  1 < o_period cfg -> 0 <= o_offset cfg ->
  returnAt f0 es1 e1 = Some (r1, 0) -> isGrant r1 -> f_st (after f0 (es1 ++ [e1])) = EXECUTING ->
  returnAt f0 (es1 ++ e1 :: es2) e2 = Some (r2, t) -> isGrant r2 ->
  t = 0 \/ (o_offset cfg <= t /\ exists k, t = o_offset cfg + k * o_period cfg).
Proof.
  intros id o n es1 e1 es2 e2 r1 r2 t f0 cfg O W K P OF E1 R1 S E2 R2.
  apply Forall_app in W as [W1 W]. inversion W as [|? ? W2 W3]; subst. apply Forall_app in W3 as [W3 W4]. inversion W4; subst.
  apply Forall_app in K as [K1 K2]. inversion K2; subst.
  unfold returnAt in *. unfold cfg in *. rewrite after_snoc in *.
  pose proof (run_inv f0 es1 W1 (init_inv id o n O)) as I1. fold (after f0 es1) in I1.
  pose proof (step_inv (after f0 es1) e1 W2 I1) as I2.
  pose proof (return_granted _ _ _ _ E1 R1 S) as G.
  rewrite after_app, after_cons in E2. set (f1 := fst (step (after f0 es1) e1)) in *.
  assert (S1 : started (f_st f1) = true) by (rewrite S; reflexivity).
  assert (GI : gridInv (c_opts (f_tc f1)) f1).
  { intros _. split; [reflexivity|]. split; [reflexivity|]. right. right. left. exact G. }
  pose proof (run_started f1 es2 W3 I2 S1) as [S2 _]. pose proof (run_inv f1 es2 W3 I2) as I3.
  pose proof (run_grid (c_opts (f_tc f1)) es2 f1 I2 S1 W3 K1 OF GI) as GI2. fold (after f1 es2) in *.
  pose proof (step_grid (c_opts (f_tc f1)) (after f1 es2) e2 I3 S2 ltac:(assumption) ltac:(assumption) OF GI2) as [_ G2].
  specialize (G2 _ _ E2 R2). destruct G2 as [G2|G2]; [lia|exact G2].
Qed.

(** ** C04: a grant never overshoots the request except to the next permissible time *)
(** [permissible cfg t1 p]: p is at least a time delta after t1, not before the offset when t1 is zero,
    and on the grid. *)
Theorem C04_grant_never_overshoots :
  forall id o maxIter es1 e1 tq nv nm es2 r1 t1 t2 p,
  let f0 := fed_init id o maxIter in
  let f := after f0 (es1 ++ [e1]) in
  let cfg := c_opts (f_tc f) in
  opts_ok o -> Forall wf_event (es1 ++ [e1]) ->
  returnAt f0 es1 e1 = Some (r1, t1) -> isGrant r1 -> f_st f = EXECUTING ->
  0 <= o_offset cfg -> gridTime cfg t1 -> ~ skipsOffset cfg t1 ->
  wf_event (Ev_request tq NO_ITERATIONS nv nm) -> Forall waiting es2 -> Forall calm es2 ->
  answer f (Ev_request tq NO_ITERATIONS nv nm :: es2) = Some (PR_NEXT, t2) ->
  permissible cfg t1 p -> tq <= p ->
  t2 <= p.
Proof.
  intros id o n es1 e1 tq nv nm es2 r1 t1 t2 p f0 f cfg O W E1 R1 ST OF GT SK WR WA WC A PM TP.
  apply Forall_app in W as [W1 W]. inversion W as [|? ? W2 _]; subst.
  pose proof (run_inv f0 es1 W1 (init_inv id o n O)) as I1. fold (after f0 es1) in I1.
  pose proof (step_inv (after f0 es1) e1 W2 I1) as I2.
  unfold returnAt in E1. unfold cfg, f in *. rewrite after_snoc in *. clear cfg.
  pose proof (return_granted _ _ _ _ E1 R1 ST) as G. set (f1 := fst (step (after f0 es1) e1)) in *.
  destruct (answer_pending calm f1 tq nv nm es2 t2 (fun e h => h) I2 ST WA WC WR A) as (c0&K&_&T&TT&_&_&N&_).
  destruct K as (K1&K2&K3&K4&K5&K6&K7). pose proof (proj1 I2) as (OK&BB&GM&_).
  destruct (Z.ltb_spec p cTerminationTime) as [PL|PL]; [|lia].
  assert (GO : gridOpts (c_opts c0) = gridOpts (c_opts (f_tc f1))) by exact K6.
  unfold gridOpts in GO. injection GO as GO1 GO2 GO3.
  destruct (Z.ltb_spec (getNextPossibleTime (f_tc f1)) cTerminationTime) as [NL|NL].
  - pose proof (np_least (f_tc f1) p OK OF BB ltac:(rewrite G; exact GT) ltac:(rewrite G; exact SK) ltac:(rewrite G; exact PM) PL NL) as NP.
    rewrite T. apply nextExec_upper; try assumption.
    + rewrite GO3; exact OF.
    + unfold gridTime in *. rewrite GO2, GO3, K4, G. exact GT.
    + lia.
    + destruct PM as (_&_&PM). unfold onGrid in *. rewrite GO2, GO3. exact PM.
    + rewrite K4, G, GO3. apply PM.
    + lia.
  - (* the next possible time is beyond the end of time: nothing is granted *)
    exfalso. clear p PM TP PL. rewrite <- N in NL.
    assert (E : getNextPossibleTime c0 <= nextExec c0 \/ nextExec c0 < cTerminationTime -> False); [|apply E; lia].
    intros _. destruct K3 as (C1&C2&C3). destruct K1 as (OK0&B0&G0&_).
    assert (NE : cTerminationTime <= nextExec c0); [|lia].
    unfold nextExec, updateNextExecutionTime. cbn [fst c_exec set_c_exec]. rewrite K2.
    pose proof (allowed_ge c0 (c_requested c0)). pose proof (allowed_ge c0 (getNextPossibleTime c0)).
    destruct (Z.ltb_spec (Z.min (c_message c0) (c_value c0)) cTerminationTime); [lia|].
    set (e := Z.min (c_requested c0) (Z.min (c_message c0) (c_value c0))). pose proof (allowed_ge c0 e).
    destruct (o_uninterruptible (c_opts c0)); [lia|].
    destruct (Z.leb_spec e (c_granted c0)).
    + destruct (Z.ltb_spec (c_granted c0) cTerminationTime); [|lia]. destruct (Z.ltb_spec (c_granted c0) (getNextPossibleTime c0)); lia.
    + destruct (Z.ltb_spec (c_granted c0) cTerminationTime); [|lia]. destruct (Z.ltb_spec (c_granted c0) e); lia.
Qed.

(** the data arriving while waiting is not earlier than [d] *)
Definition dataFrom (d : Z) (e : event) : Prop :=
  match e with Ev_data _ (DK_value t) | Ev_data _ (DK_message t) => d <= t | _ => True end.
(** [p] is the earliest permissible time at or after [tq] *)
Definition earliest (o : tcopts) (g tq p : Z) : Prop :=
  permissible o g p /\ tq <= p /\ forall p', permissible o g p' -> tq <= p' -> p <= p'.

(** With no data before it (after the input delay) the grant is exactly the earliest permissible time. *)
Theorem C04_grant_is_exact_without_earlier_data :
  forall id o maxIter es1 e1 tq nv nm es2 r1 t1 t2 p,
  let f0 := fed_init id o maxIter in
  let f := after f0 (es1 ++ [e1]) in
  let cfg := c_opts (f_tc f) in
  opts_ok o -> Forall wf_event (es1 ++ [e1]) ->
  returnAt f0 es1 e1 = Some (r1, t1) -> isGrant r1 -> f_st f = EXECUTING ->
  0 <= o_offset cfg -> gridTime cfg t1 -> ~ skipsOffset cfg t1 ->
  wf_event (Ev_request tq NO_ITERATIONS nv nm) -> Forall waiting es2 -> Forall calm es2 ->
  earliest cfg t1 tq p -> p < cTerminationTime ->
  p <= nv + o_inputDelay cfg -> p <= nm + o_inputDelay cfg -> Forall (dataFrom (p - o_inputDelay cfg)) es2 ->
  answer f (Ev_request tq NO_ITERATIONS nv nm :: es2) = Some (PR_NEXT, t2) ->
  t2 = p.
Proof.
  intros id o n es1 e1 tq nv nm es2 r1 t1 t2 p f0 f cfg O W E1 R1 ST OF GT SK WR WA WC (PM&TP&LEAST) PL NV NM DF A.
  pose proof (C04_grant_never_overshoots id o n es1 e1 tq nv nm es2 r1 t1 t2 p O W E1 R1 ST OF GT SK WR WA WC A PM TP) as UP.
  apply Z.le_antisymm; [exact UP|].
  apply Forall_app in W as [W1 W]. inversion W as [|? ? W2 _]; subst.
  pose proof (run_inv f0 es1 W1 (init_inv id o n O)) as I1. fold (after f0 es1) in I1.
  pose proof (step_inv (after f0 es1) e1 W2 I1) as I2.
  unfold returnAt in E1. unfold cfg, f in *. rewrite after_snoc in *. clear cfg f.
  pose proof (return_granted _ _ _ _ E1 R1 ST) as G. set (f1 := fst (step (after f0 es1) e1)) in *.
  set (d := p - o_inputDelay (c_opts (f_tc f1))) in *.
  assert (WQ : Forall (fun e => calm e /\ dataFrom d e) es2).
  { clear - WC DF. induction es2; inversion WC; inversion DF; subst; constructor; auto. }
  destruct (answer_pending (fun e => calm e /\ dataFrom d e) f1 tq nv nm es2 t2 (fun e h => proj1 h) I2 ST WA WQ WR A)
    as (c0&K&PS&T&TT&_&_&N&GA).
  assert (DD : d <= c_value c0 /\ d <= c_message c0).
  { refine (psteps_core _ (fun c => d <= c_value c /\ d <= c_message c) _ _ _ _ PS _).
    - intros c1 c2 H [H1 H2]. core_inv H. split; congruence.
    - intros e c1 c2 [_ Q] H [H1 H2].
      assert (CD : forall x, d <= x -> d <= clampData c1 x).
      { intros x X. unfold clampData. destruct (negb _); [destruct (Z.leb_spec x (c_granted c1))|destruct (Z.leb_spec x (getNextPossibleTime c1))]; lia. }
      destruct H as [H|cmd t E L H|cmd t E L H|q v E H|gg v E H|v E H]; unfold core in H; cbn in H; core_inv H; try (split; congruence);
      subst e; cbn in Q; specialize (CD t Q); split; congruence.
    - pose proof (timeRequest_core (f_tc f1) tq NO_ITERATIONS nv nm) as TC. cbn zeta in TC. cbn [is_no_iter] in TC.
      remember (fst (timeRequest (f_tc f1) tq NO_ITERATIONS nv nm)) as cr eqn:ECR. clear ECR PS. core_inv TC.
      set (lo := if o_uninterruptible _ then _ else _) in *. clearbody lo.
      repeat match goal with E : _ = _ |- _ => match type of E with _ cr = _ => rewrite E; clear E end end.
      destruct (Z.ltb_spec lo nv), (Z.ltb_spec lo nm); lia. }
  destruct K as (K1&K2&K3&K4&K5&K6&K7). pose proof (proj1 I2) as (OK&BB&GM&_).
  unfold gridOpts in K6. injection K6 as GO1 GO2 GO3.
  pose proof K1 as (OK0&B0&G0&R0&_).
  destruct (np_step (f_tc f1) OK BB) as [NS|(NS1&NS2&NS3)].
  { rewrite <- N in NS. unfold clamped in K3. rewrite NS in K3. exfalso.
    pose proof (nextExec_upper c0 maxVal K1 K2 ltac:(unfold clamped; rewrite NS; exact K3)). 
    assert (NE : cTerminationTime <= nextExec c0); [|lia]. clear H.
    unfold nextExec, updateNextExecutionTime. cbn [fst c_exec set_c_exec]. rewrite K2, NS.
    pose proof (allowed_ge c0 (c_requested c0)). pose proof (allowed_ge c0 maxVal).
    destruct (Z.ltb_spec (Z.min (c_message c0) (c_value c0)) cTerminationTime); [unfold cTerminationTime, maxVal in *; lia|].
    set (e := Z.min (c_requested c0) (Z.min (c_message c0) (c_value c0))). pose proof (allowed_ge c0 e).
    unfold cTerminationTime, maxVal in *.
    destruct (o_uninterruptible (c_opts c0)); [lia|].
    destruct (Z.leb_spec e (c_granted c0)); (destruct (Z.ltb_spec (c_granted c0) 4611686018427387392); [|lia]);
      [destruct (Z.ltb_spec (c_granted c0) 9223372036854775807)|destruct (Z.ltb_spec (c_granted c0) e)]; lia. }
  assert (NPG : c_granted c0 < getNextPossibleTime c0).
  { pose proof (np_ge c0 OK0 B0 G0) as (_&_&NG). apply NG. pose proof (nextExec_mono c0 K1 ltac:(destruct K3; pose proof (np_ge c0 OK0 B0 G0); lia)).
    unfold cTerminationTime, maxVal in *; lia. }
  destruct (Z.ltb_spec (getNextPossibleTime (f_tc f1)) cTerminationTime) as [NL|NL].
  2: { exfalso. destruct K3 as (C1&C2&C3). assert (NE : cTerminationTime <= nextExec c0); [|lia].
    rewrite <- N in NL. unfold nextExec, updateNextExecutionTime. cbn [fst c_exec set_c_exec]. rewrite K2.
    pose proof (allowed_ge c0 (c_requested c0)). pose proof (allowed_ge c0 (getNextPossibleTime c0)).
    destruct (Z.ltb_spec (Z.min (c_message c0) (c_value c0)) cTerminationTime); [lia|].
    set (e := Z.min (c_requested c0) (Z.min (c_message c0) (c_value c0))). pose proof (allowed_ge c0 e).
    destruct (o_uninterruptible (c_opts c0)); [lia|].
    destruct (Z.leb_spec e (c_granted c0)).
    + destruct (Z.ltb_spec (c_granted c0) cTerminationTime); [|lia]. destruct (Z.ltb_spec (c_granted c0) (getNextPossibleTime c0)); lia.
    + destruct (Z.ltb_spec (c_granted c0) cTerminationTime); [|lia]. destruct (Z.ltb_spec (c_granted c0) e); lia. }
  pose proof (np_least (f_tc f1) p OK OF BB ltac:(rewrite G; exact GT) ltac:(rewrite G; exact SK) ltac:(rewrite G; exact PM) PL NL) as NP.
  assert (RQ : c_requested c0 <= p) by lia.
  assert (NX : nextExec c0 = generateAllowedTime c0 (c_requested c0)).
  { unfold nextExec, updateNextExecutionTime. cbn [fst c_exec set_c_exec]. rewrite K2.
    destruct (o_uninterruptible (c_opts c0)); [reflexivity|].
    assert (E : Z.min (c_requested c0) (if Z.min (c_message c0) (c_value c0) <? cTerminationTime
      then Z.min (c_message c0) (c_value c0) + o_inputDelay (c_opts c0) else Z.min (c_message c0) (c_value c0)) = c_requested c0).
    { rewrite K7. destruct (Z.ltb_spec (Z.min (c_message c0) (c_value c0)) cTerminationTime); lia. }
    rewrite E. destruct (Z.leb_spec (c_requested c0) (c_granted c0)); [lia|].
    destruct (c_granted c0 <? cTerminationTime); [|reflexivity]. destruct (Z.ltb_spec (c_granted c0) (c_requested c0)); [reflexivity|lia]. }
  pose proof (allowed_ge c0 (c_requested c0)) as AGE.
  apply LEAST; [|lia]. split; [lia|]. split.
  - intros Z0. specialize (NS3 ltac:(lia) OF). lia.
  - destruct (Z.leb_spec (o_period (c_opts (f_tc f1))) 1) as [Q|Q]; [left; exact Q|right].
    rewrite T, NX, <- GO2, <- GO3. apply allowed_grid; try lia; unfold gridTime in *; rewrite ?GO2, ?GO3, ?K4, ?G; assumption.
Qed.
