(** * Invariants of a federate's time over every history *)
From Coq Require Import ZArith Bool List Lia ZifyBool.
From Verif Require Import HTime Action TimeDep TimeDepProofs TimeCoord TimeCoordProofs TimeProc TimeProcProofs TimeInitProofs MinTimeProofs.
Import ListNotations.
Open Scope Z_scope.

(** ** Well-formed events: times are 64-bit, timing properties within 2^60 ns (36 years) *)
Definition int64 (t : Z) : Prop := -9223372036854775808 <= t <= maxVal.
Definition wf_event (e : event) : Prop :=
  match e with
  | Ev_msg cmd => int64 (m_actionTime cmd)
  | Ev_request t _ nv nm => int64 t /\ int64 nv /\ int64 nm
  | Ev_data _ (DK_value t) | Ev_data _ (DK_message t) => int64 t
  | Ev_timeProp _ v => - bigTime <= v <= bigTime
  | _ => True
  end.

(** what the time state keeps through operations which do not grant *)
Definition sameTime (c c' : tc) : Prop :=
  c_id c' = c_id c /\ c_granted c' = c_granted c /\ c_grantBase c' = c_grantBase c /\ c_requested c' = c_requested c
  /\ c_iterating c' = c_iterating c.
Lemma sameTime_refl c : sameTime c c. Proof. repeat split. Qed.
Lemma core_same c c' : core c' = core c -> sameTime c c'.
Proof. intros H. core_inv H. repeat split; assumption. Qed.
Lemma core_bounded c c' : core c' = core c -> bounded c -> bounded c'.
Proof. intros H B. unfold bounded. core_inv H. repeat match goal with E : _ = _ |- _ => rewrite E; clear E end. exact B. Qed.

Lemma clampData_le c t : bounded c -> t <= maxVal -> clampData c t <= maxVal.
Proof.
  intros (O&B&G&R&V&M) T. unfold clampData. pose proof (np_ge c O B G) as (_&N&_).
  destruct (negb _); [destruct (t <=? c_granted c)|destruct (t <=? getNextPossibleTime c)]; lia.
Qed.

Lemma refused_core c t c' out : checkTimeGrant c t = (c', out, CONTINUE_PROCESSING) -> core c' = core c.
Proof. intros H. pose proof (checkTimeGrant_spec c t) as S. cbn zeta in S. rewrite H in S. exact (proj1 S). Qed.

Lemma valueTime_core c t b :
  let c' := fst (updateValueTime c t b) in
  core c' = core c \/ (t < c_value c /\ core c' = core (set_c_value (clampData c t) c)).
Proof.
  cbn zeta. unfold updateValueTime. destruct (negb (c_execMode c)).
  { left. destruct (t <? timeZero); reflexivity. }
  set (c0 := if t <=? c_granted c then set_c_hasIter true c else c).
  assert (C0 : core c0 = core c) by (unfold c0; destruct (t <=? c_granted c); reflexivity).
  assert (CL : clampData c0 t = clampData c t) by (unfold c0; destruct (t <=? c_granted c); reflexivity).
  assert (CV : core (set_c_value (clampData c t) c0) = core (set_c_value (clampData c t) c)).
  { core_inv C0. unfold core. cbn. congruence. }
  assert (V0 : c_value c0 = c_value c) by (core_inv C0; assumption).
  rewrite V0. destruct (t <? c_value c) eqn:L; [|left; exact C0]. right. split; [lia|]. rewrite CL.
  destruct (_ && _); [|exact CV].
  destruct (updateNextExecutionTime _) as [c1 ch] eqn:U.
  assert (U1 : core c1 = core (set_c_value (clampData c t) c0)).
  { replace c1 with (fst (updateNextExecutionTime (set_c_value (clampData c t) c0))) by (rewrite U; reflexivity).
    apply updateNextExec_core. }
  destruct (ch && b); [|cbn [fst]; congruence].
  rewrite (proj1 (sendTimeRequest_core c1 invalidId)). congruence.
Qed.
Lemma messageTime_core c t b :
  let c' := fst (updateMessageTime c t b) in
  core c' = core c \/ (t < c_message c /\ core c' = core (set_c_message (clampData c t) c)).
Proof.
  cbn zeta. unfold updateMessageTime. destruct (negb (c_execMode c)).
  { left. destruct (t <? timeZero); reflexivity. }
  set (c0 := if t <=? c_granted c then set_c_hasIter true c else c).
  assert (C0 : core c0 = core c) by (unfold c0; destruct (t <=? c_granted c); reflexivity).
  assert (CL : clampData c0 t = clampData c t) by (unfold c0; destruct (t <=? c_granted c); reflexivity).
  assert (CV : core (set_c_message (clampData c t) c0) = core (set_c_message (clampData c t) c)).
  { core_inv C0. unfold core. cbn. congruence. }
  assert (V0 : c_message c0 = c_message c) by (core_inv C0; assumption).
  rewrite V0. destruct (t <? c_message c) eqn:L; [|left; exact C0]. right. split; [lia|]. rewrite CL.
  destruct (_ && _); [|exact CV].
  destruct (updateNextExecutionTime _) as [c1 ch] eqn:U.
  assert (U1 : core c1 = core (set_c_message (clampData c t) c0)).
  { replace c1 with (fst (updateNextExecutionTime (set_c_message (clampData c t) c0))) by (rewrite U; reflexivity).
    apply updateNextExec_core. }
  destruct (ch && b); [|cbn [fst]; congruence].
  rewrite (proj1 (sendTimeRequest_core c1 invalidId)). congruence.
Qed.

Lemma opts_ok_timeProp p v o : - bigTime <= v <= bigTime -> opts_ok o -> opts_ok (setTimeProperty p v o).
Proof.
  intros V (H1&H2&H3&H4&H5). unfold opts_ok, setTimeProperty, timeZero, timeEpsilon, bigTime in *.
  destruct p; cbn; try (repeat split; lia). destruct (v <=? 0) eqn:E; cbn; repeat split; lia.
Qed.

Lemma prim_ok e c c' : wf_event e -> prim e c c' -> sameTime c c' /\ (bounded c -> bounded c').
Proof.
  intros W H.
  assert (CO : forall c1, core c1 = core c -> sameTime c c1 /\ (bounded c -> bounded c1))
    by (intros; split; [apply core_same; assumption|apply core_bounded; assumption]).
  destruct H as [c cmd E NF|c cmd k E D|c t c' out E _|c cmd t b E|c cmd t b E|c p v E|c g v E|c v E|c g E|c g E|c g E|c cmd E|c E]; try subst e.
  - apply CO, processTimeMessage_core; assumption.
  - apply CO, processTimeMessage_core. intros Q; rewrite Q in D; discriminate.
  - apply CO. eapply refused_core; eassumption.
  - destruct (valueTime_core c t b) as [K|[L K]]; [apply CO; exact K|].
    split; [unfold core in K; cbn in K; core_inv K; repeat split; assumption|].
    intros B. eapply core_bounded; [exact K|]. cbn [wf_event] in W.
    pose proof (clampData_le c t B (proj2 W)). destruct B as (O&B&G&R&V&M). repeat split; cbn; try assumption; apply O.
  - destruct (messageTime_core c t b) as [K|[L K]]; [apply CO; exact K|].
    split; [unfold core in K; cbn in K; core_inv K; repeat split; assumption|].
    intros B. eapply core_bounded; [exact K|]. cbn [wf_event] in W.
    pose proof (clampData_le c t B (proj2 W)). destruct B as (O&B&G&R&V&M). repeat split; cbn; try assumption; apply O.
  - split; [repeat split|]. intros (O&B). split; [apply opts_ok_timeProp; assumption|exact B].
  - split; [repeat split|]. intros (O&B). split; [destruct g; exact O|exact B].
  - split; [repeat split|]. intros (O&B). split; [exact O|exact B].
  - apply CO. unfold tcAddDependency. destruct (addDependency _ _); reflexivity.
  - apply CO. reflexivity.
  - apply CO. reflexivity.
  - apply CO. apply depUpdate_core.
  - apply CO. apply disconnect_core.
Qed.
Lemma sameTime_trans a b c : sameTime a b -> sameTime b c -> sameTime a c.
Proof. unfold sameTime; intuition congruence. Qed.
Lemma prims_ok e c c' : wf_event e -> prims e c c' -> sameTime c c' /\ (bounded c -> bounded c').
Proof.
  intros W H. induction H as [|x y z P IH Q]; [split; [apply sameTime_refl|auto]|].
  destruct (prim_ok e _ _ W Q) as [A B]. destruct IH as [C D]. split; [eapply sameTime_trans; eassumption|auto].
Qed.

(** ** The time request *)
Lemma timeRequest_core c t it nv nm :
  let np := getNextPossibleTime c in
  let rq := if is_no_iter it then (if t <? np then np else t)
            else (if (t <? c_granted c) || is_force_iter it then c_granted c else t) in
  let lo := if is_no_iter it then (if o_uninterruptible (c_opts c) then generateAllowedTime c rq else np) else c_granted c in
  core (fst (timeRequest c t it nv nm)) =
    (c_id c, c_granted c, c_grantBase c, rq, (if lo <? nv then nv else lo), (if lo <? nm then nm else lo),
     c_opts c, it, c_execMode c).
Proof.
  cbn zeta. unfold timeRequest.
  assert (N1 : getNextPossibleTime (set_c_iterating it c) = getNextPossibleTime c) by reflexivity.
  assert (N2 : forall x, generateAllowedTime (set_c_iterating it c) x = generateAllowedTime c x) by reflexivity.
  rewrite N1. destruct (is_no_iter it) eqn:NI; cbn [negb].
  - set (c2 := set_c_seq _ _). destruct (c_deps (fst (updateTimeFactors c2))) eqn:D.
    + cbn [fst]. rewrite updateTimeFactors_core. unfold core, c2. cbn. rewrite ?N2. reflexivity.
    + rewrite (proj1 (sendTimeRequest_core _ _)). rewrite updateTimeFactors_core. unfold core, c2. cbn. rewrite ?N2. reflexivity.
  - set (c2 := set_c_seq _ _). destruct (c_deps (fst (updateTimeFactors c2))) eqn:D.
    + cbn [fst]. rewrite updateTimeFactors_core. unfold core, c2. cbn. reflexivity.
    + rewrite (proj1 (sendTimeRequest_core _ _)). rewrite updateTimeFactors_core. unfold core, c2. cbn. reflexivity.
Qed.

Lemma timeRequest_ok c t it nv nm : bounded c -> int64 t -> int64 nv -> int64 nm ->
  let c' := fst (timeRequest c t it nv nm) in
  bounded c' /\ c_granted c' = c_granted c /\ c_granted c' <= c_requested c' /\ c_opts c' = c_opts c /\ c_iterating c' = it
  /\ c_id c' = c_id c /\ getNextPossibleTime c' = getNextPossibleTime c
  /\ (forall x, generateAllowedTime c' x = generateAllowedTime c x)
  /\ (is_no_iter it = true -> clamped c' /\ c_requested c' = Z.max t (getNextPossibleTime c)).
Proof.
  intros (O&B&G&R&V&M) [_ T] [_ NV] [_ NM]. cbn zeta.
  pose proof (timeRequest_core c t it nv nm) as K. cbn zeta in K.
  pose proof (np_ge c O B G) as (_&N&_).
  set (np := getNextPossibleTime c) in *.
  set (c' := fst (timeRequest c t it nv nm)) in *.
  set (rq := if is_no_iter it then _ else _) in *.
  assert (RQ : c_granted c <= rq <= maxVal).
  { unfold rq. destruct (is_no_iter it); [destruct (t <? np) eqn:E; lia|].
    destruct (t <? c_granted c) eqn:E; cbn [orb]; [lia|]. destruct (is_force_iter it); lia. }
  set (lo := if is_no_iter it then _ else c_granted c) in *.
  assert (RN : is_no_iter it = true -> rq = Z.max t np).
  { intros Q. unfold rq. rewrite Q. destruct (t <? np) eqn:E; lia. }
  assert (LO : lo <= maxVal /\ (is_no_iter it = true -> np <= lo)).
  { unfold lo. destruct (is_no_iter it); [|split; [lia|discriminate]].
    destruct (o_uninterruptible (c_opts c)); [|split; [lia|intros; lia]].
    pose proof (allowed_ge c rq). pose proof (allowed_le c rq O (proj2 RQ)).
    specialize (RN eq_refl). split; [|intros; lia]. unfold cTerminationTime in *. lia. }
  clearbody rq lo. core_inv K.
  assert (NP : getNextPossibleTime c' = np).
  { unfold np, getNextPossibleTime, generateAllowedTime. repeat match goal with E : _ = _ |- _ => rewrite E; clear E end. reflexivity. }
  assert (GA : forall x, generateAllowedTime c' x = generateAllowedTime c x).
  { intros x. unfold generateAllowedTime. repeat match goal with E : _ = _ |- _ => rewrite E; clear E end. reflexivity. }
  unfold bounded, clamped. rewrite NP.
  repeat match goal with E : _ = _ |- _ => match type of E with _ c' = _ => rewrite E; clear E end end.
  repeat split; try assumption; try lia; try apply O; try (destruct (lo <? nv) eqn:E1; lia); try (destruct (lo <? nm) eqn:E1; lia);
  try (specialize (RN ltac:(assumption)); lia);
  destruct LO as [_ LO]; specialize (LO ltac:(assumption)); [destruct (lo <? nv) eqn:E1; lia|destruct (lo <? nm) eqn:E1; lia].
Qed.

(** ** What a decision returns *)
Lemma checkTimeGrant_ok c t : bounded c -> c_granted c <= c_requested c ->
  let '(c', out, r) := checkTimeGrant c t in
  bounded c' /\ c_granted c <= c_granted c' /\ c_requested c' = c_requested c /\ c_opts c' = c_opts c
  /\ (r = CONTINUE_PROCESSING -> c_granted c' = c_granted c)
  /\ (r = HALTED -> c_granted c' = maxVal).
Proof.
  intros BD GR. pose proof (checkTimeGrant_spec c t) as S. cbn zeta in S.
  destruct (checkTimeGrant c t) as [[c' out] r]. destruct S as [S _].
  pose proof (nextExec_mono c BD GR) as NE. rewrite <- updateTimeFactors_exec in NE.
  pose proof (updateTimeFactors_core c) as UC. set (c1 := fst (updateTimeFactors c)) in *. clearbody c1.
  pose proof (core_bounded _ _ UC BD) as BD1.
  assert (E : c_granted c1 = c_granted c /\ c_requested c1 = c_requested c /\ c_opts c1 = c_opts c) by (core_inv UC; auto).
  destruct E as (E1&E2&E3). rewrite <- E1, <- E2, <- E3. rewrite <- E1 in NE. clear UC E1 E2 E3 BD.
  destruct r; cbn [grantedFrom] in S.
  - pose proof (core_bounded _ _ S BD1) as BB. core_inv S. repeat split; try assumption; try lia; try apply BB; try discriminate; intros; lia.
  - destruct S as [_ S]. destruct BD1 as (O&B&G&R&V&M). core_inv S. unfold bounded.
    repeat match goal with E : _ = _ |- _ => match type of E with _ c' = _ => rewrite E; clear E end end.
    repeat split; try assumption; try lia; try apply O; discriminate.
  - destruct S as [_ S]. destruct BD1 as (O&B&G&R&V&M). core_inv S. unfold bounded.
    repeat match goal with E : _ = _ |- _ => match type of E with _ c' = _ => rewrite E; clear E end end.
    destruct (is_force_iter (c_iterating c1)); repeat split; try assumption; try lia; try apply O; discriminate.
  - destruct S as [S _]. destruct BD1 as (O&B&G&R&V&M). core_inv S. unfold bounded.
    repeat match goal with E : _ = _ |- _ => match type of E with _ c' = _ => rewrite E; clear E end end.
    repeat split; try assumption; try lia; try apply O; try discriminate.
Qed.

Lemma grantTo_core t c : core (fst (grantTo t c)) =
  (c_id c, t, t, c_requested c, c_value c, c_message c, c_opts c, c_iterating c, c_execMode c).
Proof. reflexivity. Qed.

(** ** Before executing mode *)
Lemma allowed_le2 c t : opts_ok (c_opts c) -> t <= maxVal -> c_grantBase c <= maxVal ->
  generateAllowedTime c t <= maxVal + Z.max 0 (o_period (c_opts c)).
Proof.
  intros (H1&H2&H3&H4&H5) Ht Hb. unfold generateAllowedTime, bigTime, maxVal, cTerminationTime in *.
  destruct (timeEpsilon <? _) eqn:P; [|lia]. unfold timeEpsilon in P.
  destruct (4611686018427387392 <=? t) eqn:T; [lia|].
  destruct (c_grantBase c <? o_offset (c_opts c)) eqn:B; cbn [andb].
  - destruct (t <=? o_offset (c_opts c)) eqn:E; [lia|].
    destruct (o_period (c_opts c) <? t - o_offset (c_opts c)) eqn:F; [|lia].
    pose proof (ceil_div_lt (t - o_offset (c_opts c)) (o_period (c_opts c))). lia.
  - destruct (o_period (c_opts c) <? t - c_grantBase c) eqn:F; [|lia].
    pose proof (ceil_div_lt (t - c_grantBase c) (o_period (c_opts c))). lia.
Qed.
Definition adjustTotal (c : tc) (total : tdata) : tdata :=
  let o := c_opts c in
  let mx := cTerminationTime - o_outputDelay o - Z.max (o_period o) (o_timeDelta o) in
  if minDe total <? mx
  then set_minDe (generateAllowedTime (updateNextPossibleEventTime (set_c_maxTime mx (set_c_minminDe (minDe total) c))) (minDe total) + o_outputDelay o) total
  else total.
Lemma utf_total c : c_total (fst (updateTimeFactors c)) =
  adjustTotal c (generateMinTimeTotal (c_deps c) (o_restrictive (c_opts c) || c_globalTime c) invalidId invalidId (c_seq c)).
Proof. reflexivity. Qed.
Lemma adjustTotal_next c t : next (adjustTotal c t) = next t.
Proof. unfold adjustTotal. cbv zeta. destruct (_ <? _); reflexivity. Qed.
Lemma total_next c : next (c_total (fst (updateTimeFactors c))) =
  next (generateMinTimeTotal (c_deps c) (o_restrictive (c_opts c) || c_globalTime c) invalidId invalidId (c_seq c)).
Proof. rewrite utf_total. apply adjustTotal_next. Qed.
Lemma entryTime_le c : bounded c -> entryTime c <= maxVal.
Proof.
  intros (O&B&G&R&V&M). unfold entryTime. destruct (c_dynamic c); [|unfold timeZero, maxVal; lia].
  destruct (0 <? _); [|unfold timeZero, maxVal; lia].
  pose proof (total_max (c_deps c) (o_restrictive (c_opts c) || c_globalTime c) invalidId invalidId (c_seq c)) as [T _].
  rewrite <- total_next in T.
  pose proof (updateTimeFactors_core c) as U. set (c1 := fst (updateTimeFactors c)) in *. clearbody c1. core_inv U.
  assert (O1 : opts_ok (c_opts c1)) by congruence.
  pose proof (allowed_le2 c1 _ O1 T ltac:(congruence)). destruct O1 as (?&?&_). lia.
Qed.

Lemma iprim_ok e c c' : wf_event e -> iprim e c c' -> bounded c -> bounded c'.
Proof.
  intros W H B. destruct H as [c c' H|c t c' out r H HR|c it H|c|c|c cmd H1 H2].
  - eapply prim_ok; eassumption.
  - pose proof (checkExecEntry_core c t) as K. rewrite H in K. destruct K as [K _].
    destruct r; try contradiction; eapply core_bounded; eassumption.
  - pose proof (enteringExecMode_core c (execIter it)) as K. cbn zeta in K.
    destruct K as (K1&K2&K3&K4&K5&K6&K7&_). unfold bounded. rewrite K2, K3, K4, K5, K6, K7. exact B.
  - exact B.
  - destruct (localError_core c) as [->|E]; [exact B|]. destruct B as (O&B&G&R&V&M). core_inv E. unfold bounded.
    repeat match goal with E : _ = _ |- _ => match type of E with _ (fst _) = _ => rewrite E; clear E end end.
    repeat split; try assumption; try apply O; unfold maxVal; lia.
  - subst e. cbn [wf_event] in W. destruct W as [_ W]. destruct B as (O&B&G&R&V&M).
    split; [exact O|]. split; [reflexivity|]. split; [exact W|]. split; [exact R|]. split; assumption.
Qed.
Lemma iprims_ok e c c' : wf_event e -> iprims e c c' -> bounded c -> bounded c'.
Proof. intros W H. induction H; eauto using iprim_ok. Qed.

(** ** The invariant of a federate *)
Definition inv (f : fed) : Prop :=
  bounded (f_tc f) /\ (f_st f = EXECUTING -> f_gm f = false -> c_granted (f_tc f) <= c_requested (f_tc f)).

(** nothing earlier than this is ever returned again *)
Definition floor (f : fed) : Z := if fst_eqb (f_st f) FINISHED then maxVal else c_granted (f_tc f).

Lemma errChange_ok e c c' : wf_event e -> errChange e c c' -> bounded c -> bounded c' /\ c_granted c <= c_granted c'.
Proof.
  intros W H B. destruct H as [c' P|c' cmd P E|cmd E L].
  - destruct (prims_ok e _ _ W P) as [S K]. split; [auto|]. destruct S as (_&S&_). lia.
  - destruct (prims_ok e _ _ W P) as [S K]. specialize (K B). pose proof S as (_&S1&_).
    destruct (localError_core c') as [->|E1]; [split; [assumption|lia]|].
    split.
    + apply (iprim_ok e c' _ W (ip_localError e c') K).
    + core_inv E1. destruct K as (_&_&G&_). match goal with E : c_granted (fst _) = _ |- _ => rewrite E end. lia.
  - split.
    + apply (iprim_ok e c _ W (ip_force e c cmd E L) B).
    + change (c_granted c <= m_actionTime cmd). lia.
Qed.

(** one event of a started federate *)
Theorem step_mono f e : started (f_st f) = true -> wf_event e -> inv f ->
  let f' := fst (step f e) in
  inv f' /\ started (f_st f') = true /\ floor f <= floor f' /\
  (forall r t, e_ret (snd (step f e)) = Some (r, t) -> r <> PR_ERROR -> floor f <= t /\ t <= floor f').
Proof.
  intros HS W [BD GR]. cbn zeta.
  assert (CASE : (f_st f = EXECUTING /\ exists t it nv nm, e = Ev_request t it nv nm) \/
                 (f_st f = EXECUTING -> forall t it nv nm, e <> Ev_request t it nv nm)).
  { destruct (f_st f); try (right; discriminate). destruct e; try (right; discriminate). left; eauto 10. }
  destruct CASE as [(ST&t&it&nv&nm&->)|NRQ].
  - pose proof (step_request f t it nv nm ST) as K. cbn zeta in K. destruct K as (out&r&K1&K2&_&K4&K5).
    set (f' := fst (step f _)) in *. destruct W as (W1&W2&W3).
    pose proof (timeRequest_ok (f_tc f) t (effIter f it) nv nm BD W1 W2 W3) as T. cbn zeta in T.
    destruct T as (T1&T2&T3&_).
    pose proof (checkTimeGrant_ok _ invalidId T1 T3) as G. rewrite K1 in G. destruct G as (G1&G2&G3&G4&G5&G6).
    rewrite T2 in *.
    assert (F1 : floor f = c_granted (f_tc f)) by (unfold floor; rewrite ST; reflexivity).
    assert (F2 : floor f' = c_granted (f_tc f')) by (unfold floor; rewrite K2; reflexivity).
    rewrite F1, F2.
    split; [split; [exact G1|]|split; [rewrite K2; reflexivity|split; [exact G2|]]].
    + intros _ GM. rewrite K4 in GM. destruct r; try discriminate GM. rewrite G5, G3 by reflexivity. exact T3.
    + intros r' t' E NE. rewrite K5 in E. destruct r; try discriminate E; injection E as <- <-; try lia; try (rewrite G6 by reflexivity; destruct BD as (_&_&G&_); lia).
  - pose proof (step_started f e HS NRQ) as [S _]. set (f' := fst (step f e)) in *.
    destruct S as [A1 A2 A3 A4 A5|A1 A2 A3|tt A1 A2 A3|cmd A1 A2 A3 A4 A5 A6 A7|c0 trig out r A1 A2 A3 A4 A5 A6 A7].
    + destruct (prims_ok e _ _ W A1) as [SM K]. specialize (K BD). destruct SM as (_&S1&_&S2&_).
      split; [split; [exact K|]|split; [exact A2|split; [|discriminate]]].
      * intros E1 E2. rewrite S1, S2. apply GR; [auto|congruence].
      * unfold floor. destruct (fst_eqb (f_st f) FINISHED) eqn:FI.
        { rewrite A5 by (destruct (f_st f); try discriminate FI; reflexivity). cbn. lia. }
        destruct BD as (_&_&G&_). destruct (fst_eqb (f_st f') FINISHED); lia.
    + destruct (prims_ok e _ _ W A1) as [SM K]. specialize (K BD). destruct BD as (_&_&G&_).
      assert (F1 : floor f = c_granted (f_tc f)) by (unfold floor; destruct (f_st f); try reflexivity; contradiction).
      assert (F2 : floor f' = maxVal) by (unfold floor; rewrite A3; reflexivity). rewrite F1, F2.
      split; [split; [exact K|rewrite A3; discriminate]|split; [rewrite A3; reflexivity|split; [lia|]]].
      intros r t E _. injection E as <- <-. lia.
    + destruct (errChange_ok e _ _ W A1 BD) as [K G].
      assert (F1 : floor f = c_granted (f_tc f)) by (unfold floor; destruct (f_st f); try reflexivity; contradiction).
      split; [split; [exact K|destruct A3 as [-> | ->]; discriminate]|].
      split; [destruct A3 as [-> | ->]; reflexivity|]. split; [|intros r t E NE; injection E as <- <-; contradiction].
      rewrite F1. destruct K as (_&_&G2&_). unfold floor. destruct (fst_eqb (f_st f') FINISHED); lia.
    + assert (F1 : floor f = c_granted (f_tc f)) by (unfold floor; destruct (f_st f); try reflexivity; contradiction).
      assert (F2 : floor f' = c_granted (f_tc f')) by (unfold floor; rewrite A6; destruct (f_st f); try reflexivity; contradiction).
      assert (K : bounded (f_tc f') /\ c_granted (f_tc f') = m_actionTime cmd).
      { rewrite A5. destruct (c_granted (f_tc f) <? m_actionTime cmd) eqn:L; [|split; [exact BD|lia]].
        assert (LT : c_granted (f_tc f) < m_actionTime cmd) by lia. split; [|reflexivity]. apply (iprim_ok e _ _ W (ip_force e _ cmd A1 LT) BD). }
      destruct K as [K1 K2]. split; [split; [exact K1|congruence]|]. split; [rewrite A6; exact HS|].
      rewrite F1, F2, K2. split; [lia|]. intros r t E _. injection E as <- <-. lia.
    + destruct (prims_ok e _ _ W A1) as [SM K]. specialize (K BD). destruct SM as (_&S1&_&S2&_).
      assert (GR0 : c_granted c0 <= c_requested c0) by (rewrite S1, S2; apply GR; assumption).
      pose proof (checkTimeGrant_ok c0 trig K GR0) as G. rewrite A5 in G. destruct G as (G1&G2&G3&G4&G5&G6).
      assert (F1 : floor f = c_granted (f_tc f)) by (unfold floor; rewrite A2; reflexivity).
      assert (F2 : floor f' = c_granted (f_tc f')) by (unfold floor; rewrite A3; reflexivity).
      rewrite F1, F2. split; [split; [exact G1|congruence]|]. split; [rewrite A3; reflexivity|]. split; [lia|].
      intros r' t' E NE. destruct BD as (_&_&G&_). destruct r; try congruence; injection E as <- <-; try lia; rewrite ?G6 by reflexivity; try lia.
Qed.

(** one event of a federate before executing mode keeps the invariant *)
Theorem step_init_inv f e : started (f_st f) = false -> wf_event e -> bounded (f_tc f) ->
  inv (fst (step f e)).
Proof.
  intros HS W BD. pose proof (step_init f e HS) as [S _]. set (f' := fst (step f e)) in *.
  assert (NEX : f_st f' = f_st f \/ f_st f' = TERMINATING -> f_st f' <> EXECUTING).
  { intros [E|E]; rewrite E; [|discriminate]. destruct (f_st f); discriminate. }
  destruct S as [A1 A2|c0 t c' out A1 A2 A3 A4 A5 A6|r t A1 A2 A3|c0 t out A1 A2 A3 A4 A5|t cmd A1 A2 A3 A4|A1 A2|t A1 A2].
  - split; [eapply iprims_ok; eassumption|]. intros E. specialize (NEX A2). contradiction.
  - split; [|congruence]. rewrite A4. apply (core_bounded c'); [apply updateTimeFactors_core|].
    pose proof (iprims_ok e _ _ W A1 BD) as B0.
    pose proof (checkExecEntry_core c0 t) as K. rewrite A3 in K. destruct K as [(g&K1&K2&c1&K3&K4) _].
    pose proof (core_bounded c0 c1 K3 B0) as B1. pose proof (entryTime_le c1 B1) as EL. rewrite <- K4 in EL.
    destruct B0 as (O&B&G&R&V&M). core_inv K2. unfold bounded.
    repeat match goal with E : _ = _ |- _ => match type of E with _ c' = _ => rewrite E; clear E end end.
    repeat split; try assumption; apply O.
  - split; [eapply iprims_ok; eassumption|]. intros E; rewrite E in A3; destruct A3; discriminate.
  - split; [|congruence]. pose proof (iprims_ok e _ _ W A1 BD) as B0.
    pose proof (checkExecEntry_core c0 t) as K. rewrite A3 in K. eapply core_bounded; [exact (proj1 K)|exact B0].
  - split; [eapply iprims_ok; eassumption|congruence].
  - split; [eapply iprims_ok; eassumption|congruence].
  - split; [eapply iprims_ok; eassumption|congruence].
Qed.

Theorem step_inv f e : wf_event e -> inv f -> inv (fst (step f e)).
Proof.
  intros W I. destruct (started (f_st f)) eqn:S.
  - apply step_mono; assumption.
  - apply step_init_inv; try assumption. apply I.
Qed.

(** ** Histories *)
Lemma run_cons f e es : run f (e :: es) =
  (fst (run (fst (step f e)) es), snd (step f e) :: snd (run (fst (step f e)) es)).
Proof. cbn [run]. destruct (step f e) as [f1 x]. cbn [fst snd]. destruct (run f1 es). reflexivity. Qed.
Lemma run_app f es1 es2 : run f (es1 ++ es2) =
  (fst (run (fst (run f es1)) es2), snd (run f es1) ++ snd (run (fst (run f es1)) es2)).
Proof.
  revert f; induction es1 as [|e es IH]; intros f; [cbn; destruct (run f es2); reflexivity|].
  cbn [app]. rewrite !run_cons. cbn [fst snd]. rewrite IH. reflexivity.
Qed.
Lemma run_inv f es : Forall wf_event es -> inv f -> inv (fst (run f es)).
Proof.
  intros H; revert f; induction H as [|e es W H IH]; intros f I; [exact I|].
  rewrite run_cons. cbn [fst]. apply IH. apply step_inv; assumption.
Qed.
Lemma init_inv id o n : opts_ok o -> inv (fed_init id o n).
Proof. intros O. split; [|discriminate]. split; [exact O|]. cbn. unfold minVal, maxVal. repeat split; lia. Qed.
Lemma run_started f es : Forall wf_event es -> inv f -> started (f_st f) = true ->
  started (f_st (fst (run f es))) = true /\ floor f <= floor (fst (run f es)).
Proof.
  intros H; revert f; induction H as [|e es W H IH]; intros f I S; [split; [exact S|cbn; lia]|].
  rewrite run_cons. cbn [fst].
  pose proof (step_mono f e S W I) as (M1&M2&M3&_). destruct (IH _ M1 M2) as [A B]. split; [exact A|lia].
Qed.
