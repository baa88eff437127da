(** * Which times can be granted: minimum step, period grid, rounding of the request *)
From Coq Require Import ZArith Bool List Lia ZifyBool.
From Verif Require Import HTime Action TimeDep TimeDepProofs TimeCoord TimeCoordProofs TimeProc TimeProcProofs TimeInitProofs MinTimeProofs TimeInv TimeAnswer.
Import ListNotations.
Open Scope Z_scope.

(** ** What an operation that does not grant does to the grant-deciding state *)
Inductive cstep (e : event) (c c' : tc) : Prop :=
| cs_same : core c' = core c -> cstep e c c'
| cs_value cmd t : e = Ev_data cmd (DK_value t) -> t < c_value c -> core c' = core (set_c_value (clampData c t) c) -> cstep e c c'
| cs_message cmd t : e = Ev_data cmd (DK_message t) -> t < c_message c -> core c' = core (set_c_message (clampData c t) c) -> cstep e c c'
| cs_timeProp p v : e = Ev_timeProp p v -> core c' = core (set_c_opts (setTimeProperty p v (c_opts c)) c) -> cstep e c c'
| cs_flag g v : e = Ev_flag g v -> core c' = core (set_c_opts (setOptionFlag g v (c_opts c)) c) -> cstep e c c'
| cs_maxIter v : e = Ev_maxIter v -> core c' = core (set_c_opts (setMaxIterations v (c_opts c)) c) -> cstep e c c'.

Lemma prim_cstep e c c' : prim e c c' -> cstep e c c'.
Proof.
  intros H.
  destruct H as [c cmd E NF|c cmd k E D|c t c' out E _|c cmd t b E|c cmd t b E|c p v E|c g v E|c v E|c g E|c g E|c g E|c cmd E|c E]; try subst e.
  - apply cs_same, processTimeMessage_core; assumption.
  - apply cs_same, processTimeMessage_core. intros Q; rewrite Q in D; discriminate.
  - apply cs_same. eapply refused_core; eassumption.
  - destruct (valueTime_core c t b) as [K|[L K]]; [apply cs_same; exact K|]. eapply cs_value; eauto.
  - destruct (messageTime_core c t b) as [K|[L K]]; [apply cs_same; exact K|]. eapply cs_message; eauto.
  - eapply cs_timeProp; reflexivity.
  - eapply cs_flag; reflexivity.
  - eapply cs_maxIter; reflexivity.
  - apply cs_same. unfold tcAddDependency. destruct (addDependency _ _); reflexivity.
  - apply cs_same. reflexivity.
  - apply cs_same. reflexivity.
  - apply cs_same. apply depUpdate_core.
  - apply cs_same. apply disconnect_core.
Qed.

(** an invariant of the grant-deciding state holds after any waiting *)
Lemma psteps_core (Q : event -> Prop) (P : tc -> Prop) :
  (forall c c', core c' = core c -> P c -> P c') ->
  (forall e c c', Q e -> cstep e c c' -> P c -> P c') ->
  forall c c', psteps Q c c' -> P c -> P c'.
Proof.
  intros HC HS. apply psteps_inv.
  - intros e c c' q p. eapply HS; [exact q|]. apply prim_cstep; exact p.
  - intros c t c' out H. apply HC. eapply refused_core; exact H.
Qed.

(** options which decide the permissible times *)
Definition gridOpts (o : tcopts) := (o_timeDelta o, o_period o, o_offset o).
Lemma np_grid c c' : gridOpts (c_opts c') = gridOpts (c_opts c) -> c_granted c' = c_granted c -> c_grantBase c' = c_grantBase c ->
  getNextPossibleTime c' = getNextPossibleTime c /\ forall x, generateAllowedTime c' x = generateAllowedTime c x.
Proof.
  intros O G B. unfold gridOpts in O. injection O as O1 O2 O3.
  assert (A : forall x, generateAllowedTime c' x = generateAllowedTime c x).
  { intros x. unfold generateAllowedTime. rewrite B, O2, O3. reflexivity. }
  split; [|exact A]. unfold getNextPossibleTime. rewrite !A, G, B, O1, O2, O3. reflexivity.
Qed.

(** ** The request is strictly in the future *)
Definition ahead (c : tc) : Prop :=
  bounded c /\ is_no_iter (c_iterating c) = true /\ c_granted c < c_requested c.
Lemma ahead_core c c' : core c' = core c -> ahead c -> ahead c'.
Proof.
  intros K (B&I&R). split; [eapply core_bounded; eassumption|]. core_inv K. split; congruence.
Qed.
Lemma cstep_ahead e c c' : wf_event e -> cstep e c c' -> ahead c -> ahead c'.
Proof.
  intros W H A. destruct H as [K|cmd t E L K|cmd t E L K|p v E K|g v E K|v E K]; apply (ahead_core _ _ K); clear K; try exact A;
  destruct A as (B&I&R); subst e; cbn [wf_event] in W; (split; [|split; [exact I|exact R]]).
  - pose proof (clampData_le c t B (proj2 W)). destruct B as (O&BB&G&RR&V&M). repeat split; cbn; try assumption; apply O.
  - pose proof (clampData_le c t B (proj2 W)). destruct B as (O&BB&G&RR&V&M). repeat split; cbn; try assumption; apply O.
  - destruct B as (O&BB). split; [apply opts_ok_timeProp; assumption|exact BB].
  - destruct B as (O&BB). split; [destruct g; exact O|exact BB].
Qed.
Lemma nextExec_strict c : ahead c -> c_granted c < nextExec c.
Proof.
  intros ((O&B&G&R&V&M)&I&A). pose proof (np_ge c O B G) as (_&N&NS). pose proof O as (H1&H2&H3&H4&H5).
  specialize (NS ltac:(lia)). unfold nextExec, updateNextExecutionTime. cbn [fst c_exec set_c_exec]. rewrite I.
  set (np := getNextPossibleTime c) in *.
  match goal with |- context [Z.min (c_requested c) ?d] => set (data' := d) end.
  pose proof (allowed_ge c (c_requested c)).
  destruct (o_uninterruptible (c_opts c)); [lia|].
  set (e := Z.min (c_requested c) data').
  pose proof (allowed_ge c np). pose proof (allowed_ge c e).
  destruct (e <=? c_granted c) eqn:E.
  - destruct (c_granted c <? cTerminationTime); [destruct (c_granted c <? np)|]; lia.
  - destruct (c_granted c <? cTerminationTime); [destruct (c_granted c <? e)|]; lia.
Qed.

(** ** The grant decision in terms of the state before it *)
Lemma decision c trig c' out r : checkTimeGrant c trig = (c', out, r) -> of_mpr r = PR_NEXT ->
  is_force_iter (c_iterating c) = false /\ c_granted c' = nextExec c /\ c_opts c' = c_opts c
  /\ nextExec c < cTerminationTime /\ nextExec c <= c_allow (fst (updateTimeFactors c))
  /\ (nextExec c < c_block c \/ cTerminationTime <= c_block c).
Proof.
  intros H R. pose proof (checkTimeGrant_spec c trig) as S. cbn zeta in S. rewrite H in S.
  assert (r = NEXT_STEP) as -> by (destruct r; try discriminate R; reflexivity).
  destruct S as [[S1 S2] S3]. specialize (S3 eq_refl). destruct S3 as (S3&S4&S5&_).
  rewrite updateTimeFactors_exec in *. rewrite updateTimeFactors_block in S4.
  pose proof (updateTimeFactors_core c) as U. set (c1 := fst (updateTimeFactors c)) in *. clearbody c1.
  core_inv S2. core_inv U. repeat split; try congruence; try assumption; lia.
Qed.

(** ** Requests without iteration *)
Lemma request_start c tq nv nm : bounded c -> int64 tq -> int64 nv -> int64 nm -> c_granted c < maxVal ->
  ahead (fst (timeRequest c tq NO_ITERATIONS nv nm)).
Proof.
  intros B Q1 Q2 Q3 G. pose proof (timeRequest_ok c tq NO_ITERATIONS nv nm B Q1 Q2 Q3) as T. cbn zeta in T.
  destruct T as (T1&T2&T3&T4&T5&T6&T7&T8&T9). specialize (T9 eq_refl). destruct T9 as [_ T9].
  pose proof B as (O&BB&GG&_). pose proof (np_ge c O BB GG) as (_&_&NS). specialize (NS G).
  split; [exact T1|]. split; [rewrite T5; reflexivity|]. lia.
Qed.

(** a grant of a request without iterations is strictly later than the time before it *)
Theorem grant_strict f tq nv nm es t : inv f -> f_st f = EXECUTING -> Forall waiting es -> Forall wf_event es ->
  wf_event (Ev_request tq NO_ITERATIONS nv nm) ->
  answer f (Ev_request tq NO_ITERATIONS nv nm :: es) = Some (PR_NEXT, t) -> c_granted (f_tc f) < t.
Proof.
  intros [B I] ST W WF (Q1&Q2&Q3) A.
  assert (G : c_granted (f_tc f) < maxVal \/ c_granted (f_tc f) = maxVal) by (destruct B as (_&_&G&_); lia).
  destruct (request_answer wf_event f tq NO_ITERATIONS nv nm es PR_NEXT t ST W WF A (or_introl eq_refl)) as (c0&trig&c'&out&mr&P1&P2&P3&P4).
  cbn [effIter] in P1.
  pose proof (timeRequest_ok (f_tc f) tq NO_ITERATIONS nv nm B Q1 Q2 Q3) as T. cbn zeta in T.
  destruct T as (T1&T2&T3&_).
  pose proof (decision _ _ _ _ _ P2 (eq_sym P3)) as (D1&D2&D3&D4&_).
  destruct G as [G|G].
  - pose proof (request_start (f_tc f) tq nv nm B Q1 Q2 Q3 G) as AH.
    assert (K : ahead c0 /\ c_granted c0 = c_granted (f_tc f)).
    { refine (psteps_core wf_event (fun c => ahead c /\ c_granted c = c_granted (f_tc f)) _ _ _ _ P1 _).
      - intros c1 c2 K [K1 K2]. split; [eapply ahead_core; eassumption|]. core_inv K. congruence.
      - intros e c1 c2 WE K [K1 K2]. split; [eapply cstep_ahead; eassumption|].
        destruct K as [K|? ? ? ? K|? ? ? ? K|? ? ? K|? ? ? K|? ? K]; unfold core in K; cbn in K; core_inv K; congruence.
      - auto. }
    destruct K as [K1 K2]. pose proof (nextExec_strict c0 K1). lia.
  - assert (K : bounded c0 /\ c_granted c0 = maxVal /\ c_granted c0 <= c_requested c0).
    { refine (psteps_inv wf_event (fun c => bounded c /\ c_granted c = maxVal /\ c_granted c <= c_requested c) _ _ _ _ P1 _).
      - intros e c1 c2 WE K (K1&K2&K3). destruct (prim_ok e _ _ WE K) as [S1 S2]. destruct S1 as (_&S1&_&S3&_).
        split; [auto|]. split; congruence.
      - intros c1 tt c2 o2 K (K1&K2&K3). pose proof (refused_core _ _ _ _ K) as KC. split; [eapply core_bounded; eassumption|].
        core_inv KC. split; congruence.
      - split; [exact T1|]. split; [congruence|exact T3]. }
    destruct K as (K1&K2&K3). pose proof (nextExec_mono c0 K1 K3). unfold maxVal, cTerminationTime in *. lia.
Qed.

(** ** Minimum step *)
Lemma np_step c : opts_ok (c_opts c) -> c_grantBase c = c_granted c ->
  getNextPossibleTime c = maxVal \/
  (c_granted c + o_timeDelta (c_opts c) <= getNextPossibleTime c
   /\ (c_granted c <> 0 \/ o_offset (c_opts c) = 0 -> c_granted c + o_period (c_opts c) <= getNextPossibleTime c)
   /\ (c_granted c = 0 -> 0 <= o_offset (c_opts c) -> o_offset (c_opts c) <= getNextPossibleTime c)).
Proof.
  intros O B. pose proof O as (H1&H2&H3&H4&H5). unfold getNextPossibleTime, timeZero, timeEpsilon.
  destruct (Z.eqb_spec (c_granted c) 0) as [E|E].
  - right. destruct (o_timeDelta (c_opts c) <? o_offset (c_opts c)) eqn:D; [lia|].
    destruct (o_offset (c_opts c) =? 0) eqn:Z0.
    + pose proof (allowed_ge c (Z.max (o_timeDelta (c_opts c)) (o_period (c_opts c)))). lia.
    + destruct (o_period (c_opts c) <=? 1) eqn:P; [lia|].
      pose proof (stepUntil_ge (o_offset (c_opts c) + o_period (c_opts c)) (o_period (c_opts c)) (o_timeDelta (c_opts c))). lia.
  - destruct (cTerminationTime - _ <=? c_grantBase c) eqn:D; [left; reflexivity|right].
    pose proof (allowed_ge c (c_grantBase c + Z.max (o_timeDelta (c_opts c)) (o_period (c_opts c)))). lia.
Qed.

(** no timing property is changed *)
Definition noTimeProp (e : event) : Prop := match e with Ev_timeProp _ _ => False | _ => True end.
Definition calm (e : event) : Prop := wf_event e /\ noTimeProp e.

(** a waiting request without iterations; [o], [g], [rq]: timing options, last grant and requested time *)
Definition pendingAt (o : tcopts) (g rq : Z) (c : tc) : Prop :=
  bounded c /\ is_no_iter (c_iterating c) = true /\ clamped c /\ c_granted c = g /\ c_requested c = rq
  /\ gridOpts (c_opts c) = gridOpts o /\ o_inputDelay (c_opts c) = o_inputDelay o.
Lemma pendingAt_core o g rq c c' : core c' = core c -> pendingAt o g rq c -> pendingAt o g rq c'.
Proof.
  intros K (P1&P2&P3&P4&P5&P6&P7). split; [eapply core_bounded; eassumption|].
  pose proof (core_np _ _ K) as N. unfold clamped in *. rewrite N. core_inv K. repeat split; try congruence; destruct P3 as (?&?&?); congruence.
Qed.
Lemma clampData_ge c t : is_no_iter (c_iterating c) = true -> getNextPossibleTime c <= clampData c t.
Proof. intros I. unfold clampData. rewrite I. cbn [negb]. destruct (t <=? getNextPossibleTime c) eqn:E; lia. Qed.
Lemma cstep_pending o g rq e c c' : calm e -> cstep e c c' -> pendingAt o g rq c -> pendingAt o g rq c'.
Proof.
  intros [W N] H A. destruct H as [K|cmd t E L K|cmd t E L K|p v E K|gg v E K|v E K]; apply (pendingAt_core _ _ _ _ _ K); clear K; try exact A;
  destruct A as (P1&P2&P3&P4&P5&P6&P7); subst e; cbn [wf_event noTimeProp] in *; try contradiction.
  - pose proof (clampData_le c t P1 (proj2 W)). pose proof (clampData_ge c t P2).
    split; [destruct P1 as (O&BB&G&RR&V&M); repeat split; cbn; try assumption; apply O|].
    split; [exact P2|]. split; [|repeat split; assumption].
    destruct P3 as (C1&C2&C3). split; [exact C1|]. split; [exact H0|exact C3].
  - pose proof (clampData_le c t P1 (proj2 W)). pose proof (clampData_ge c t P2).
    split; [destruct P1 as (O&BB&G&RR&V&M); repeat split; cbn; try assumption; apply O|].
    split; [exact P2|]. split; [|repeat split; assumption].
    destruct P3 as (C1&C2&C3). split; [exact C1|]. split; [exact C2|exact H0].
  - destruct (np_grid c (set_c_opts (setOptionFlag gg v (c_opts c)) c)) as [N1 _]; [destruct gg; reflexivity|reflexivity|reflexivity|].
    unfold pendingAt, clamped. rewrite N1.
    split; [destruct P1 as (O&BB); split; [destruct gg; exact O|exact BB]|].
    split; [exact P2|]. split; [exact P3|]. split; [exact P4|]. split; [exact P5|].
    split; [destruct gg; exact P6|destruct gg; exact P7].
Qed.

Lemma pendingAt_request c tq nv nm : bounded c -> int64 tq -> int64 nv -> int64 nm ->
  pendingAt (c_opts c) (c_granted c) (Z.max tq (getNextPossibleTime c)) (fst (timeRequest c tq NO_ITERATIONS nv nm)).
Proof.
  intros B Q1 Q2 Q3. pose proof (timeRequest_ok c tq NO_ITERATIONS nv nm B Q1 Q2 Q3) as T. cbn zeta in T.
  destruct T as (T1&T2&T3&T4&T5&T6&T7&T8&T9). specialize (T9 eq_refl). destruct T9 as [T9 T10].
  unfold pendingAt. rewrite T4, T5. repeat split; try assumption; try apply T1; apply T9.
Qed.

(** the state at the moment an answer is given *)
Lemma answer_pending (Q : event -> Prop) f tq nv nm es t : (forall e, Q e -> calm e) -> inv f -> f_st f = EXECUTING -> Forall waiting es -> Forall Q es ->
  wf_event (Ev_request tq NO_ITERATIONS nv nm) ->
  answer f (Ev_request tq NO_ITERATIONS nv nm :: es) = Some (PR_NEXT, t) ->
  exists c0, pendingAt (c_opts (f_tc f)) (c_granted (f_tc f)) (Z.max tq (getNextPossibleTime (f_tc f))) c0
    /\ psteps Q (fst (timeRequest (f_tc f) tq NO_ITERATIONS nv nm)) c0
    /\ t = nextExec c0 /\ t < cTerminationTime /\ t <= c_allow (fst (updateTimeFactors c0))
    /\ (t < c_block c0 \/ cTerminationTime <= c_block c0)
    /\ getNextPossibleTime c0 = getNextPossibleTime (f_tc f) /\ forall x, generateAllowedTime c0 x = generateAllowedTime (f_tc f) x.
Proof.
  intros HQ [B I] ST W WF (Q1&Q2&Q3) A.
  destruct (request_answer Q f tq NO_ITERATIONS nv nm es PR_NEXT t ST W WF A (or_introl eq_refl)) as (c0&trig&c'&out&mr&P1&P2&P3&P4).
  cbn [effIter] in P1. exists c0.
  pose proof (decision _ _ _ _ _ P2 (eq_sym P3)) as (D1&D2&D3&D4&D5&D6).
  assert (K : pendingAt (c_opts (f_tc f)) (c_granted (f_tc f)) (Z.max tq (getNextPossibleTime (f_tc f))) c0).
  { refine (psteps_core Q (pendingAt _ _ _) _ _ _ _ P1 _).
    - intros; eapply pendingAt_core; eassumption.
    - intros e c1 c2 q. apply cstep_pending, HQ, q.
    - apply pendingAt_request; assumption. }
  split; [exact K|]. split; [exact P1|]. split; [congruence|]. split; [lia|]. split; [lia|]. split; [lia|].
  destruct K as (K1&_&_&K4&_&K6&_). apply np_grid; try assumption.
  destruct K1 as (_&K1&_). destruct B as (_&B&_). congruence.
Qed.

(** a grant of a request without iterations advances by at least the time delta and, past the first
    step, by at least the period *)
Theorem grant_min_step f tq nv nm es t : inv f -> f_st f = EXECUTING -> Forall waiting es -> Forall calm es ->
  wf_event (Ev_request tq NO_ITERATIONS nv nm) -> 0 <= o_inputDelay (c_opts (f_tc f)) ->
  answer f (Ev_request tq NO_ITERATIONS nv nm :: es) = Some (PR_NEXT, t) ->
  c_granted (f_tc f) + o_timeDelta (c_opts (f_tc f)) <= t
  /\ (c_granted (f_tc f) <> 0 \/ o_offset (c_opts (f_tc f)) = 0 -> c_granted (f_tc f) + o_period (c_opts (f_tc f)) <= t).
Proof.
  intros I ST W WF WR ID A.
  destruct (answer_pending calm f tq nv nm es t (fun e h => h) I ST W WF WR A) as (c0&K&_&T&TT&_&_&N&_).
  destruct K as (K1&K2&K3&K4&K5&K6&K7).
  pose proof (nextExec_np c0 K1 ltac:(lia) K2 K3) as NE.
  destruct I as [(O&B&_) _]. pose proof (np_step (f_tc f) O B) as [S|S]; [unfold maxVal, cTerminationTime in *; lia|].
  split; [lia|]. intros H. destruct S as (_&S&_). specialize (S H). lia.
Qed.

(** ** The period grid *)
Definition onGrid (o : tcopts) (t : Z) : Prop :=
  o_period o <= 1 \/ exists k, t = o_offset o + k * o_period o.
(** what a federate which entered at time zero can have been granted *)
Definition gridTime (o : tcopts) (g : Z) : Prop :=
  o_period o <= 1 \/ g = 0 \/ (o_offset o <= g /\ exists k, g = o_offset o + k * o_period o).

Lemma allowed_grid c x : 0 <= o_offset (c_opts c) -> c_grantBase c = c_granted c -> gridTime (c_opts c) (c_granted c) ->
  x < cTerminationTime -> 1 < o_period (c_opts c) ->
  o_offset (c_opts c) <= generateAllowedTime c x /\ exists k, generateAllowedTime c x = o_offset (c_opts c) + k * o_period (c_opts c).
Proof.
  intros O B G X P. unfold generateAllowedTime, timeEpsilon. rewrite B.
  destruct (Z.ltb_spec 1 (o_period (c_opts c))); [|lia].
  destruct (Z.leb_spec cTerminationTime x); [lia|].
  destruct (Z.ltb_spec (c_granted c) (o_offset (c_opts c))) as [L|L]; cbn [andb].
  - destruct (Z.leb_spec x (o_offset (c_opts c))); [split; [lia|exists 0; lia]|].
    destruct (Z.ltb_spec (o_period (c_opts c)) (x - o_offset (c_opts c))).
    + pose proof (ceil_div_le (x - o_offset (c_opts c)) (o_period (c_opts c)) ltac:(lia)).
      split; [lia|]. exists (ceil_div (x - o_offset (c_opts c)) (o_period (c_opts c))). lia.
    + split; [lia|]. exists 1. lia.
  - destruct G as [G|[G|[_ [j G]]]]; [lia| |].
    + assert (o_offset (c_opts c) = 0) by lia.
      destruct (Z.ltb_spec (o_period (c_opts c)) (x - c_granted c)).
      * pose proof (ceil_div_le (x - c_granted c) (o_period (c_opts c)) ltac:(lia)). split; [lia|].
        exists (ceil_div (x - c_granted c) (o_period (c_opts c))). lia.
      * split; [lia|]. exists 1. lia.
    + destruct (Z.ltb_spec (o_period (c_opts c)) (x - c_granted c)).
      * pose proof (ceil_div_le (x - c_granted c) (o_period (c_opts c)) ltac:(lia)). split; [lia|].
        exists (j + ceil_div (x - c_granted c) (o_period (c_opts c))). lia.
      * split; [lia|]. exists (j + 1). lia.
Qed.

(** the allowed time is the least one on the grid *)
Lemma mul_le_cancel a b p : 0 < p -> a * p < b * p + p -> a <= b.
Proof. intros H K. assert (a * p < (b + 1) * p) by lia. apply Z.mul_lt_mono_pos_r in H0; lia. Qed.
Lemma allowed_least c x p : 0 <= o_offset (c_opts c) -> c_grantBase c = c_granted c -> gridTime (c_opts c) (c_granted c) ->
  c_granted c < x -> x <= p -> onGrid (c_opts c) p -> (c_granted c = 0 -> o_offset (c_opts c) <= p) ->
  x < cTerminationTime -> generateAllowedTime c x <= p.
Proof.
  intros O B G X XP PG PO XT. unfold generateAllowedTime, timeEpsilon. rewrite B.
  destruct (Z.ltb_spec 1 (o_period (c_opts c))) as [P|P]; [|lia].
  destruct (Z.leb_spec cTerminationTime x); [lia|].
  destruct PG as [PG|[k PG]]; [lia|].
  set (per := o_period (c_opts c)) in *. set (off := o_offset (c_opts c)) in *.
  assert (CD : forall a j, p - a = j * per -> x - a <= j * per -> ceil_div (x - a) per * per <= j * per).
  { intros a j E1 E2. pose proof (ceil_div_lt (x - a) per ltac:(lia)).
    apply Z.mul_le_mono_nonneg_r; [lia|]. apply (mul_le_cancel _ _ per); lia. }
  destruct (Z.ltb_spec (c_granted c) off) as [L|L]; cbn [andb].
  - destruct (Z.leb_spec x off) as [XO|XO].
    + destruct G as [G|[G|[G _]]]; [lia| |lia]. auto.
    + destruct (Z.ltb_spec per (x - off)).
      * specialize (CD off k ltac:(lia) ltac:(lia)). lia.
      * assert (1 <= k) by (apply (mul_le_cancel 1 k per); lia).
        assert (1 * per <= k * per) by (apply Z.mul_le_mono_nonneg_r; lia). lia.
  - assert (J : exists j, p = c_granted c + j * per).
    { destruct G as [G|[G|[_ [i G]]]]; [lia| |].
      - exists k. assert (off = 0) by lia. lia.
      - exists (k - i). lia. }
    destruct J as [j J]. destruct (Z.ltb_spec per (x - c_granted c)).
    + specialize (CD (c_granted c) j ltac:(lia) ltac:(lia)). lia.
    + assert (1 <= j) by (apply (mul_le_cancel 1 j per); lia).
      assert (1 * per <= j * per) by (apply Z.mul_le_mono_nonneg_r; lia). lia.
Qed.

(** the earliest permissible time after [g]: at least one time delta later, not before the offset, on the grid *)
Definition permissible (o : tcopts) (g p : Z) : Prop :=
  g + o_timeDelta o <= p /\ (g = 0 -> o_offset o <= p) /\ onGrid o p.
(** the one configuration in which the code skips the first permissible time: it starts at zero and the
    offset equals the time delta (TimeCoordinator.cpp:475-489 compares with < and then adds a period) *)
Definition skipsOffset (o : tcopts) (g : Z) : Prop :=
  g = 0 /\ 1 < o_period o /\ o_timeDelta o = o_offset o.

Lemma np_least c p : opts_ok (c_opts c) -> 0 <= o_offset (c_opts c) -> c_grantBase c = c_granted c -> gridTime (c_opts c) (c_granted c) ->
  ~ skipsOffset (c_opts c) (c_granted c) -> permissible (c_opts c) (c_granted c) p -> p < cTerminationTime ->
  getNextPossibleTime c < cTerminationTime -> getNextPossibleTime c <= p.
Proof.
  intros OK O B G SK (P1&P2&P3) PT NT. pose proof OK as (H1&H2&H3&H4&H5). unfold getNextPossibleTime, timeZero, timeEpsilon in *.
  destruct (Z.eqb_spec (c_granted c) 0) as [E|E].
  - destruct (Z.ltb_spec (o_timeDelta (c_opts c)) (o_offset (c_opts c))) as [D|D]; [auto|].
    destruct (Z.eqb_spec (o_offset (c_opts c)) 0) as [Z0|Z0].
    + assert (PM : Z.max (o_timeDelta (c_opts c)) (o_period (c_opts c)) <= p).
      { destruct (Z.leb_spec (o_period (c_opts c)) 1) as [Q|Q]; [lia|].
        destruct P3 as [P3|[k P3]]; [lia|]. assert (1 <= k) by nia. nia. }
      apply allowed_least; try assumption; try (unfold bigTime, cTerminationTime in *; lia).
    + destruct (Z.leb_spec (o_period (c_opts c)) 1) as [P|P]; [lia|].
      destruct P3 as [P3|[k P3]]; [lia|].
      set (per := o_period (c_opts c)) in *. set (off := o_offset (c_opts c)) in *. set (d := o_timeDelta (c_opts c)) in *.
      assert (off < d) by (unfold skipsOffset in SK; lia).
      assert (K1 : 1 <= k) by (apply (mul_le_cancel 1 k per); lia).
      unfold stepUntil. destruct (Z.ltb_spec (off + per) d) as [L|L]; [|nia].
      pose proof (ceil_div_lt (d - (off + per)) per ltac:(lia)).
      assert (ceil_div (d - (off + per)) per <= k - 1) by (apply (mul_le_cancel _ _ per); lia). nia.
  - destruct (Z.leb_spec (cTerminationTime - Z.max (o_timeDelta (c_opts c)) (o_period (c_opts c))) (c_grantBase c)) as [D|D]; [unfold maxVal, cTerminationTime in *; lia|].
    rewrite B in *.
    assert (PM : c_granted c + Z.max (o_timeDelta (c_opts c)) (o_period (c_opts c)) <= p).
    { destruct (Z.leb_spec (o_period (c_opts c)) 1) as [Q|Q]; [lia|].
      destruct G as [G|[G|[_ [i G]]]]; [lia|lia|]. destruct P3 as [P3|[k P3]]; [lia|].
      set (per := o_period (c_opts c)) in *. set (off := o_offset (c_opts c)) in *.
      assert (i + 1 <= k); [|nia]. destruct (Z.leb_spec (i + 1) k); [assumption|]. assert (k * per <= i * per) by (apply Z.mul_le_mono_nonneg_r; lia). lia. }
    apply allowed_least; try assumption; try lia.
Qed.

(** an answer is never later than any permissible time at or after the request *)
Lemma nextExec_upper c p : bounded c -> is_no_iter (c_iterating c) = true -> clamped c -> 0 <= o_offset (c_opts c) ->
  gridTime (c_opts c) (c_granted c) -> c_requested c <= p -> onGrid (c_opts c) p -> (c_granted c = 0 -> o_offset (c_opts c) <= p) ->
  nextExec c < cTerminationTime -> nextExec c <= p.
Proof.
  intros BD I CL OF G RP PG PO NT. pose proof BD as (O&B&GM&R&V&M).
  pose proof (np_ge c O B GM) as (_&N&NS). destruct CL as (C1&C2&C3).
  assert (GT : c_granted c < cTerminationTime).
  { destruct (Z.ltb_spec (c_granted c) cTerminationTime) as [L|L]; [exact L|]. pose proof (nextExec_mono c BD ltac:(lia)). lia. }
  specialize (NS ltac:(unfold cTerminationTime, maxVal in *; lia)).
  assert (AL : forall x, c_granted c < x -> x <= c_requested c -> generateAllowedTime c x < cTerminationTime -> generateAllowedTime c x <= p).
  { intros x X1 X2 X3. pose proof (allowed_ge c x). apply allowed_least; try assumption; lia. }
  revert NT. unfold nextExec, updateNextExecutionTime. cbn [fst c_exec set_c_exec]. rewrite I.
  match goal with |- context [Z.min (c_requested c) ?d] => set (data' := d) end.
  destruct (o_uninterruptible (c_opts c)); [intros NT; apply AL; lia|].
  set (e := Z.min (c_requested c) data').
  destruct (Z.ltb_spec (c_granted c) cTerminationTime); [|lia].
  destruct (Z.leb_spec e (c_granted c)) as [E|E].
  - destruct (Z.ltb_spec (c_granted c) (getNextPossibleTime c)); [|lia]. intros NT; apply AL; lia.
  - destruct (Z.ltb_spec (c_granted c) e); [|lia]. intros NT; apply AL; lia.
Qed.

Lemma nextExec_grid c : bounded c -> 0 <= o_offset (c_opts c) -> gridTime (c_opts c) (c_granted c) ->
  c_granted c <= c_requested c -> nextExec c < cTerminationTime -> gridTime (c_opts c) (nextExec c).
Proof.
  intros BD OF G RQ NT. destruct (Z.leb_spec (o_period (c_opts c)) 1) as [P|P]; [left; exact P|].
  pose proof BD as (O&B&GM&R&V&M). pose proof (np_ge c O B GM) as (_&N&NS).
  assert (GT : c_granted c < cTerminationTime) by (pose proof (nextExec_mono c BD RQ); lia).
  specialize (NS ltac:(unfold cTerminationTime, maxVal in *; lia)).
  assert (AG : forall x, generateAllowedTime c x < cTerminationTime -> gridTime (c_opts c) (generateAllowedTime c x)).
  { intros x X. pose proof (allowed_ge c x). right. right. apply allowed_grid; try assumption; lia. }
  revert NT. unfold nextExec, updateNextExecutionTime. cbn [fst c_exec set_c_exec].
  match goal with |- context [Z.min (c_requested c) ?d] => set (data' := d) end.
  destruct (o_uninterruptible (c_opts c)).
  - destruct (is_no_iter (c_iterating c)); [apply AG|]. destruct (data' <=? c_granted c); [intros _; exact G|apply AG].
  - set (e := Z.min (c_requested c) data').
    destruct (Z.ltb_spec (c_granted c) cTerminationTime); [|lia].
    destruct (Z.leb_spec e (c_granted c)) as [E|E].
    + destruct (is_no_iter (c_iterating c)).
      * destruct (Z.ltb_spec (c_granted c) (getNextPossibleTime c)); [|lia]. apply AG.
      * destruct (Z.ltb_spec (c_granted c) (c_granted c)); [lia|]. intros _; exact G.
    + destruct (Z.ltb_spec (c_granted c) e); [|lia]. apply AG.
Qed.

(** events which keep the grid: no forced grant, no change of period or offset *)
Definition keepsGrid (e : event) : Prop :=
  match e with
  | Ev_msg cmd => m_action cmd <> CMD_FORCE_TIME_GRANT
  | Ev_timeProp P_PERIOD _ | Ev_timeProp P_OFFSET _ => False
  | _ => True
  end.
Definition gridState (o : tcopts) (c : tc) : Prop :=
  o_period (c_opts c) = o_period o /\ o_offset (c_opts c) = o_offset o
  /\ (cTerminationTime <= c_granted c \/ gridTime o (c_granted c)).
Lemma gridState_core o c c' : core c' = core c -> gridState o c -> gridState o c'.
Proof. intros K (A&B&C). core_inv K. unfold gridState. repeat match goal with E : _ = _ |- _ => rewrite E; clear E end. auto. Qed.
Lemma prims_grid o e c c' : keepsGrid e -> prims e c c' -> gridState o c -> gridState o c'.
Proof.
  intros KG. apply prims_inv. clear c c'. intros c c' P G. apply prim_cstep in P.
  destruct P as [K|cmd t E L K|cmd t E L K|p v E K|gg v E K|v E K]; apply (gridState_core _ _ _ K); clear K; try exact G.
  - subst e. destruct p; cbn in KG; try contradiction; exact G.
  - destruct gg; exact G.
Qed.
Lemma decision_grid o c trig c' out r : bounded c -> 0 <= o_offset o -> c_granted c <= c_requested c -> gridState o c ->
  checkTimeGrant c trig = (c', out, r) ->
  gridState o c' /\ (r = NEXT_STEP \/ r = ITERATING -> gridTime o (c_granted c')).
Proof.
  intros BD OF RQ (G1&G2&G3) H. pose proof (checkTimeGrant_spec c trig) as S. cbn zeta in S. rewrite H in S. destruct S as [S SG].
  pose proof (nextExec_mono c BD RQ) as NM.
  assert (NG : grants r = true -> gridTime o (nextExec c) /\ c_granted c < cTerminationTime).
  { intros R. specialize (SG R). destruct SG as (S1&S2&S3&_). rewrite updateTimeFactors_exec in *.
    assert (N : nextExec c < cTerminationTime) by lia.
    destruct G3 as [G3|G3]; [lia|]. split; [|lia].
    assert (GG : gridTime (c_opts c) (nextExec c)).
    { apply nextExec_grid; try assumption; [rewrite G2; exact OF|]. unfold gridTime in *. rewrite G1, G2. exact G3. }
    unfold gridTime in *. rewrite G1, G2 in GG. exact GG. }
  pose proof (updateTimeFactors_core c) as U. pose proof (updateTimeFactors_exec c) as X. set (c1 := fst (updateTimeFactors c)) in *. clearbody c1. core_inv U.
  destruct r; cbn [grantedFrom grants] in *.
  - core_inv S. split; [|intros [|]; discriminate]. unfold gridState. repeat match goal with E : _ = _ |- _ => rewrite E; clear E end. auto.
  - destruct (NG eq_refl) as [N1 _]. destruct S as [_ S]. core_inv S.
    assert (GC : gridTime o (c_granted c')) by congruence.
    split; [|intros _; exact GC]. unfold gridState. split; [congruence|]. split; [congruence|]. right; exact GC.
  - destruct (NG eq_refl) as [N1 N2]. destruct S as [_ S]. core_inv S.
    assert (GC : gridTime o (c_granted c')).
    { match goal with E : c_granted c' = _ |- _ => rewrite E end. destruct (is_force_iter (c_iterating c1)); [|congruence].
      destruct G3 as [G3|G3]; [lia|congruence]. }
    split; [|intros _; exact GC]. unfold gridState. split; [congruence|]. split; [congruence|]. right; exact GC.
  - destruct S as [S _]. core_inv S. split; [|intros [|]; discriminate]. unfold gridState. split; [congruence|]. split; [congruence|].
    left. match goal with E : c_granted c' = _ |- _ => rewrite E end. discriminate.
Qed.

Definition gridInv (o : tcopts) (f : fed) : Prop := f_st f = EXECUTING -> gridState o (f_tc f).
Lemma step_grid o f e : inv f -> started (f_st f) = true -> wf_event e -> keepsGrid e -> 0 <= o_offset o -> gridInv o f ->
  gridInv o (fst (step f e)) /\
  forall r t, e_ret (snd (step f e)) = Some (r, t) -> r = PR_NEXT \/ r = PR_ITER -> gridTime o t.
Proof.
  intros [BD GR] HS W KG OF GI.
  assert (CASE : (f_st f = EXECUTING /\ exists t it nv nm, e = Ev_request t it nv nm) \/
                 (f_st f = EXECUTING -> forall t it nv nm, e <> Ev_request t it nv nm)).
  { destruct (f_st f); try (right; discriminate). destruct e; try (right; discriminate). left; eauto 10. }
  destruct CASE as [(ST&t&it&nv&nm&->)|NRQ].
  - pose proof (step_request f t it nv nm ST) as K. cbn zeta in K. destruct K as (out&r&K1&K2&_&K4&K5).
    set (f' := fst (step f _)) in *. destruct W as (W1&W2&W3).
    pose proof (timeRequest_ok (f_tc f) t (effIter f it) nv nm BD W1 W2 W3) as T. cbn zeta in T.
    destruct T as (T1&T2&T3&T4&_). specialize (GI ST).
    assert (GS : gridState o (fst (timeRequest (f_tc f) t (effIter f it) nv nm))) by (unfold gridState; rewrite T2, T4; exact GI).
    pose proof (decision_grid o _ _ _ _ _ T1 OF T3 GS K1) as [D1 D2].
    split; [intros _; exact D1|]. intros r' t' E R. rewrite K5 in E. destruct r; try discriminate E; injection E as <- <-; auto.
    destruct R; discriminate.
  - pose proof (step_started f e HS NRQ) as [S _]. set (f' := fst (step f e)) in *.
    remember (e_ret (snd (step f e))) as ret. destruct S as [A1 A2 A3 A4 A5|A1 A2 A3|tt A1 A2 A3|cmd A1 A2 A3 A4 A5 A6 A7|c0 trig out r0 A1 A2 A3 A4 A5 A6 A7].
    + split; [|discriminate]. intros E. eapply prims_grid; [exact KG|exact A1|]. apply GI, A3, E.
    + split; [intros E; congruence|]. intros r t E [->| ->]; discriminate.
    + split; [intros E; destruct A3; congruence|]. intros r t E [->| ->]; discriminate.
    + subst e. cbn in KG. contradiction.
    + pose proof (prims_grid o e _ _ KG A1 (GI A2)) as G0.
      destruct (prims_ok e _ _ W A1) as [S1 S2]. destruct S1 as (_&S1&_&S3&_).
      assert (RQ : c_granted c0 <= c_requested c0) by (specialize (GR A2 A4); lia).
      pose proof (decision_grid o _ _ _ _ _ (S2 BD) OF RQ G0 A5) as [D1 D2].
      split; [intros _; exact D1|]. intros r t E R. destruct r0; try congruence; injection E as <- <-; auto. destruct R; discriminate.
Qed.

(** every time returned after the entry at zero is on the grid *)
Theorem run_grid o es : forall f, inv f -> started (f_st f) = true -> Forall wf_event es -> Forall keepsGrid es -> 0 <= o_offset o ->
  gridInv o f -> gridInv o (fst (run f es)).
Proof.
  induction es as [|e es IH]; intros f I S W K OF G; [exact G|].
  inversion W as [|e' es' W1 W2]; inversion K as [|e'' es'' K1 K2]; subst. rewrite run_cons. cbn [fst].
  pose proof (step_mono f e S W1 I) as (M1&M2&_). pose proof (step_grid o f e I S W1 K1 OF G) as [G1 _]. auto.
Qed.
