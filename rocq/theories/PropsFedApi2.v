(** C37, continued: finalization, asynchronous calls against plain ones, the mode callback; and what does not hold. *)
From Coq Require Import ZArith List Lia Bool.
From Verif Require Import HTime Action FedApi PropsFedApi.
Import ListNotations.
Local Open Scope Z_scope.

(** ** An asynchronous call followed by its completion is the plain call *)
(** [pair c1 c2]: first [c1], then [c2] once the core has answered *)
Definition pair (c1 c2 : apiCall) (r : replies) (s : fapi) : result :=
  let '(s1, _, l1) := apiStep c1 r s in let '(s2, o, l2) := apiStep c2 r s1 in (s2, o, l1 ++ l2).
Theorem C37_async_initializing_is_initializing : forall r s b, a_single s = false -> a_mode s = M_STARTUP -> u_init (a_fut s) = false -> r_init r = Ok b -> b = true ->
  pair A_enterInitAsync A_enterInitComplete r s = apiStep A_enterInit r s.
Proof. intros r [m t si re [u1 u2 u3 u4 u5 u6] lg en ed] b S M U R ->; cbn in S, M, U; subst. unfold pair; cbn. rewrite R. reflexivity. Qed.
Theorem C37_async_executing_is_executing : forall r s x, a_single s = false -> a_mode s = M_INITIALIZING -> u_exec (a_fut s) = false -> r_exec r = Ok x ->
  pair A_enterExecAsync A_enterExecComplete r s = apiStep A_enterExec r s.
Proof. intros r [m t si re [u1 u2 u3 u4 u5 u6] lg en ed] [i z] S M U R; cbn in S, M, U; subst. unfold pair; cbn. unfold execPending, execNow. cbn. rewrite R. destruct i; unfold enteringExecuting, enteringInitializing, updateMode, withNow, withFut; cbn; rewrite ?app_nil_r; reflexivity. Qed.
Theorem C37_async_time_is_time : forall r s t l, a_single s = false -> a_mode s = M_EXECUTING -> a_retrigger s = false -> u_time (a_fut s) = false -> r_times r = Ok t :: l ->
  pair A_requestTimeAsync A_requestTimeComplete r s = apiStep A_requestTime r s.
Proof.
  intros r [m t0 si re [u1 u2 u3 u4 u5 u6] lg en ed] t l S M N U R; cbn in S, M, U, N; subst. unfold pair; cbn -[Z.leb cTerminationTime]. unfold requestTime, timeComplete; cbn -[Z.leb cTerminationTime]. rewrite R.
  cbn -[Z.leb cTerminationTime]. unfold updateSimulationTime; destruct (cTerminationTime <=? t); reflexivity.
Qed.
Theorem C37_async_iterative_time_is_iterative_time : forall r s x, a_single s = false -> a_mode s = M_EXECUTING -> u_itime (a_fut s) = false -> r_itime r = Ok x ->
  pair A_requestTimeIterativeAsync A_requestTimeIterativeComplete r s = apiStep A_requestTimeIterative r s.
Proof.
  intros r [m t0 si re [u1 u2 u3 u4 u5 u6] lg en ed] [i t] S M U R; cbn in S, M, U; subst. unfold pair; cbn -[Z.leb cTerminationTime]. unfold requestTimeIterative, itimeComplete; cbn -[Z.leb cTerminationTime]. rewrite R.
  unfold iterativeEnd, updateSimulationTime; destruct i; destruct (cTerminationTime <=? t); reflexivity.
Qed.
Theorem C37_async_finalize_is_finalize : forall r s u, a_single s = false -> a_mode s = M_EXECUTING -> u_final (a_fut s) = false -> r_final r = Ok u ->
  pair A_finalizeAsync A_finalizeComplete r s = apiStep A_finalize r s.
Proof. intros r [m t0 si re [u1 u2 u3 u4 u5 u6] lg en ed] u S M U R; cbn in S, M, U; subst. unfold pair; cbn. unfold finalizePending, finalizeNow; cbn. rewrite R. reflexivity. Qed.

(** ** Nothing but error reports reaches the core after it was asked to finalize the federate *)
Definition onlyErrors (l : list coreCall) : Prop := forall k, In k l -> k = C_localError \/ k = C_globalError.
Fixpoint wfin (f : bool) (l : list coreCall) : option bool :=
  match l with
  | [] => Some f
  | k :: l => match k with C_localError | C_globalError => wfin f l | C_finalize => if f then None else wfin true l | _ => if f then None else wfin f l end end.
Definition over (m : fmode) : bool := match m with M_PENDING_FINALIZE | M_FINALIZE | M_ERROR => true | _ => false end.
Lemma wfin_true : forall l, wfin true l <> None -> onlyErrors l.
Proof. induction l as [|k l IH]; intros H k' I; [destruct I|]. destruct k; cbn in H; try congruence; destruct I as [<-|I]; auto; apply IH; auto. Qed.
Lemma wfin_app : forall l l' f g, wfin f l = Some g -> wfin f (l ++ l') = wfin g l'.
Proof. induction l as [|k l IH]; cbn; intros l' f g H; [congruence|]. destruct k; auto; destruct f; try discriminate; auto. Qed.
Lemma wfin_split : forall l1 l2 f, wfin f (l1 ++ C_finalize :: l2) <> None -> onlyErrors l2.
Proof. induction l1 as [|k l IH]; cbn; intros l2 f H; [destruct f; [congruence|apply wfin_true; auto]|]. destruct k; destruct f; try congruence; eauto. Qed.
Lemma step_fin : forall c r s s' o l f, apiStep c r s = (s', o, l) -> willing r -> (f = true -> over (a_mode s) = true) -> exists f', wfin f l = Some f' /\ (f' = true -> over (a_mode s') = true).
Proof.
  intros c r s s' o l f H (W1&[? W2]&[? W3]&W4&[? W5]&[? W6]&[? W7]&[? W8]) F.
  destruct (requestTime_or c s) as [[-> M]|G].
  { cbn [apiStep] in H. unfold requestTime in H; rewrite M in H. rewrite M in F. destruct f; [discriminate (F eq_refl)|].
    destruct (timeLoop_out _ _ _ _ _ H M) as (_&_&_&_&_&J&_). exists false; split; [|discriminate].
    clear - J. induction l as [|k l IH]; auto. rewrite (J k) by (left; auto). cbn. apply IH. intros; apply J; right; auto. }
  destruct s as [m t si re [u1 u2 u3 u4 u5 u6] lg en ed]. cbn [a_mode] in G, F.
  revert H.
  destruct c, m; try (destruct G; congruence); clear G; cbn [over] in F; try (destruct f; [discriminate (F eq_refl)|clear F]);
    crush; try congruence; intro H; inversion H; subst; clear H; cbn; eexists; (split; [reflexivity|cbn; auto; try discriminate]).
Qed.
Theorem C37_nothing_after_finalize : forall single retrigger now p l1 l2, Forall (fun x => willing (snd x)) p -> asked (api_init single retrigger now) p = l1 ++ C_finalize :: l2 -> onlyErrors l2.
Proof.
  intros single retrigger now p l1 l2 WP H.
  enough (W : wfin false (asked (api_init single retrigger now) p) <> None) by (rewrite H in W; eapply wfin_split; eauto). clear H.
  assert (I : false = true -> over (a_mode (api_init single retrigger now)) = true) by discriminate.
  generalize dependent (api_init single retrigger now). intros s. generalize false. revert s.
  induction p as [|[c r] p IH]; intros s f I; [discriminate|]. inversion WP; subst. 
  unfold asked; cbn [apiRun]. destruct (apiStep c r s) as [[s1 o1] k1] eqn:E.
  destruct (step_fin _ _ _ _ _ _ _ E H1 I) as (f'&W&I').
  specialize (IH H2 s1 f' I'). unfold asked in IH.
  destruct o1; cbn [snd map concat];
    try (destruct (apiRun s1 p) as [s2 tr]; cbn [snd map concat] in *; rewrite (wfin_app _ _ _ _ W); exact IH);
    rewrite app_nil_r, W; discriminate.
Qed.

(** ** The mode callback *)
(** from mode [m], the notices (new mode, old mode) follow on from each other and end in [m'] *)
Fixpoint chained (m : fmode) (l : list (fmode * fmode)) (m' : fmode) : Prop := match l with [] => m = m' | (new, old) :: l => old = m /\ chained new l m' end.
Definition plainCall (c : apiCall) : bool :=
  match c with A_enterInit | A_initIter | A_enterExec | A_requestTime | A_requestTimeIterative | A_finalize | A_localError | A_globalError | A_publish => true | _ => false end.
Lemma chained_snoc : forall l m old new, chained m l old -> chained m (l ++ [(new, old)]) new.
Proof. induction l as [|[a b] l IH]; cbn; intros m old new H; [auto|destruct H; auto]. Qed.
Definition chainInv (s : fapi) : Prop := chained M_STARTUP (a_log s) (a_mode s) /\ quiet (a_mode s) = true.
Lemma updateMode_chain : forall new s, chainInv s -> quiet new = true -> chainInv (updateMode new s).
Proof.
  intros new s [C Q] N. unfold updateMode. destruct (fmode_eqb new (a_mode s)) eqn:E; [split; auto|].
  assert (isPending new = false) as -> by (destruct new; auto; discriminate). split; [|exact N]. cbn [a_log a_mode].
  assert (told new (a_mode s) = [(new, a_mode s)]) as -> by (destruct (a_mode s); auto; discriminate). apply chained_snoc; auto.
Qed.
Lemma timeLoop_chain : forall ts s s' o l, timeLoop ts s = (s', o, l) -> chainInv s -> chainInv s'.
Proof.
  induction ts as [|[t|x] ts IH]; intros s s' o l H C; cbn [timeLoop] in H.
  - injection H as <- _ _; auto.
  - assert (C1 : chainInv (updateSimulationTime t s)).
    { unfold updateSimulationTime. destruct (cTerminationTime <=? t); [apply updateMode_chain; [exact C|reflexivity]|exact C]. }
    destruct (a_retrigger (updateSimulationTime t s) && (t <? cTerminationTime)).
    + destruct (timeLoop ts (updateSimulationTime t s)) as [[s2 o2] l2] eqn:E. injection H as <- _ _. eauto.
    + injection H as <- _ _; auto.
  - injection H as <- _ _. destruct x; auto; apply updateMode_chain; auto.
Qed.
Lemma step_chain : forall c r s s' o l, plainCall c = true -> chainInv s -> apiStep c r s = (s', o, l) -> chainInv s'.
Proof.
  intros c r s s' o l P C H.
  destruct (requestTime_or c s) as [[-> M]|G].
  { cbn [apiStep] in H. unfold requestTime in H; rewrite M in H. eapply timeLoop_chain; eauto. }
  destruct s as [m t si re u lg en ed]. unfold chainInv in *. cbn [a_mode a_log] in *. destruct C as [C Q].
  revert H.
  destruct c; try discriminate P; destruct m; try discriminate Q; try (destruct G; congruence); clear G;
    crush; intro H; inversion H; subst; clear H; cbn -[chained]; (split; [repeat apply chained_snoc; auto|reflexivity]).
Qed.
Theorem C37_mode_notices_follow_on : forall single retrigger now p, Forall (fun x => plainCall (fst x) = true) p ->
  let s := apiAfter (api_init single retrigger now) p in chained M_STARTUP (a_log s) (a_mode s).
Proof.
  intros single retrigger now p F. cbv zeta.
  enough (G : chainInv (apiAfter (api_init single retrigger now) p)) by apply G.
  apply (run_ind chainInv (fun x => plainCall (fst x) = true)); [|exact F|split; reflexivity].
  intros c r s s' o l P I E. eapply step_chain; eauto.
Qed.

(** ** Concrete programs *)
Definition good : replies := mkReplies (Ok true) (Ok tt) (-1) (Ok (I_next, 0)) [Ok 5] (Ok (I_iterating, 7)) (Ok tt) (Ok tt) (Ok tt).
Definition late : replies := mkReplies (Ok true) (Ok tt) (-1) (Ok (I_next, 0)) [Ok maxVal] (Ok (I_halted, maxVal)) (Ok tt) (Ok tt) (Ok tt).
Definition failing (x : exn) : replies := mkReplies (Fail x) (Fail x) (-1) (Fail x) [Fail x] (Fail x) (Fail x) (Fail x) (Fail x).
Definition fed0 := api_init false false 0.
Definition life : list (apiCall * replies) :=
  [(A_initIterAsync, good); (A_initIterComplete, good); (A_enterInitAsync, good); (A_enterInitComplete, good); (A_publish, good); (A_enterExecAsync, good); (A_enterExecComplete, good); (A_publish, good);
   (A_requestTimeAsync, good); (A_requestTimeComplete, good); (A_requestTimeIterative, good); (A_requestTime, late); (A_requestTime, good); (A_finalizeAsync, good); (A_finalizeComplete, good); (A_requestTime, good); (A_localError, good)].
Lemma good_willing : willing good. Proof. repeat split; try (eexists; reflexivity). repeat constructor; eexists; reflexivity. Qed.
Lemma late_willing : willing late. Proof. repeat split; try (eexists; reflexivity). repeat constructor; eexists; reflexivity. Qed.
Example C37_life_is_legal : allLegal fed0 life.
Proof. assert (A : forall s, a_retrigger s = false -> answered good s) by (intros s H; exists 5; split; [left; reflexivity|auto]).
  assert (B : forall s, answered late s) by (intros s; exists maxVal; split; [left; reflexivity|right; vm_compute; discriminate]).
  unfold life. cbn [allLegal]. repeat match goal with |- _ /\ _ => split end; auto using good_willing, late_willing; try (vm_compute; reflexivity); try (apply A; vm_compute; reflexivity). Qed.
Example C37_life_modes : map (fun n => a_mode (apiAfter fed0 (firstn n life))) (seq 0 18) =
  [M_STARTUP; M_PENDING_ITERATIVE_INIT; M_STARTUP; M_PENDING_INIT; M_INITIALIZING; M_INITIALIZING; M_PENDING_EXEC; M_EXECUTING; M_EXECUTING; M_PENDING_TIME; M_EXECUTING; M_EXECUTING; M_FINISHED; M_FINISHED; M_PENDING_FINALIZE; M_FINALIZE; M_FINALIZE; M_ERROR].
Proof. vm_compute. reflexivity. Qed.
Example C37_life_asked : asked fed0 life = [C_initIterative; C_init; C_publish; C_exec; C_publish; C_time; C_timeIterative; C_time; C_finalize; C_localError].
Proof. vm_compute. reflexivity. Qed.
Example C37_refusals : exists s, a_mode s = M_STARTUP /\ s = apiAfter fed0 [(A_requestTime, good); (A_publish, good); (A_requestTimeComplete, good)] /\ legal (a_single s) A_requestTime (a_mode s) = false /\ s = fed0.
Proof. exists fed0. vm_compute. auto. Qed.
Definition plainLife : list (apiCall * replies) := [(A_enterInit, good); (A_enterExec, good); (A_requestTime, good); (A_requestTimeIterative, late); (A_finalize, good); (A_globalError, good)].
Example C37_plain_life : Forall (fun x => plainCall (fst x) = true) plainLife /\ a_log (apiAfter fed0 plainLife) = [(M_INITIALIZING, M_STARTUP); (M_EXECUTING, M_INITIALIZING); (M_FINISHED, M_EXECUTING); (M_FINALIZE, M_FINISHED); (M_ERROR, M_FINALIZE)].
Proof. split; [repeat constructor|vm_compute; reflexivity]. Qed.

(** ** What does not hold *)
(** "after finalize no call changes it": reporting an error turns a finalized federate into one in the error state, and runs the termination callback again *)
Theorem C37_finalized_then_error_refuted : exists p, let s := apiAfter fed0 p in a_mode s = M_FINALIZE /\ a_ended s = 1%nat /\
  a_mode (apiAfter s [(A_localError, good)]) = M_ERROR /\ a_ended (apiAfter s [(A_localError, good)]) = 2%nat.
Proof. exists [(A_finalize, good)]. vm_compute. auto. Qed.
(** the asynchronous iterative call of a single-thread federate is not refused: the program dereferences a null pointer *)
Theorem C37_single_thread_iterative_crash_refuted : forall r, apiStep A_initIterAsync r (api_init true false 0) = (api_init true false 0, R_crash, []) /\
  forall c r', c = A_enterInitAsync \/ c = A_enterExecAsync \/ c = A_requestTimeAsync \/ c = A_finalizeAsync -> apiStep c r' (api_init true false 0) = (api_init true false 0, R_throw X_invalid, []).
Proof. intros r; split; [reflexivity|]. intros c r' [->|[->|[->| ->]]]; reflexivity. Qed.
(** finalize cannot be called while an iterative initialization is pending, although it may in every other mode *)
Theorem C37_finalize_in_pending_iteration_refuted : forall r, let s := apiAfter fed0 [(A_initIterAsync, good)] in apiStep A_finalize r s = (s, R_throw X_invalid, []).
Proof. intros r. vm_compute. reflexivity. Qed.
(** an error of the core met by finalize during a pending time request leaves the federate waiting for a result already taken: no later call can finalize it *)
Theorem C37_finalize_stuck_refuted : let s := apiAfter fed0 [(A_enterExec, good); (A_requestTimeAsync, good); (A_finalize, failing X_execution)] in
  a_mode s = M_PENDING_TIME /\ forall r t l, r_times r = t :: l -> apiStep A_finalize r s = (s, R_throw X_future, []).
Proof. split; [vm_compute; reflexivity|]. intros r t l R. cbn. unfold finalize. cbn. rewrite R. reflexivity. Qed.
(** the plain and the asynchronous call do not agree when the core fails: a time request leads to the error state or leaves the federate executing; entering execution the other way round *)
Theorem C37_failing_time_differs_refuted : let s := apiAfter fed0 [(A_enterExec, good)] in
  a_mode (apiAfter s [(A_requestTime, failing X_execution)]) = M_ERROR /\ a_mode (apiAfter s [(A_requestTimeAsync, good); (A_requestTimeComplete, failing X_execution)]) = M_EXECUTING.
Proof. vm_compute. auto. Qed.
Theorem C37_failing_executing_differs_refuted : let s := apiAfter fed0 [(A_enterInit, good)] in
  a_mode (apiAfter s [(A_enterExec, failing X_execution)]) = M_INITIALIZING /\ a_mode (apiAfter s [(A_enterExecAsync, good); (A_enterExecComplete, failing X_execution)]) = M_ERROR.
Proof. vm_compute. auto. Qed.
(** with asynchronous calls the mode callback is told of modes the federate was not in *)
Theorem C37_async_notices_refuted :
  a_log (apiAfter fed0 [(A_enterExecAsync, good); (A_enterExecComplete, good)]) = [(M_EXECUTING, M_INITIALIZING)] /\
  a_log (apiAfter fed0 [(A_finalizeAsync, good); (A_finalizeComplete, good)]) = [(M_FINALIZE, M_EXECUTING)] /\
  ~ chained M_STARTUP (a_log (apiAfter fed0 [(A_finalizeAsync, good); (A_finalizeComplete, good)])) M_FINALIZE.
Proof. vm_compute. repeat split; auto. intros [H _]. discriminate. Qed.
(** if the core does not let the federate initialize, it is asked for execution all the same, and the executing mode is entered without the initializing one and without its callback *)
Theorem C37_initialization_skipped_refuted : let no := mkReplies (Ok false) (Ok tt) (-1) (Ok (I_next, 0)) [] (Fail X_std) (Ok tt) (Ok tt) (Ok tt) in
  let s := apiAfter fed0 [(A_enterExec, no)] in a_mode s = M_EXECUTING /\ a_log s = [(M_EXECUTING, M_STARTUP)] /\ a_entered s = 0%nat.
Proof. vm_compute. auto. Qed.
(** a failed finalize of an executing federate reaches the core again later, after other calls *)
Theorem C37_after_failed_finalize_refuted : asked fed0 [(A_enterExec, good); (A_finalize, failing X_execution); (A_requestTime, good)] = [C_init; C_exec; C_finalize; C_time].
Proof. vm_compute. reflexivity. Qed.

(** ** The mode and time after a call are the ones the core's answer stands for *)
(** enterExecutingMode: granted, the federate executes at the granted time; asked to iterate, it stays in the
    initializing mode; otherwise it is in the error mode or finished. *)
Definition modeOfEntry (i : iterResult) : fmode := match i with I_next => M_EXECUTING | I_iterating => M_INITIALIZING | I_error => M_ERROR | I_halted => M_FINISHED end.
Theorem C37_entry_follows_the_answer : forall r s i t, a_mode s = M_INITIALIZING -> r_exec r = Ok (i, t) ->
  exists s', apiStep A_enterExec r s = (s', R_result i, [C_exec]) /\ a_mode s' = modeOfEntry i /\ (i = I_next -> a_time s' = t) /\ (i = I_iterating -> a_time s' = r_now r).
Proof.
  intros r [m t0 si re u lg en ed] i t M R; cbn in M; subst m. cbn. unfold execNow. rewrite R. eexists. split; [reflexivity|].
  destruct i; unfold enteringExecuting, enteringInitializing, updateMode, withNow; cbn; (split; [reflexivity|]); split; intros; try discriminate; reflexivity.
Qed.
(** requestTime and requestTimeIterative: the time the core grants is the time returned and the federate's time; the mode
    stays executing, also when iterating, until the end of the co-simulation. *)
Definition modeOfTime (i : iterResult) (t : Z) : fmode :=
  match i with I_error => M_ERROR | I_halted => M_FINISHED | _ => if cTerminationTime <=? t then M_FINISHED else M_EXECUTING end.
Theorem C37_time_follows_the_answer : forall r s i t, a_mode s = M_EXECUTING -> r_itime r = Ok (i, t) ->
  exists s', apiStep A_requestTimeIterative r s = (s', R_iter i t, [C_timeIterative]) /\ a_mode s' = modeOfTime i t /\ a_time s' = (if match i with I_error => true | _ => false end then a_time s else t).
Proof.
  intros r [m t0 si re u lg en ed] i t M R; cbn in M; subst m. cbn -[Z.leb cTerminationTime]. unfold requestTimeIterative; cbn -[Z.leb cTerminationTime]. rewrite R. eexists. split; [reflexivity|].
  destruct i; unfold iterativeEnd, updateSimulationTime, updateMode, withNow, modeOfTime; cbn -[Z.leb cTerminationTime]; destruct (cTerminationTime <=? t); split; reflexivity.
Qed.
Theorem C37_plain_time_follows_the_answer : forall r s t l, a_mode s = M_EXECUTING -> a_retrigger s = false -> r_times r = Ok t :: l ->
  exists s', apiStep A_requestTime r s = (s', R_time t, [C_time]) /\ a_mode s' = modeOfTime I_next t /\ a_time s' = t.
Proof.
  intros r [m t0 si re u lg en ed] t l M N R; cbn in M, N; subst. cbn -[Z.leb cTerminationTime]. unfold requestTime; cbn -[Z.leb cTerminationTime]. rewrite R. cbn -[Z.leb cTerminationTime].
  unfold updateSimulationTime, withNow, updateMode, modeOfTime; cbn -[Z.leb cTerminationTime]. destruct (cTerminationTime <=? t); eexists; (split; [reflexivity|split; reflexivity]).
Qed.
Lemma answer_examples : exists r s s', a_mode s = M_INITIALIZING /\ r_exec r = Ok (I_iterating, 5) /\ apiStep A_enterExec r s = (s', R_result I_iterating, [C_exec]) /\ a_mode s' = M_INITIALIZING.
Proof.
  exists (mkReplies (Ok true) (Ok tt) 0 (Ok (I_iterating, 5)) [] (Ok (I_next, 5)) (Ok tt) (Ok tt) (Ok tt)), (withMode M_INITIALIZING (api_init false false 0)). eexists. split; [reflexivity|]. split; [reflexivity|]. split; [reflexivity|reflexivity].
Qed.
