(** C37: what a user of the application API can rely on: modes only move forward, calls in a wrong mode are refused without any effect,
    the core is asked for things in order, an asynchronous call and its completion do what the plain call does. *)
From Coq Require Import ZArith List Lia Bool.
From Verif Require Import HTime Action FedApi.
Import ListNotations.
Local Open Scope Z_scope.

(** ** Specification *)
(** how far along a federate is *)
Definition rank (m : fmode) : nat :=
  match m with
  | M_STARTUP | M_PENDING_INIT | M_PENDING_ITERATIVE_INIT => 0
  | M_INITIALIZING | M_PENDING_EXEC => 1
  | M_EXECUTING | M_PENDING_TIME | M_PENDING_ITERATIVE_TIME => 2
  | M_FINISHED => 3
  | M_PENDING_FINALIZE => 4
  | M_FINALIZE => 5
  | M_ERROR => 6 end.
(** the modes in which a call may be made (Federate.hpp documentation of each call); [single]: a federate declared to use a single thread *)
Definition legal (single : bool) (c : apiCall) (m : fmode) : bool :=
  match c with
  | A_enterInit | A_enterInitComplete => match m with M_STARTUP | M_PENDING_INIT | M_INITIALIZING => true | _ => false end
  | A_enterInitAsync => negb single && match m with M_STARTUP | M_PENDING_INIT | M_INITIALIZING => true | _ => false end
  | A_initIter | A_initIterComplete => match m with M_STARTUP | M_PENDING_ITERATIVE_INIT => true | _ => false end
  | A_initIterAsync => negb single && match m with M_STARTUP | M_PENDING_ITERATIVE_INIT => true | _ => false end
  | A_enterExec | A_enterExecComplete =>
      match m with M_STARTUP | M_PENDING_INIT | M_INITIALIZING | M_PENDING_EXEC | M_EXECUTING | M_PENDING_TIME | M_PENDING_ITERATIVE_TIME => true | _ => false end
  | A_enterExecAsync => negb single && match m with M_STARTUP | M_PENDING_INIT | M_INITIALIZING | M_PENDING_EXEC | M_EXECUTING | M_PENDING_TIME | M_PENDING_ITERATIVE_TIME => true | _ => false end
  | A_requestTime | A_requestTimeIterative => match m with M_EXECUTING | M_FINISHED | M_FINALIZE => true | _ => false end
  | A_requestTimeAsync | A_requestTimeIterativeAsync => negb single && match m with M_EXECUTING => true | _ => false end
  | A_requestTimeComplete => match m with M_PENDING_TIME => true | _ => false end
  | A_requestTimeIterativeComplete => match m with M_PENDING_ITERATIVE_TIME => true | _ => false end
  | A_finalize | A_finalizeComplete => match m with M_PENDING_ITERATIVE_INIT => false | _ => true end
  | A_finalizeAsync => negb single
  | A_localError | A_globalError => true
  | A_publish => match m with M_EXECUTING | M_INITIALIZING => true | _ => false end
  end.
(** the one call whose refusal is missing from the code *)
Definition unguarded (s : fapi) (c : apiCall) : Prop := c = A_initIterAsync /\ a_single s = true /\ legal false c (a_mode s) = true.
Definition errorCall (c : apiCall) : bool := match c with A_localError | A_globalError => true | _ => false end.
(** the state after a program, and what it asked of the core, in order *)
Definition apiAfter (s : fapi) (p : list (apiCall * replies)) : fapi := fst (apiRun s p).
Definition asked (s : fapi) (p : list (apiCall * replies)) : list coreCall := concat (map snd (snd (apiRun s p))).
(** nothing the core is asked during the call fails, and it lets the federate initialize *)
Definition willing (r : replies) : Prop :=
  r_init r = Ok true /\ (exists u, r_iinit r = Ok u) /\ (exists x, r_exec r = Ok x) /\ Forall (fun a => exists t, a = Ok t) (r_times r) /\
  (exists x, r_itime r = Ok x) /\ (exists u, r_final r = Ok u) /\ (exists u, r_error r = Ok u) /\ (exists u, r_publish r = Ok u).
(** the answers to the time requests last until one ends the loop *)
Definition answered (r : replies) (s : fapi) : Prop := exists t, In (Ok t) (r_times r) /\ (a_retrigger s = false \/ cTerminationTime <= t).

Ltac unf := unfold apiStep, raiseError, completeOperation, publish, finalizeComplete, finalizeAsync, finalize, finalizePending, finalizeNow, requestTimeIterativeAsync, requestTimeAsync, requestTimeIterative, requestTime,
  enterExecComplete, enterExecAsync, enterExec, execNow, execPending, itimeComplete, iterativeEnd, timeComplete, initIterAsync, initIter, initIterComplete, enterInitComplete, enterInitAsync, enterInit, initPending, discard, andThen, throws, enteringExecuting, enteringInitializing.
Ltac crush1 := match goal with
  | |- context [match ?x with _ => _ end] => is_var x; destruct x
  | |- context [match ?r with _ => _ end] => match r with r_init _ => destruct r as [[|]|?] eqn:? | r_iinit _ => destruct r as [?|?] eqn:? | r_exec _ => destruct r as [[[] ?]|?] eqn:? | r_itime _ => destruct r as [[[] ?]|?] eqn:? | r_final _ => destruct r as [?|?] eqn:? | r_error _ => destruct r as [?|?] eqn:? | r_publish _ => destruct r as [?|?] eqn:? | r_times _ => destruct r as [|[?|?] ?] eqn:? | isHelics _ => destruct r eqn:? | Z.leb _ _ => destruct r eqn:? end end.
Ltac red1 := cbn -[Z.leb cTerminationTime maxVal].
Ltac crush := unf; red1; repeat (crush1; red1); unfold updateSimulationTime; red1; repeat (match goal with |- context [if ?b then _ else _] => match b with Z.leb _ _ => destruct b eqn:? end end; red1).

(** ** One call *)
Lemma timeLoop_out : forall ts s s' o l, timeLoop ts s = (s', o, l) -> a_mode s = M_EXECUTING ->
  (a_mode s' = M_EXECUTING \/ a_mode s' = M_FINISHED \/ a_mode s' = M_ERROR) /\ a_fut s' = a_fut s /\ a_single s' = a_single s /\ a_retrigger s' = a_retrigger s /\
  l <> [] /\ (forall c, In c l -> c = C_time) /\
  ((exists t, o = R_time t /\ a_time s' = t /\ In (Ok t) ts) \/ (exists x, o = R_throw x /\ In (Fail x) ts) \/ o = R_blocked) /\
  (forall t, o = R_time t -> (a_retrigger s = false \/ cTerminationTime <= t) /\ (a_mode s' = M_FINISHED <-> cTerminationTime <= t)).
Proof.
  induction ts as [|[t|x] ts IH]; intros s s' o l H M; cbn [timeLoop] in H.
  - inversion H; subst; clear H. repeat split; auto; try discriminate; try (intros c [<-|[]]; auto).
  - set (s1 := updateSimulationTime t s) in *.
    assert (K : a_fut s1 = a_fut s /\ a_single s1 = a_single s /\ a_retrigger s1 = a_retrigger s /\ a_time s1 = t /\ (a_mode s1 = if cTerminationTime <=? t then M_FINISHED else M_EXECUTING)).
    { unfold s1, updateSimulationTime, withNow, updateMode; cbn [a_mode a_time]; rewrite M; cbn [fmode_eqb isPending orb andb]; destruct (cTerminationTime <=? t); cbn [a_fut a_single a_retrigger a_mode a_time]; repeat split; auto. }
    clearbody s1; destruct K as (K1&K2&K3&K5&K4).
    destruct (a_retrigger s1 && (t <? cTerminationTime)) eqn:Q.
    + apply andb_true_iff in Q; destruct Q as [Q1 Q2]; apply Z.ltb_lt in Q2.
      clear K5. destruct (timeLoop ts s1) as [[s2 o2] l2] eqn:E. inversion H; subst; clear H.
      destruct (cTerminationTime <=? t) eqn:Q3; [apply Z.leb_le in Q3; lia|].
      destruct (IH _ _ _ _ E K4) as (J1&J2&J3&J4&J5&J6&J7&J8).
      repeat split; auto; try congruence.
      * intros c [<-|I]; auto.
      * destruct J7 as [(t2&J&Jt&I)|[(x&J&I)| ->]]; [left; exists t2|right; left; exists x|right;right]; repeat split; auto; right; auto.
      * destruct (J8 _ H) as [[J|J] _]; [left; congruence|right; auto].
      * destruct (J8 _ H) as [_ J]; apply J.
      * destruct (J8 _ H) as [_ J]; apply J.
    + inversion H; clear H; subst s' o l. rewrite K1, K2, K3, K4. repeat split; auto; try discriminate.
      * destruct (cTerminationTime <=? t); auto.
      * intros c [<-|[]]; auto.
      * left; exists t; repeat split; auto; left; auto.
      * injection H as <-. apply andb_false_iff in Q; destruct Q as [Q|Q]; [left; congruence|right; apply Z.ltb_ge in Q; auto].
      * injection H as <-. destruct (cTerminationTime <=? t) eqn:Q3; [intros _; apply Z.leb_le; auto|discriminate].
      * injection H as <-. intro L; apply Z.leb_le in L; rewrite L; auto.
  - inversion H; subst; clear H.
    split; [destruct x; cbn; auto; unfold updateMode; rewrite M; cbn; auto|].
    repeat split; try discriminate.
    + destruct x; auto; unfold updateMode; rewrite M; auto.
    + destruct x; auto; unfold updateMode; rewrite M; auto.
    + destruct x; auto; unfold updateMode; rewrite M; auto.
    + intros c [<-|[]]; auto.
    + right; left; exists x; split; auto; left; auto.
Qed.

(** every call: what it leaves, by cases *)
Theorem C37_calls_in_a_wrong_mode_are_refused : forall c r s, legal (a_single s) c (a_mode s) = false -> ~ unguarded s c ->
  apiStep c r s = (s, R_throw X_invalid, []).
Proof.
  intros c r [m t si re u lg en ed] L U; cbn [a_mode a_single] in L. unfold unguarded in U; cbn [a_mode a_single] in U.
  destruct c, m, si; try discriminate L; try reflexivity; exfalso; apply U; repeat split; reflexivity.
Qed.
Theorem C37_finalized_is_final : forall c r s, a_mode s = M_FINALIZE -> errorCall c = false ->
  exists o, apiStep c r s = (s, o, []) /\ o <> R_blocked /\ o <> R_crash.
Proof.
  intros c r [m t si re u lg en ed] M E; cbn [a_mode] in M; subst m.
  destruct c; try discriminate E; destruct si; eexists; (split; [reflexivity|split; discriminate]).
Qed.
Theorem C37_error_is_final : forall c r s, a_mode s = M_ERROR ->
  exists o l, apiStep c r s = (s, o, l) /\ o <> R_blocked /\ o <> R_crash /\ (errorCall c = false -> l = []) /\ (forall k, In k l -> k = C_localError \/ k = C_globalError).
Proof.
  intros c r [m t si re u lg en ed] M; cbn [a_mode] in M; subst m.
  destruct c; destruct si; cbn; try (eexists _, _; split; [reflexivity|]; repeat split; auto; try discriminate; intros k []); destruct (r_error r); eexists _, _; (split; [reflexivity|]); repeat split; auto; try discriminate; intros k [<-|[]]; auto.
Qed.

Lemma timeLoop_entered : forall ts s s' o l, timeLoop ts s = (s', o, l) -> a_mode s = M_EXECUTING -> a_entered s' = a_entered s.
Proof.
  induction ts as [|[t|x] ts IH]; intros s s' o l H M; cbn [timeLoop] in H.
  - injection H as <- _ _; auto.
  - set (s1 := updateSimulationTime t s) in *.
    assert (K : a_entered s1 = a_entered s /\ (t < cTerminationTime -> a_mode s1 = M_EXECUTING)).
    { unfold s1, updateSimulationTime, withNow, updateMode; cbn [a_mode a_time]; rewrite M; cbn [fmode_eqb isPending orb andb]; destruct (cTerminationTime <=? t) eqn:Q; cbn [a_entered a_mode]; split; auto.
      apply Z.leb_le in Q; lia. }
    clearbody s1; destruct K as (K1&K2).
    destruct (a_retrigger s1 && (t <? cTerminationTime)) eqn:Q.
    + apply andb_true_iff in Q; destruct Q as [_ Q]; apply Z.ltb_lt in Q.
      destruct (timeLoop ts s1) as [[s2 o2] l2] eqn:E. injection H as <- _ _. rewrite <- K1. eapply IH; eauto.
    + injection H as <- _ _; auto.
  - injection H as <- _ _. destruct x; auto; unfold updateMode; rewrite M; auto.
Qed.
Definition quiet (m : fmode) : bool := match m with M_PENDING_ITERATIVE_INIT => false | m => negb (isPending m) end.
Lemma requestTime_or : forall c s, c = A_requestTime /\ a_mode s = M_EXECUTING \/ (c <> A_requestTime \/ a_mode s <> M_EXECUTING).
Proof. intros c s. destruct c; destruct (a_mode s); auto; right; ((left; discriminate) || (right; discriminate)). Qed.
Lemma step_facts : forall c r s s' o l, apiStep c r s = (s', o, l) ->
  (rank (a_mode s) <= rank (a_mode s'))%nat /\ a_single s' = a_single s /\ a_retrigger s' = a_retrigger s /\
  (a_single s = true -> quiet (a_mode s) = true -> quiet (a_mode s') = true) /\
  (a_entered s' = a_entered s \/ (rank (a_mode s) < 2 <= rank (a_mode s'))%nat /\ a_entered s' = S (a_entered s)).
Proof.
  intros c r s s' o l H.
  destruct (requestTime_or c s) as [[-> M]|G].
  { cbn [apiStep] in H. unfold requestTime in H; rewrite M in H. pose proof (timeLoop_entered _ _ _ _ _ H M). destruct (timeLoop_out _ _ _ _ _ H M) as ([J|[J|J]]&_&J3&J4&_); rewrite M, J; cbn; repeat split; auto; lia. }
  destruct s as [m t si re [u1 u2 u3 u4 u5 u6] lg en ed]. cbn [a_mode] in G |- *.
  revert H.
  destruct c, m; try (destruct G; congruence); clear G; crush; intro H; inversion H; subst; clear H; cbn; repeat split; auto; try lia; try discriminate; try (right; split; [lia|reflexivity]).
Qed.

(** ** The mode only advances, over any program *)
Lemma run_ind : forall (P : fapi -> Prop) (ok : apiCall * replies -> Prop),
  (forall c r s s' o l, ok (c, r) -> P s -> apiStep c r s = (s', o, l) -> P s') ->
  forall p s, Forall ok p -> P s -> P (apiAfter s p).
Proof.
  intros P ok St; induction p as [|[c r] p IH]; intros s F Ps; [exact Ps|]. inversion F; subst.
  unfold apiAfter; cbn [apiRun]. destruct (apiStep c r s) as [[s1 o1] l1] eqn:E. pose proof (St _ _ _ _ _ _ H1 Ps E) as P1. specialize (IH s1 H2 P1). unfold apiAfter in IH.
  destruct o1; try exact P1; destruct (apiRun s1 p) as [s2 tr]; exact IH.
Qed.
Lemma all_ok : forall (p : list (apiCall * replies)), Forall (fun _ => True) p. Proof. intros p; apply Forall_forall; auto. Qed.
Theorem C37_modes_only_advance : forall s p, (rank (a_mode s) <= rank (a_mode (apiAfter s p)))%nat.
Proof.
  intros s p. apply (run_ind (fun s' => (rank (a_mode s) <= rank (a_mode s'))%nat) (fun _ => True)); auto using all_ok.
  intros c r s1 s2 o l _ I E. pose proof (proj1 (step_facts _ _ _ _ _ _ E)). lia.
Qed.
(** the executing-entry callback runs at most once in the life of a federate *)
Theorem C37_executing_is_entered_once : forall single retrigger now p, (a_entered (apiAfter (api_init single retrigger now) p) <= 1)%nat.
Proof.
  intros single retrigger now p.
  enough (G : let s := apiAfter (api_init single retrigger now) p in ((rank (a_mode s) < 2)%nat -> a_entered s = 0%nat) /\ (a_entered s <= 1)%nat) by apply G.
  cbv zeta. apply (run_ind (fun s => ((rank (a_mode s) < 2)%nat -> a_entered s = 0%nat) /\ (a_entered s <= 1)%nat) (fun _ => True)); auto using all_ok.
  intros c r s1 s2 o l _ [I1 I2] E. destruct (step_facts _ _ _ _ _ _ E) as (R&_&_&_&[N|[N1 N2]]); split; try lia; intros; rewrite ?N; try apply I1; lia.
Qed.
(** a federate declared single-threaded never has a call pending *)
Lemma single_quiet : forall retrigger now p, quiet (a_mode (apiAfter (api_init true retrigger now) p)) = true.
Proof.
  intros retrigger now p.
  enough (G : let s := apiAfter (api_init true retrigger now) p in a_single s = true /\ quiet (a_mode s) = true) by apply G. cbv zeta.
  apply (run_ind (fun s => a_single s = true /\ quiet (a_mode s) = true) (fun _ => True)); auto using all_ok.
  intros c r s1 s2 o l _ [I1 I2] E. destruct (step_facts _ _ _ _ _ _ E) as (_&R&_&Q&_); split; [congruence|auto].
Qed.

(** ** The order in which the core is asked *)
(** what must have been asked before *)
Definition needs (before : list coreCall) (k : coreCall) : Prop :=
  match k with
  | C_exec | C_publish => In C_init before
  | C_time | C_timeIterative => In C_init before /\ In C_exec before
  | _ => True end.
Fixpoint walk (i e : bool) (l : list coreCall) : option (bool * bool) :=
  match l with
  | [] => Some (i, e)
  | C_init :: l => walk true e l
  | C_exec :: l => if i then walk i true l else None
  | C_publish :: l => if i then walk i e l else None
  | (C_time | C_timeIterative) :: l => if i && e then walk i e l else None
  | _ :: l => walk i e l end.
Lemma walk_needs : forall l i e l0, walk i e l <> None -> (i = true -> In C_init l0) -> (e = true -> In C_exec l0) ->
  forall l1 k l2, l = l1 ++ k :: l2 -> needs (l0 ++ l1) k.
Proof.
  induction l as [|k l IH]; intros i e l0 W I E l1 k' l2 X; [destruct l1; discriminate|].
  destruct l1 as [|k1 l1]; cbn in X; inversion X; subst; clear X.
  - rewrite app_nil_r. destruct k'; cbn in *; auto; destruct i, e; cbn in *; try congruence; auto.
  - replace (l0 ++ k1 :: l1) with ((l0 ++ [k1]) ++ l1) by (rewrite <- app_assoc; auto).
    destruct k1; cbn in W;
      try (eapply IH; [exact W| | |reflexivity]; intros; apply in_or_app; auto; fail);
      try (eapply IH; [exact W| | |reflexivity]; intros; apply in_or_app; cbn; auto; fail).
    + destruct i; [|congruence]. eapply IH; [exact W| | |reflexivity]; intros; apply in_or_app; cbn; auto.
    + destruct i; cbn in W; [|congruence]. destruct e; [|congruence]. eapply IH; [exact W| | |reflexivity]; intros; apply in_or_app; cbn; auto.
    + destruct i; cbn in W; [|congruence]. destruct e; [|congruence]. eapply IH; [exact W| | |reflexivity]; intros; apply in_or_app; cbn; auto.
    + destruct i; [|congruence]. eapply IH; [exact W| | |reflexivity]; intros; apply in_or_app; cbn; auto.
Qed.
Lemma walk_app : forall l l' i e i1 e1, walk i e l = Some (i1, e1) -> walk i e (l ++ l') = walk i1 e1 l'.
Proof.
  induction l as [|k l IH]; cbn; intros l' i e i1 e1 H; [injection H as -> ->; auto|].
  destruct k; auto; destruct i; cbn in *; try discriminate; try (apply IH; auto; fail); destruct e; try discriminate; auto.
Qed.
Definition needsI (m : fmode) := match m with M_PENDING_INIT | M_INITIALIZING | M_PENDING_EXEC | M_EXECUTING | M_PENDING_TIME | M_PENDING_ITERATIVE_TIME => true | _ => false end.
Definition needsE (m : fmode) := match m with M_PENDING_EXEC | M_EXECUTING | M_PENDING_TIME | M_PENDING_ITERATIVE_TIME => true | _ => false end.
Definition orderInv (s : fapi) (i e : bool) : Prop := (needsI (a_mode s) = true -> i = true) /\ (needsE (a_mode s) = true -> e = true).
Lemma step_order : forall c r s s' o l i e, apiStep c r s = (s', o, l) -> orderInv s i e -> exists i' e', walk i e l = Some (i', e') /\ orderInv s' i' e'.
Proof.
  intros c r s s' o l i e H [I E].
  destruct (requestTime_or c s) as [[-> M]|G].
  { cbn [apiStep] in H. unfold requestTime in H; rewrite M in H. rewrite M in I, E; cbn in I, E. rewrite (I eq_refl), (E eq_refl).
    destruct (timeLoop_out _ _ _ _ _ H M) as (_&_&_&_&_&J&_). exists true, true; split; [|split; auto].
    clear - J. induction l as [|k l IH]; auto. rewrite (J k) by (left; auto). cbn. apply IH. intros; apply J; right; auto. }
  destruct s as [m t si re [u1 u2 u3 u4 u5 u6] lg en ed]. cbn [a_mode] in G, I, E.
  revert H.
  destruct c, m; try (destruct G; congruence); clear G; cbn [needsI needsE] in I, E; try (specialize (I eq_refl); subst i); try (specialize (E eq_refl); subst e);
    crush; intro H; inversion H; subst; clear H; cbn; eexists _, _; (split; [reflexivity|split; cbn; auto; try discriminate]).
Qed.
Theorem C37_the_core_is_asked_in_order : forall single retrigger now p l1 k l2, asked (api_init single retrigger now) p = l1 ++ k :: l2 -> needs l1 k.
Proof.
  intros single retrigger now p l1 k l2 H.
  enough (W : walk false false (asked (api_init single retrigger now) p) <> None) by (apply (walk_needs _ _ _ [] W) with l2; auto; discriminate).
  assert (I : orderInv (api_init single retrigger now) false false) by (split; discriminate). clear H.
  generalize dependent (api_init single retrigger now). intros s. generalize false at 1 3; generalize false. revert s.
  induction p as [|[c r] p IH]; intros s e i I; [discriminate|].
  unfold asked; cbn [apiRun]. destruct (apiStep c r s) as [[s1 o1] k1] eqn:E.
  destruct (step_order _ _ _ _ _ _ _ _ E I) as (i'&e'&W&I').
  specialize (IH s1 e' i' I'). unfold asked in IH.
  destruct o1; cbn [snd map concat];
    try (destruct (apiRun s1 p) as [s2 tr]; cbn [snd map concat] in *; rewrite (walk_app _ _ _ _ _ _ W); exact IH);
    rewrite app_nil_r, W; discriminate.
Qed.

(** ** While nothing fails in the core *)
Definition futOk (s : fapi) : Prop :=
  match a_mode s with
  | M_PENDING_INIT => u_init (a_fut s) = true | M_PENDING_ITERATIVE_INIT => u_iinit (a_fut s) = true | M_PENDING_EXEC => u_exec (a_fut s) = true
  | M_PENDING_TIME => u_time (a_fut s) = true | M_PENDING_ITERATIVE_TIME => u_itime (a_fut s) = true | M_PENDING_FINALIZE => u_final (a_fut s) = true
  | _ => True end /\ (a_single s = true -> quiet (a_mode s) = true).
Lemma step_willing : forall c r s s' o l, apiStep c r s = (s', o, l) -> willing r -> futOk s ->
  futOk s' /\ (legal (a_single s) c (a_mode s) = true -> o <> R_crash /\ forall x, o <> R_throw x) /\ (answered r s -> o <> R_blocked).
Proof.
  intros c r s s' o l H (W1&[? W2]&[? W3]&W4&[? W5]&[? W6]&[? W7]&[? W8]) [F Q].
  destruct (requestTime_or c s) as [[-> M]|G].
  { cbn [apiStep] in H. unfold requestTime in H; rewrite M in H. 
    destruct (timeLoop_out _ _ _ _ _ H M) as (J1&J2&J3&J4&_&_&J5&_). split; [|split].
    - unfold futOk. rewrite J3. rewrite M in Q. destruct J1 as [J|[J|J]]; rewrite J; auto.
    - intros _. destruct J5 as [(t&->&_)|[(y&->&J)| ->]]; split; try discriminate. rewrite Forall_forall in W4. destruct (W4 _ J); discriminate.
    - intros (t&It&K) ->. clear - H It K W4 M. revert s s' l H K M. induction (r_times r) as [|a ts IH]; intros s s' l H K M; [destruct It|].
      inversion W4; subst. destruct H2 as [t1 ->]. cbn [timeLoop] in H.
      set (s1 := updateSimulationTime t1 s) in *.
      assert (N : a_retrigger s1 = a_retrigger s /\ (a_mode s1 = if cTerminationTime <=? t1 then M_FINISHED else M_EXECUTING)).
      { unfold s1, updateSimulationTime, withNow, updateMode; cbn [a_mode a_time]; rewrite M; cbn [fmode_eqb isPending orb andb]; destruct (cTerminationTime <=? t1); cbn [a_retrigger a_mode]; split; auto. }
      clearbody s1. destruct N as [N1 N2].
      destruct (a_retrigger s1 && (t1 <? cTerminationTime)) eqn:B; [|discriminate].
      apply andb_true_iff in B; destruct B as [B1 B2]; apply Z.ltb_lt in B2.
      destruct (cTerminationTime <=? t1) eqn:B3; [apply Z.leb_le in B3; lia|].
      destruct (timeLoop ts s1) as [[s2 o2] l2] eqn:E. injection H as -> -> _.
      destruct It as [It|It]; [injection It as ->; destruct K as [K|K]; [congruence|lia]|].
      eapply IH; eauto. destruct K; [left; congruence|right; auto]. }
  destruct s as [m t si re [u1 u2 u3 u4 u5 u6] lg en ed]. unfold futOk in *. cbn [a_mode a_fut u_init u_iinit u_exec u_time u_itime u_final a_single] in *.
  assert (T : answered r (mkApi m t si re (mkFutures u1 u2 u3 u4 u5 u6) lg en ed) -> r_times r <> []) by (intros (?&J&_) J'; rewrite J' in J; destruct J).
  revert T. generalize (answered r (mkApi m t si re (mkFutures u1 u2 u3 u4 u5 u6) lg en ed)) as An. intros An T.
  revert H.
  destruct c, m; try (destruct G; congruence); clear G; try (destruct si; [discriminate (Q eq_refl)|]); clear Q; subst;
    crush; try congruence; intro H; inversion H; subst; clear H; cbn; repeat split; auto; try discriminate; try congruence;
    try (exfalso; apply Forall_inv in W4; destruct W4; discriminate);
    try (intros A; exfalso; apply (T A); reflexivity); try (match goal with A : negb ?b && false = true |- _ => rewrite andb_false_r in A; discriminate end).
Qed.
(** a program all of whose calls are made in a mode allowing them, with a core that never refuses: nothing is thrown, nothing crashes, and only a time request not yet answered does not return *)
Fixpoint allLegal (s : fapi) (p : list (apiCall * replies)) : Prop :=
  match p with
  | [] => True
  | (c, r) :: p => legal (a_single s) c (a_mode s) = true /\ willing r /\ answered r s /\ allLegal (fst (fst (apiStep c r s))) p end.
Theorem C37_legal_programs_never_fail : forall single retrigger now p, allLegal (api_init single retrigger now) p ->
  let t := snd (apiRun (api_init single retrigger now) p) in
  length t = length p /\ forall o l, In (o, l) t -> o <> R_crash /\ o <> R_blocked /\ forall x, o <> R_throw x.
Proof.
  intros single retrigger now p. cbv zeta.
  assert (F : futOk (api_init single retrigger now)) by (split; cbn; auto).
  generalize dependent (api_init single retrigger now). induction p as [|[c r] p IH]; intros s F A; [split; [reflexivity|intros o l []]|].
  cbn [allLegal] in A. cbn [apiRun]. destruct (apiStep c r s) as [[s1 o1] l1] eqn:E. destruct A as (A1&A2&A3&A4). cbn [fst] in A4.
  destruct (step_willing _ _ _ _ _ _ E A2 F) as (F1&L1&B1). specialize (L1 A1). specialize (B1 A3). destruct L1 as [L1 L2].
  specialize (IH _ F1 A4). destruct (apiRun s1 p) as [s2 t]. cbn [snd] in IH. destruct IH as [IH1 IH2].
  destruct o1; try congruence; cbn [snd length]; (split; [congruence|]); intros o l [Q|Q]; try (injection Q as <- <-; auto); eauto.
Qed.
