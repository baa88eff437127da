(** * Concrete histories: the hypotheses of the time theorems are met, and what they say is not empty *)
From Coq Require Import ZArith Bool List Lia ZifyBool.
From Verif Require Import HTime Action TimeDep TimeCoord TimeCoordProofs TimeProc TimeProcProofs TimeInv TimeAnswer TimeGrid PropsTime1.
Import ListNotations.
Open Scope Z_scope.

Definition me : Z := 131073.
Definition other : Z := 131074.
(** timing options with period, offset and time delta *)
Definition cfgPOD (p off d : Z) : tcopts := set_o_period p (set_o_offset off (set_o_timeDelta d opts_default)).
(** commands from the broker and from the other federate *)
Definition initGrant : event := Ev_msg (set_m_dest_id me (newMsg CMD_INIT_GRANT parent_broker_id)).
Definition otherSays (a : Z) (t te : Z) (ans : Z) : event :=
  Ev_msg (set_m_dest_id me (setExtraDestData ans (set_m_counter 1 (set_m_Tdemin te (set_m_Te te (set_m_actionTime t (newMsg a other))))))).

(** a federate with a two-way dependency goes through initialization and is granted 0, then 13 *)
Definition history1 : list event :=
  [initGrant; Ev_addDependency other; Ev_addDependent other; Ev_enterExec NO_ITERATIONS;
   otherSays CMD_EXEC_REQUEST 0 0 0].
Definition wait1 : list event :=
  [otherSays CMD_EXEC_GRANT 0 0 0; otherSays CMD_TIME_REQUEST 20 20 1].
Example history1_returns :
  map e_ret (snd (run (fed_init me (cfgPOD 10 3 1) 50) history1)) = [Some (PR_NEXT, -1); None; None; None; Some (PR_NEXT, 0)]
  /\ answer (after (fed_init me (cfgPOD 10 3 1) 50) history1) (Ev_request 4 NO_ITERATIONS 1000 1000 :: wait1) = Some (PR_NEXT, 13).
Proof. vm_compute. split; reflexivity. Qed.
(** while the other federate stays at 5 the same request is not answered *)
Example history1_blocked :
  answer (after (fed_init me (cfgPOD 10 3 1) 50) history1)
    (Ev_request 4 NO_ITERATIONS 1000 1000 :: [otherSays CMD_EXEC_GRANT 0 0 0; otherSays CMD_TIME_REQUEST 5 5 1]) = None.
Proof. vm_compute. reflexivity. Qed.

Example C01_not_vacuous :
  let f0 := fed_init me (cfgPOD 10 3 1) 50 in
  let es1 := firstn 4 history1 in let e1 := otherSays CMD_EXEC_REQUEST 0 0 0 in
  let f := after f0 (es1 ++ e1 :: []) in
  opts_ok (cfgPOD 10 3 1) /\ Forall wf_event (es1 ++ [e1]) /\ returnAt f0 es1 e1 = Some (PR_NEXT, 0) /\ hasStarted (after f0 (es1 ++ [e1]))
  /\ f_st f = EXECUTING /\ wf_event (Ev_request 4 NO_ITERATIONS 1000 1000) /\ Forall waiting wait1 /\ Forall calm wait1
  /\ answer f (Ev_request 4 NO_ITERATIONS 1000 1000 :: wait1) = Some (PR_NEXT, 13)
  /\ gridTime (c_opts (f_tc f)) 0 /\ ~ skipsOffset (c_opts (f_tc f)) 0 /\ earliest (c_opts (f_tc f)) 0 4 13.
Proof.
  cbn zeta.
  split; [unfold opts_ok, bigTime; cbn; lia|].
  split; [repeat constructor; cbn; unfold maxVal; lia|].
  split; [vm_compute; reflexivity|]. split; [vm_compute; reflexivity|]. split; [vm_compute; reflexivity|].
  split; [cbn; unfold int64, maxVal; lia|].
  split; [repeat constructor; cbn; discriminate|].
  split; [repeat constructor; cbn; unfold maxVal; lia|].
  split; [vm_compute; reflexivity|].
  assert (E : c_opts (f_tc (after (fed_init me (cfgPOD 10 3 1) 50) (firstn 4 history1 ++ [otherSays CMD_EXEC_REQUEST 0 0 0]))) = cfgPOD 10 3 1)
    by (vm_compute; reflexivity).
  rewrite E. clear E.
  split; [right; left; reflexivity|]. split; [unfold skipsOffset; cbn; lia|].
  split; [split; [cbn; lia|split; [cbn; lia|right; exists 1; reflexivity]]|]. split; [lia|].
  intros p' (P1&P2&[P3|[k P3]]) T; [exfalso; revert P3; vm_compute; intro P3; apply P3; reflexivity|]; change (p' = 3 + k * 10) in P3; clear P1 P2; lia.
Qed.

(** C04, the excluded case: with offset = time delta = 5 and period 10 a federate at zero which requests
    5 is granted 15 although nothing holds it back and 5 is permissible (getNextPossibleTime skips it). *)
Theorem C04_offset_equal_delta_overshoots_refuted :
  exists f0 es1 e1 t2,
  let f := after f0 (es1 ++ [e1]) in
  returnAt f0 es1 e1 = Some (PR_NEXT, 0) /\ f_st f = EXECUTING /\ c_opts (f_tc f) = cfgPOD 10 5 5 /\
  answer f [Ev_request 5 NO_ITERATIONS 1000 1000] = Some (PR_NEXT, t2) /\
  permissible (c_opts (f_tc f)) 0 5 /\ 5 < t2.
Proof.
  exists (fed_init me (cfgPOD 10 5 5) 50), [initGrant], (Ev_enterExec NO_ITERATIONS), 15. cbn zeta.
  assert (E : c_opts (f_tc (after (fed_init me (cfgPOD 10 5 5) 50) ([initGrant] ++ [Ev_enterExec NO_ITERATIONS]))) = cfgPOD 10 5 5)
    by (vm_compute; reflexivity).
  split; [vm_compute; reflexivity|]. split; [vm_compute; reflexivity|]. split; [exact E|].
  split; [vm_compute; reflexivity|]. rewrite E. split; [|lia].
  split; [cbn; lia|]. split; [cbn; lia|]. right. exists 0. reflexivity.
Qed.
