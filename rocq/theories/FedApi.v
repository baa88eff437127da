(** The federate object of the application API: its mode, its pending calls and what it asks of the core.
    /repo/src/helics/application_api/Federate.cpp:252-606, 770-935, 937-1100, 1131-1198; ValueFederate.cpp:484-492.
    Not modelled: calls from several threads at once, callbacks that call back into the federate, connectors and potential interfaces
    (their core calls are part of the answer to the call that makes them). *)
From Coq Require Import ZArith List Lia Bool.
From Verif Require Import HTime Action.
Import ListNotations.
Local Open Scope Z_scope.

(** Federate.hpp:51-78 *)
Inductive fmode := M_STARTUP | M_INITIALIZING | M_EXECUTING | M_FINALIZE | M_ERROR | M_PENDING_INIT | M_PENDING_EXEC | M_PENDING_TIME | M_PENDING_ITERATIVE_TIME | M_PENDING_FINALIZE | M_FINISHED | M_PENDING_ITERATIVE_INIT.
Definition fmode_eqb (a b : fmode) : bool :=
  match a, b with
  | M_STARTUP, M_STARTUP | M_INITIALIZING, M_INITIALIZING | M_EXECUTING, M_EXECUTING | M_FINALIZE, M_FINALIZE | M_ERROR, M_ERROR | M_PENDING_INIT, M_PENDING_INIT | M_PENDING_EXEC, M_PENDING_EXEC
  | M_PENDING_TIME, M_PENDING_TIME | M_PENDING_ITERATIVE_TIME, M_PENDING_ITERATIVE_TIME | M_PENDING_FINALIZE, M_PENDING_FINALIZE | M_FINISHED, M_FINISHED | M_PENDING_ITERATIVE_INIT, M_PENDING_ITERATIVE_INIT => true
  | _, _ => false end.
(** core-exceptions.hpp: InvalidFunctionCall, FunctionExecutionFailure, RegistrationFailure and other HelicsExceptions; std::future_error; any other std::exception *)
Inductive exn := X_invalid | X_execution | X_registration | X_helics | X_future | X_std.
Definition isHelics (x : exn) : bool := match x with X_future | X_std => false | _ => true end.
(** how a call of the core ends *)
Inductive answer (A : Type) := Ok (a : A) | Fail (x : exn).
Arguments Ok {A}. Arguments Fail {A}.
Inductive iterResult := I_next | I_error | I_halted | I_iterating.
(** the calls made to the core *)
Inductive coreCall := C_init | C_initIterative | C_exec | C_time | C_timeIterative | C_finalize | C_localError | C_globalError | C_publish.
(** what the core will answer during one call of the API *)
Record replies := mkReplies { r_init : answer bool; r_iinit : answer unit; r_now : Z; r_exec : answer (iterResult * Z); r_times : list (answer Z); r_itime : answer (iterResult * Z); r_final : answer unit; r_error : answer unit; r_publish : answer unit }.
(** how a call of the API ends; [R_blocked]: it does not return; [R_crash]: a null pointer or an endless recursion *)
Inductive outcome := R_done | R_time (t : Z) | R_iter (r : iterResult) (t : Z) | R_result (r : iterResult) | R_throw (x : exn) | R_blocked | R_crash.
(** which futures hold a result or will (AsyncFedCallInfo.hpp) *)
Record futures := mkFutures { u_init : bool; u_iinit : bool; u_exec : bool; u_time : bool; u_itime : bool; u_final : bool }.
(** [a_log]: calls of the mode update callback (new mode, old mode), newest last; [a_entered], [a_ended]: calls of the executing-entry and termination callbacks *)
Record fapi := mkApi { a_mode : fmode; a_time : Z; a_single : bool; a_retrigger : bool; a_fut : futures; a_log : list (fmode * fmode); a_entered : nat; a_ended : nat }.
Definition noFutures : futures := mkFutures false false false false false false.
Definition api_init (single retrigger : bool) (now : Z) : fapi := mkApi M_STARTUP now single retrigger noFutures [] 0 0.
Definition withMode (m : fmode) (s : fapi) : fapi := mkApi m (a_time s) (a_single s) (a_retrigger s) (a_fut s) (a_log s) (a_entered s) (a_ended s).
Definition withNow (t : Z) (s : fapi) : fapi := mkApi (a_mode s) t (a_single s) (a_retrigger s) (a_fut s) (a_log s) (a_entered s) (a_ended s).
Definition withFut (u : futures) (s : fapi) : fapi := mkApi (a_mode s) (a_time s) (a_single s) (a_retrigger s) u (a_log s) (a_entered s) (a_ended s).
Definition fut_init b u := mkFutures b (u_iinit u) (u_exec u) (u_time u) (u_itime u) (u_final u).
Definition fut_iinit b u := mkFutures (u_init u) b (u_exec u) (u_time u) (u_itime u) (u_final u).
Definition fut_exec b u := mkFutures (u_init u) (u_iinit u) b (u_time u) (u_itime u) (u_final u).
Definition fut_time b u := mkFutures (u_init u) (u_iinit u) (u_exec u) b (u_itime u) (u_final u).
Definition fut_itime b u := mkFutures (u_init u) (u_iinit u) (u_exec u) (u_time u) b (u_final u).
Definition fut_final b u := mkFutures (u_init u) (u_iinit u) (u_exec u) (u_time u) (u_itime u) b.
Definition isPending (m : fmode) : bool := match m with M_PENDING_EXEC | M_PENDING_INIT | M_PENDING_ITERATIVE_TIME | M_PENDING_TIME | M_PENDING_FINALIZE => true | _ => false end.
(** what the mode update callback is told (Federate.cpp:1143-1172) *)
Definition told (new old : fmode) : list (fmode * fmode) :=
  match old with
  | M_PENDING_ITERATIVE_INIT => []
  | M_PENDING_INIT => [(new, M_STARTUP)]
  | M_PENDING_EXEC => if fmode_eqb new M_INITIALIZING then [] else [(new, M_INITIALIZING)]
  | M_PENDING_ITERATIVE_TIME | M_PENDING_TIME => if fmode_eqb new M_EXECUTING then [] else [(new, M_EXECUTING)]
  | M_PENDING_FINALIZE => [(new, M_EXECUTING)]
  | _ => [(new, old)] end.
(** Federate.cpp:1131-1185 updateFederateMode *)
Definition updateMode (new : fmode) (s : fapi) : fapi :=
  let old := a_mode s in
  if fmode_eqb new old then s
  else if isPending new then withMode new s
  else mkApi new (a_time s) (a_single s) (a_retrigger s) (a_fut s) (a_log s ++ told new old)
         (if fmode_eqb new M_EXECUTING && (fmode_eqb old M_INITIALIZING || fmode_eqb old M_PENDING_EXEC) then S (a_entered s) else a_entered s)
         (if fmode_eqb new M_FINALIZE || fmode_eqb new M_ERROR then S (a_ended s) else a_ended s).
(** Federate.cpp:1187-1198 updateSimulationTime *)
Definition updateSimulationTime (t : Z) (s : fapi) : fapi := let s := withNow t s in if cTerminationTime <=? t then updateMode M_FINISHED s else s.
(** Federate.cpp:281-291 enteringInitializingMode; 505-533 enteringExecutingMode *)
Definition enteringInitializing (now : Z) (s : fapi) : fapi := withNow now (updateMode M_INITIALIZING s).
Definition enteringExecuting (r : iterResult) (t now : Z) (s : fapi) : fapi :=
  match r with
  | I_next => withNow t (updateMode M_EXECUTING s)
  | I_iterating => enteringInitializing now s
  | I_error => updateMode M_ERROR s
  | I_halted => updateMode M_FINISHED s end.

Definition result := (fapi * outcome * list coreCall)%type.
Definition throws (x : exn) (s : fapi) : result := (s, R_throw x, []).
(** Federate.cpp:351-363 enterInitializingModeComplete while an asynchronous call is pending *)
Definition initPending (r : replies) (s : fapi) : result :=
  if u_init (a_fut s) then
    let s := withFut (fut_init false (a_fut s)) s in
    match r_init r with
    | Ok true => (enteringInitializing (r_now r) s, R_done, [])
    | Ok false => (s, R_done, [])
    | Fail x => (updateMode M_ERROR s, R_throw x, []) end
  else (updateMode M_ERROR s, R_throw X_future, []).
(** Federate.cpp:252-279 enterInitializingMode *)
Definition enterInit (r : replies) (s : fapi) : result :=
  match a_mode s with
  | M_STARTUP =>
      match r_init r with
      | Ok true => (enteringInitializing (r_now r) s, R_done, [C_init])
      | Ok false => (s, R_done, [C_init])
      | Fail x => (if isHelics x then updateMode M_ERROR s else s, R_throw x, [C_init]) end
  | M_PENDING_INIT => if a_single s then (s, R_crash, []) else initPending r s
  | M_INITIALIZING => (s, R_done, [])
  | _ => throws X_invalid s end.
(** Federate.cpp:293-316, 345-374 *)
Definition enterInitAsync (s : fapi) : result :=
  if a_single s then throws X_invalid s
  else match a_mode s with
       | M_STARTUP => (withFut (fut_init true (a_fut s)) (withMode M_PENDING_INIT s), R_done, [C_init])
       | M_PENDING_INIT | M_INITIALIZING => (s, R_done, [])
       | _ => throws X_invalid s end.
Definition enterInitComplete (r : replies) (s : fapi) : result :=
  if a_single s then enterInit r s
  else match a_mode s with
       | M_PENDING_INIT => initPending r s
       | M_INITIALIZING => (s, R_done, [])
       | M_STARTUP => enterInit r s
       | _ => throws X_invalid s end.
(** Federate.cpp:447-469 enterInitializingModeIterativeComplete (the futures do not exist for a single-thread federate) *)
Definition initIterComplete (r : replies) (s : fapi) : result :=
  match a_mode s with
  | M_PENDING_ITERATIVE_INIT =>
      if a_single s then (s, R_crash, [])
      else if u_iinit (a_fut s) then
        let s := withFut (fut_iinit false (a_fut s)) s in
        match r_iinit r with Ok _ => (updateMode M_STARTUP s, R_done, []) | Fail x => (updateMode M_ERROR s, R_throw x, []) end
      else (updateMode M_ERROR s, R_throw X_future, [])
  | M_STARTUP => (s, R_done, [])
  | _ => throws X_invalid s end.
(** Federate.cpp:376-426 *)
Definition initIter (r : replies) (s : fapi) : result :=
  match a_mode s with
  | M_STARTUP => match r_iinit r with Ok _ => (s, R_done, [C_initIterative]) | Fail x => (if isHelics x then updateMode M_ERROR s else s, R_throw x, [C_initIterative]) end
  | M_PENDING_ITERATIVE_INIT => initIterComplete r s
  | _ => throws X_invalid s end.
(** Federate.cpp:428-445: there is no test for a single-thread federate, whose asyncCallInfo is null (240-242) *)
Definition initIterAsync (s : fapi) : result :=
  match a_mode s with
  | M_STARTUP => if a_single s then (s, R_crash, []) else (withFut (fut_iinit true (a_fut s)) (withMode M_PENDING_ITERATIVE_INIT s), R_done, [C_initIterative])
  | M_PENDING_ITERATIVE_INIT => (s, R_done, [])
  | _ => throws X_invalid s end.
(** Federate.cpp:1053-1065 requestTimeComplete: the mode is changed before the result is looked at *)
Definition timeComplete (r : replies) (s : fapi) : result :=
  match a_mode s with
  | M_PENDING_TIME =>
      let s := withMode M_EXECUTING s in
      if u_time (a_fut s) then
        let s := withFut (fut_time false (a_fut s)) s in
        match r_times r with
        | Ok t :: _ => (updateSimulationTime t s, R_time t, [])
        | Fail x :: _ => (s, R_throw x, [])
        | [] => (s, R_blocked, []) end
      else (s, R_throw X_future, [])
  | _ => throws X_invalid s end.
Definition iterativeEnd (i : iterResult) (t : Z) (s : fapi) : fapi :=
  match i with
  | I_next | I_iterating => updateSimulationTime t s
  | I_halted => updateSimulationTime t (updateMode M_FINISHED s)
  | I_error => updateMode M_ERROR s end.
(** Federate.cpp:1069-1098 requestTimeIterativeComplete *)
Definition itimeComplete (r : replies) (s : fapi) : result :=
  match a_mode s with
  | M_PENDING_ITERATIVE_TIME =>
      let s := withMode M_EXECUTING s in
      if u_itime (a_fut s) then
        let s := withFut (fut_itime false (a_fut s)) s in
        match r_itime r with
        | Ok (i, t) => (iterativeEnd i t s, R_iter i t, [])
        | Fail x => (s, R_throw x, []) end
      else (s, R_throw X_future, [])
  | _ => throws X_invalid s end.
(** Federate.cpp:591-610 enterExecutingModeComplete while the call is pending *)
Definition execPending (r : replies) (s : fapi) : result :=
  if u_exec (a_fut s) then
    let s := withFut (fut_exec false (a_fut s)) s in
    match r_exec r with
    | Ok (i, t) => (enteringExecuting i t (r_now r) s, R_result i, [])
    | Fail x => (updateMode M_ERROR s, R_throw x, []) end
  else (updateMode M_ERROR s, R_throw X_future, []).
Definition execNow (r : replies) (s : fapi) : result :=
  match r_exec r with
  | Ok (i, t) => (enteringExecuting i t (r_now r) s, R_result i, [C_exec])
  | Fail x => (s, R_throw x, [C_exec]) end.
(** the first call must end without an exception for the second to be made *)
Definition andThen (p : result) (k : fapi -> result) : result :=
  match p with
  | (s, R_throw x, l) => (s, R_throw x, l)
  | (s, R_blocked, l) => (s, R_blocked, l)
  | (s, R_crash, l) => (s, R_crash, l)
  | (s, _, l) => let '(s, o, l') := k s in (s, o, l ++ l') end.
(** Federate.cpp:471-503 enterExecutingMode *)
Definition enterExec (r : replies) (s : fapi) : result :=
  match a_mode s with
  | M_STARTUP | M_PENDING_INIT => andThen (enterInit r s) (execNow r)
  | M_INITIALIZING => execNow r s
  | M_PENDING_EXEC => if a_single s then (s, R_crash, []) else execPending r s
  | M_EXECUTING => (s, R_result I_next, [])
  | M_PENDING_TIME => andThen (timeComplete r s) (fun s => (s, R_result I_next, []))
  | M_PENDING_ITERATIVE_TIME =>
      match itimeComplete r s with
      | (s, R_iter i _, l) => (s, R_result (match i with I_iterating => I_next | _ => i end), l)
      | p => p end
  | _ => throws X_invalid s end.
(** Federate.cpp:547-589: from startup both calls of the core are made in the background *)
Definition enterExecAsync (r : replies) (s : fapi) : result :=
  if a_single s then throws X_invalid s
  else let go s := (withFut (fut_exec true (a_fut s)) (updateMode M_PENDING_EXEC s), R_done, [C_exec]) in
       match a_mode s with
       | M_STARTUP => (withFut (fut_exec true (a_fut s)) (updateMode M_PENDING_EXEC s), R_done, [C_init; C_exec])
       | M_PENDING_INIT => andThen (enterInitComplete r s) go
       | M_INITIALIZING => go s
       | M_PENDING_EXEC | M_EXECUTING | M_PENDING_TIME | M_PENDING_ITERATIVE_TIME => (s, R_done, [])
       | _ => throws X_invalid s end.
Definition enterExecComplete (r : replies) (s : fapi) : result :=
  if a_single s then enterExec r s else match a_mode s with M_PENDING_EXEC => execPending r s | _ => enterExec r s end.
(** Federate.cpp:937-968 requestTime; the loop repeats while automatic time requests are on *)
Fixpoint timeLoop (ts : list (answer Z)) (s : fapi) : result :=
  match ts with
  | [] => (s, R_blocked, [C_time])
  | Ok t :: ts =>
      let s := updateSimulationTime t s in
      if a_retrigger s && (t <? cTerminationTime) then let '(s, o, l) := timeLoop ts s in (s, o, C_time :: l) else (s, R_time t, [C_time])
  | Fail x :: _ => (match x with X_execution | X_registration => updateMode M_ERROR s | _ => s end, R_throw x, [C_time])
  end.
Definition requestTime (r : replies) (s : fapi) : result :=
  match a_mode s with
  | M_EXECUTING => timeLoop (r_times r) s
  | M_FINALIZE | M_FINISHED => (s, R_time maxVal, [])
  | _ => throws X_invalid s end.
(** Federate.cpp:985-1013 *)
Definition requestTimeIterative (r : replies) (s : fapi) : result :=
  match a_mode s with
  | M_EXECUTING => match r_itime r with Ok (i, t) => (iterativeEnd i t s, R_iter i t, [C_timeIterative]) | Fail x => (s, R_throw x, [C_timeIterative]) end
  | M_FINALIZE | M_FINISHED => (s, R_iter I_halted maxVal, [])
  | _ => throws X_invalid s end.
(** Federate.cpp:1015-1051 *)
Definition requestTimeAsync (s : fapi) : result :=
  if a_single s then throws X_invalid s
  else match a_mode s with M_EXECUTING => (withFut (fut_time true (a_fut s)) (withMode M_PENDING_TIME s), R_done, [C_time]) | _ => throws X_invalid s end.
Definition requestTimeIterativeAsync (s : fapi) : result :=
  if a_single s then throws X_invalid s
  else match a_mode s with M_EXECUTING => (withFut (fut_itime true (a_fut s)) (withMode M_PENDING_ITERATIVE_TIME s), R_done, [C_timeIterative]) | _ => throws X_invalid s end.
(** Federate.cpp:807-811, 863-870 and 848-861 *)
Definition finalizeNow (r : replies) (s : fapi) : result := match r_final r with Ok _ => (updateMode M_FINALIZE s, R_done, [C_finalize]) | Fail x => (s, R_throw x, [C_finalize]) end.
Definition finalizePending (r : replies) (s : fapi) : result :=
  if u_final (a_fut s) then
    let s := withFut (fut_final false (a_fut s)) s in
    match r_final r with Ok _ => (updateMode M_FINALIZE s, R_done, []) | Fail x => (s, R_throw x, []) end
  else throws X_future s.
(** a pending result is fetched and thrown away *)
Definition discard {A} (valid : bool) (a : answer A) (s : fapi) : result := if valid then match a with Ok _ => (s, R_done, []) | Fail x => (s, R_throw x, []) end else (s, R_throw X_future, []).
(** Federate.cpp:770-812 finalize *)
Definition finalize (r : replies) (s : fapi) : result :=
  let u := a_fut s in
  match a_mode s with
  | M_STARTUP | M_INITIALIZING | M_EXECUTING | M_FINISHED => finalizeNow r s
  | M_PENDING_INIT =>
      match discard (u_init u) (r_init r) (withFut (fut_init false u) s) with
      | (s, R_throw x, l) => (updateMode M_ERROR s, R_throw x, l)
      | p => andThen p (finalizeNow r) end
  | M_PENDING_EXEC => andThen (discard (u_exec u) (r_exec r) (withFut (fut_exec false u) s)) (finalizeNow r)
  | M_PENDING_TIME => match r_times r with [] => (s, R_blocked, []) | a :: _ => andThen (discard (u_time u) a (withFut (fut_time false u) s)) (finalizeNow r) end
  | M_PENDING_ITERATIVE_TIME => andThen (discard (u_itime u) (r_itime r) (withFut (fut_itime false u) s)) (finalizeNow r)
  | M_FINALIZE | M_ERROR => (s, R_done, [])
  | M_PENDING_FINALIZE => if a_single s then (s, R_crash, []) else finalizePending r s
  | M_PENDING_ITERATIVE_INIT => throws X_invalid s end.
(** Federate.cpp:814-846 *)
Definition finalizeAsync (r : replies) (s : fapi) : result :=
  if a_single s then throws X_invalid s
  else let go s := (withFut (fut_final true (a_fut s)) (updateMode M_PENDING_FINALIZE s), R_done, [C_finalize]) in
       match a_mode s with
       | M_PENDING_INIT => andThen (enterInitComplete r s) go
       | M_PENDING_EXEC => andThen (enterExecComplete r s) go
       | M_PENDING_TIME => andThen (timeComplete r s) go
       | M_PENDING_ITERATIVE_TIME => andThen (itimeComplete r s) go
       | M_FINALIZE | M_ERROR | M_PENDING_FINALIZE => (s, R_done, [])
       | _ => go s end.
Definition finalizeComplete (r : replies) (s : fapi) : result :=
  if a_single s then finalize r s else match a_mode s with M_PENDING_FINALIZE => finalizePending r s | _ => finalize r s end.
(** Federate.cpp:886-907 completeOperation, 923-935 localError and globalError *)
Definition completeOperation (r : replies) (s : fapi) : result :=
  match a_mode s with
  | M_PENDING_INIT => enterInitComplete r s
  | M_PENDING_EXEC => enterExecComplete r s
  | M_PENDING_TIME => timeComplete r s
  | M_PENDING_ITERATIVE_TIME => itimeComplete r s
  | M_PENDING_FINALIZE => finalizeComplete r s
  | _ => (s, R_done, []) end.
Definition raiseError (c : coreCall) (r : replies) (s : fapi) : result :=
  andThen (completeOperation r s) (fun s => (updateMode M_ERROR s, match r_error r with Ok _ => R_done | Fail x => R_throw x end, [c])).
(** ValueFederate.cpp:484-492, Endpoints.cpp:42-115 *)
Definition publish (r : replies) (s : fapi) : result :=
  match a_mode s with M_EXECUTING | M_INITIALIZING => (s, match r_publish r with Ok _ => R_done | Fail x => R_throw x end, [C_publish]) | _ => throws X_invalid s end.

Inductive apiCall := A_enterInit | A_enterInitAsync | A_enterInitComplete | A_initIter | A_initIterAsync | A_initIterComplete | A_enterExec | A_enterExecAsync | A_enterExecComplete
| A_requestTime | A_requestTimeIterative | A_requestTimeAsync | A_requestTimeIterativeAsync | A_requestTimeComplete | A_requestTimeIterativeComplete
| A_finalize | A_finalizeAsync | A_finalizeComplete | A_localError | A_globalError | A_publish.
Definition apiStep (c : apiCall) (r : replies) (s : fapi) : result :=
  match c with
  | A_enterInit => enterInit r s | A_enterInitAsync => enterInitAsync s | A_enterInitComplete => enterInitComplete r s
  | A_initIter => initIter r s | A_initIterAsync => initIterAsync s | A_initIterComplete => initIterComplete r s
  | A_enterExec => enterExec r s | A_enterExecAsync => enterExecAsync r s | A_enterExecComplete => enterExecComplete r s
  | A_requestTime => requestTime r s | A_requestTimeIterative => requestTimeIterative r s | A_requestTimeAsync => requestTimeAsync s | A_requestTimeIterativeAsync => requestTimeIterativeAsync s
  | A_requestTimeComplete => timeComplete r s | A_requestTimeIterativeComplete => itimeComplete r s
  | A_finalize => finalize r s | A_finalizeAsync => finalizeAsync r s | A_finalizeComplete => finalizeComplete r s
  | A_localError => raiseError C_localError r s | A_globalError => raiseError C_globalError r s
  | A_publish => publish r s
  end.
(** a program: calls one after the other, whatever their outcome, until one does not return *)
Fixpoint apiRun (s : fapi) (p : list (apiCall * replies)) : fapi * list (outcome * list coreCall) :=
  match p with
  | [] => (s, [])
  | (c, r) :: p => let '(s, o, l) := apiStep c r s in
                   match o with R_blocked | R_crash => (s, [(o, l)]) | _ => let '(s, t) := apiRun s p in (s, (o, l) :: t) end
  end.
