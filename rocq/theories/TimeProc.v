(** * How a federate drives its time coordinator (model of
      src/helics/core/TimeCoordinatorProcessing.cpp, the timing part of
      src/helics/core/FederateState.cpp and the guards in src/helics/core/CommonCore.cpp)

    The observable interface of one federate: application calls (enter executing mode, request time,
    set properties), commands taken from its queue, and data arrivals.  Each produces commands sent
    to others and possibly a return to the application with a granted time.
    Not modelled: locks and threads (one event is processed at a time, which the federate's own lock
    guarantees), the delay queue (no coordinator result is DELAY_PROCESSING, proved in
    TimeProcProofs), real-time timers (their effect is the FORCE_TIME_GRANT command, modelled),
    checkInterfaces on entry to initializing mode (assumed to succeed), profiling and logging. *)
From Coq Require Import ZArith Bool List Lia.
From Verif Require Import HTime Action TimeDep TimeCoord.
Import ListNotations.
Open Scope Z_scope.

(** ActionMessageDefintions.hpp:20-208, more codes *)
Definition CMD_USER_DISCONNECT := 2.
Definition CMD_GLOBAL_DISCONNECT := 1002.
Definition CMD_DISCONNECT_FED_ACK := 1006.
Definition CMD_INIT_GRANT := 11.
Definition CMD_EXEC_CHECK := 24.
Definition CMD_STOP := 30.
Definition CMD_TERMINATE_IMMEDIATELY := 31.
Definition CMD_TIME_CHECK := 36.
Definition CMD_ERROR := 10000.
(** flagOperations.hpp:99-101 *)
Definition observer_flag := 8.
Definition dynamic_join_flag := 9.

(** CoreTypes.hpp:21-30 enum class FederateStates *)
Inductive fstate := CREATED | INITIALIZING | EXECUTING | TERMINATING | ERRORED | FINISHED.
Definition fst_eqb (a b : fstate) : bool :=
  match a, b with
  | CREATED, CREATED | INITIALIZING, INITIALIZING | EXECUTING, EXECUTING
  | TERMINATING, TERMINATING | ERRORED, ERRORED | FINISHED, FINISHED => true
  | _, _ => false
  end.

(** CoreTypes.hpp:75-87 MessageProcessingResult; a reprocess carries the rewritten command *)
Inductive pres := PR_CONTINUE | PR_NEXT | PR_ITER | PR_HALT | PR_ERROR | PR_REPROCESS (m : amsg).
Definition of_mpr (r : mpr) : pres :=
  match r with CONTINUE_PROCESSING => PR_CONTINUE | NEXT_STEP => PR_NEXT | ITERATING => PR_ITER | HALTED => PR_HALT end.
(** CoreTypes.hpp:89-92 returnableResult *)
Definition returnable (r : pres) : bool :=
  match r with PR_CONTINUE => false | _ => true end.

(** result of processCoordinatorMessage plus the coordinator effects *)
Definition cres := (tc * list amsg * fstate * pres * bool)%type.

(** TimeCoordinatorProcessing.cpp:106-141 CMD_EXEC_CHECK *)
Definition execCheck (cmd : amsg) (c : tc) (st : fstate) (gm : bool) : cres :=
  if fst_eqb st INITIALIZING && negb gm then
    let '(c, out, r) := checkExecEntry c (if m_action cmd =? CMD_EXEC_REQUEST then m_source_id cmd else invalidId) in
    match r with
    | ITERATING => (c, out, st, PR_ITER, true)
    | NEXT_STEP => (c, out, EXECUTING, PR_NEXT, true)
    | CONTINUE_PROCESSING =>
        (c, out ++ (if (m_action cmd =? CMD_EXEC_GRANT) && negb (checkFlag iteration_requested_flag cmd)
                    then sendUpdatedExecRequest c invalidId invalidId 0 else []), st, PR_CONTINUE, gm)
    | HALTED => (c, out, st, PR_HALT, true)
    end
  else (c, [], st, PR_CONTINUE, gm).

(** TimeCoordinatorProcessing.cpp:244-260, 181-188, 212-219, 305-311: check for a grant in executing mode *)
Definition grantCheck (c : tc) (st : fstate) (gm : bool) (trigger : Z) : cres :=
  if fst_eqb st EXECUTING && negb gm then
    let '(c, out, r) := checkTimeGrant c trigger in
    (c, out, st, of_mpr r, match r with CONTINUE_PROCESSING => gm | _ => true end)
  else (c, [], st, PR_CONTINUE, gm).

(** prefix the commands already sent *)
Definition cpre (o : list amsg) (r : cres) : cres :=
  let '(c, out, st, p, gm) := r in (c, o ++ out, st, p, gm).

(** TimeCoordinatorProcessing.cpp:244-260 CMD_TIME_CHECK *)
Definition timeCheck (cmd : amsg) (c : tc) (st : fstate) (gm : bool) : cres :=
  if fst_eqb st INITIALIZING then (c, [], st, PR_REPROCESS (set_m_action CMD_EXEC_CHECK cmd), gm)
  else grantCheck c st gm (if m_action cmd =? CMD_TIME_REQUEST then m_source_id cmd else invalidId).

Definition tpr_notProcessed (r : tpr) : bool := match r with NOT_PROCESSED => true | _ => false end.
(** the iteration request carried by a command (TimeCoordinatorProcessing.cpp:80-85, FederateState.cpp:1514-1519) *)
Definition iterOf (cmd : amsg) : iter_req :=
  if checkFlag iteration_requested_flag cmd
  then if checkFlag required_flag cmd then FORCE_ITERATION else ITERATE_IF_NEEDED
  else NO_ITERATIONS.

(** TimeCoordinatorProcessing.cpp:17-328 processCoordinatorMessage *)
Definition coordStep (cmd : amsg) (c : tc) (st : fstate) (gm : bool) : cres :=
  let a := m_action cmd in
  let id := c_id c in
  let same := (c, @nil amsg, st, PR_CONTINUE, gm) in
  if isBlockCmd a then
    let '(c, out, r) := processTimeMessage c cmd in
    if negb (tpr_notProcessed r) && negb gm then
      match st with
      | INITIALIZING => (c, out, st, PR_REPROCESS (set_m_action CMD_EXEC_CHECK cmd), gm)
      | EXECUTING => (c, out, st, PR_REPROCESS (set_m_action CMD_TIME_CHECK cmd), gm)
      | _ => (c, out, st, PR_CONTINUE, gm)
      end
    else (c, out, st, PR_CONTINUE, gm)
  else if a =? CMD_INIT_GRANT then
    if fst_eqb st CREATED then
      let c := if checkFlag observer_flag cmd || checkFlag dynamic_join_flag cmd then set_c_dynamic true c else c in
      if checkFlag iteration_requested_flag cmd then (c, [], CREATED, PR_ITER, false)
      else (c, [], INITIALIZING, PR_NEXT, true)
    else same
  else if (a =? CMD_EXEC_REQUEST) && (m_source_id cmd =? id) && checkFlag indicator_flag cmd then
    let '(c, out) := enteringExecMode c (iterOf cmd) in (c, out, st, PR_CONTINUE, false)
  else if (a =? CMD_EXEC_REQUEST) || (a =? CMD_EXEC_GRANT) then
    let '(c, out, r) := processTimeMessage c cmd in
    if tpr_notProcessed r then (c, out, st, PR_CONTINUE, gm) else cpre out (execCheck cmd c st gm)
  else if a =? CMD_EXEC_CHECK then execCheck cmd c st gm
  else if a =? CMD_TERMINATE_IMMEDIATELY then (c, [], FINISHED, PR_HALT, gm)
  else if a =? CMD_STOP then
    let '(c, out) := disconnect c in (c, out, FINISHED, PR_HALT, gm)
  else if a =? CMD_DISCONNECT_FED_ACK then
    if (m_dest_id cmd =? id) && (m_source_id cmd =? parent_broker_id) then
      if negb (fst_eqb st FINISHED) && negb (fst_eqb st TERMINATING)
      then let '(c, out) := disconnect c in (c, out, FINISHED, PR_HALT, gm)
      else (c, [], FINISHED, PR_HALT, gm)
    else same
  else if (a =? CMD_REQUEST_CURRENT_TIME) || (a =? CMD_TIMING_INFO) then
    let '(c, out, _) := processTimeMessage c cmd in (c, out, st, PR_CONTINUE, gm)
  else if (a =? CMD_DISCONNECT_FED) || (a =? CMD_DISCONNECT) then
    if m_source_id cmd =? id then
      if negb (fst_eqb st FINISHED) && negb (fst_eqb st TERMINATING) then
        let '(c, out) := disconnect c in
        (c, out, TERMINATING, PR_REPROCESS (set_m_dest_id parent_broker_id cmd), gm)
      else same
    else
      let '(c, out, _) := processTimeMessage c cmd in cpre out (grantCheck c st gm invalidId)
  else if (a =? CMD_BROADCAST_DISCONNECT) || (a =? CMD_DISCONNECT_BROKER) || (a =? CMD_DISCONNECT_CORE) then
    let '(c, out, r) := processTimeMessage c cmd in
    if tpr_notProcessed r then (c, out, st, PR_CONTINUE, gm) else cpre out (grantCheck c st gm invalidId)
  else if (a =? CMD_TIME_REQUEST) || (a =? CMD_TIME_GRANT) then
    let '(c, out, r) := processTimeMessage c cmd in
    if tpr_notProcessed r then (c, out, st, PR_CONTINUE, gm) else cpre out (timeCheck cmd c st gm)
  else if a =? CMD_TIME_CHECK then timeCheck cmd c st gm
  else if a =? CMD_FORCE_TIME_GRANT then
    if m_actionTime cmd <? c_granted c then same
    else let '(c, out, _) := processTimeMessage c cmd in (c, out, st, PR_NEXT, true)
  else if (a =? CMD_ERROR) || (a =? CMD_LOCAL_ERROR) || (a =? CMD_GLOBAL_ERROR) then
    if (a =? CMD_GLOBAL_ERROR) || (m_source_id cmd =? id) || (m_source_id cmd =? parent_broker_id)
       || (m_source_id cmd =? gRootBrokerID) || negb (m_dest_id cmd =? id) then
      if negb (fst_eqb st FINISHED) && negb (fst_eqb st TERMINATING) then
        let '(c, out) := if a =? CMD_GLOBAL_ERROR then (c, []) else localError c in
        (c, out, ERRORED, PR_ERROR, gm)
      else same
    else
      let '(c, out, r) := processTimeMessage c cmd in
      if tpr_notProcessed r then (c, out, st, PR_CONTINUE, gm) else cpre out (grantCheck c st gm invalidId)
  else if (a =? CMD_ADD_DEPENDENCY) || (a =? CMD_REMOVE_DEPENDENCY) || (a =? CMD_ADD_DEPENDENT)
       || (a =? CMD_REMOVE_DEPENDENT) || (a =? CMD_ADD_INTERDEPENDENCY) || (a =? CMD_REMOVE_INTERDEPENDENCY) then
    if m_dest_id cmd =? id then (processDependencyUpdateMessage c cmd, [], st, PR_CONTINUE, gm) else same
  else same.

(** FederateState.hpp:90-190: the part of a federate which concerns time.
    [f_gm] is timeGranted_mode, [f_time] time_granted, [f_send] allowed_send_time,
    [f_coreMaxIter] BrokerBase.hpp:64 maxIterationCount of the core. *)
Record fed : Type := mkFed {
  f_tc : tc;
  f_st : fstate;
  f_gm : bool;
  f_time : Z;
  f_send : Z;
  f_coreMaxIter : Z
}.
(** field update of [fed] above (C++ member assignment) *)
Definition set_f_tc (v : tc) (r : fed) : fed := mkFed v (f_st r) (f_gm r) (f_time r) (f_send r) (f_coreMaxIter r).
(** field update of [fed] above (C++ member assignment) *)
Definition set_f_st (v : fstate) (r : fed) : fed := mkFed (f_tc r) v (f_gm r) (f_time r) (f_send r) (f_coreMaxIter r).
(** field update of [fed] above (C++ member assignment) *)
Definition set_f_gm (v : bool) (r : fed) : fed := mkFed (f_tc r) (f_st r) v (f_time r) (f_send r) (f_coreMaxIter r).
(** field update of [fed] above (C++ member assignment) *)
Definition set_f_time (v : Z) (r : fed) : fed := mkFed (f_tc r) (f_st r) (f_gm r) v (f_send r) (f_coreMaxIter r).
(** field update of [fed] above (C++ member assignment) *)
Definition set_f_send (v : Z) (r : fed) : fed := mkFed (f_tc r) (f_st r) (f_gm r) (f_time r) v (f_coreMaxIter r).
(** field update of [fed] above (C++ member assignment) *)
Definition set_f_coreMaxIter (v : Z) (r : fed) : fed := mkFed (f_tc r) (f_st r) (f_gm r) (f_time r) (f_send r) v.


(** FederateState.cpp:115-130: a federate just created with identifier [id] *)
Definition fed_init (id : Z) (o : tcopts) (maxIter : Z) : fed :=
  mkFed (tc_init id o) CREATED true minVal minVal maxIter.

(** what one event produces: commands sent, values of the interface layer told that a federate
    disconnected (FederateState.cpp:1589), and the return to the application, if any *)
Record eff : Type := mkEff {
  e_msgs : list amsg;
  e_disc : list (Z * Z);
  e_ret : option (pres * Z)
}.
(** field update of [eff] above (C++ member assignment) *)
Definition set_e_msgs (v : list amsg) (r : eff) : eff := mkEff v (e_disc r) (e_ret r).
(** field update of [eff] above (C++ member assignment) *)
Definition set_e_disc (v : list (Z * Z)) (r : eff) : eff := mkEff (e_msgs r) v (e_ret r).
(** field update of [eff] above (C++ member assignment) *)
Definition set_e_ret (v : option (pres * Z)) (r : eff) : eff := mkEff (e_msgs r) (e_disc r) v.

Definition noEff : eff := mkEff [] [] None.
Definition effMsgs (o : list amsg) : eff := mkEff o [] None.
Definition effPre (o : list amsg) (e : eff) : eff := set_e_msgs (o ++ e_msgs e) e.

(** TimeCoordinator.cpp:429-444 enterInitialization *)
Definition enterInitialization (c : tc) : list amsg :=
  if c_dynamic c then
    map (fun d => set_m_dest_id (fedID d) (newMsg CMD_REQUEST_CURRENT_TIME (c_id c)))
        (filter (fun d => dependency d && negb (fedID d =? c_id c)) (c_deps c))
  else [].

(** time_granted / allowed_send_time := those of the coordinator (FederateState.cpp:1490-1491) *)
Definition refreshTimes (f : fed) : fed :=
  set_f_time (c_granted (f_tc f)) (set_f_send (allowedSendTime (f_tc f)) f).

(** The return of a result to the application: FederateState.cpp:815-830 (updateDataForTimeReturn) and
    549-560 (updateDataForExecEntry), 545-560 (enterInitializingMode). *)
Definition returnTo (f : fed) (r : pres) : fed * (pres * Z) :=
  let f := match r, f_st f with
           | PR_HALT, _ => set_f_time maxVal (set_f_send maxVal f)
           | PR_NEXT, CREATED | PR_ITER, CREATED | PR_ERROR, _ => f
           | PR_NEXT, INITIALIZING => set_f_time initializationTime (set_f_send initializationTime f)
           | PR_ITER, INITIALIZING => set_f_time initializationTime (set_f_send initializationTime f)
           | _, _ => refreshTimes f
           end in
  (f, (r, f_time f)).

(** FederateState.cpp:1433-1504 checkProcResult, up to the switch on the result *)
Definition checkProcResult (f : fed) (r : cres) : fed * list amsg * pres :=
  let '(c, out, st, p, gm) := r in
  let '(c, out) :=
    if fst_eqb (f_st f) st then (c, out)
    else match st with
         | INITIALIZING => (c, out ++ enterInitialization c)
         | EXECUTING => (fst (updateTimeFactors c), out)
         | _ => (c, out)
         end in
  let f := set_f_tc c (set_f_st st (set_f_gm gm f)) in
  let f := match p with
           | PR_CONTINUE | PR_REPROCESS _ => f
           | _ => if gm then refreshTimes f else f
           end in
  (f, out, p).

(** FederateState.cpp:1505-1620 processActionMessage for commands without a second phase, with the
    reprocessing of checkProcResult (1477-1482).  [n] bounds the reprocessing depth; running out sets
    the ghost flag c_ub. *)
Fixpoint procMsg (n : nat) (f : fed) (cmd : amsg) : fed * list amsg * pres :=
  match n with
  | O => (set_f_tc (set_c_ub true (f_tc f)) f, [], PR_CONTINUE)
  | S n =>
      let '(f, out, p) := checkProcResult f (coordStep cmd (f_tc f) (f_st f) (f_gm f)) in
      match p with
      | PR_REPROCESS cmd' =>
          if m_dest_id cmd' =? c_id (f_tc f)
          then let '(f, out', p) := procMsg n f cmd' in (f, out ++ out', p)
          else (f, out ++ [cmd'], PR_CONTINUE)
      | _ => (f, out, p)
      end
  end.
(** how deep the code can reprocess: TIME_BLOCK -> TIME_CHECK -> EXEC_CHECK *)
Definition procDepth : nat := 3.

(** return to the application if the result is returnable *)
Definition finish (f : fed) (out : list amsg) (disc : list (Z * Z)) (p : pres) : fed * eff :=
  if returnable p then let '(f, r) := returnTo f p in (f, mkEff out disc (Some r))
  else (f, mkEff out disc None).

(** FederateState.cpp:1563-1601: second handling of a disconnect from another federate *)
Definition disconnectPhase2 (f : fed) (cmd : amsg) : fed * list amsg * list (Z * Z) * pres :=
  let c := f_tc f in
  let lastTime := match getDep (c_deps c) (m_source_id cmd) with None => timeZero | Some d => lastGrant d end in
  let '(c, out, r) := processTimeMessage c cmd in
  let f := set_f_tc c f in
  if tpr_notProcessed r then (f, out, [], PR_CONTINUE)
  else if negb (fst_eqb (f_st f) EXECUTING) then (f, out, [], PR_CONTINUE)
  else
    let disc := [(m_source_id cmd, lastTime)] in
    if negb (f_gm f) then
      let '(c, out', r) := checkTimeGrant c invalidId in
      let f := set_f_tc c f in
      match r with
      | CONTINUE_PROCESSING => (f, out ++ out', disc, PR_CONTINUE)
      | _ => (refreshTimes (set_f_gm true f), out ++ out', disc, of_mpr r)
      end
    else (f, out, disc, PR_CONTINUE).

(** FederateState.cpp:1545-1562: a user or global disconnect *)
Definition userDisconnect (f : fed) (cmd : amsg) : fed * list amsg :=
  match f_st f with
  | FINISHED | TERMINATING => (f, [])
  | s => let '(c, out) := disconnect (f_tc f) in
         (set_f_tc c (set_f_st (if fst_eqb s ERRORED then s else TERMINATING) f),
          out ++ [set_m_dest_id parent_broker_id cmd])
  end.

(** FederateState.cpp:1505-1620: a command taken from the queue (not data, not the application's own
    indicator-flagged requests) *)
Definition deliver (f : fed) (cmd : amsg) : fed * eff :=
  let a := m_action cmd in
  let '(f, out, p) := procMsg procDepth f cmd in
  if returnable p then finish f out [] p
  else if (a =? CMD_GLOBAL_DISCONNECT) || (a =? CMD_USER_DISCONNECT) then
    let '(f, out') := userDisconnect f cmd in (f, effMsgs (out ++ out'))
  else if ((a =? CMD_DISCONNECT_FED) || (a =? CMD_DISCONNECT)) && negb (m_source_id cmd =? c_id (f_tc f)) then
    let '(f, out', disc, p) := disconnectPhase2 f cmd in finish f (out ++ out') disc p
  else (f, effMsgs out).

(** CommonCore.cpp:719-764 enterExecutingMode and FederateState.cpp:1535-1544: only from initializing mode *)
Definition enterExecuting (f : fed) (it : iter_req) : fed * eff :=
  match f_st f with
  | INITIALIZING =>
      let m := setFlag indicator_flag (setIterationFlags it (set_m_dest_id (c_id (f_tc f)) (newMsg CMD_EXEC_REQUEST (c_id (f_tc f))))) in
      let '(f, out, p) := procMsg procDepth f m in
      if returnable p then finish f out [] p
      else let '(f, out', p) := procMsg procDepth f (set_m_action CMD_EXEC_CHECK m) in
           finish f (out ++ out') [] p
  | _ => (f, noEff)
  end.

(** CommonCore.cpp:937-1060 timeRequest / requestTimeIterative and FederateState.cpp:1509-1528: only in
    executing mode; the core's iteration limit turns ITERATE_IF_NEEDED into NO_ITERATIONS.
    [nv], [nm] are nextValueTime() and nextMessageTime() of the interface layer. *)
Definition requestTime (f : fed) (t : Z) (it : iter_req) (nv nm : Z) : fed * eff :=
  match f_st f with
  | EXECUTING =>
      let it := match it with
                | ITERATE_IF_NEEDED => if f_coreMaxIter f <=? c_iteration (f_tc f) then NO_ITERATIONS else it
                | _ => it
                end in
      let '(c, out) := timeRequest (f_tc f) t it nv nm in
      let f := set_f_gm false (set_f_tc c f) in
      let m := set_m_dest_id (c_id c) (newMsg CMD_TIME_CHECK (c_id c)) in
      let '(f, out', p) := procMsg procDepth f m in
      finish f (out ++ out') [] p
  | _ => (f, noEff)
  end.

(** FederateState.cpp:1847-1952 processDataMessage: which coordinator update the arrival causes depends
    on the interface it reaches (modelled in Input.v / Endpoint.v) *)
Inductive data_kind := DK_value (t : Z) | DK_message (t : Z) | DK_none.
Definition deliverData (f : fed) (cmd : amsg) (k : data_kind) : fed * eff :=
  let '(c, out) := match k with
                   | DK_value t => updateValueTime (f_tc f) t (negb (f_gm f))
                   | DK_message t => updateMessageTime (f_tc f) t (negb (f_gm f))
                   | DK_none => (f_tc f, [])
                   end in
  match f_st f with
  | CREATED | INITIALIZING | EXECUTING =>
      let '(c, out', _) := processTimeMessage c cmd in (set_f_tc c f, effMsgs (out ++ out'))
  | _ => (set_f_tc c f, effMsgs out)
  end.

(** Everything that can happen to a federate *)
Inductive event :=
| Ev_msg (cmd : amsg)                               (* a command from the queue *)
| Ev_enterExec (it : iter_req)                      (* enterExecutingMode *)
| Ev_request (t : Z) (it : iter_req) (nv nm : Z)    (* requestTime / requestTimeIterative *)
| Ev_data (cmd : amsg) (k : data_kind)              (* a value or message arrives *)
| Ev_timeProp (p : time_property) (v : Z)           (* setProperty(time) *)
| Ev_flag (g : option_flag) (v : bool)              (* setFlagOption *)
| Ev_maxIter (v : Z)                                (* setProperty(MAX_ITERATIONS) *)
| Ev_addDependency (g : Z)                          (* FederateState.cpp:2422, on connection of a publication *)
| Ev_addDependent (g : Z)                           (* FederateState.cpp:2427 *)
| Ev_resetDependency (g : Z).                       (* FederateState.cpp:2432 *)

(** ActionMessageDefintions.hpp: the data commands *)
Definition isDataCmd (a : Z) : bool := (a =? CMD_PUB) || (a =? CMD_SEND_MESSAGE).
(** FederateState.cpp:1509-1511, TimeCoordinatorProcessing.cpp:78: a request made by the federate itself *)
Definition isOwnRequest (id : Z) (cmd : amsg) : bool :=
  ((m_action cmd =? CMD_TIME_REQUEST) || (m_action cmd =? CMD_EXEC_REQUEST))
  && (m_source_id cmd =? id) && checkFlag indicator_flag cmd.

(** apply a change to the coordinator options *)
Definition updOpts (g : tcopts -> tcopts) (f : fed) : fed :=
  set_f_tc (set_c_opts (g (c_opts (f_tc f))) (f_tc f)) f.

(** FederateState.cpp:1385, 1424-1426: in the error state every return is an error *)
Definition maskError (wasError : bool) (r : fed * eff) : fed * eff :=
  if wasError
  then (fst r, set_e_ret (match e_ret (snd r) with Some (_, t) => Some (PR_ERROR, t) | None => None end) (snd r))
  else r.

(** one event.  Data commands and own requests reach the federate only through their own events; a
    finished federate no longer processes its queue (FederateState.cpp:1313-1315, 1374-1376). *)
Definition step (f : fed) (e : event) : fed * eff :=
  match e with
  | Ev_msg cmd =>
      if isDataCmd (m_action cmd) || isOwnRequest (c_id (f_tc f)) cmd || fst_eqb (f_st f) FINISHED then (f, noEff)
      else maskError (fst_eqb (f_st f) ERRORED) (deliver f cmd)
  | Ev_enterExec it => enterExecuting f it
  | Ev_request t it nv nm => requestTime f t it nv nm
  | Ev_data cmd k =>
      if isDataCmd (m_action cmd) && negb (fst_eqb (f_st f) FINISHED) then deliverData f cmd k else (f, noEff)
  | Ev_timeProp p v => (updOpts (setTimeProperty p v) f, noEff)
  | Ev_flag g v => (updOpts (setOptionFlag g v) f, noEff)
  | Ev_maxIter v => (updOpts (setMaxIterations v) f, noEff)
  | Ev_addDependency g => (set_f_tc (fst (tcAddDependency (f_tc f) g)) f, noEff)
  | Ev_addDependent g => (set_f_tc (set_c_deps (fst (addDependent (c_deps (f_tc f)) g)) (f_tc f)) f, noEff)
  | Ev_resetDependency g => (set_f_tc (set_c_deps (resetDependency (c_deps (f_tc f)) g) (f_tc f)) f, noEff)
  end.

(** a history: the final state and what each event produced, in order *)
Fixpoint run (f : fed) (es : list event) : fed * list eff :=
  match es with
  | [] => (f, [])
  | e :: r => let '(f1, x) := step f e in let '(f2, xs) := run f1 r in (f2, x :: xs)
  end.
