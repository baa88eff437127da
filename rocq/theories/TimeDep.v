(** * The table of timing dependencies (model of src/helics/core/TimeDependencies.cpp/.hpp) *)
From Coq Require Import ZArith Bool List Lia.
From Verif Require Import HTime Action.
Import ListNotations.
Open Scope Z_scope.

(** TimeDependencies.hpp:20-30 enum class TimeState *)
Inductive tstate :=
| ts_initialized | ts_exec_requested_require_iteration | ts_exec_requested_iterative
| ts_exec_requested | ts_time_granted | ts_time_requested_require_iteration
| ts_time_requested_iterative | ts_time_requested | ts_error.

(** TimeDependencies.hpp:21-29, the numeric values used by the comparison operators *)
Definition ts_ord (s : tstate) : Z :=
  match s with
  | ts_initialized => 0 | ts_exec_requested_require_iteration => 1
  | ts_exec_requested_iterative => 2 | ts_exec_requested => 3
  | ts_time_granted => 5 | ts_time_requested_require_iteration => 6
  | ts_time_requested_iterative => 7 | ts_time_requested => 8 | ts_error => 10
  end.
(** comparison operators on the enumeration *)
Definition ts_eqb (a b : tstate) : bool := ts_ord a =? ts_ord b.
Definition ts_ltb (a b : tstate) : bool := ts_ord a <? ts_ord b.
Definition ts_leb (a b : tstate) : bool := ts_ord a <=? ts_ord b.

(** TimeDependencies.hpp:33-39 enum class ConnectionType *)
Inductive conn := c_INDEPENDENT | c_PARENT | c_CHILD | c_SELF | c_NONE.
Definition conn_eqb (a b : conn) : bool :=
  match a, b with
  | c_INDEPENDENT, c_INDEPENDENT | c_PARENT, c_PARENT | c_CHILD, c_CHILD | c_SELF, c_SELF
  | c_NONE, c_NONE => true
  | _, _ => false
  end.

(** TimeDependencies.hpp:42-50 enum class TimeProcessingResult *)
Inductive tpr := NOT_PROCESSED | PROCESSED | PROCESSED_AND_CHECK | PROCESSED_NEW_REQUEST | DELAY_PROCESSING.

(** TimeDependencies.hpp:53 enum class GrantDelayMode *)
Inductive delay_mode := dm_NONE | dm_INTERRUPTED | dm_WAITING.
(** TimeDependencies.hpp:55-59 getDelayMode *)
Definition getDelayMode (waiting interrupted : bool) : delay_mode :=
  if waiting then dm_WAITING else if interrupted then dm_INTERRUPTED else dm_NONE.

(** TimeDependencies.hpp:62-95 class TimeData *)
Record tdata : Type := mkTD {
  next : Z;
  Te : Z;
  minDe : Z;
  TeAlt : Z;
  lastGrant : Z;
  minFed : Z;
  minFedActual : Z;
  tst : tstate;
  hasData : bool;
  interrupted : bool;
  delayedTiming : bool;
  timingVersion : Z;
  restrictionLevel : Z;
  timeoutCount : Z;
  sequenceCounter : Z;
  responseSequenceCounter : Z;
  grantedIteration : Z
}.
(** field update of [tdata] above (C++ member assignment) *)
Definition set_next (v : Z) (r : tdata) : tdata := mkTD v (Te r) (minDe r) (TeAlt r) (lastGrant r) (minFed r) (minFedActual r) (tst r) (hasData r) (interrupted r) (delayedTiming r) (timingVersion r) (restrictionLevel r) (timeoutCount r) (sequenceCounter r) (responseSequenceCounter r) (grantedIteration r).
(** field update of [tdata] above (C++ member assignment) *)
Definition set_Te (v : Z) (r : tdata) : tdata := mkTD (next r) v (minDe r) (TeAlt r) (lastGrant r) (minFed r) (minFedActual r) (tst r) (hasData r) (interrupted r) (delayedTiming r) (timingVersion r) (restrictionLevel r) (timeoutCount r) (sequenceCounter r) (responseSequenceCounter r) (grantedIteration r).
(** field update of [tdata] above (C++ member assignment) *)
Definition set_minDe (v : Z) (r : tdata) : tdata := mkTD (next r) (Te r) v (TeAlt r) (lastGrant r) (minFed r) (minFedActual r) (tst r) (hasData r) (interrupted r) (delayedTiming r) (timingVersion r) (restrictionLevel r) (timeoutCount r) (sequenceCounter r) (responseSequenceCounter r) (grantedIteration r).
(** field update of [tdata] above (C++ member assignment) *)
Definition set_TeAlt (v : Z) (r : tdata) : tdata := mkTD (next r) (Te r) (minDe r) v (lastGrant r) (minFed r) (minFedActual r) (tst r) (hasData r) (interrupted r) (delayedTiming r) (timingVersion r) (restrictionLevel r) (timeoutCount r) (sequenceCounter r) (responseSequenceCounter r) (grantedIteration r).
(** field update of [tdata] above (C++ member assignment) *)
Definition set_lastGrant (v : Z) (r : tdata) : tdata := mkTD (next r) (Te r) (minDe r) (TeAlt r) v (minFed r) (minFedActual r) (tst r) (hasData r) (interrupted r) (delayedTiming r) (timingVersion r) (restrictionLevel r) (timeoutCount r) (sequenceCounter r) (responseSequenceCounter r) (grantedIteration r).
(** field update of [tdata] above (C++ member assignment) *)
Definition set_minFed (v : Z) (r : tdata) : tdata := mkTD (next r) (Te r) (minDe r) (TeAlt r) (lastGrant r) v (minFedActual r) (tst r) (hasData r) (interrupted r) (delayedTiming r) (timingVersion r) (restrictionLevel r) (timeoutCount r) (sequenceCounter r) (responseSequenceCounter r) (grantedIteration r).
(** field update of [tdata] above (C++ member assignment) *)
Definition set_minFedActual (v : Z) (r : tdata) : tdata := mkTD (next r) (Te r) (minDe r) (TeAlt r) (lastGrant r) (minFed r) v (tst r) (hasData r) (interrupted r) (delayedTiming r) (timingVersion r) (restrictionLevel r) (timeoutCount r) (sequenceCounter r) (responseSequenceCounter r) (grantedIteration r).
(** field update of [tdata] above (C++ member assignment) *)
Definition set_tst (v : tstate) (r : tdata) : tdata := mkTD (next r) (Te r) (minDe r) (TeAlt r) (lastGrant r) (minFed r) (minFedActual r) v (hasData r) (interrupted r) (delayedTiming r) (timingVersion r) (restrictionLevel r) (timeoutCount r) (sequenceCounter r) (responseSequenceCounter r) (grantedIteration r).
(** field update of [tdata] above (C++ member assignment) *)
Definition set_hasData (v : bool) (r : tdata) : tdata := mkTD (next r) (Te r) (minDe r) (TeAlt r) (lastGrant r) (minFed r) (minFedActual r) (tst r) v (interrupted r) (delayedTiming r) (timingVersion r) (restrictionLevel r) (timeoutCount r) (sequenceCounter r) (responseSequenceCounter r) (grantedIteration r).
(** field update of [tdata] above (C++ member assignment) *)
Definition set_interrupted (v : bool) (r : tdata) : tdata := mkTD (next r) (Te r) (minDe r) (TeAlt r) (lastGrant r) (minFed r) (minFedActual r) (tst r) (hasData r) v (delayedTiming r) (timingVersion r) (restrictionLevel r) (timeoutCount r) (sequenceCounter r) (responseSequenceCounter r) (grantedIteration r).
(** field update of [tdata] above (C++ member assignment) *)
Definition set_delayedTiming (v : bool) (r : tdata) : tdata := mkTD (next r) (Te r) (minDe r) (TeAlt r) (lastGrant r) (minFed r) (minFedActual r) (tst r) (hasData r) (interrupted r) v (timingVersion r) (restrictionLevel r) (timeoutCount r) (sequenceCounter r) (responseSequenceCounter r) (grantedIteration r).
(** field update of [tdata] above (C++ member assignment) *)
Definition set_timingVersion (v : Z) (r : tdata) : tdata := mkTD (next r) (Te r) (minDe r) (TeAlt r) (lastGrant r) (minFed r) (minFedActual r) (tst r) (hasData r) (interrupted r) (delayedTiming r) v (restrictionLevel r) (timeoutCount r) (sequenceCounter r) (responseSequenceCounter r) (grantedIteration r).
(** field update of [tdata] above (C++ member assignment) *)
Definition set_restrictionLevel (v : Z) (r : tdata) : tdata := mkTD (next r) (Te r) (minDe r) (TeAlt r) (lastGrant r) (minFed r) (minFedActual r) (tst r) (hasData r) (interrupted r) (delayedTiming r) (timingVersion r) v (timeoutCount r) (sequenceCounter r) (responseSequenceCounter r) (grantedIteration r).
(** field update of [tdata] above (C++ member assignment) *)
Definition set_timeoutCount (v : Z) (r : tdata) : tdata := mkTD (next r) (Te r) (minDe r) (TeAlt r) (lastGrant r) (minFed r) (minFedActual r) (tst r) (hasData r) (interrupted r) (delayedTiming r) (timingVersion r) (restrictionLevel r) v (sequenceCounter r) (responseSequenceCounter r) (grantedIteration r).
(** field update of [tdata] above (C++ member assignment) *)
Definition set_sequenceCounter (v : Z) (r : tdata) : tdata := mkTD (next r) (Te r) (minDe r) (TeAlt r) (lastGrant r) (minFed r) (minFedActual r) (tst r) (hasData r) (interrupted r) (delayedTiming r) (timingVersion r) (restrictionLevel r) (timeoutCount r) v (responseSequenceCounter r) (grantedIteration r).
(** field update of [tdata] above (C++ member assignment) *)
Definition set_responseSequenceCounter (v : Z) (r : tdata) : tdata := mkTD (next r) (Te r) (minDe r) (TeAlt r) (lastGrant r) (minFed r) (minFedActual r) (tst r) (hasData r) (interrupted r) (delayedTiming r) (timingVersion r) (restrictionLevel r) (timeoutCount r) (sequenceCounter r) v (grantedIteration r).
(** field update of [tdata] above (C++ member assignment) *)
Definition set_grantedIteration (v : Z) (r : tdata) : tdata := mkTD (next r) (Te r) (minDe r) (TeAlt r) (lastGrant r) (minFed r) (minFedActual r) (tst r) (hasData r) (interrupted r) (delayedTiming r) (timingVersion r) (restrictionLevel r) (timeoutCount r) (sequenceCounter r) (responseSequenceCounter r) v.


(** TimeDependencies.hpp:64-83 default member values *)
Definition td_default : tdata :=
  mkTD negEpsilon 0 0 0 0 invalidId invalidId ts_initialized false false false (-2) 0 0 0 0 0.
(** TimeDependencies.hpp:88-92 explicit TimeData(Time start, TimeState startState, uint8_t resLevel) *)
Definition td_start (start : Z) (st : tstate) (res : Z) : tdata :=
  mkTD start start start start 0 invalidId invalidId st false false false (-2) res 0 0 0 0.

(** TimeDependencies.hpp:98-126 class DependencyInfo (TimeData is the base class [d_td]) *)
Record dinfo : Type := mkDep {
  d_td : tdata;
  fedID : Z;
  cyclic : bool;
  connection : conn;
  dependent : bool;
  dependency : bool;
  forwarding : bool;
  nonGranting : bool;
  triggered : bool;
  updateRequested : bool
}.
(** field update of [dinfo] above (C++ member assignment) *)
Definition set_d_td (v : tdata) (r : dinfo) : dinfo := mkDep v (fedID r) (cyclic r) (connection r) (dependent r) (dependency r) (forwarding r) (nonGranting r) (triggered r) (updateRequested r).
(** field update of [dinfo] above (C++ member assignment) *)
Definition set_fedID (v : Z) (r : dinfo) : dinfo := mkDep (d_td r) v (cyclic r) (connection r) (dependent r) (dependency r) (forwarding r) (nonGranting r) (triggered r) (updateRequested r).
(** field update of [dinfo] above (C++ member assignment) *)
Definition set_cyclic (v : bool) (r : dinfo) : dinfo := mkDep (d_td r) (fedID r) v (connection r) (dependent r) (dependency r) (forwarding r) (nonGranting r) (triggered r) (updateRequested r).
(** field update of [dinfo] above (C++ member assignment) *)
Definition set_connection (v : conn) (r : dinfo) : dinfo := mkDep (d_td r) (fedID r) (cyclic r) v (dependent r) (dependency r) (forwarding r) (nonGranting r) (triggered r) (updateRequested r).
(** field update of [dinfo] above (C++ member assignment) *)
Definition set_dependent (v : bool) (r : dinfo) : dinfo := mkDep (d_td r) (fedID r) (cyclic r) (connection r) v (dependency r) (forwarding r) (nonGranting r) (triggered r) (updateRequested r).
(** field update of [dinfo] above (C++ member assignment) *)
Definition set_dependency (v : bool) (r : dinfo) : dinfo := mkDep (d_td r) (fedID r) (cyclic r) (connection r) (dependent r) v (forwarding r) (nonGranting r) (triggered r) (updateRequested r).
(** field update of [dinfo] above (C++ member assignment) *)
Definition set_forwarding (v : bool) (r : dinfo) : dinfo := mkDep (d_td r) (fedID r) (cyclic r) (connection r) (dependent r) (dependency r) v (nonGranting r) (triggered r) (updateRequested r).
(** field update of [dinfo] above (C++ member assignment) *)
Definition set_nonGranting (v : bool) (r : dinfo) : dinfo := mkDep (d_td r) (fedID r) (cyclic r) (connection r) (dependent r) (dependency r) (forwarding r) v (triggered r) (updateRequested r).
(** field update of [dinfo] above (C++ member assignment) *)
Definition set_triggered (v : bool) (r : dinfo) : dinfo := mkDep (d_td r) (fedID r) (cyclic r) (connection r) (dependent r) (dependency r) (forwarding r) (nonGranting r) v (updateRequested r).
(** field update of [dinfo] above (C++ member assignment) *)
Definition set_updateRequested (v : bool) (r : dinfo) : dinfo := mkDep (d_td r) (fedID r) (cyclic r) (connection r) (dependent r) (dependency r) (forwarding r) (nonGranting r) (triggered r) v.


(** base-class access: a DependencyInfo is a TimeData *)
Coercion d_td : dinfo >-> tdata.
(** apply an update to the TimeData part (C++ inheritance) *)
Definition updTD (f : tdata -> tdata) (d : dinfo) : dinfo := set_d_td (f (d_td d)) d.

(** TimeDependencies.hpp:119 explicit DependencyInfo(GlobalFederateId id) *)
Definition newDep (gid : Z) : dinfo :=
  mkDep td_default gid false c_INDEPENDENT false false (isBroker gid) false false false.

(** The switch of processMessage (TimeDependencies.cpp:25-175) groups commands like this. *)
Inductive tkind :=
| k_exec_request | k_exec_grant | k_time_request | k_time_grant | k_disconnect
| k_timing_info | k_error | k_data | k_request_current | k_other.
(** TimeDependencies.cpp:25-175 case labels *)
Definition tkind_of (a : Z) : tkind :=
  if a =? CMD_EXEC_REQUEST then k_exec_request
  else if a =? CMD_EXEC_GRANT then k_exec_grant
  else if a =? CMD_TIME_REQUEST then k_time_request
  else if a =? CMD_TIME_GRANT then k_time_grant
  else if (a =? CMD_DISCONNECT) || (a =? CMD_PRIORITY_DISCONNECT) || (a =? CMD_BROADCAST_DISCONNECT)
       || (a =? CMD_DISCONNECT_CORE) || (a =? CMD_DISCONNECT_BROKER) || (a =? CMD_DISCONNECT_FED)
       then k_disconnect
  else if a =? CMD_TIMING_INFO then k_timing_info
  else if (a =? CMD_LOCAL_ERROR) || (a =? CMD_GLOBAL_ERROR) then k_error
  else if (a =? CMD_SEND_MESSAGE) || (a =? CMD_PUB) then k_data
  else if a =? CMD_REQUEST_CURRENT_TIME then k_request_current
  else k_other.

(** TimeDependencies.cpp:46-48, 115-117: clear updateRequested when the response matches *)
Definition clearUpdateReq (d : dinfo) : dinfo :=
  if responseSequenceCounter d =? grantedIteration d then set_updateRequested false d else d.

(** TimeDependencies.cpp:21-177 processMessage *)
Definition processMessage (cmd : amsg) (dep : dinfo) : dinfo * tpr :=
  match tkind_of (m_action cmd) with
  | k_exec_request =>
      let st := if checkFlag iteration_requested_flag cmd
                then if checkFlag required_flag cmd then ts_exec_requested_require_iteration
                     else ts_exec_requested_iterative
                else ts_exec_requested in
      let delayed := checkFlag delayed_timing_flag cmd in
      let res := if delayed && negb (delayedTiming dep) then PROCESSED_AND_CHECK else PROCESSED in
      let dep := updTD (fun t => set_tst st (set_delayedTiming delayed
                   (set_restrictionLevel (u8 (m_messageID cmd)) (set_sequenceCounter (m_counter cmd)
                   (set_minFed (getExtraData cmd) (set_responseSequenceCounter
                      (if conn_eqb (connection dep) c_SELF then m_counter cmd else getExtraDestData cmd) t)))))) dep in
      (clearUpdateReq dep, res)
  | k_exec_grant =>
      if negb (checkFlag iteration_requested_flag cmd) then
        (updTD (fun t => set_tst ts_time_granted (set_next timeZero (set_minDe timeZero (set_timeoutCount 0
           (set_Te timeZero (set_sequenceCounter 0 (set_responseSequenceCounter 0 (set_grantedIteration 0
           (set_restrictionLevel 0 (set_minFed invalidId (set_hasData false t))))))))))) dep, PROCESSED)
      else
        (updTD (fun t => set_tst ts_initialized (set_sequenceCounter (m_counter cmd)
           (set_responseSequenceCounter 0 (set_restrictionLevel 0 (set_hasData false t))))) dep, PROCESSED)
  | k_time_request =>
      let granted := ts_eqb (tst dep) ts_time_granted in
      let res := if granted then PROCESSED_NEW_REQUEST else PROCESSED in
      let dep := if granted then updTD (set_lastGrant (next dep)) dep else dep in
      let st := if checkFlag iteration_requested_flag cmd
                then if checkFlag required_flag cmd then ts_time_requested_require_iteration
                     else ts_time_requested_iterative
                else ts_time_requested in
      let md := if m_Te cmd <? m_Tdemin cmd then m_Te cmd else m_Tdemin cmd in
      let delayed := checkFlag delayed_timing_flag cmd in
      let res := if delayed && negb (delayedTiming dep) then PROCESSED_AND_CHECK else res in
      let dep := updTD (fun t => set_tst st (set_next (m_actionTime cmd) (set_Te (m_Te cmd) (set_minDe md
                   (set_minFed (getExtraData cmd) (set_interrupted (checkFlag interrupted_flag cmd)
                   (set_delayedTiming (delayed || delayedTiming t) (set_sequenceCounter (m_counter cmd)
                   (set_responseSequenceCounter
                     (if conn_eqb (connection dep) c_SELF then m_counter cmd else getExtraDestData cmd) t))))))))) dep in
      let dep := if checkFlag non_granting_flag cmd then set_nonGranting true dep else dep in
      let dep := set_triggered (checkFlag destination_target cmd) dep in
      (clearUpdateReq dep, res)
  | k_time_grant =>
      (updTD (fun t => set_tst ts_time_granted (set_next (m_actionTime cmd) (set_Te (m_actionTime cmd)
         (set_minDe (m_actionTime cmd) (set_minFed invalidId (set_timeoutCount 0 (set_interrupted false
         (set_sequenceCounter (m_counter cmd) (set_hasData false t))))))))) dep, PROCESSED)
  | k_disconnect =>
      (set_updateRequested false
        (updTD (fun t => set_tst ts_time_granted (set_next maxVal (set_Te maxVal (set_minDe maxVal
          (set_minFed invalidId (set_timeoutCount 0 (set_hasData false t))))))) dep), PROCESSED)
  | k_timing_info =>
      (updTD (fun t => set_delayedTiming (checkFlag delayed_timing_flag cmd)
                (set_timingVersion (s8 (u8 (getExtraData cmd))) t))
         (set_nonGranting (checkFlag non_granting_flag cmd) dep), PROCESSED_AND_CHECK)
  | k_error =>
      (updTD (fun t => set_tst ts_error (set_next maxVal (set_Te maxVal (set_minDe maxVal
         (set_minFed invalidId (set_timeoutCount 0 t)))))) dep, PROCESSED)
  | k_data => (updTD (set_hasData true) dep, PROCESSED)
  | k_request_current => (updTD (set_sequenceCounter (m_counter cmd)) dep, PROCESSED)
  | k_other => (dep, NOT_PROCESSED)
  end.

(** The table: a vector kept sorted by fedID (TimeDependencies.hpp:131). *)
Definition table := list dinfo.

(** std::lower_bound with dependencyCompare (TimeDependencies.cpp:317): split the vector at the
    first element whose fedID is not smaller.  The binary search is modelled by a linear scan, which
    returns the same position on a sorted vector (sortedness is proved in TimeDepProofs). *)
Fixpoint lower_bound (l : table) (g : Z) : table * table :=
  match l with
  | [] => ([], [])
  | d :: r => if fedID d <? g then let '(a, b) := lower_bound r g in (d :: a, b) else ([], l)
  end.

(** TimeDependencies.cpp:337-355 getDependencyInfo *)
Definition getDep (l : table) (g : Z) : option dinfo :=
  match snd (lower_bound l g) with
  | [] => None
  | d :: _ => if fedID d =? g then Some d else None
  end.
(** TimeDependencies.cpp:319-326 isDependency *)
Definition isDependency (l : table) (g : Z) : bool :=
  match snd (lower_bound l g) with
  | [] => false
  | d :: _ => if fedID d =? g then dependency d else false
  end.
(** TimeDependencies.cpp:328-335 isDependent *)
Definition isDependent (l : table) (g : Z) : bool :=
  match snd (lower_bound l g) with
  | [] => false
  | d :: _ => if fedID d =? g then dependent d else false
  end.

(** TimeDependencies.cpp:357-386 addDependency *)
Definition addDependency (l : table) (g : Z) : table * bool :=
  match lower_bound l g with
  | (a, []) => (a ++ [set_dependency true (newDep g)], true)
  | (a, d :: b) =>
      if fedID d =? g then
        let rval := dependency d in
        let d := set_dependency true d in
        if cTerminationTime <? next d then
          (a ++ updTD (fun t => set_next negEpsilon (set_lastGrant timeZero (set_tst ts_initialized t))) d :: b, true)
        else (a ++ d :: b, negb rval)
      else (a ++ set_dependency true (newDep g) :: d :: b, true)
  end.
(** TimeDependencies.cpp:388-399 removeDependency *)
Definition removeDependency (l : table) (g : Z) : table :=
  match lower_bound l g with
  | (a, d :: b) =>
      if fedID d =? g then
        let d := set_dependency false d in
        if negb (dependent d) then a ++ b else a ++ d :: b
      else l
  | (_, []) => l
  end.
(** TimeDependencies.cpp:401-424 addDependent *)
Definition addDependent (l : table) (g : Z) : table * bool :=
  match lower_bound l g with
  | (a, []) => (a ++ [set_dependent true (newDep g)], true)
  | (a, d :: b) =>
      if fedID d =? g then (a ++ set_dependent true d :: b, negb (dependent d))
      else (a ++ set_dependent true (newDep g) :: d :: b, true)
  end.
(** TimeDependencies.cpp:426-437 removeDependent *)
Definition removeDependent (l : table) (g : Z) : table :=
  match lower_bound l g with
  | (a, d :: b) =>
      if fedID d =? g then
        let d := set_dependent false d in
        if negb (dependency d) then a ++ b else a ++ d :: b
      else l
  | (_, []) => l
  end.
(** TimeDependencies.cpp:439-449 resetDependency *)
Definition resetDependency (l : table) (g : Z) : table :=
  match lower_bound l g with
  | (a, d :: b) =>
      if (fedID d =? g) && ts_eqb (tst d) ts_time_granted && (cTerminationTime <=? lastGrant d)
      then a ++ newDep (fedID d) :: b else l
  | (_, []) => l
  end.
(** TimeDependencies.cpp:451-459 removeInterdependence *)
Definition removeInterdependence (l : table) (g : Z) : table :=
  match lower_bound l g with
  | (a, d :: b) => if fedID d =? g then a ++ b else l
  | (_, []) => l
  end.
(** write through the pointer returned by getDependencyInfo *)
Definition updDep (l : table) (g : Z) (f : dinfo -> dinfo) : table :=
  match lower_bound l g with
  | (a, d :: b) => if fedID d =? g then a ++ f d :: b else l
  | (_, []) => l
  end.
(** TimeDependencies.cpp:461-468 updateTime *)
Definition updateTime (l : table) (cmd : amsg) : table * tpr :=
  match getDep l (m_source_id cmd) with
  | None => (l, NOT_PROCESSED)
  | Some d =>
      if negb (dependency d) then (l, NOT_PROCESSED)
      else (updDep l (m_source_id cmd) (fun d => fst (processMessage cmd d)), snd (processMessage cmd d))
  end.

(** TimeDependencies.cpp:470-485 checkIfAllDependenciesArePastExec *)
Definition pastExec (iterating : bool) (dep : dinfo) : bool :=
  let minstate := if iterating then ts_time_requested_require_iteration else ts_time_requested in
  negb (dependency dep) || conn_eqb (connection dep) c_SELF || ts_leb minstate (tst dep)
  || (ts_eqb (tst dep) ts_time_granted && (timeZero <? next dep)).
Definition checkIfAllDependenciesArePastExec (iterating : bool) (l : table) : bool :=
  forallb (pastExec iterating) l.

(** TimeDependencies.cpp:487-507 iteratingWaitingDependencyCheck *)
Definition iteratingWaitingDependencyCheck (dep : dinfo) : bool :=
  if negb (dependency dep) then true
  else if conn_eqb (connection dep) c_SELF then true
  else if ts_eqb (tst dep) ts_initialized && (grantedIteration dep =? 0) then false
  else if (ts_eqb (tst dep) ts_exec_requested_iterative
           || ts_eqb (tst dep) ts_exec_requested_require_iteration)
          && (sequenceCounter dep <? grantedIteration dep) then false
  else true.

(** TimeDependencies.cpp:509-530 checkIfReadyForExecEntry *)
Definition checkIfReadyForExecEntry (iterating waiting : bool) (l : table) : bool :=
  if iterating then
    if waiting then forallb iteratingWaitingDependencyCheck l
    else negb (existsb (fun dep => dependency dep && ts_eqb (tst dep) ts_initialized) l)
  else if waiting then checkIfAllDependenciesArePastExec false l
  else negb (existsb (fun dep =>
        dependency dep &&
        negb (ts_leb ts_exec_requested (tst dep)
              || (conn_eqb (connection dep) c_SELF && ts_leb ts_initialized (tst dep)))) l).

(** TimeDependencies.cpp:532-557 iteratingTimeGrantCheck *)
Definition iteratingTimeGrantCheck (t : Z) (dm : delay_mode) (dep : dinfo) : bool :=
  if negb (dependency dep) || (cTerminationTime <=? next dep) then true
  else if conn_eqb (connection dep) c_SELF then true
  else if next dep <? t then false
  else if (next dep =? t) && ts_eqb (tst dep) ts_time_granted then false
  else match dm with
       | dm_WAITING =>
           if (ts_eqb (tst dep) ts_time_requested_iterative
               || ts_eqb (tst dep) ts_time_requested_require_iteration)
              && (sequenceCounter dep <? grantedIteration dep) then false else true
       | _ => true
       end.

(** TimeDependencies.cpp:571-630, the body of the loop of the non-iterating check: [true] means the
    loop continues, [false] that the function returns false. *)
Definition grantCheckOne (t : Z) (dm : delay_mode) (dep : dinfo) : bool :=
  if negb (dependency dep) || (cTerminationTime <=? next dep) then true
  else if conn_eqb (connection dep) c_SELF then true
  else match dm with
       | dm_WAITING => negb (next dep <=? t)
       | _ =>
         if next dep <? t then false
         else if next dep =? t then
           if ts_eqb (tst dep) ts_time_granted then false
           else if ts_eqb (tst dep) ts_time_requested && nonGranting dep then false
           else match dm with
                | dm_INTERRUPTED => interrupted dep || delayedTiming dep
                | _ => true
                end
         else true
       end.

(** TimeDependencies.cpp:559-634 checkIfReadyForTimeGrant *)
Definition checkIfReadyForTimeGrant (iterating : bool) (t : Z) (dm : delay_mode) (l : table) : bool :=
  if iterating then forallb (iteratingTimeGrantCheck t dm) l
  else forallb (grantCheckOne t dm) l.

(** TimeDependencies.cpp:636-641, 651-656: an active dependency *)
Definition activeDep (d : dinfo) : bool := dependency d && isFederate (fedID d) && (next d <? cTerminationTime).
(** TimeDependencies.cpp:636-641 hasActiveTimeDependencies *)
Definition hasActiveTimeDependencies (l : table) : bool := existsb activeDep l.
(** TimeDependencies.cpp:651-656 activeDependencyCount *)
Definition activeDependencyCount (l : table) : Z := Z.of_nat (length (filter activeDep l)).
(** TimeDependencies.cpp:658-671 getMinDependency *)
Definition getMinDependency (l : table) : Z :=
  fst (fold_left (fun '(mid, mt) dep =>
        if activeDep dep && (next dep <? mt) then (fedID dep, next dep) else (mid, mt)) l (invalidId, maxVal)).
(** TimeDependencies.hpp:218-222 checkSequenceCounter *)
Definition checkSequenceCounter (dep : dinfo) (tmin sq : Z) : bool :=
  negb (dependency dep) || negb (dependent dep) || (timingVersion dep <=? 0) || (tmin <? next dep)
  || (cTerminationTime <=? next dep) || (responseSequenceCounter dep =? sq).
(** TimeDependencies.cpp:643-650 verifySequenceCounter *)
Definition verifySequenceCounter (tmin sq : Z) (l : table) : bool :=
  forallb (fun d => checkSequenceCounter d tmin sq) l.

(** TimeDependencies.cpp:673-685 resetIteratingExecRequests *)
Definition resetIteratingExecRequests (l : table) : table :=
  map (fun dep =>
    if dependency dep && ts_leb (tst dep) ts_exec_requested_iterative then
      updTD (fun t => set_tst ts_initialized (set_grantedIteration (sequenceCounter t)
         (set_sequenceCounter 0 (set_responseSequenceCounter 0 (set_restrictionLevel 0
         (set_minFed invalidId t)))))) dep
    else dep) l.
(** TimeDependencies.cpp:687-698 resetIteratingTimeRequests *)
Definition resetIteratingTimeRequests (t : Z) (l : table) : table :=
  map (fun dep =>
    if dependency dep && ts_eqb (tst dep) ts_time_requested_iterative && (next dep =? t) then
      updTD (fun d => set_tst ts_time_granted (set_Te t (set_minDe t d))) dep
    else dep) l.
(** TimeDependencies.cpp:700-708 resetDependentEvents *)
Definition resetDependentEvents (g : Z) (l : table) : table :=
  map (fun dep => if dependency dep
                  then updTD (fun d => set_Te (Z.max (next d) g) (set_minDe (Z.max (next d) g) d)) dep
                  else dep) l.

(** TimeDependencies.cpp:710-728 checkForIssues; the result is whether the error code is non zero *)
Definition checkForIssues (waiting : bool) (l : table) : bool :=
  let n := length (filter (fun d => dependency d && dependent d && delayedTiming d
                                    && negb (conn_eqb (connection d) c_SELF)) l) in
  match n with O => false | S O => waiting | _ => true end.

(** TimeDependencies.cpp:735-776: the branch of generateMinTimeImplementation for entries which have
    not been granted execution *)
Definition minTimeInit (mTime : tdata) (dep : dinfo) (ignore : Z) : tdata :=
  if fedID dep =? ignore then mTime
  else
    let m :=
      if ts_ltb (tst dep) (tst mTime) then
        set_minFed (fedID dep) (set_tst (tst dep) (set_delayedTiming (delayedTiming dep)
         (set_restrictionLevel (restrictionLevel dep) (set_sequenceCounter (sequenceCounter dep)
         (set_responseSequenceCounter (responseSequenceCounter dep)
         (set_interrupted (interrupted dep) mTime))))))
      else if ts_eqb (tst dep) (tst mTime) then
        if restrictionLevel dep <? restrictionLevel mTime then
          set_minFed (fedID dep) (set_delayedTiming (delayedTiming dep)
           (set_restrictionLevel (restrictionLevel dep) (set_sequenceCounter (sequenceCounter dep)
           (set_responseSequenceCounter (sequenceCounter dep) (set_interrupted (interrupted dep) mTime)))))
        else if (restrictionLevel dep =? restrictionLevel mTime)
                && negb (Bool.eqb (interrupted dep) (interrupted mTime)) then
          if negb (interrupted dep) then
            set_minFed (fedID dep) (set_delayedTiming (delayedTiming dep)
             (set_restrictionLevel (restrictionLevel dep) (set_sequenceCounter (sequenceCounter dep)
             (set_responseSequenceCounter (sequenceCounter dep) (set_interrupted false mTime)))))
          else mTime
        else if (restrictionLevel dep =? restrictionLevel mTime) && (fedID dep <? minFed mTime) then
          set_minFed (fedID dep) (set_delayedTiming (delayedTiming dep)
           (set_sequenceCounter (sequenceCounter dep)
           (set_responseSequenceCounter (sequenceCounter dep) mTime)))
        else mTime
      else mTime in
    set_next initializationTime (set_Te timeZero (set_minDe timeZero m)).

(** TimeDependencies.cpp:788-808: the new minimum dependent event time *)
Definition minTimeMinDe (cur : Z) (dep : dinfo) (code : Z) : Z :=
  if negb (conn_eqb (connection dep) c_SELF)
     && ((code =? 0) || (responseSequenceCounter dep =? code) || (timingVersion dep =? 0)
         || negb (dependent dep))
  then if next dep <=? minDe dep
       then if minDe dep <? cur then minDe dep else cur
       else -1
  else if (responseSequenceCounter dep =? code) && dependent dep
  then if (next dep <=? minDe dep) && (minDe dep <? cur) then minDe dep else cur
  else if next dep <? cur then next dep else cur.

(** TimeDependencies.cpp:818-821 iterativeRequest *)
Definition iterativeRequest (s : tstate) : bool :=
  ts_eqb s ts_time_requested_iterative || ts_eqb s ts_time_requested_require_iteration.

(** TimeDependencies.cpp:809-835: next, state and interrupted *)
Definition minTimeNext (m : tdata) (dep : dinfo) (code : Z) : tdata :=
  if next dep <? next m then
    set_next (next dep) (set_tst (tst dep)
      (set_interrupted (if (responseSequenceCounter dep =? code) && dependent dep
                        then interrupted dep else false) m))
  else if next dep =? next m then
    let st :=
      if iterativeRequest (tst dep) then
        if negb (iterativeRequest (tst m)) || ts_ltb (tst dep) (tst m) then tst dep else tst m
      else if ts_eqb (tst dep) ts_time_granted && negb (iterativeRequest (tst m)) then tst dep
      else tst m in
    let i := if ts_eqb (tst dep) ts_time_granted || negb (interrupted dep) then false
             else interrupted m in
    set_tst st (set_interrupted i m)
  else m.

(** TimeDependencies.cpp:837-852: event time and its owner *)
Definition minTimeTe (m : tdata) (dep : dinfo) : tdata :=
  if Te dep <? Te m then
    let m := set_TeAlt (Te m) (set_Te (Te dep) (set_minFed (fedID dep)
               (set_sequenceCounter (sequenceCounter dep)
               (set_responseSequenceCounter (sequenceCounter dep) m)))) in
    if isValidId (minFed dep) then set_minFedActual (minFed dep) m else set_minFed (fedID dep) m
  else if Te dep =? Te m then set_minFed invalidId (set_TeAlt (Te m) m)
  else m.

(** TimeDependencies.cpp:730-854 generateMinTimeImplementation *)
Definition generateMinTimeImplementation (mTime : tdata) (dep : dinfo) (ignore code : Z) : tdata :=
  if ts_ltb (tst dep) ts_time_granted then minTimeInit mTime dep ignore
  else if fedID dep =? ignore then
    if isBroker (fedID dep) && (Te dep <? minDe mTime) then set_minDe (Te dep) mTime else mTime
  else
    let m := set_minDe (minTimeMinDe (minDe mTime) dep code) mTime in
    minTimeTe (minTimeNext m dep code) dep.

(** TimeDependencies.cpp:861-863 the static maxDep *)
Definition maxDep : dinfo :=
  mkDep (td_start maxVal ts_initialized 50) invalidId false c_INDEPENDENT false false false false false false.

(** TimeDependencies.cpp:856-895 getExecEntryMinFederate; the loop stops at the first initialized
    minimum *)
Fixpoint execMinLoop (l : table) (self : Z) (ign : conn) (ignore : Z) (minDep : dinfo) : dinfo :=
  match l with
  | [] => minDep
  | dep :: r =>
      if negb (dependency dep) then execMinLoop r self ign ignore minDep
      else if fedID dep =? ignore then execMinLoop r self ign ignore minDep
      else if conn_eqb (connection dep) c_SELF || conn_eqb (connection dep) ign then execMinLoop r self ign ignore minDep
      else if isValidId self && (minFedActual dep =? self) then execMinLoop r self ign ignore minDep
      else if ts_ltb ts_exec_requested_iterative (tst dep) then execMinLoop r self ign ignore minDep
      else if restrictionLevel minDep <? restrictionLevel dep then execMinLoop r self ign ignore minDep
      else if negb (isValidId (fedID minDep)) || (fedID dep <? fedID minDep) then
        if ts_eqb (tst dep) ts_initialized then maxDep
        else execMinLoop r self ign ignore dep
      else execMinLoop r self ign ignore minDep
  end.
Definition getExecEntryMinFederate (l : table) (self : Z) (ign : conn) (ignore : Z) : dinfo :=
  execMinLoop l self ign ignore maxDep.

(** TimeDependencies.cpp:903/942/984 : the starting accumulator *)
Definition mTime0 : tdata := td_start maxVal ts_error 0.

(** the common loop of TimeDependencies.cpp:905-917, 943-954, 985-994, over the entries kept by
    the three functions *)
Definition minTimeLoop (keep : dinfo -> bool) (ignore code : Z) (l : table) : tdata :=
  fold_left (fun m dep => if keep dep then generateMinTimeImplementation m dep ignore code else m) l mTime0.

(** TimeDependencies.cpp:918-926, 955-963, 996-1004: final adjustments before the exec-entry override *)
Definition minTimeAdjust (restricted : bool) (m : tdata) : tdata :=
  let m := if Te m <? minDe m then set_minDe (Te m) m else m in
  if negb restricted && (next m <? minDe m) then set_next (minDe m) m else m.

(** TimeDependencies.cpp:928-932, 964-967, 1005-1009 *)
Definition minTimeInitOverride (m : tdata) : tdata :=
  if ts_ltb (tst m) ts_time_granted
  then set_next initializationTime (set_minDe initializationTime (set_Te initializationTime m))
  else m.

(** entries considered: TimeDependencies.cpp:986-992 (total), 906-914 (upstream), 944-952 (downstream) *)
Definition keepTotal (self : Z) (d : dinfo) : bool :=
  dependency d && negb (isValidId self && (minFedActual d =? self)).
Definition keepUpstream (self : Z) (d : dinfo) : bool :=
  dependency d && negb (conn_eqb (connection d) c_PARENT) && negb (isValidId self && (minFedActual d =? self)).
Definition keepDownstream (self : Z) (d : dinfo) : bool :=
  dependency d && conn_eqb (connection d) c_PARENT && negb (isValidId self && (minFedActual d =? self)).

(** TimeDependencies.cpp:978-1011 generateMinTimeTotal *)
Definition generateMinTimeTotal (l : table) (restricted : bool) (self ignore code : Z) : tdata :=
  minTimeInitOverride (minTimeAdjust restricted (minTimeLoop (keepTotal self) ignore code l)).

(** TimeDependencies.cpp:897-934 generateMinTimeUpstream *)
Definition generateMinTimeUpstream (l : table) (restricted : bool) (self ignore code : Z) : tdata :=
  let m := minTimeAdjust restricted (minTimeLoop (keepUpstream self) ignore code l) in
  let cnt := fold_left (fun a d => if keepUpstream self d then a + sequenceCounter d else a) l 0 in
  minTimeInitOverride (set_sequenceCounter cnt m).

(** TimeDependencies.cpp:936-976 generateMinTimeDownstream *)
Definition generateMinTimeDownstream (l : table) (restricted : bool) (self ignore code : Z) : tdata :=
  let m := minTimeInitOverride (minTimeAdjust restricted (minTimeLoop (keepDownstream self) ignore code l)) in
  if ts_ltb (tst m) ts_exec_requested
  then set_minFed (fedID (getExecEntryMinFederate l self c_CHILD ignore)) m
  else m.

(** TimeDependencies.cpp:179-228 TimeData::update *)
Definition td_update (o u : tdata) : tdata * bool :=
  let changed := negb (ts_eqb (tst o) (tst u)) || negb (Te o =? Te u) || negb (minDe o =? minDe u)
                 || negb (TeAlt o =? TeAlt u) || negb (next o =? next u) || negb (minFed o =? minFed u)
                 || negb (Bool.eqb (interrupted o) (interrupted u))
                 || negb (responseSequenceCounter o =? responseSequenceCounter u)
                 || negb (minFedActual o =? minFedActual u) in
  (set_tst (tst u) (set_next (next u) (set_Te (Te u) (set_minDe (minDe u) (set_TeAlt (TeAlt u)
     (set_minFed (minFed u) (set_sequenceCounter (sequenceCounter u) (set_interrupted (interrupted u)
     (set_responseSequenceCounter (responseSequenceCounter u) (set_minFedActual (minFedActual u) o))))))))),
   changed).
