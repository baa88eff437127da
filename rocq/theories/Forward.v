(** * The time coordinator of brokers and cores (model of ForwardingTimeCoordinator.cpp) *)
From Coq Require Import ZArith Bool List Lia.
From Verif Require Import HTime Action TimeDep TimeCoord.
Import ListNotations.
Open Scope Z_scope.

(** ForwardingTimeCoordinator.hpp:27-38 and the members of BaseTimeCoordinator.hpp:33-45 which it uses.
    [w_delayed] is TimeDependencies::mDelayedDependency (TimeDependencies.hpp:132); [w_entered] is
    CoreBroker::enteredExecutionMode (CoreBroker.hpp), [w_operating] stands for
    getBrokerState() >= BrokerState::OPERATING.  The members federatesOnly, checkingExec, iterating and
    ignoreMinFed are never read by this class. *)
Record fwd : Type := mkFwd {
  w_deps : table;
  w_id : Z;
  w_seq : Z;
  w_mod : Z;
  w_noParent : bool;
  w_execMode : bool;
  w_restrictive : bool;
  w_up : tdata;
  w_down : tdata;
  w_delayed : Z;
  w_disconnected : bool;
  w_operating : bool;
  w_entered : bool
}.
(** field update of [fwd] above (C++ member assignment) *)
Definition set_w_deps (v : table) (r : fwd) : fwd := mkFwd v (w_id r) (w_seq r) (w_mod r) (w_noParent r) (w_execMode r) (w_restrictive r) (w_up r) (w_down r) (w_delayed r) (w_disconnected r) (w_operating r) (w_entered r).
(** field update of [fwd] above (C++ member assignment) *)
Definition set_w_id (v : Z) (r : fwd) : fwd := mkFwd (w_deps r) v (w_seq r) (w_mod r) (w_noParent r) (w_execMode r) (w_restrictive r) (w_up r) (w_down r) (w_delayed r) (w_disconnected r) (w_operating r) (w_entered r).
(** field update of [fwd] above (C++ member assignment) *)
Definition set_w_seq (v : Z) (r : fwd) : fwd := mkFwd (w_deps r) (w_id r) v (w_mod r) (w_noParent r) (w_execMode r) (w_restrictive r) (w_up r) (w_down r) (w_delayed r) (w_disconnected r) (w_operating r) (w_entered r).
(** field update of [fwd] above (C++ member assignment) *)
Definition set_w_mod (v : Z) (r : fwd) : fwd := mkFwd (w_deps r) (w_id r) (w_seq r) v (w_noParent r) (w_execMode r) (w_restrictive r) (w_up r) (w_down r) (w_delayed r) (w_disconnected r) (w_operating r) (w_entered r).
(** field update of [fwd] above (C++ member assignment) *)
Definition set_w_noParent (v : bool) (r : fwd) : fwd := mkFwd (w_deps r) (w_id r) (w_seq r) (w_mod r) v (w_execMode r) (w_restrictive r) (w_up r) (w_down r) (w_delayed r) (w_disconnected r) (w_operating r) (w_entered r).
(** field update of [fwd] above (C++ member assignment) *)
Definition set_w_execMode (v : bool) (r : fwd) : fwd := mkFwd (w_deps r) (w_id r) (w_seq r) (w_mod r) (w_noParent r) v (w_restrictive r) (w_up r) (w_down r) (w_delayed r) (w_disconnected r) (w_operating r) (w_entered r).
(** field update of [fwd] above (C++ member assignment) *)
Definition set_w_restrictive (v : bool) (r : fwd) : fwd := mkFwd (w_deps r) (w_id r) (w_seq r) (w_mod r) (w_noParent r) (w_execMode r) v (w_up r) (w_down r) (w_delayed r) (w_disconnected r) (w_operating r) (w_entered r).
(** field update of [fwd] above (C++ member assignment) *)
Definition set_w_up (v : tdata) (r : fwd) : fwd := mkFwd (w_deps r) (w_id r) (w_seq r) (w_mod r) (w_noParent r) (w_execMode r) (w_restrictive r) v (w_down r) (w_delayed r) (w_disconnected r) (w_operating r) (w_entered r).
(** field update of [fwd] above (C++ member assignment) *)
Definition set_w_down (v : tdata) (r : fwd) : fwd := mkFwd (w_deps r) (w_id r) (w_seq r) (w_mod r) (w_noParent r) (w_execMode r) (w_restrictive r) (w_up r) v (w_delayed r) (w_disconnected r) (w_operating r) (w_entered r).
(** field update of [fwd] above (C++ member assignment) *)
Definition set_w_delayed (v : Z) (r : fwd) : fwd := mkFwd (w_deps r) (w_id r) (w_seq r) (w_mod r) (w_noParent r) (w_execMode r) (w_restrictive r) (w_up r) (w_down r) v (w_disconnected r) (w_operating r) (w_entered r).
(** field update of [fwd] above (C++ member assignment) *)
Definition set_w_disconnected (v : bool) (r : fwd) : fwd := mkFwd (w_deps r) (w_id r) (w_seq r) (w_mod r) (w_noParent r) (w_execMode r) (w_restrictive r) (w_up r) (w_down r) (w_delayed r) v (w_operating r) (w_entered r).
(** field update of [fwd] above (C++ member assignment) *)
Definition set_w_operating (v : bool) (r : fwd) : fwd := mkFwd (w_deps r) (w_id r) (w_seq r) (w_mod r) (w_noParent r) (w_execMode r) (w_restrictive r) (w_up r) (w_down r) (w_delayed r) (w_disconnected r) v (w_entered r).
(** field update of [fwd] above (C++ member assignment) *)
Definition set_w_entered (v : bool) (r : fwd) : fwd := mkFwd (w_deps r) (w_id r) (w_seq r) (w_mod r) (w_noParent r) (w_execMode r) (w_restrictive r) (w_up r) (w_down r) (w_delayed r) (w_disconnected r) (w_operating r) v.


(** the state after construction (BaseTimeCoordinator.hpp:33-45, ForwardingTimeCoordinator.hpp:30-38) *)
Definition fwd_init (id : Z) (restrictive : bool) : fwd :=
  mkFwd [] id 0 0 true false restrictive td_default td_default invalidId false false false.

(** BaseTimeCoordinator.hpp:63-68 normalizeSequenceCounter *)
Definition normalizeSeq (s : Z) : Z := if 32767 <? s then 1 else s.

(** BaseTimeCoordinator.cpp:306-383 generateTimeRequest, as modelled in TimeCoord.v; it reads only the
    identifier and the sequence counter of the coordinator *)
Definition forwardRequest (w : fwd) (dep : tdata) (fed code : Z) : amsg :=
  generateTimeRequest (set_c_seq (w_seq w) (tc_init (w_id w) opts_default)) dep fed code.

(** TimeDependencies.cpp:710-728: the delayed dependency remembered by checkForIssues(false) *)
Definition issueDep (d : dinfo) : bool :=
  dependency d && dependent d && delayedTiming d && negb (conn_eqb (connection d) c_SELF).
Definition noteDelayed (l : table) (old : Z) : Z :=
  match filter issueDep l with [] => old | [d] => fedID d | _ :: d :: _ => fedID d end.
(** TimeDependencies.hpp:214 hasDelayedDependency *)
Definition hasDelayed (w : fwd) : bool := isValidId (w_delayed w).

(** ForwardingTimeCoordinator.cpp:25-47 generateDependencyInfoExcluding *)
Definition generateExcluding (l : table) (restrictive : bool) (self excluded : Z) : tdata :=
  let m := generateMinTimeUpstream l restrictive self excluded 0 in
  let pending := existsb (fun dep => dependency dep && negb (fedID dep =? excluded) && negb (conn_eqb (connection dep) c_PARENT)
                   && (negb (isValidId self) || negb (minFedActual dep =? self))
                   && (ts_eqb (tst dep) ts_error || (next dep <? cTerminationTime))) l in
  if ts_eqb (tst m) ts_error && negb pending then td_start maxVal ts_time_granted 0
  else fst (td_update td_default m).

(** ForwardingTimeCoordinator.cpp:200-219 transmitTimingMessagesUpstream *)
Definition toUpstream (d : dinfo) : bool := negb (conn_eqb (connection d) c_CHILD) && dependent d.
Definition withResponse (m : amsg) (d : dinfo) : amsg :=
  if (m_action m =? CMD_EXEC_REQUEST) || (m_action m =? CMD_TIME_REQUEST) then setExtraDestData (sequenceCounter d) m else m.
Definition transmitUpstream (w : fwd) (m : amsg) : list amsg :=
  map (fun d => set_m_dest_id (fedID d) (withResponse m d)) (filter toUpstream (w_deps w)).

(** ForwardingTimeCoordinator.cpp:221-264 transmitTimingMessagesDownstream.  The C++ code modifies one message
    object; the response counter set for one receiver is overwritten for the next one, so every message is the
    original with its own receiver's data. *)
Definition toDownstream (m : amsg) (skip : Z) (d : dinfo) : bool :=
  if (m_action m =? CMD_TIME_REQUEST) || (m_action m =? CMD_TIME_GRANT) then
    conn_eqb (connection d) c_CHILD && dependent d && negb (fedID d =? skip)
    && negb (dependency d && (m_actionTime m <? next d) && (next d <? cTerminationTime))
  else dependent d && negb (fedID d =? skip).
Definition transmitDownstream (w : fwd) (m : amsg) (skip : Z) : list amsg :=
  map (fun d => set_m_dest_id (fedID d) (withResponse m d)) (filter (toDownstream m skip) (w_deps w)).

(** ForwardingTimeCoordinator.cpp:48-86: the new upstream and downstream values *)
Definition recompute (w : fwd) : fwd * bool * bool * tdata :=
  let mu := generateMinTimeUpstream (w_deps w) (w_restrictive w) (w_id w) invalidId (w_seq w) in
  let md := if w_noParent w then mu
            else generateMinTimeDownstream (w_deps w) (w_restrictive w) (w_id w) invalidId (w_seq w) in
  let '(up, updUp) := if ts_ltb ts_exec_requested (tst mu) || negb (w_execMode w) then td_update (w_up w) mu else (w_up w, false) in
  let '(down, updDown) := if ts_ltb ts_exec_requested (tst md) || negb (w_execMode w) then td_update (w_down w) md else (w_down w, false) in
  let down := if ts_eqb (tst up) ts_time_requested then
                let down := if minDe up <? minDe down then set_minDe (minDe up) down else down in
                if Te up <? Te down then set_Te (Te up) down else down
              else down in
  let w := set_w_seq (normalizeSeq (sequenceCounter up + w_mod w)) (set_w_down down (set_w_up up w)) in
  (w, updUp, updDown, md).
(** send a message unless it is CMD_IGNORE (ForwardingTimeCoordinator.cpp:91, 99, 117) *)
Definition unlessIgnored (m : amsg) (out : list amsg) : list amsg := if m_action m =? CMD_IGNORE then [] else out.
(** ForwardingTimeCoordinator.cpp:48-137 updateTimeFactors *)
Definition fwdUpdate (w0 : fwd) : fwd * list amsg :=
  let '(w, updUp, updDown, md) := recompute w0 in
  let up := let m := forwardRequest w (w_up w) invalidId (responseSequenceCounter (w_up w)) in unlessIgnored m (transmitUpstream w m) in
  let down := forwardRequest w (w_down w) invalidId 0 in
  let exclude g := let d := generateExcluding (w_deps w) (w_restrictive w) (w_id w) g in [forwardRequest w d g (responseSequenceCounter d)] in
  (w, (if updUp || updDown then up else []) ++
      (if updDown then
         if hasDelayed w && isValidId (minFed (w_down w))
         then unlessIgnored down (transmitDownstream w down (minFed (w_down w))) ++ exclude (minFed (w_down w))
         else unlessIgnored down (transmitDownstream w down invalidId)
       else if hasDelayed w && isValidId (minFed md) && w_execMode w then exclude (minFed md)
       else [])).

(** BaseTimeCoordinator.cpp:385-411 and ForwardingTimeCoordinator.cpp:165-177 processTimeMessage *)
Definition fwdRemoves (a : Z) : bool :=
  (a =? CMD_DISCONNECT) || (a =? CMD_DISCONNECT_BROKER) || (a =? CMD_DISCONNECT_FED) || (a =? CMD_DISCONNECT_CORE)
  || (a =? CMD_BROADCAST_DISCONNECT).
Definition fwdMessage (w : fwd) (cmd : amsg) : fwd * list amsg * tpr :=
  let w := if fwdRemoves (m_action cmd) then set_w_deps (removeDependent (w_deps w) (m_source_id cmd)) w else w in
  let '(deps, r) := updateTime (w_deps w) cmd in
  let w := set_w_deps deps w in
  match r with
  | PROCESSED_AND_CHECK =>
      (set_w_delayed (noteDelayed deps (w_delayed w)) w,
       if checkForIssues false deps then [set_m_messageID 15 (set_m_dest_id parent_broker_id (newMsg CMD_GLOBAL_ERROR (w_id w)))] else [], r)
  | PROCESSED_NEW_REQUEST =>
      let md := w_mod w + 100 in
      let md := if 16000 <? md then 100 else md in
      (set_w_seq (normalizeSeq (sequenceCounter (w_up w) + md)) (set_w_mod md w), [], r)
  | _ => (w, [], r)
  end.

(** ForwardingTimeCoordinator.cpp:179-223 checkExecEntry; the second component tells whether the coordinator
    entered execution mode *)
Definition execAllowed (w : fwd) : bool :=
  checkIfReadyForExecEntry false false (w_deps w)
  || (ts_eqb (tst (w_down w)) ts_exec_requested_iterative
      && forallb (fun dep => negb (dependency dep && ts_ltb (tst dep) ts_exec_requested)
                    || ((minFed dep =? w_id w) && (responseSequenceCounter dep =? sequenceCounter (w_down w)))) (w_deps w)).
Definition fwdExecEntry (w : fwd) : fwd * list amsg * bool :=
  if execAllowed w then
    let w := set_w_down (set_next timeZero (set_tst ts_time_granted (set_minDe timeZero (w_down w)))) (set_w_execMode true w) in
    let m := newMsg CMD_EXEC_GRANT (w_id w) in
    (w, transmitDownstream w m invalidId ++ transmitUpstream w m, true)
  else (w, [], false).

(** BaseTimeCoordinator.cpp:45-79 enteringExecMode (federatesOnly and checkingExec are not used by this class) *)
Definition fwdEnteringExec (w : fwd) : fwd * list amsg :=
  if w_execMode w then (w, [])
  else
    let '(w, out, bad) :=
      match w_deps w with
      | [] => (w, [], false)
      | _ => let '(w, out) := fwdUpdate w in
             let w := set_w_delayed (noteDelayed (w_deps w) (w_delayed w)) w in
             if checkForIssues false (w_deps w)
             then (w, out ++ [set_m_messageID 15 (set_m_dest_id parent_broker_id (newMsg CMD_GLOBAL_ERROR (w_id w)))], true)
             else (w, out, false)
      end in
    if bad then (w, out)
    else
      let w := set_w_noParent (negb (existsb (fun d => conn_eqb (connection d) c_PARENT) (w_deps w))) w in
      let m := setExtraData 1 (newMsg CMD_TIMING_INFO (w_id w)) in
      (w, out ++ map (fun d => set_m_dest_id (fedID d) m) (filter dependent (w_deps w))).

(** BaseTimeCoordinator.cpp:150-215 addDependency, addDependent, setAsChild, setAsParent, setVersion *)
Definition fwdAddDependency (w : fwd) (g : Z) : fwd * bool :=
  let '(deps, added) := addDependency (w_deps w) g in
  (set_w_deps (if added && (g =? w_id w) then updDep deps g (set_connection c_SELF) else deps) w, added).
Definition fwdConnection (w : fwd) (g : Z) (k : conn) : fwd :=
  if g =? w_id w then w
  else let w1 := set_w_deps (updDep (w_deps w) g (set_connection k)) w in
       match k, getDep (w_deps w) g with c_PARENT, Some _ => set_w_noParent false w1 | _, _ => w1 end.
Definition fwdVersion (w : fwd) (g v : Z) : fwd := set_w_deps (updDep (w_deps w) g (updTD (set_timingVersion v))) w.
(** BaseTimeCoordinator.cpp:413-454 processDependencyUpdateMessage *)
Definition fwdDependencyUpdate (w : fwd) (cmd : amsg) : fwd :=
  let a := m_action cmd in
  let g := m_source_id cmd in
  let '(w, added) :=
    if a =? CMD_ADD_DEPENDENCY then fwdAddDependency w g
    else if a =? CMD_REMOVE_DEPENDENCY then (set_w_deps (removeDependency (w_deps w) g) w, false)
    else if a =? CMD_ADD_DEPENDENT then (set_w_deps (fst (addDependent (w_deps w) g)) w, false)
    else if a =? CMD_REMOVE_DEPENDENT then (set_w_deps (removeDependent (w_deps w) g) w, false)
    else if a =? CMD_ADD_INTERDEPENDENCY then
      let '(w, ad) := fwdAddDependency w g in (set_w_deps (fst (addDependent (w_deps w) g)) w, ad)
    else if a =? CMD_REMOVE_INTERDEPENDENCY then
      (set_w_deps (removeDependent (removeDependency (w_deps w) g) g) w, false)
    else if a =? CMD_TIMING_INFO then (set_w_deps (fst (updateTime (w_deps w) cmd)) w, false)
    else (w, false) in
  if added then
    let w := if checkFlag child_flag cmd then fwdConnection w g c_CHILD else w in
    let w := if checkFlag parent_flag cmd then fwdConnection w g c_PARENT else w in
    if 0 <? m_counter cmd then fwdVersion w g (s8 (m_counter cmd)) else w
  else w.

(** ** The broker around the coordinator: what CoreBroker does with the timing commands addressed to it *)
Inductive bevent :=
| B_timing (cmd : amsg)      (* CMD_TIME_REQUEST, CMD_TIME_GRANT, CMD_REQUEST_CURRENT_TIME: CoreBroker.cpp:1384-1412 *)
| B_exec (cmd : amsg)        (* CMD_EXEC_REQUEST, CMD_EXEC_GRANT: CoreBroker.cpp:1344-1362 *)
| B_disconnect (cmd : amsg)  (* disconnectTiming: CoreBroker.cpp:3349-3366 *)
| B_error (cmd : amsg)       (* CMD_LOCAL_ERROR: CoreBroker.cpp:3329-3331 *)
| B_dependency (cmd : amsg)  (* CoreBroker.cpp:1543 *)
| B_child (g : Z)            (* CommonCore.cpp:3970-3982: a local federate of a core joins; CoreBroker.cpp:666-668 *)
| B_parent (g : Z)           (* CoreBroker.cpp:2189-2198: the first endpoint or input makes the parent an interdependency *)
| B_init.                    (* CoreBroker.cpp:1680-1689, 3056-3065: initialization is granted *)
(** the results of checkExecEntry set CoreBroker::enteredExecutionMode *)
Definition noteEntry (r : fwd * list amsg * bool) : fwd * list amsg :=
  let '(w, out, e) := r in (if e then set_w_entered true w else w, out).
Definition tprProcessed (r : tpr) : bool := match r with NOT_PROCESSED => false | _ => true end.
(** the cases cited at [bevent]; commands for other destinations are routed on unchanged and not modelled *)
Definition bstep (w : fwd) (e : bevent) : fwd * list amsg :=
  match e with
  | B_timing cmd =>
      let '(w, out, r) := fwdMessage w cmd in
      if negb (tprProcessed r) then (w, out)
      else if w_entered w then let '(w, o) := fwdUpdate w in (w, out ++ o)
      else if w_operating w then let '(w, o) := noteEntry (fwdExecEntry w) in (w, out ++ o)
      else (w, out)
  | B_exec cmd =>
      let '(w, out, r) := fwdMessage w cmd in
      if negb (tprProcessed r) then (w, out)
      else if negb (w_entered w) && w_operating w then
        match fwdExecEntry w with
        | (w, o, true) => (set_w_entered true w, out ++ o)
        | (w, o, false) => let '(w, o') := fwdUpdate w in (w, out ++ o ++ o')
        end
      else (w, out)
  | B_disconnect cmd =>
      if negb (w_entered w) then
        if w_operating w then
          let '(w, out, r) := fwdMessage w cmd in
          if tprProcessed r then let '(w, o) := noteEntry (fwdExecEntry w) in (w, out ++ o) else (w, out)
        else (w, [])
      else
        let '(w, out, r) := fwdMessage w cmd in
        if tprProcessed r then let '(w, o) := fwdUpdate w in (w, out ++ o) else (w, out)
  | B_error cmd => let '(w, out, _) := fwdMessage w cmd in (w, out)
  | B_dependency cmd => (fwdDependencyUpdate w cmd, [])
  | B_child g =>
      let w := fst (fwdAddDependency w g) in
      (fwdConnection (set_w_deps (fst (addDependent (w_deps w) g)) w) g c_CHILD, [])
  | B_parent g =>
      let '(w, added) := fwdAddDependency w g in
      (if added then fwdConnection (set_w_deps (fst (addDependent (w_deps w) g)) w) g c_PARENT else w, [])
  | B_init =>
      let w := set_w_operating true w in
      let '(w, o1) := fwdEnteringExec w in
      let '(w, o2) := noteEntry (fwdExecEntry w) in (w, o1 ++ o2)
  end.
(** a history of the broker *)
Definition brun (w : fwd) (es : list bevent) : fwd := fold_left (fun w e => fst (bstep w e)) es w.
