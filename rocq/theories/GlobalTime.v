(** * The time coordinator of a root broker with a global clock (model of GlobalTimeCoordinator.cpp)

    With --timing=global all federates depend on the root broker and on nobody else.  The coordinator asks the federates
    which may act next for their current times (CMD_REQUEST_CURRENT_TIME, with the number of the round), and when all of
    them have confirmed it permits them to go on (CMD_TIME_REQUEST). *)
From Coq Require Import ZArith Bool List Lia.
From Verif Require Import HTime Action TimeDep TimeCoord Forward.
Import ListNotations.
Open Scope Z_scope.

(** GlobalTimeCoordinator.hpp:24-40 and the members of BaseTimeCoordinator.hpp:28-45 which it uses; [g_operating] and
    [g_entered] as in Forward.v.  [g_rounds] counts the increments of the sequence counter (not in the code). *)
Record gco : Type := mkG {
  g_deps : table;
  g_id : Z;
  g_seq : Z;
  g_st : tstate;
  g_min : Z;
  g_next : Z;
  g_new : bool;
  g_exec : bool;
  g_checking : bool;
  g_operating : bool;
  g_entered : bool;
  g_rounds : Z
}.
(** field update of [gco] above (C++ member assignment) *)
Definition set_g_deps (v : table) (r : gco) : gco := mkG v (g_id r) (g_seq r) (g_st r) (g_min r) (g_next r) (g_new r) (g_exec r) (g_checking r) (g_operating r) (g_entered r) (g_rounds r).
(** field update of [gco] above (C++ member assignment) *)
Definition set_g_id (v : Z) (r : gco) : gco := mkG (g_deps r) v (g_seq r) (g_st r) (g_min r) (g_next r) (g_new r) (g_exec r) (g_checking r) (g_operating r) (g_entered r) (g_rounds r).
(** field update of [gco] above (C++ member assignment) *)
Definition set_g_seq (v : Z) (r : gco) : gco := mkG (g_deps r) (g_id r) v (g_st r) (g_min r) (g_next r) (g_new r) (g_exec r) (g_checking r) (g_operating r) (g_entered r) (g_rounds r).
(** field update of [gco] above (C++ member assignment) *)
Definition set_g_st (v : tstate) (r : gco) : gco := mkG (g_deps r) (g_id r) (g_seq r) v (g_min r) (g_next r) (g_new r) (g_exec r) (g_checking r) (g_operating r) (g_entered r) (g_rounds r).
(** field update of [gco] above (C++ member assignment) *)
Definition set_g_min (v : Z) (r : gco) : gco := mkG (g_deps r) (g_id r) (g_seq r) (g_st r) v (g_next r) (g_new r) (g_exec r) (g_checking r) (g_operating r) (g_entered r) (g_rounds r).
(** field update of [gco] above (C++ member assignment) *)
Definition set_g_next (v : Z) (r : gco) : gco := mkG (g_deps r) (g_id r) (g_seq r) (g_st r) (g_min r) v (g_new r) (g_exec r) (g_checking r) (g_operating r) (g_entered r) (g_rounds r).
(** field update of [gco] above (C++ member assignment) *)
Definition set_g_new (v : bool) (r : gco) : gco := mkG (g_deps r) (g_id r) (g_seq r) (g_st r) (g_min r) (g_next r) v (g_exec r) (g_checking r) (g_operating r) (g_entered r) (g_rounds r).
(** field update of [gco] above (C++ member assignment) *)
Definition set_g_exec (v : bool) (r : gco) : gco := mkG (g_deps r) (g_id r) (g_seq r) (g_st r) (g_min r) (g_next r) (g_new r) v (g_checking r) (g_operating r) (g_entered r) (g_rounds r).
(** field update of [gco] above (C++ member assignment) *)
Definition set_g_checking (v : bool) (r : gco) : gco := mkG (g_deps r) (g_id r) (g_seq r) (g_st r) (g_min r) (g_next r) (g_new r) (g_exec r) v (g_operating r) (g_entered r) (g_rounds r).
(** field update of [gco] above (C++ member assignment) *)
Definition set_g_operating (v : bool) (r : gco) : gco := mkG (g_deps r) (g_id r) (g_seq r) (g_st r) (g_min r) (g_next r) (g_new r) (g_exec r) (g_checking r) v (g_entered r) (g_rounds r).
(** field update of [gco] above (C++ member assignment) *)
Definition set_g_entered (v : bool) (r : gco) : gco := mkG (g_deps r) (g_id r) (g_seq r) (g_st r) (g_min r) (g_next r) (g_new r) (g_exec r) (g_checking r) (g_operating r) v (g_rounds r).
(** field update of [gco] above (C++ member assignment) *)
Definition set_g_rounds (v : Z) (r : gco) : gco := mkG (g_deps r) (g_id r) (g_seq r) (g_st r) (g_min r) (g_next r) (g_new r) (g_exec r) (g_checking r) (g_operating r) (g_entered r) v.


(** GlobalTimeCoordinator.hpp:26-28, 36-37 *)
Definition gco_init (id : Z) : gco := mkG [] id 0 ts_initialized minVal maxVal true false false false false 0.

(** BaseTimeCoordinator.hpp:55-61 incrementSequenceCounter *)
Definition nextSeq (s : Z) : Z := if 32767 <? s + 1 then 1 else s + 1.
Definition incSeq (g : gco) : gco := set_g_rounds (g_rounds g + 1) (set_g_seq (nextSeq (g_seq g)) g).
(** GlobalTimeCoordinator.cpp:24-35 findNextTriggerEvent *)
Definition findNextTriggerEvent (l : table) : Z :=
  fold_left (fun m d => if negb (nonGranting d) && (Te d <? m) then Te d else m) l maxVal.
(** GlobalTimeCoordinator.cpp:37-59 checkForTriggered *)
Definition trigOne (e : Z) (acc : bool * Z) (d : dinfo) : bool * Z :=
  let '(t, m) := acc in
  if e <? next d then (t, if Te d <? m then Te d else m)
  else if nonGranting d then (if triggered d then true else t, m)
  else (t, if Te d <? m then Te d else m).
Definition checkForTriggered (l : table) (e : Z) : bool * Z := fold_left (trigOne e) l (false, maxVal).
(** GlobalTimeCoordinator.cpp:96-97, 104-105, 110 *)
Definition trigTime (e : Z) : Z := if e <? cTerminationTime then e + 1 else e.
(** GlobalTimeCoordinator.cpp:67, 127: who is asked, and who is told *)
Definition addressed (t : Z) (d : dinfo) : bool := (next d <=? t) && (next d <? cTerminationTime).
(** GlobalTimeCoordinator.cpp:61-75 sendTimeUpdateRequest *)
Definition askMsg (id sq : Z) (d : dinfo) : amsg :=
  setExtraDestData (sequenceCounter d) (set_m_counter sq (set_m_dest_id (fedID d) (newMsg CMD_REQUEST_CURRENT_TIME id))).
Definition askDep (t sq : Z) (d : dinfo) : dinfo :=
  if addressed t d then updTD (set_grantedIteration sq) (set_updateRequested true d) else d.
Definition sendRound (t : Z) (g : gco) : gco * list amsg :=
  let g := set_g_seq (normalizeSeq (g_seq g)) g in
  (set_g_deps (map (askDep t (g_seq g)) (g_deps g)) g, map (askMsg (g_id g) (g_seq g)) (filter (addressed t) (g_deps g))).
(** GlobalTimeCoordinator.cpp:119-133: the permission *)
Definition permitMsg (id sq t : Z) (d : dinfo) : amsg :=
  setExtraDestData (sequenceCounter d) (set_m_counter sq (set_m_Tdemin t (set_m_Te t (set_m_actionTime t (set_m_dest_id (fedID d) (newMsg CMD_TIME_REQUEST id)))))).
Definition isRequested (s : tstate) : bool := ts_eqb s ts_time_requested || ts_eqb s ts_time_requested_iterative || ts_eqb s ts_time_requested_require_iteration.
(** GlobalTimeCoordinator.cpp:106-137: a round is under way.  The loop in lines 138-159 only prints. *)
Definition gConfirm (mt : tdata) (g : gco) : gco * list amsg :=
  let t0 := trigTime (g_next g) in
  if verifySequenceCounter t0 (g_seq g) (g_deps g) then
    let '(trig, ev) := checkForTriggered (g_deps g) t0 in
    let t := trigTime ev in
    let verified := (ev <=? g_next g) || verifySequenceCounter t (g_seq g) (g_deps g) in
    let g := set_g_next ev g in
    if trig || negb verified || g_new g then sendRound t (set_g_new false (incSeq g))
    else
      let g := incSeq g in
      (set_g_next (Te mt) (set_g_min (Te mt) (set_g_st ts_time_granted g)), map (permitMsg (g_id g) (g_seq g) t) (filter (addressed t) (g_deps g)))
  else (g, []).
(** GlobalTimeCoordinator.cpp:77-166 updateTimeFactors *)
Definition gUpdate (g : gco) : gco * list amsg :=
  let mt := generateMinTimeUpstream (g_deps g) true (g_id g) invalidId 0 in
  if negb (g_exec g) && ts_ltb (tst mt) ts_time_granted then (set_g_next (next mt) (set_g_min (next mt) (set_g_st (tst mt) g)), [])
  else if ts_eqb (tst mt) ts_time_granted then (set_g_next (next mt) (set_g_min (next mt) (set_g_st ts_time_granted g)), [])
  else if isRequested (tst mt) then
    if ts_eqb (g_st g) ts_time_granted then
      let ev := findNextTriggerEvent (g_deps g) in
      sendRound (trigTime ev) (set_g_new false (incSeq (set_g_next ev (set_g_min (next mt) (set_g_st ts_time_requested g)))))
    else if ts_eqb (g_st g) ts_time_requested then gConfirm mt g
    else (g, [])
  else (g, []).
(** BaseTimeCoordinator.cpp:385-411 and GlobalTimeCoordinator.cpp:168-175 processTimeMessage *)
Definition gMessage (g : gco) (cmd : amsg) : gco * list amsg * tpr :=
  let g := if fwdRemoves (m_action cmd) then set_g_deps (removeDependent (g_deps g) (m_source_id cmd)) g else g in
  let '(deps, r) := updateTime (g_deps g) cmd in
  let g := set_g_deps deps g in
  match r with
  | PROCESSED_AND_CHECK => (g, if checkForIssues false deps then [set_m_messageID 15 (set_m_dest_id parent_broker_id (newMsg CMD_GLOBAL_ERROR (g_id g)))] else [], r)
  | PROCESSED_NEW_REQUEST => (set_g_new true g, [], r)
  | _ => (g, [], r)
  end.
(** GlobalTimeCoordinator.cpp:194-309 checkExecEntry and the transmissions of the exec grant; the log message is left out *)
Definition gExecAllowed (g : gco) : bool :=
  checkIfReadyForExecEntry false false (g_deps g)
  || (ts_eqb (g_st g) ts_exec_requested_iterative
      && forallb (fun dep => negb (dependency dep && ts_ltb (tst dep) ts_exec_requested) || ((minFed dep =? g_id g) && (responseSequenceCounter dep =? g_seq g))) (g_deps g)).
Definition gExecEntry (g : gco) : gco * list amsg * bool :=
  if g_checking g && gExecAllowed g then
    let m := newMsg CMD_EXEC_GRANT (g_id g) in
    (set_g_next timeZero (set_g_st ts_time_granted (set_g_min timeZero (set_g_exec true g))),
     map (fun d => set_m_dest_id (fedID d) m) (filter dependent (g_deps g)) ++ map (fun d => set_m_dest_id (fedID d) m) (filter toUpstream (g_deps g)), true)
  else (g, [], false).
(** BaseTimeCoordinator.cpp:45-79 enteringExecMode (federatesOnly and noParent are not used by this class) *)
Definition gEnteringExec (g : gco) : gco * list amsg :=
  if g_exec g then (g, [])
  else
    let g := set_g_checking true g in
    let '(g, out, bad) :=
      match g_deps g with
      | [] => (g, [], false)
      | _ => let '(g, out) := gUpdate g in
             if checkForIssues false (g_deps g) then (g, out ++ [set_m_messageID 15 (set_m_dest_id parent_broker_id (newMsg CMD_GLOBAL_ERROR (g_id g)))], true) else (g, out, false)
      end in
    if bad then (g, out)
    else let m := setExtraData 1 (newMsg CMD_TIMING_INFO (g_id g)) in (g, out ++ map (fun d => set_m_dest_id (fedID d) m) (filter dependent (g_deps g))).
(** the changes of the table are those of BaseTimeCoordinator, modelled in Forward.v *)
Definition onTable (f : fwd -> fwd) (g : gco) : gco := set_g_deps (w_deps (f (set_w_deps (g_deps g) (fwd_init (g_id g) false)))) g.
Definition gNote (r : gco * list amsg * bool) : gco * list amsg := let '(g, out, e) := r in (if e then set_g_entered true g else g, out).
(** the broker around it, as [bstep] of Forward.v (CoreBroker.cpp:1344-1412, 3329-3366, 1543, 660-669, 1680-1689) *)
Definition gstep (g : gco) (e : bevent) : gco * list amsg :=
  match e with
  | B_timing cmd =>
      let '(g, out, r) := gMessage g cmd in
      if negb (tprProcessed r) then (g, out)
      else if g_entered g then let '(g, o) := gUpdate g in (g, out ++ o)
      else if g_operating g then let '(g, o) := gNote (gExecEntry g) in (g, out ++ o)
      else (g, out)
  | B_exec cmd =>
      let '(g, out, r) := gMessage g cmd in
      if negb (tprProcessed r) then (g, out)
      else if negb (g_entered g) && g_operating g then
        match gExecEntry g with
        | (g, o, true) => (set_g_entered true g, out ++ o)
        | (g, o, false) => let '(g, o') := gUpdate g in (g, out ++ o ++ o')
        end
      else (g, out)
  | B_disconnect cmd =>
      if negb (g_entered g) then
        if g_operating g then
          let '(g, out, r) := gMessage g cmd in
          if tprProcessed r then let '(g, o) := gNote (gExecEntry g) in (g, out ++ o) else (g, out)
        else (g, [])
      else
        let '(g, out, r) := gMessage g cmd in
        if tprProcessed r then let '(g, o) := gUpdate g in (g, out ++ o) else (g, out)
  | B_error cmd => let '(g, out, _) := gMessage g cmd in (g, out)
  | B_dependency cmd => (onTable (fun w => fwdDependencyUpdate w cmd) g, [])
  | B_child c => (onTable (fun w => fst (bstep w (B_child c))) g, [])
  | B_parent c => (onTable (fun w => fst (bstep w (B_parent c))) g, [])
  | B_init =>
      let g := set_g_operating true g in
      let '(g, o1) := gEnteringExec g in
      let '(g, o2) := gNote (gExecEntry g) in (g, o1 ++ o2)
  end.
Definition grun (id : Z) (es : list bevent) : gco := fold_left (fun g e => fst (gstep g e)) es (gco_init id).
