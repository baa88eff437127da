(** * Connection monitoring and broker states (model)

    src/helics/core/TimeoutMonitor.cpp, TimeoutMonitor.h; src/helics/core/BrokerBase.cpp (setBrokerState,
    transitionBrokerState, setErrorState, the tick handling of queueProcessingLoop). *)
From Coq Require Import ZArith Bool List Lia.
Import ListNotations.
Open Scope Z_scope.

(** TimeoutMonitor.h:20-26 linkConnection.  Times are clock readings. *)
Record link := mkLink { l_waiting : bool; l_active : bool; l_disable : bool; l_id : Z; l_last : Z }.
(** TimeoutMonitor.h:53-57 *)
Record monitor := mkMon { mo_timeout : Z; mo_waitConn : bool; mo_startWait : Z; mo_parent : link; mo_conns : list link }.
Definition initMon : monitor := mkMon 100000000000000 false 0 (mkLink false false false 0 0) [].
(** what the monitor does: the sends and the commands queued *)
Inductive output :=
| LostParent                     (* errors and disconnect to everybody below, state ERRORED, CMD_STOP *)
| PingParent                     (* the first ping of a wait *)
| PingParentAgain
| Resend                         (* registration sent again *)
| CheckConnections
| LostConn (id : Z)              (* CMD_CONNECTION_ERROR *)
| PingConn (id : Z)
| PingConnAgain (id : Z)
| ForwardTicks (on : bool).
(** what the monitor reads of its core or broker: isConnected, a valid global id, higher_broker_id.isValid *)
Record env := mkEnv { e_root : bool; e_connected : bool; e_hasId : bool; e_higher : bool }.
(** the entries of mBrokers: id, state below ERROR_STATE, _disable_ping *)
Record subBroker := mkSub { s_id : Z; s_ok : bool; s_disable : bool }.

Definition wait (l : link) (now : Z) : link := mkLink true (l_active l) (l_disable l) (l_id l) now.
Definition setParentLink (l : link) (m : monitor) : monitor := mkMon (mo_timeout m) (mo_waitConn m) (mo_startWait m) l (mo_conns m).
Definition setConns (c : list link) (m : monitor) : monitor := mkMon (mo_timeout m) (mo_waitConn m) (mo_startWait m) (mo_parent m) c.
(** TimeoutMonitor.cpp:60-86 (both branches are the same) *)
Definition awaitConnection (now : Z) (m : monitor) : monitor * list output :=
  if mo_waitConn m then (m, if mo_timeout m <? now - mo_startWait m then [CheckConnections] else [])
  else (mkMon (mo_timeout m) true now (mo_parent m) (mo_conns m), []).
(** TimeoutMonitor.cpp:20-87 tick(CommonCore) *)
Definition tickCore (now : Z) (e : env) (m : monitor) : monitor * list output :=
  if l_waiting (mo_parent m) then (m, [if mo_timeout m <? now - l_last (mo_parent m) then LostParent else PingParentAgain])
  else if e_connected e && e_hasId e then
    if e_higher e then (setParentLink (wait (mo_parent m) now) m, [PingParent]) else (m, [])
  else if e_connected e then (m, [Resend])
  else awaitConnection now m.
(** TimeoutMonitor.cpp:173-222 pingSub: one sub broker *)
Fixpoint findConn (id : Z) (l : list link) : bool := match l with [] => false | c :: r => (l_id c =? id) || findConn id r end.
Fixpoint updConn (id : Z) (f : link -> link) (l : list link) : list link :=
  match l with [] => [] | c :: r => if l_id c =? id then f c :: r else c :: updConn id f r end.
Definition addConn (s : subBroker) (l : list link) : list link := if findConn (s_id s) l then l else l ++ [mkLink false false (s_disable s) (s_id s) 0].
Fixpoint disabledConn (id : Z) (l : list link) : bool := match l with [] => false | c :: r => if l_id c =? id then l_disable c else disabledConn id r end.
Definition pingOne (now : Z) (s : subBroker) (l : list link) : list link * list output :=
  let l := addConn s l in
  if s_ok s then
    if disabledConn (s_id s) l then (l, [])
    else (updConn (s_id s) (fun c => mkLink true true (l_disable c) (l_id c) now) l, [PingConn (s_id s)])
  else (updConn (s_id s) (fun c => mkLink (l_waiting c) false (l_disable c) (l_id c) (l_last c)) l, []).
Fixpoint pingAll (now : Z) (subs : list subBroker) (l : list link) : list link * list output :=
  match subs with
  | [] => (l, [])
  | s :: r => let '(l1, o1) := pingOne now s l in let '(l2, o2) := pingAll now r l1 in (l2, o1 ++ o2)
  end.
Definition pingSub (now : Z) (subs : list subBroker) (m : monitor) : monitor * list output :=
  let '(l, o) := pingAll now subs (mo_conns m) in
  (setConns l m, o ++ (match o with [] => [] | _ => [ForwardTicks true] end)).
(** TimeoutMonitor.cpp:89-171 tick(CoreBroker); the clock is read once here and once more in pingSub (the same
    reading is used) *)
Definition connOut (now : Z) (m : monitor) (c : link) : list output :=
  if l_waiting c then [if mo_timeout m <? now - l_last c then LostConn (l_id c) else PingConnAgain (l_id c)] else [].
Definition tickBroker (now : Z) (e : env) (subs : list subBroker) (m : monitor) : monitor * list output :=
  let o1 := if negb (e_root e) && l_waiting (mo_parent m)
            then [if mo_timeout m <? now - l_last (mo_parent m) then LostParent else PingParentAgain] else [] in
  let o2 := flat_map (connOut now m) (mo_conns m) in
  let waiting := l_waiting (mo_parent m) || existsb l_waiting (mo_conns m) in
  if waiting then (m, o1 ++ o2)
  else
    let '(m', o3) :=
      if e_root e then pingSub now subs m
      else if e_connected e && e_hasId e then
        if e_higher e then (setParentLink (wait (mo_parent m) now) m, [PingParent]) else (m, [])
      else awaitConnection now m in
    (m', o1 ++ o2 ++ o3).
(** TimeoutMonitor.cpp:224-231 reset *)
Definition unwait (l : link) : link := mkLink false (l_active l) (l_disable l) (l_id l) (l_last l).
Definition reset (m : monitor) : monitor := mkMon (mo_timeout m) false (mo_startWait m) (unwait (mo_parent m)) (map unwait (mo_conns m)).
(** TimeoutMonitor.cpp:233-260 pingReply *)
Definition pingReply (src : Z) (broker : bool) (m : monitor) : monitor * list output :=
  if src =? l_id (mo_parent m) then (mkMon (mo_timeout m) false (mo_startWait m) (unwait (mo_parent m)) (mo_conns m), [])
  else
    let conns := map (fun c => if l_id c =? src then unwait c else c) (mo_conns m) in
    let was := fold_left (fun w c => if l_id c =? src then l_waiting c else w) (mo_conns m) false in
    (setConns conns m, if negb (existsb l_waiting conns) && was && broker then [ForwardTicks false] else []).
(** TimeoutMonitor.h:36-50 *)
Inductive mevent :=
| TickCore (now : Z) (e : env)
| TickBroker (now : Z) (e : env) (subs : list subBroker)
| PingSub (now : Z) (subs : list subBroker)     (* CoreBroker.cpp:1133-1139 a ping from the broker above *)
| Reply (src : Z) (broker : bool)
| Reset
| SetParent (id : Z)
| DisableParent (v : bool)
| SetTimeout (t : Z).
Definition mstep (m : monitor) (e : mevent) : monitor * list output :=
  match e with
  | TickCore now e => tickCore now e m
  | TickBroker now e subs => tickBroker now e subs m
  | PingSub now subs => pingSub now subs m
  | Reply src b => pingReply src b m
  | Reset => (reset m, [])
  | SetParent id => (setParentLink (mkLink (l_waiting (mo_parent m)) (l_active (mo_parent m)) (l_disable (mo_parent m)) id (l_last (mo_parent m))) m, [])
  | DisableParent v => (setParentLink (mkLink false (l_active (mo_parent m)) v (l_id (mo_parent m)) (l_last (mo_parent m))) m, [])
  | SetTimeout t => (mkMon t (mo_waitConn m) (mo_startWait m) (mo_parent m) (mo_conns m), [])
  end.
Definition mafter (es : list mevent) : monitor := fold_left (fun m e => fst (mstep m e)) es initMon.
(** what was done at each event *)
Fixpoint mtrace (m : monitor) (es : list mevent) : list (mevent * list output) :=
  match es with [] => [] | e :: r => (e, snd (mstep m e)) :: mtrace (fst (mstep m e)) r end.

(** ** Ticks of the processing loop (BrokerBase.cpp:945-1013): a tick is given to the core or broker when no other
    command came since the last one; when ticks are asked for ([forwardTick]) the code prepares the command but
    does not process it. *)
Record tickState := mkTick { t_since : Z; t_forward : bool }.
Inductive loopEvent := Command | Forwarding (on : bool) | Tick.
Definition loopStep (s : tickState) (e : loopEvent) : tickState * bool :=
  match e with
  | Command => (mkTick (t_since s + 1) (t_forward s), false)
  | Forwarding on => (mkTick (t_since s + 1) on, false)
  | Tick => (mkTick 0 (t_forward s), t_since s =? 0)
  end.
Fixpoint ticksDelivered (s : tickState) (es : list loopEvent) : Z :=
  match es with [] => 0 | e :: r => (if snd (loopStep s e) then 1 else 0) + ticksDelivered (fst (loopStep s e)) r end.

(** ** Broker states (BrokerBase.hpp:119-132) *)
Definition BS_CREATED := -10. Definition BS_CONFIGURING := -7. Definition BS_CONFIGURED := -6. Definition BS_CONNECTING := -4.
Definition BS_CONNECTED := -3. Definition BS_INITIALIZING := -1. Definition BS_OPERATING := 0. Definition BS_CONNECTED_ERROR := 3.
Definition BS_TERMINATING := 4. Definition BS_TERMINATING_ERROR := 5. Definition BS_TERMINATED := 6. Definition BS_ERRORED := 7.
(** BrokerBase.cpp:1094-1128 setBrokerState: what is stored given the state loaded ([None]: nothing is stored), and
    the result *)
Definition nextState (cur new : Z) : option Z * bool :=
  if cur =? BS_ERRORED then (None, new =? BS_ERRORED)
  else if cur =? BS_CONNECTED_ERROR then
    if new =? BS_TERMINATING then (Some BS_TERMINATING_ERROR, true)
    else if (new =? BS_TERMINATED) || (new =? BS_ERRORED) then (Some BS_ERRORED, true)
    else (None, new =? BS_CONNECTED_ERROR)
  else if cur =? BS_TERMINATING_ERROR then
    if (new =? BS_TERMINATED) || (new =? BS_ERRORED) then (Some BS_ERRORED, true)
    else (None, new =? BS_TERMINATING_ERROR)
  else if (new =? BS_ERRORED) && (BS_CONNECTING <? cur) && (cur <? BS_TERMINATING) then (Some BS_CONNECTED_ERROR, true)
  else (Some new, true).
Definition setBrokerState (new cur : Z) : Z := match fst (nextState cur new) with Some s => s | None => cur end.
(** BrokerBase.cpp:1130-1133 transitionBrokerState *)
Definition transitionBrokerState (expected new cur : Z) : Z := if cur =? expected then new else cur.
(** BrokerBase.cpp:620-640 setErrorState *)
Definition setErrorState (cur : Z) : Z :=
  if negb (cur =? BS_ERRORED) && negb (cur =? BS_CONNECTED_ERROR) then
    if (BS_CONFIGURED <? cur) && (cur <? BS_TERMINATING) then BS_CONNECTED_ERROR else BS_ERRORED
  else cur.
(** the state changes of the library: all calls of the two functions, setErrorState, and TimeoutMonitor.cpp:32, 105
    (the initial CONFIGURED of BrokerBase.cpp:560 is stored before the broker can be used) *)
Inductive bevent := SetState (new : Z) | Transition (expected new : Z) | SetError | MonitorLost.
Definition bstep (s : Z) (e : bevent) : Z :=
  match e with
  | SetState new => setBrokerState new s
  | Transition x new => transitionBrokerState x new s
  | SetError => setErrorState s
  | MonitorLost => BS_ERRORED
  end.
(** setBrokerState and setErrorState load the state and store it later: other threads may store in between *)
Inductive atom := Load (thread : nat) | Store (thread : nat) (new : Z) | Whole (e : bevent).
Definition astep (s : Z * (nat -> Z)) (a : atom) : Z * (nat -> Z) :=
  match a with
  | Load t => (fst s, fun t' => if Nat.eqb t' t then fst s else snd s t')
  | Store t new => (match fst (nextState (snd s t) new) with Some x => x | None => fst s end, snd s)
  | Whole e => (bstep (fst s) e, snd s)
  end.
