(** * The spreading of errors (model)

    globalError and localError of federates, cores and brokers, and how cores and brokers pass CMD_GLOBAL_ERROR and
    CMD_LOCAL_ERROR on.  All cores and brokers are connected and stay so; every pair of neighbours has one first-in
    first-out connection, and the queue of a node is its connection with itself.  Not modelled: CMD_ERROR, callback
    federates, the errors which time coordinators send to their dependents (TimeCoordinator.cpp:190-210), the errors with
    which brokers refuse interfaces, the filter federate, and the disconnection which follows an error (C46). *)
From Coq Require Import ZArith Bool List Lia.
From Verif Require Import Route.
Import ListNotations.
Open Scope Z_scope.

(** source_id and dest_id of an error: a federate, a core or broker by its global id, or the constant parent_broker_id
    (GlobalFederateId.hpp; ids are distinct, C44) *)
Inductive who := Fed (g : Z) | Node (x : nat) | ParentC.
(** comparison of ids (GlobalFederateId.hpp operator==) *)
Definition who_eqb (a b : who) : bool :=
  match a, b with Fed g, Fed h => Z.eqb g h | Node x, Node y => Nat.eqb x y | ParentC, ParentC => true | _, _ => false end.
(** CMD_GLOBAL_ERROR or CMD_LOCAL_ERROR: ActionMessage with action, source_id, dest_id and messageID *)
Record err := mkE { e_global : bool; e_src : who; e_dst : who; e_code : Z }.
(** BrokerBase.hpp:119-132 BrokerState of a connected core or broker: CONNECTED to OPERATING, CONNECTED_ERROR, ERRORED *)
Inductive bstate := Working | ConnError | Errored.
(** FederateStates: CREATED to EXECUTING, ERRORED, FINISHED *)
Inductive fstate := Running | InError | Finished.
(** x_state: brokerState; x_links: the connections; x_op: the record of the core that a federate is OPERATING
    (CommonCore.hpp:52-66 FedInfo); x_box: FederateState queue; x_fed: FederateState state.  x_cast is not in the code: the
    broker has told its children of an error, the core its federates *)
Record esys : Type := mkX {
  x_state : nat -> bstate;
  x_links : nat -> nat -> list err;
  x_op : Z -> bool;
  x_box : Z -> list err;
  x_fed : Z -> fstate;
  x_cast : nat -> bool
}.
(** field update of [esys] above (C++ member assignment) *)
Definition set_x_state (v : nat -> bstate) (r : esys) : esys := mkX v (x_links r) (x_op r) (x_box r) (x_fed r) (x_cast r).
(** field update of [esys] above (C++ member assignment) *)
Definition set_x_links (v : nat -> nat -> list err) (r : esys) : esys := mkX (x_state r) v (x_op r) (x_box r) (x_fed r) (x_cast r).
(** field update of [esys] above (C++ member assignment) *)
Definition set_x_op (v : Z -> bool) (r : esys) : esys := mkX (x_state r) (x_links r) v (x_box r) (x_fed r) (x_cast r).
(** field update of [esys] above (C++ member assignment) *)
Definition set_x_box (v : Z -> list err) (r : esys) : esys := mkX (x_state r) (x_links r) (x_op r) v (x_fed r) (x_cast r).
(** field update of [esys] above (C++ member assignment) *)
Definition set_x_fed (v : Z -> fstate) (r : esys) : esys := mkX (x_state r) (x_links r) (x_op r) (x_box r) v (x_cast r).
(** field update of [esys] above (C++ member assignment) *)
Definition set_x_cast (v : nat -> bool) (r : esys) : esys := mkX (x_state r) (x_links r) (x_op r) (x_box r) (x_fed r) v.


(** everything works (initial members of the classes, after connecting) *)
Definition esys0 : esys := mkX (fun _ => Working) (fun _ _ => []) (fun _ => true) (fun _ => []) (fun _ => Running) (fun _ => false).
(** a connection takes another command: CommsInterface.cpp transmit, BrokerBase.hpp addActionMessage *)
Definition putOn (x y : nat) (l : list err) (s : esys) : esys :=
  set_x_links (fun a b => if Nat.eqb a x && Nat.eqb b y then x_links s a b ++ l else x_links s a b) s.
(** BrokerBase.hpp setBrokerState *)
Definition setState (x : nat) (b : bstate) (s : esys) : esys := set_x_state (fun a => if Nat.eqb a x then b else x_state s a) s.
(** BrokerBase.cpp:620-643 setErrorState, of a connected node *)
Definition errorState (x : nat) (s : esys) : esys := match x_state s x with Working => setState x ConnError s | _ => s end.
(** FederateState.hpp addAction *)
Definition boxed (g : Z) (e : err) (s : esys) : esys := set_x_box (fun a => if Z.eqb a g then x_box s a ++ [e] else x_box s a) s.
(** the source of an error is no longer OPERATING: CommonCore.cpp:4563-4569, 4599-4604 *)
Definition marked (w : who) (s : esys) : esys := match w with Fed g => set_x_op (fun a => if Z.eqb a g then false else x_op s a) s | _ => s end.
Section Errors.
Variable T : topology.
(** the nodes below a broker (CoreBroker.hpp mBrokers which are not _nonLocal) *)
Variable kids : nat -> list nat.
(** the federates of a core (CommonCore.hpp loopFederates) *)
Variable feds : nat -> list Z.
(** terminate_on_error of the cores and brokers, and of the federates *)
Variable nodeTerm : nat -> bool.
Variable fedTerm : Z -> bool.
(** transmit(parent_route_id, ..) *)
Definition up (x : nat) (e : err) (s : esys) : esys := match t_parent T x with Some p => putOn x p [e] s | None => s end.
(** the id of the parent (higher_broker_id) *)
Definition isParent (x : nat) (w : who) : bool := match t_parent T x with Some p => who_eqb w (Node p) | None => false end.
(** CommonCore.cpp:3423-3434 sendErrorToFederates *)
Definition tellFeds (K : nat) (code : Z) (s : esys) : esys :=
  set_x_cast (fun a => if Nat.eqb a K then true else x_cast s a)
    (set_x_box (fun g => if existsb (Z.eqb g) (feds K) && x_op s g then x_box s g ++ [mkE false (Node K) ParentC code] else x_box s g) s).
(** CoreBroker.cpp:2706-2714 broadcast; no node below is disconnected *)
Definition broadcast (x : nat) (e : err) (s : esys) : esys :=
  set_x_cast (fun a => if Nat.eqb a x then true else x_cast s a)
    (set_x_links (fun a b => if Nat.eqb a x then x_links s a b ++ map (fun c => mkE (e_global e) (e_src e) (Node c) (e_code e)) (filter (Nat.eqb b) (kids x)) else x_links s a b) s).
(** CommonCore.cpp:4549-4626 processLogAndErrorCommand; routeMessage for a destination elsewhere does not occur here *)
Definition coreError (K : nat) (e : err) (s : esys) : esys :=
  let toRoot := mkE true (Node K) (Node (t_root T)) (e_code e) in
  if e_global e then
    let s := errorState K s in
    match x_state s K with
    | Errored => s
    | _ => let s := tellFeds K (e_code e) s in
           if isParent K (e_src e) || who_eqb (e_src e) (Node (t_root T)) then s else up K e s
    end
  else if who_eqb (e_dst e) (Node K) then
    let s := if isParent K (e_src e) || who_eqb (e_src e) ParentC || who_eqb (e_src e) (Node (t_root T))
             then errorState K (tellFeds K (e_code e) s) else marked (e_src e) s in
    if nodeTerm K then
      let s := match x_state s K with Working => setState K Errored (tellFeds K (e_code e) s) | _ => s end in up K toRoot s
    else s
  else if who_eqb (e_dst e) ParentC then
    if nodeTerm K then
      let s := match x_state s K with Errored => s | _ => setState K Errored (tellFeds K (e_code e) s) end in up K toRoot s
    else up K e (marked (e_src e) s)
  else if isParent K (e_dst e) then up K e s else s.
(** CoreBroker.cpp:3278-3345 processError; the records of the nodes and federates below are left out.  broadcast changes dest_id *)
Definition brokerError (x : nat) (e : err) (s : esys) : esys :=
  if who_eqb (e_src e) (Node x) then
    let s := broadcast x e (setState x Errored s) in
    if Nat.eqb x (t_root T) then s else up x (mkE false (e_src e) (last (map Node (kids x)) (e_dst e)) (e_code e)) s
  else if who_eqb (e_src e) ParentC || who_eqb (e_src e) (Node (t_root T)) then broadcast x e (setState x Errored s)
  else
    let here := Nat.eqb x (t_root T) || who_eqb (e_dst e) (Node x) || who_eqb (e_dst e) ParentC in
    if e_global e || nodeTerm x then
      let s := errorState x s in
      if here then broadcast x (mkE true (Node x) (e_dst e) (e_code e)) s else up x (mkE true (e_src e) (e_dst e) (e_code e)) s
    else if here then s else up x e s.
(** the two classes of nodes: CommonCore.cpp and CoreBroker.cpp processCommand *)
Definition does (x : nat) (e : err) (s : esys) : esys := if t_core T x then coreError x e s else brokerError x e s.
(** the next command on the connection from x to y is processed by y *)
Definition attend (x y : nat) (s : esys) : esys :=
  match x_links s x y with
  | [] => s
  | e :: r => does y e (set_x_links (fun a b => if Nat.eqb a x && Nat.eqb b y then r else x_links s a b) s)
  end.
(** the federate [g] of the core [K] processes its next error: TimeCoordinatorProcessing.cpp:275-313, FederateState.cpp:1392-1425 *)
Definition fedTakes (K : nat) (g : Z) (s : esys) : esys :=
  match x_box s g with
  | [] => s
  | e :: r =>
      let s := set_x_box (fun a => if Z.eqb a g then r else x_box s a) s in
      match x_fed s g with
      | Running =>
          if e_global e || who_eqb (e_src e) (Fed g) || who_eqb (e_src e) ParentC || who_eqb (e_src e) (Node (t_root T)) || negb (who_eqb (e_dst e) (Fed g))
          then let s := set_x_fed (fun a => if Z.eqb a g then InError else x_fed s a) s in
               if e_global e then s else putOn K K [mkE (fedTerm g) (Fed g) ParentC (e_code e)] s
          else s
      | _ => s
      end
  end.
(** a federate of this core *)
Definition at_core (K : nat) (g : Z) : bool := existsb (Z.eqb g) (feds K).
(** what can happen: globalError and localError of a federate (CommonCore.cpp:445-520), globalError of a core or broker
    (CommonCore.cpp:449-456, CoreBroker.cpp:2556-2563), a federate finishes, its core takes note, a node or a federate
    processes a command *)
Inductive xevent :=
| X_global (K : nat) (g : Z) (code : Z)
| X_local (K : nat) (g : Z) (code : Z)
| X_node (x : nat) (code : Z)
| X_finish (g : Z)
| X_left (g : Z)
| X_serve (x y : nat)
| X_fed (K : nat) (g : Z).
(** the effect of one event: the functions above *)
Definition xstep (s : esys) (e : xevent) : esys :=
  match e with
  | X_global K g code => if at_core K g then boxed g (mkE true (Fed g) ParentC code) (putOn K K [mkE true (Fed g) ParentC code] s) else s
  | X_local K g code => if at_core K g then boxed g (mkE false (Fed g) ParentC code) (putOn K K [mkE false (Fed g) ParentC code] s) else s
  | X_node x code => putOn x x [mkE true (Node x) ParentC code] s
  | X_finish g => match x_fed s g with Running => set_x_fed (fun a => if Z.eqb a g then Finished else x_fed s a) s | _ => s end
  | X_left g => match x_fed s g with Finished => marked (Fed g) s | _ => s end
  | X_serve x y => attend x y s
  | X_fed K g => if at_core K g then fedTakes K g s else s
  end.
(** a whole history from the start (not in the code) *)
Definition xrun (es : list xevent) : esys := fold_left xstep es esys0.
End Errors.
