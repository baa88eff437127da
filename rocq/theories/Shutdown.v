(** * Finalize and the shutdown of a federation (model)

    CMD_DISCONNECT and its answers: CommonCore::finalize, FederateState::finalize, CommonCore::processDisconnectCommand,
    CommonCore::checkAndProcessDisconnect, CoreBroker::processBrokerDisconnect, CoreBroker::sendDisconnect, CMD_STOP in
    BrokerBase::queueProcessingLoop.

    A federation which is complete: the tree of Route.v, the children which every broker has in its table and the federates of
    every core are fixed.  Every link is a queue in order; which queue is read next is free.  A command which a node puts into
    its own queue (CMD_STOP) is the flag [stopping], and is taken at any later moment: the code takes it after what is in the
    queue already, so it has fewer histories.  A stopped node drops what arrives.

    Left out: errors, filter and translator federates, late registrations, lost links; entries for brokers further down
    (_nonLocal), which do not count (getAllConnectionState) and whose acknowledgements the receiver ignores, because they do not
    come from its parent (CommonCore.cpp:4922, CoreBroker.cpp:1255); the time coordinators' own CMD_DISCONNECT, which reaches no
    child: a child which has disconnected is no dependent any more (BaseTimeCoordinator.cpp:385-395), the others are removed
    first (CoreBroker.cpp:1072-1075). *)
From Coq Require Import ZArith Bool List Lia.
From Verif Require Import Route.
Import ListNotations.
Open Scope nat_scope.

(** BrokerState: before TERMINATING, TERMINATING, TERMINATED (BrokerBase.hpp) *)
Inductive rstate := Run | Term | Stop.
(** to the parent: CMD_DISCONNECT, CMD_DISCONNECT_FED, CMD_DISCONNECT_CORE or _BROKER *)
Inductive umsg := UDisc | UFed (f : nat) | UNode (k : nat).
(** from the parent: CMD_DISCONNECT_CORE_ACK or _BROKER_ACK, CMD_GLOBAL_DISCONNECT, CMD_BROADCAST_DISCONNECT *)
Inductive dmsg := DAck | DGlobal | DBcast.
(** to the federate: its own CMD_DISCONNECT, CMD_DISCONNECT_FED_ACK, CMD_STOP *)
Inductive fmsg := FDisc | FAck | FStop.
(** from the federate: CMD_DISCONNECT to be passed back (CommonCore.cpp:557-562); CMD_DISCONNECT to the core *)
Inductive kmsg := KReq (f : nat) | KDisc (f : nat).
(** FederateStates: before TERMINATING, TERMINATING, FINISHED *)
Inductive fstate := Act | Terming | Fin.

(** A core or a broker. gone: the federates (children) whose state is DISCONNECTED; told: _sent_disconnect_ack;
    oper: the state has reached OPERATING; armed: the disconnect timer runs (CommonCore.cpp:5320); cq: commands of its federates *)
Record nd : Type := mkNd {
  rs : rstate;
  oper : bool;
  stopping : bool;
  armed : bool;
  gone : list nat;
  told : list nat;
  cq : list kmsg;
  up : list umsg;
  dn : list dmsg
}.
(** field update of [nd] above (C++ member assignment) *)
Definition set_rs (v : rstate) (r : nd) : nd := mkNd v (oper r) (stopping r) (armed r) (gone r) (told r) (cq r) (up r) (dn r).
(** field update of [nd] above (C++ member assignment) *)
Definition set_oper (v : bool) (r : nd) : nd := mkNd (rs r) v (stopping r) (armed r) (gone r) (told r) (cq r) (up r) (dn r).
(** field update of [nd] above (C++ member assignment) *)
Definition set_stopping (v : bool) (r : nd) : nd := mkNd (rs r) (oper r) v (armed r) (gone r) (told r) (cq r) (up r) (dn r).
(** field update of [nd] above (C++ member assignment) *)
Definition set_armed (v : bool) (r : nd) : nd := mkNd (rs r) (oper r) (stopping r) v (gone r) (told r) (cq r) (up r) (dn r).
(** field update of [nd] above (C++ member assignment) *)
Definition set_gone (v : list nat) (r : nd) : nd := mkNd (rs r) (oper r) (stopping r) (armed r) v (told r) (cq r) (up r) (dn r).
(** field update of [nd] above (C++ member assignment) *)
Definition set_told (v : list nat) (r : nd) : nd := mkNd (rs r) (oper r) (stopping r) (armed r) (gone r) v (cq r) (up r) (dn r).
(** field update of [nd] above (C++ member assignment) *)
Definition set_cq (v : list kmsg) (r : nd) : nd := mkNd (rs r) (oper r) (stopping r) (armed r) (gone r) (told r) v (up r) (dn r).
(** field update of [nd] above (C++ member assignment) *)
Definition set_up (v : list umsg) (r : nd) : nd := mkNd (rs r) (oper r) (stopping r) (armed r) (gone r) (told r) (cq r) v (dn r).
(** field update of [nd] above (C++ member assignment) *)
Definition set_dn (v : list dmsg) (r : nd) : nd := mkNd (rs r) (oper r) (stopping r) (armed r) (gone r) (told r) (cq r) (up r) v.

(** A federate: finalize was called; its state; its queue *)
Record fd : Type := mkFd {
  called : bool;
  fst_ : fstate;
  fq : list fmsg
}.
(** field update of [fd] above (C++ member assignment) *)
Definition set_called (v : bool) (r : fd) : fd := mkFd v (fst_ r) (fq r).
(** field update of [fd] above (C++ member assignment) *)
Definition set_fst_ (v : fstate) (r : fd) : fd := mkFd (called r) v (fq r).
(** field update of [fd] above (C++ member assignment) *)
Definition set_fq (v : list fmsg) (r : fd) : fd := mkFd (called r) (fst_ r) v.

Record gs : Type := mkGs {
  nodes : nat -> nd;
  fds : nat -> fd
}.
(** field update of [gs] above (C++ member assignment) *)
Definition set_nodes (v : nat -> nd) (r : gs) : gs := mkGs v (fds r).
(** field update of [gs] above (C++ member assignment) *)
Definition set_fds (v : nat -> fd) (r : gs) : gs := mkGs (nodes r) v.


(** the children of a broker, the federates of a core, the core of a federate, --global_disconnect *)
Record fedn := mkFedn { kids : nat -> list nat; feds : nat -> list nat; coreOf : nat -> nat; glob : bool }.
(** the tables agree with the tree *)
Definition wf (T : topology) (N : fedn) : Prop :=
  (forall n k, In k (kids N n) -> t_parent T k = Some n) /\
  (forall n, t_core T n = true -> kids N n = []) /\ (forall n, t_core T n = false -> feds N n = []) /\
  (forall c f, In f (feds N c) -> coreOf N f = c).
(** the nodes of the federation *)
Inductive member (T : topology) (N : fedn) : nat -> Prop :=
| member_root : member T N (t_root T)
| member_kid n k : member T N n -> In k (kids N n) -> member T N k.

Definition gs0 : gs := mkGs (fun _ => mkNd Run false false false [] [] [] [] []) (fun _ => mkFd false Act []).

Definition isIn (k : nat) (l : list nat) : bool := existsb (Nat.eqb k) l.
Definition isRun (r : rstate) : bool := match r with Run => true | _ => false end.
Definition isTerm (r : rstate) : bool := match r with Term => true | _ => false end.
Definition isStop (r : rstate) : bool := match r with Stop => true | _ => false end.
Definition isFin (r : fstate) : bool := match r with Fin => true | _ => false end.
Definition setN (n : nat) (x : nd) (s : gs) : gs := set_nodes (fun k => if Nat.eqb k n then x else nodes s k) s.
Definition setF (f : nat) (x : fd) (s : gs) : gs := set_fds (fun k => if Nat.eqb k f then x else fds s k) s.
(** what the list of sent messages has for one receiver *)
Definition to {A} (n : nat) (out : list (nat * A)) : list A := map snd (filter (fun o => Nat.eqb (fst o) n) out).
Definition sendD (out : list (nat * dmsg)) (s : gs) : gs := set_nodes (fun n => set_dn (dn (nodes s n) ++ to n out) (nodes s n)) s.
Definition sendF (out : list (nat * fmsg)) (s : gs) : gs := set_fds (fun f => set_fq (fq (fds s f) ++ to f out) (fds s f)) s.
(** to every federate of the core which is not FINISHED *)
Definition toFeds (N : fedn) (c : nat) (m : fmsg) (s : gs) : list (nat * fmsg) :=
  map (fun f => (f, m)) (filter (fun f => negb (isFin (fst_ (fds s f)))) (feds N c)).

(** ** The core *)
(** CommonCore.cpp:597-615 allDisconnected, minFederateState *)
Definition allFeds (N : fedn) (c : nat) (x : nd) : bool := forallb (fun f => isIn f (gone x)) (feds N c).
(** CommonCore.cpp:5302-5340 checkAndProcessDisconnect; it returns whether the core is terminating *)
Definition check (N : fedn) (c : nat) (x : nd) : nd :=
  if isRun (rs x) && allFeds N c x then set_armed true (set_up (up x ++ [UDisc]) (set_rs Term x)) else x.
(** CommonCore.cpp:4887-4912 CMD_DISCONNECT of the federate f; whether CMD_DISCONNECT_FED_ACK is sent *)
Definition coreDisc (N : fedn) (c f : nat) (x : nd) : nd * bool :=
  let pre := isRun (rs x) && negb (oper x) in
  let already := isTerm (rs x) in
  let x := check N c (set_gone (f :: gone x) x) in
  if isRun (rs x) || pre || already
  then (set_up (up x ++ [UFed f]) x, (pre || already || negb (allFeds N c x)) && negb (glob N))
  else (x, false).
(** CommonCore.cpp:4777-4793 CMD_USER_DISCONNECT, CMD_GLOBAL_DISCONNECT, with sendDisconnect (5385-5410): CMD_STOP to the federates *)
Definition coreGlobal (x : nd) : nd * bool :=
  if isRun (rs x) then (set_stopping true (set_up (up x ++ [UDisc]) (set_rs Term x)), true) else (set_stopping true x, false).
(** CMD_STOP: CommonCore.cpp:4861-4886, then processDisconnect (269-296) *)
Definition coreStop (x : nd) : nd * bool :=
  if isRun (rs x) then (set_rs Stop (set_up (up x ++ [UDisc]) x), true) else (set_rs Stop x, false).

(** ** The broker *)
(** CoreBroker.cpp:4707-4719 getAllConnectionState() >= DISCONNECTED *)
Definition allKids (N : fedn) (n : nat) (x : nd) : bool :=
  match kids N n with [] => false | _ => forallb (fun k => isIn k (gone x)) (kids N n) end.
(** CoreBroker.cpp:2706-2714 broadcast *)
Definition bcast (N : fedn) (n : nat) (x : nd) : list (nat * dmsg) :=
  map (fun k => (k, DBcast)) (filter (fun k => negb (isIn k (gone x))) (kids N n)).
(** the acknowledgement to every child which has had none *)
Definition ackAll (N : fedn) (n : nat) (x : nd) : list (nat * dmsg) :=
  map (fun k => (k, DAck)) (filter (fun k => negb (isIn k (told x))) (kids N n)).
(** CoreBroker.cpp:3368-3450 processBrokerDisconnect for CMD_DISCONNECT of the child k, with disconnectBroker (3551-3568) *)
Definition brokerDisc (T : topology) (N : fedn) (n k : nat) (x : nd) : nd * list (nat * dmsg) :=
  let isRoot := Nat.eqb n (t_root T) in
  let x := set_gone (k :: gone x) x in
  let out := if isRoot && negb (oper x) then bcast N n x else [] in
  if allKids N n x then
    if isRoot then
      if glob N then (set_stopping true (set_told (kids N n) x), out ++ ackAll N n x)
      else (set_stopping true (set_told (k :: told x) x), out ++ [(k, DAck)])
    else (set_up (up x ++ [UDisc]) x, out)
  else
    let '(y, a) := if glob N then (x, []) else (set_told (k :: told x) x, [(k, DAck)]) in
    (if negb isRoot && negb (oper x) then set_up (up y ++ [UNode k]) y else y, out ++ a).
(** CoreBroker.cpp:1254-1270 CMD_DISCONNECT_BROKER_ACK *)
Definition brokerAck (N : fedn) (n : nat) (x : nd) : nd * list (nat * dmsg) :=
  (set_stopping true (set_told (kids N n) x), ackAll N n x).
(** CoreBroker.cpp:1271-1275 and sendDisconnect (1062-1093) *)
Definition brokerGlobal (N : fedn) (n : nat) (x : nd) : nd * list (nat * dmsg) :=
  (set_stopping true (set_told (kids N n) (set_gone (kids N n) x)),
   flat_map (fun k => if negb (isIn k (gone x)) then [(k, DGlobal)] else if negb (isIn k (told x)) then [(k, DAck)] else []) (kids N n)).
(** CMD_STOP: CoreBroker.cpp:1327-1339, then processDisconnect (2579-2596) *)
Definition brokerStop (T : topology) (N : fedn) (n : nat) (x : nd) : nd :=
  set_rs Stop (if negb (allKids N n x) && negb (Nat.eqb n (t_root T)) then set_up (up x ++ [UDisc]) x else x).
(** CMD_DISCONNECT_FED (CoreBroker.cpp:1309-1326) and CMD_DISCONNECT_CORE, _BROKER (3469-3477) at the broker n *)
Definition brokerPass (T : topology) (N : fedn) (n : nat) (m : umsg) (x : nd) : nd * list (nat * dmsg) :=
  if Nat.eqb n (t_root T) then (x, if oper x then [] else bcast N n x) else (set_up (up x ++ [m]) x, []).

(** ** The federation *)
Inductive event :=
| EFinal (f : nat)   (* finalize is called *)
| EFed (f : nat)     (* the federate takes the next command of its queue *)
| ECore (c : nat)    (* the core takes the next command of its federates *)
| EUp (k : nat)      (* the parent of k takes the next command of k *)
| EDown (n : nat)    (* n takes the next command of its parent *)
| EStop (n : nat)    (* n takes its own CMD_STOP *)
| ETick (c : nat)    (* the disconnect timer of the core has expired *)
| EOper (n : nat)    (* n reaches OPERATING *)
| EUser (n : nat).   (* disconnect() is called on the core or broker *)

Definition step (T : topology) (N : fedn) (s : gs) (e : event) : gs :=
  match e with
  | EFinal f =>
      (* CommonCore.cpp:539-573 *)
      let y := fds s f in let c := coreOf N f in let x := nodes s c in
      if called y || negb (isIn f (feds N c)) then s else
      if isRun (rs x) then setF f (set_called true y) (setN c (set_cq (cq x ++ [KReq f]) x) s)
      else setF f (set_called true (set_fq (fq y ++ [FStop]) y)) (setN c (set_stopping true x) s)
  | EFed f =>
      (* FederateState.cpp:1564-1574, TimeCoordinatorProcessing.cpp:148-175 *)
      let y := fds s f in let c := coreOf N f in let x := nodes s c in
      if isFin (fst_ y) then s else
      match fq y with
      | [] => s
      | FDisc :: r =>
          match fst_ y with
          | Act => setF f (set_fst_ Terming (set_fq r y)) (setN c (set_cq (cq x ++ [KDisc f]) x) s)
          | _ => setF f (set_fq r y) s
          end
      | _ :: r => setF f (set_fst_ Fin (set_fq r y)) s
      end
  | ECore c =>
      let x := nodes s c in
      if isStop (rs x) || negb (t_core T c) then s else
      match cq x with
      | [] => s
      | KReq f :: r => sendF (if isFin (fst_ (fds s f)) then [] else [(f, FDisc)]) (setN c (set_cq r x) s)
      | KDisc f :: r =>
          let '(y, a) := coreDisc N c f (set_cq r x) in
          sendF (if a && negb (isFin (fst_ (fds s f))) then [(f, FAck)] else []) (setN c y s)
      end
  | EUp k =>
      match t_parent T k, up (nodes s k) with
      | Some p, m :: r =>
          if isIn k (kids N p) then
            let s1 := setN k (set_up r (nodes s k)) s in
            if isStop (rs (nodes s p)) then s1 else
            let '(y, out) := match m with UDisc => brokerDisc T N p k (nodes s1 p) | _ => brokerPass T N p m (nodes s1 p) end in
            sendD out (setN p y s1)
          else s
      | _, _ => s
      end
  | EDown n =>
      let x := nodes s n in
      if isStop (rs x) then s else
      match dn x with
      | [] => s
      | m :: r =>
          let x := set_dn r x in
          if t_core T n then
            match m with
            | DAck => sendF (toFeds N n FAck s) (setN n (set_stopping true x) s)   (* CommonCore.cpp:4921-4933 *)
            | DGlobal => let '(y, a) := coreGlobal x in sendF (if a then toFeds N n FStop s else []) (setN n y s)
            | DBcast => setN n (check N n x) s                                       (* CommonCore.cpp:4794-4798 *)
            end
          else
            match m with
            | DAck => let '(y, out) := brokerAck N n x in sendD out (setN n y s)
            | DGlobal => let '(y, out) := brokerGlobal N n x in sendD out (setN n y s)
            | DBcast => sendD (bcast N n x) (setN n x s)                             (* CoreBroker.cpp:1340-1343 *)
            end
      end
  | EStop n =>
      let x := nodes s n in
      if stopping x && negb (isStop (rs x)) then
        if t_core T n then let '(y, a) := coreStop x in sendF (if a then toFeds N n FStop s else []) (setN n y s)
        else setN n (brokerStop T N n x) s
      else s
  | ETick c =>
      (* CommonCore.cpp:4642-4657 *)
      let x := nodes s c in
      if t_core T c && armed x && negb (isStop (rs x)) then sendF (toFeds N c FAck s) (setN c (set_stopping true x) s) else s
  | EOper n => setN n (set_oper true (nodes s n)) s
  | EUser n =>
      let x := nodes s n in
      if isStop (rs x) then s else
      if t_core T n then let '(y, a) := coreGlobal x in sendF (if a then toFeds N n FStop s else []) (setN n y s)
      else let '(y, out) := brokerGlobal N n x in sendD out (setN n y s)
  end.
Definition run (T : topology) (N : fedn) (h : list event) : gs := fold_left (step T N) h gs0.
