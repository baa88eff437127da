(** * Entering initializing mode: the barrier over a tree of brokers and cores (model)

    CMD_INIT, CMD_INIT_NOT_READY and CMD_INIT_GRANT in src/helics/core/CoreBroker.cpp and CommonCore.cpp, the call which asks
    for the mode (CommonCore::enterInitializingMode), and as much of the registrations as the barrier reads.

    Brokers, cores and federates are numbers (their names); a global id stands for one of them (C44).  The nodes form the
    tree of Route.v.  Every node has two queues to its parent: the priority commands (registrations) and the others; both are
    in order, and the parent takes from either (a priority command may overtake).  The acknowledgements go back directly: their
    way down is the subject of C44; a node's comes after its parent's.  A registration which is refused is dropped.

    Simplifications: no observers, no dynamic or re-entrant federates, no disconnection and no error; the hidden federates
    of a core (filters, translators) register and are counted, but do not take part.  [asked], [e_late] and [q_late] are
    ghost fields: nothing reads them, except the ghost fields themselves. *)
From Coq Require Import ZArith Bool List Lia.
From Verif Require Import Route.
Import ListNotations.
Open Scope nat_scope.

(** BasicBrokerInfo (CoreBroker.hpp:68-88): the name, parent, _nonLocal (negated), _core, state = INIT_REQUESTED (here the only
    states are CONNECTED and INIT_REQUESTED), initIterating; ghost: it was added after its parent had reported ready *)
Record ent := mkEnt { e_id : nat; e_par : nat; e_local : bool; e_core : bool; e_st : bool; e_it : bool; e_late : bool }.
(** BasicFedInfo (CoreBroker.hpp:54-66): name, parent, nonCounting (negated) *)
Record fent := mkFent { x_id : nat; x_par : nat; x_count : bool }.
(** FederateState: init_transmitted, initIterating (FederateState.hpp) in loopFederates of the core; ghost: registered late *)
Record cfed := mkCf { q_id : nat; q_trans : bool; q_it : bool; q_late : bool }.
(** BrokerState of a core: CONNECTED, INITIALIZING, OPERATING (BrokerBase.hpp) *)
Inductive cstate := Conn | Initing | Oper.
(** CMD_REG_BROKER and CMD_REG_FED on their way up *)
Inductive pmsg := Reg (n : nat) | RegF (f : nat).
(** CMD_INIT with iteration_requested_flag; its source is always the node which transmits it.  CMD_INIT_NOT_READY with its source *)
Inductive nmsg := MInit (it : bool) | MNot (src : nat).

(** A broker or a core.
    Broker: op: getBrokerState() = OPERATING; it: initIterating; ents: mBrokers; feds: mFederates (CoreBroker.hpp:100-150).
    Core: cst: the broker state; its: initIterations; delay: delayInitCounter; cfeds: loopFederates; cq: the CMD_INIT of its
    federates waiting in the queue (CommonCore.hpp:374-470).
    upP, upN: the commands on the way to the parent; dn: the CMD_INIT_GRANT from the parent (true: iterating). *)
Record nd : Type := mkNd {
  op : bool;
  it : bool;
  asked : bool;
  ents : list ent;
  feds : list fent;
  cst : cstate;
  its : bool;
  delay : Z;
  cfeds : list cfed;
  cq : list (nat * bool);
  upP : list pmsg;
  upN : list nmsg;
  dn : list bool;
  joined : bool;
  acked : bool
}.
(** field update of [nd] above (C++ member assignment) *)
Definition set_op (v : bool) (r : nd) : nd := mkNd v (it r) (asked r) (ents r) (feds r) (cst r) (its r) (delay r) (cfeds r) (cq r) (upP r) (upN r) (dn r) (joined r) (acked r).
(** field update of [nd] above (C++ member assignment) *)
Definition set_it (v : bool) (r : nd) : nd := mkNd (op r) v (asked r) (ents r) (feds r) (cst r) (its r) (delay r) (cfeds r) (cq r) (upP r) (upN r) (dn r) (joined r) (acked r).
(** field update of [nd] above (C++ member assignment) *)
Definition set_asked (v : bool) (r : nd) : nd := mkNd (op r) (it r) v (ents r) (feds r) (cst r) (its r) (delay r) (cfeds r) (cq r) (upP r) (upN r) (dn r) (joined r) (acked r).
(** field update of [nd] above (C++ member assignment) *)
Definition set_ents (v : list ent) (r : nd) : nd := mkNd (op r) (it r) (asked r) v (feds r) (cst r) (its r) (delay r) (cfeds r) (cq r) (upP r) (upN r) (dn r) (joined r) (acked r).
(** field update of [nd] above (C++ member assignment) *)
Definition set_feds (v : list fent) (r : nd) : nd := mkNd (op r) (it r) (asked r) (ents r) v (cst r) (its r) (delay r) (cfeds r) (cq r) (upP r) (upN r) (dn r) (joined r) (acked r).
(** field update of [nd] above (C++ member assignment) *)
Definition set_cst (v : cstate) (r : nd) : nd := mkNd (op r) (it r) (asked r) (ents r) (feds r) v (its r) (delay r) (cfeds r) (cq r) (upP r) (upN r) (dn r) (joined r) (acked r).
(** field update of [nd] above (C++ member assignment) *)
Definition set_its (v : bool) (r : nd) : nd := mkNd (op r) (it r) (asked r) (ents r) (feds r) (cst r) v (delay r) (cfeds r) (cq r) (upP r) (upN r) (dn r) (joined r) (acked r).
(** field update of [nd] above (C++ member assignment) *)
Definition set_delay (v : Z) (r : nd) : nd := mkNd (op r) (it r) (asked r) (ents r) (feds r) (cst r) (its r) v (cfeds r) (cq r) (upP r) (upN r) (dn r) (joined r) (acked r).
(** field update of [nd] above (C++ member assignment) *)
Definition set_cfeds (v : list cfed) (r : nd) : nd := mkNd (op r) (it r) (asked r) (ents r) (feds r) (cst r) (its r) (delay r) v (cq r) (upP r) (upN r) (dn r) (joined r) (acked r).
(** field update of [nd] above (C++ member assignment) *)
Definition set_cq (v : list (nat * bool)) (r : nd) : nd := mkNd (op r) (it r) (asked r) (ents r) (feds r) (cst r) (its r) (delay r) (cfeds r) v (upP r) (upN r) (dn r) (joined r) (acked r).
(** field update of [nd] above (C++ member assignment) *)
Definition set_upP (v : list pmsg) (r : nd) : nd := mkNd (op r) (it r) (asked r) (ents r) (feds r) (cst r) (its r) (delay r) (cfeds r) (cq r) v (upN r) (dn r) (joined r) (acked r).
(** field update of [nd] above (C++ member assignment) *)
Definition set_upN (v : list nmsg) (r : nd) : nd := mkNd (op r) (it r) (asked r) (ents r) (feds r) (cst r) (its r) (delay r) (cfeds r) (cq r) (upP r) v (dn r) (joined r) (acked r).
(** field update of [nd] above (C++ member assignment) *)
Definition set_dn (v : list bool) (r : nd) : nd := mkNd (op r) (it r) (asked r) (ents r) (feds r) (cst r) (its r) (delay r) (cfeds r) (cq r) (upP r) (upN r) v (joined r) (acked r).
(** field update of [nd] above (C++ member assignment) *)
Definition set_joined (v : bool) (r : nd) : nd := mkNd (op r) (it r) (asked r) (ents r) (feds r) (cst r) (its r) (delay r) (cfeds r) (cq r) (upP r) (upN r) (dn r) v (acked r).
(** field update of [nd] above (C++ member assignment) *)
Definition set_acked (v : bool) (r : nd) : nd := mkNd (op r) (it r) (asked r) (ents r) (feds r) (cst r) (its r) (delay r) (cfeds r) (cq r) (upP r) (upN r) (dn r) (joined r) v.

(** A federate: its core, whether the registration was acknowledged, whether enterInitializingMode is waiting
    (initRequested), the grants in its queue, whether it is in initializing mode *)
Record fd : Type := mkFd {
  f_core : option nat;
  f_ack : bool;
  f_wait : bool;
  f_in : list bool;
  f_done : bool
}.
(** field update of [fd] above (C++ member assignment) *)
Definition set_f_core (v : option nat) (r : fd) : fd := mkFd v (f_ack r) (f_wait r) (f_in r) (f_done r).
(** field update of [fd] above (C++ member assignment) *)
Definition set_f_ack (v : bool) (r : fd) : fd := mkFd (f_core r) v (f_wait r) (f_in r) (f_done r).
(** field update of [fd] above (C++ member assignment) *)
Definition set_f_wait (v : bool) (r : fd) : fd := mkFd (f_core r) (f_ack r) v (f_in r) (f_done r).
(** field update of [fd] above (C++ member assignment) *)
Definition set_f_in (v : list bool) (r : fd) : fd := mkFd (f_core r) (f_ack r) (f_wait r) v (f_done r).
(** field update of [fd] above (C++ member assignment) *)
Definition set_f_done (v : bool) (r : fd) : fd := mkFd (f_core r) (f_ack r) (f_wait r) (f_in r) v.

(** the acknowledgements sent by the root *)
Inductive ack := AckN (n : nat) | AckF (f : nat).
Record gs : Type := mkGs {
  nodes : nat -> nd;
  fds : nat -> fd;
  acks : list ack
}.
(** field update of [gs] above (C++ member assignment) *)
Definition set_nodes (v : nat -> nd) (r : gs) : gs := mkGs v (fds r) (acks r).
(** field update of [gs] above (C++ member assignment) *)
Definition set_fds (v : nat -> fd) (r : gs) : gs := mkGs (nodes r) v (acks r).
(** field update of [gs] above (C++ member assignment) *)
Definition set_acks (v : list ack) (r : gs) : gs := mkGs (nodes r) (fds r) v.


(** minFederateCount, minBrokerCount, minChildCount, minLocalBrokerCount, minLocalFederateCount, maxFederateCount,
    maxBrokerCount, requiredFederates (BrokerBase.hpp, CoreBroker.hpp) *)
Record lim := mkLim { mFed : nat; mBrk : nat; mChild : nat; mLBrk : nat; mLFed : nat; MFed : nat; MBrk : nat; req : list nat }.
(** the limits of every node; which federates are hidden ones (non_counting_flag, CommonCore.cpp:3890 and 3925) *)
Record config := mkCfg { c_lim : nat -> lim; c_hidden : nat -> bool }.

Definition nd0 : nd := mkNd false false false [] [] Conn false 0 [] [] [] [] [] false false.
Definition fd0 : fd := mkFd None false false [] false.
(** the root is connected from the start (CoreBroker.cpp:2470-2477) *)
Definition gs0 (T : topology) : gs :=
  mkGs (fun n => if Nat.eqb n (t_root T) then set_acked true (set_joined true nd0) else nd0) (fun _ => fd0) [].

Definition put {A} (f : nat -> A) (k : nat) (v : A) : nat -> A := fun x => if Nat.eqb x k then v else f x.
Definition setN (n : nat) (x : nd) (s : gs) : gs := set_nodes (put (nodes s) n x) s.
Definition setF (f : nat) (x : fd) (s : gs) : gs := set_fds (put (fds s) f x) s.

(** ** The broker *)
Definition findE (l : list ent) (n : nat) : option ent := find (fun e => Nat.eqb (e_id e) n) l.
Definition updE (l : list ent) (n : nat) (f : ent -> ent) : list ent := map (fun e => if Nat.eqb (e_id e) n then f e else e) l.
Definition setSt (st it : bool) (e : ent) : ent := mkEnt (e_id e) (e_par e) (e_local e) (e_core e) st it (e_late e).

(** CoreBroker.cpp:4721-4730 getCountableFederates *)
Definition countable (x : nd) : nat := length (filter x_count (feds x)).
(** CoreBroker.cpp:4707-4719 getAllConnectionState() >= INIT_REQUESTED *)
Definition allRequested (x : nd) : bool :=
  let l := filter e_local (ents x) in negb (Nat.eqb (length l) 0) && forallb e_st l.
(** CoreBroker.cpp:4732-4787 allInitReady *)
Definition readyB (L : lim) (self : nat) (x : nd) : bool :=
  (mFed L <=? length (feds x)) && (mBrk L <=? length (ents x)) &&
  (mChild L <=? length (filter (fun e => Nat.eqb (e_par e) self) (ents x))) &&
  (mLBrk L <=? length (filter (fun e => Nat.eqb (e_par e) self && negb (e_core e)) (ents x))) &&
  (mLFed L <=? length (filter (fun f => x_count f &&
      match findE (ents x) (x_par f) with Some e => Nat.eqb (e_par e) self && e_core e | None => false end) (feds x))) &&
  forallb (fun r => existsb (fun f => Nat.eqb (x_id f) r) (feds x)) (req L) &&
  allRequested x && (mFed L <=? countable x).

(** transmit(parent_route_id, ..): the root has no parent *)
Definition sendN (T : topology) (self : nat) (m : nmsg) (x : nd) : nd :=
  if Nat.eqb self (t_root T) then x else set_upN (upN x ++ [m]) x.

(** CoreBroker.cpp:363-516 brokerRegistration of n, received from the child m; the acknowledgement of the root *)
Definition brokerReg (T : topology) (L : lim) (self m n : nat) (x : nd) : nd * list ack :=
  if MBrk L <=? length (ents x) then (x, []) else
  if op x then (x, []) else
  let x := if readyB L self x then sendN T self (MNot self) x else x in
  match findE (ents x) n with
  | Some _ => (x, [])
  | None =>
      let e := mkEnt n (if Nat.eqb n m then self else m) (Nat.eqb n m) (t_core T n) false false (asked x) in
      let x := set_ents (ents x ++ [e]) x in
      if Nat.eqb self (t_root T) then (x, [AckN n]) else (set_upP (upP x ++ [Reg n]) x, [])
  end.

(** CoreBroker.cpp:545-680 fedRegistration of f, received from the child m *)
Definition fedReg (T : topology) (C : config) (self m f : nat) (x : nd) : nd * list ack :=
  let L := c_lim C self in
  let cnt := negb (c_hidden C f) in
  if cnt && (MFed L <=? countable x) then (x, []) else
  if op x && cnt then (x, []) else
  let x := if negb (op x) && cnt && readyB L self x then sendN T self (MNot self) x else x in
  if existsb (fun g => Nat.eqb (x_id g) f) (feds x) then (x, [])
  else
    let x := set_feds (feds x ++ [mkFent f m cnt]) x in
    if Nat.eqb self (t_root T) then (x, [AckF f]) else (set_upP (upP x ++ [RegF f]) x, []).

(** CoreBroker.cpp:2843-2862 executeInitializationOperations(true): the grants sent *)
Definition iterOut (x : nd) : list (nat * bool) := map (fun e => (e_id e, true)) (filter (fun e => e_local e && e_it e) (ents x)).
Definition iterState (x : nd) : nd :=
  set_asked false (set_it false (set_op false (set_ents (map (fun e => if e_local e && e_it e then setSt false false e else e) (ents x)) x))).
(** CoreBroker.cpp:3056-3059 and 2706-2714: the grant to every direct child *)
Definition finalOut (x : nd) : list (nat * bool) := map (fun e => (e_id e, false)) (filter e_local (ents x)).
Definition finalState (x : nd) : nd := set_op true x.

(** CoreBroker.cpp:1596-1654: CMD_INIT from the child m *)
Definition brokerInit (T : topology) (L : lim) (self m : nat) (i : bool) (x : nd) : nd * list (nat * bool) :=
  match findE (ents x) m with
  | None => (x, [])
  | Some _ =>
      let x := set_ents (updE (ents x) m (fun e => setSt true (e_it e || i) e)) (set_it (it x || i) x) in
      if readyB L self x then
        if Nat.eqb self (t_root T) then
          if it x then (iterState x, iterOut x) else (set_asked true (finalState x), finalOut x)
        else (sendN T self (MInit (it x)) (set_asked true x), [])
      else (x, [])
  end.

(** CoreBroker.cpp:1656-1671: CMD_INIT_NOT_READY; the source is left as it is when it is passed on *)
Definition brokerNot (T : topology) (L : lim) (self src : nat) (x : nd) : nd :=
  let r := readyB L self x in
  if r && Nat.eqb self (t_root T) then x else
  let x := if r then sendN T self (MNot src) x else x in
  set_ents (updE (ents x) src (setSt false false)) x.

(** CoreBroker.cpp:1672-1693: CMD_INIT_GRANT at a broker which is not the root *)
Definition brokerGrant (i : bool) (x : nd) : nd * list (nat * bool) :=
  if i then (iterState x, iterOut x) else (finalState x, finalOut x).

(** ** The core *)
(** CommonCore.cpp:575-595 allInitReady *)
Definition readyC (L : lim) (x : nd) : bool :=
  (delay x <=? 0)%Z && (mFed L <=? length (cfeds x)) && (mChild L <=? length (cfeds x)) &&
  forallb (fun r => existsb (fun f => Nat.eqb (q_id f) r) (cfeds x)) (req L) && forallb q_trans (cfeds x).
(** transitionBrokerState(CONNECTED, INITIALIZING) and, when it succeeds, CMD_INIT to the parent; before the core has its id
    the command carries the id 0 as its source, and the broker finds nobody under it *)
Definition coreAsk (i : bool) (x : nd) : nd :=
  match cst x with Conn => let x := set_cst Initing x in if acked x then set_upN (upN x ++ [MInit i]) x else x | _ => x end.

Definition updC (l : list cfed) (f : nat) (g : cfed -> cfed) : list cfed := map (fun q => if Nat.eqb (q_id q) f then g q else q) l.
Definition hasC (l : list cfed) (f : nat) : bool := existsb (fun q => Nat.eqb (q_id q) f) l.

(** CommonCore.cpp:3222-3241 CMD_REG_FED; a hidden federate is not among loopFederates (3885-3935) *)
Definition coreReg (C : config) (f : nat) (x : nd) : nd :=
  let x := if c_hidden C f then x
           else set_cfeds (cfeds x ++ [mkCf f false false (match cst x with Conn => false | _ => true end)]) x in
  set_upP (upP x ++ [RegF f]) x.

(** CommonCore.cpp:685-698: the flags set by the thread which calls enterInitializingMode; addActionMessage(CMD_INIT) *)
Definition coreRequest (f : nat) (i : bool) (x : nd) : nd :=
  let x := if i then set_its true (set_cfeds (updC (cfeds x) f (fun q => mkCf (q_id q) (q_trans q) true (q_late q))) x) else x in
  set_cq (cq x ++ [(f, i)]) x.

(** CommonCore.cpp:4664-4688 processInitRequest, CMD_INIT of the federate f.  The flag of the command is set when the core is
    iterating, and was set by the federate otherwise: it is set exactly when initIterations or the federate's own flag are *)
Definition coreInit (L : lim) (f : nat) (i : bool) (x : nd) : nd :=
  if hasC (cfeds x) f then
    let x := set_cfeds (updC (cfeds x) f (fun q => mkCf (q_id q) true (q_it q) (q_late q))) x in
    if readyC L x then coreAsk (its x || i) x else x
  else x.

(** CommonCore.cpp:4941-4956 ENABLE_INIT_ENTRY: the command carries no iteration flag *)
Definition coreEnable (L : lim) (x : nd) : nd :=
  let x := set_delay (delay x - 1)%Z x in
  if (delay x <=? 0)%Z && readyC L x then coreAsk false x else x.

(** CommonCore.cpp:3297-3311: CMD_BROKER_ACK *)
Definition coreAck (L : lim) (x : nd) : nd :=
  let x := set_acked true x in
  if (delay x <? 0)%Z && Nat.eqb (mFed L) 0 && Nat.eqb (mChild L) 0 && readyC L x then coreAsk (its x) x else x.

(** CommonCore.cpp:4690-4730: CMD_INIT_GRANT; which federates get it *)
Definition coreGrant (i : bool) (x : nd) : nd * list (nat * bool) :=
  if i then
    if its x then
      let x := set_its false x in
      match cst x with
      | Initing =>
          (set_cst Conn (set_cfeds (map (fun q => if q_it q then mkCf (q_id q) false false (q_late q) else q) (cfeds x)) x),
           map (fun q => (q_id q, true)) (filter q_it (cfeds x)))
      | _ => (x, [])
      end
    else (x, [])
  else match cst x with
       | Initing => (set_cst Oper x, map (fun q => (q_id q, false)) (cfeds x))
       | _ => (x, [])
       end.

(** ** The network *)
Inductive event :=
| EJoin (n : nat)                 (* connect(): the node sends its registration *)
| EReg (c f : nat)                (* the core c processes the registration of a federate *)
| EUpP (n : nat)                  (* the parent of n takes the next priority command of n *)
| EUpN (n : nat)                  (* the parent of n takes the next other command of n *)
| EDown (n : nat)                 (* n takes the next grant from its parent *)
| EAck (a : ack)                  (* an acknowledgement arrives *)
| ERequest (f : nat) (i : bool)   (* the federate calls enterInitializingMode, or its iterative form *)
| ECore (c : nat)                 (* the core takes the next CMD_INIT of its federates *)
| EDelay (c : nat)                (* setFlagOption(DELAY_INIT_ENTRY, true), CommonCore.cpp:1170-1172 *)
| EEnable (c : nat)               (* the core processes ENABLE_INIT_ENTRY *)
| EReply (f : nat).               (* the waiting federate takes the next grant (TimeCoordinatorProcessing.cpp:59-75) *)

Definition isAck (a b : ack) : bool :=
  match a, b with AckN n, AckN m => Nat.eqb n m | AckF n, AckF m => Nat.eqb n m | _, _ => false end.
Fixpoint remove1 (a : ack) (l : list ack) : list ack :=
  match l with [] => [] | b :: r => if isAck a b then r else b :: remove1 a r end.

(** the grants go into the queues of the children, or of the federates *)
Definition sendDown (out : list (nat * bool)) (s : gs) : gs :=
  fold_left (fun s o => setN (fst o) (set_dn (dn (nodes s (fst o)) ++ [snd o]) (nodes s (fst o))) s) out s.
Definition sendFed (out : list (nat * bool)) (s : gs) : gs :=
  fold_left (fun s o => setF (fst o) (set_f_in (f_in (fds s (fst o)) ++ [snd o]) (fds s (fst o))) s) out s.

Definition step (T : topology) (C : config) (s : gs) (e : event) : gs :=
  match e with
  | EJoin n =>
      let x := nodes s n in
      if joined x then s else setN n (set_upP (upP x ++ [Reg n]) (set_joined true x)) s
  | EReg c f =>
      let x := nodes s c in
      if t_core T c && acked x && match f_core (fds s f) with None => true | _ => false end
      then setF f (set_f_core (Some c) (fds s f)) (setN c (coreReg C f x) s) else s
  | EUpP n =>
      match t_parent T n, upP (nodes s n) with
      | Some p, m :: r =>
          (* the parent is connected (earlyMessages, CoreBroker.cpp:365-368); what follows the registration of n itself is held
             back until n has its id (delayTransmitQueue, CoreBroker.cpp:475-480) *)
          if joined (nodes s p) && (match m with Reg k => Nat.eqb k n | _ => false end || acked (nodes s n)) then
            let s := setN n (set_upP r (nodes s n)) s in
            let '(x, a) := match m with Reg k => brokerReg T (c_lim C p) p n k (nodes s p) | RegF f => fedReg T C p n f (nodes s p) end in
            set_acks (acks s ++ a) (setN p x s)
          else s
      | _, _ => s
      end
  | EUpN n =>
      match t_parent T n, upN (nodes s n) with
      | Some p, m :: r =>
          let s := setN n (set_upN r (nodes s n)) s in
          match m with
          | MInit i => let '(x, out) := brokerInit T (c_lim C p) p n i (nodes s p) in sendDown out (setN p x s)
          | MNot src => setN p (brokerNot T (c_lim C p) p src (nodes s p)) s
          end
      | _, _ => s
      end
  | EDown n =>
      match dn (nodes s n) with
      | i :: r =>
          let x := set_dn r (nodes s n) in
          if t_core T n then let '(x, out) := coreGrant i x in sendFed out (setN n x s)
          else let '(x, out) := brokerGrant i x in sendDown out (setN n x s)
      | [] => s
      end
  | EAck a =>
      if existsb (isAck a) (acks s) then
        match a with
        | AckN n =>
            match t_parent T n with
            | Some p =>
                if acked (nodes s p) then
                  let x := nodes s n in
                  set_acks (remove1 a (acks s)) (setN n (if t_core T n then coreAck (c_lim C n) x else set_acked true x) s)
                else s
            | None => s
            end
        | AckF f => set_acks (remove1 a (acks s)) (setF f (set_f_ack true (fds s f)) s)
        end
      else s
  | ERequest f i =>
      let y := fds s f in
      match f_core y with
      | Some c =>
          if f_ack y && negb (f_wait y) && negb (f_done y) && negb (c_hidden C f)
          then setF f (set_f_wait true y) (setN c (coreRequest f i (nodes s c)) s) else s
      | None => s
      end
  | ECore c =>
      match t_core T c, cq (nodes s c) with
      | true, (f, i) :: r => setN c (coreInit (c_lim C c) f i (set_cq r (nodes s c))) s
      | _, _ => s
      end
  | EDelay c => setN c (set_delay (delay (nodes s c) + 1)%Z (nodes s c)) s
  | EEnable c =>
      (* before connect() the state of the core is not CONNECTED *)
      if t_core T c && joined (nodes s c) then setN c (coreEnable (c_lim C c) (nodes s c)) s
      else if t_core T c then setN c (set_delay (delay (nodes s c) - 1)%Z (nodes s c)) s else s
  | EReply f =>
      let y := fds s f in
      match f_wait y, f_in y with
      | true, i :: r => setF f (set_f_done (negb i) (set_f_wait false (set_f_in r y))) s
      | _, _ => s
      end
  end.

Definition run (T : topology) (C : config) (h : list event) : gs := fold_left (step T C) h (gs0 T).
