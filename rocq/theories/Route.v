(** * Registration and routing in a tree of brokers (model)

    src/helics/core/CoreBroker.cpp (getRoute, brokerRegistration, fedRegistration, the acknowledgements, routeMessage) and
    the corresponding parts of CommonCore.cpp.

    Brokers and cores are the nodes of a tree; every node has one address.  A packet carries a message between a node and
    its parent.  Packets may be delivered in any order and may be lost.

    Simplifications: the reasons for which a broker refuses a registration other than a name in use (count limits, the
    state of the broker, the key, a connection test) are one boolean given by the environment at each delivery; the flags
    carried along (core, observer, ping, timing) and the timing set-up are left out; routes are the plain counter (JSON
    routes add a type code, see Ids.v); the federates with a fixed id made by a core (child_flag) and re-entrant federates
    are not modelled; messages queued before CMD_BROKER_SETUP are packets which have not been delivered yet.  [be_own],
    [fe_own] and the last component of the messages name the node which asked for the registration; the code never reads
    them (they are ghost), except the address in a broker's registration, which is what the code keeps in the payload. *)
From Coq Require Import String ZArith Bool List Lia.
From Verif Require Import Ids.
Import ListNotations.
Open Scope Z_scope.

(** BasicBrokerInfo (CoreBroker.hpp:68-88) and BasicFedInfo (CoreBroker.hpp:54-66): name, global_id, route *)
Record bentry := mkB { be_name : string; be_gid : Z; be_route : Z; be_own : nat }.
Record fentry := mkF { fe_name : string; fe_gid : Z; fe_route : Z; fe_own : nat }.

(** CMD_REG_BROKER (counter > 0 marks a resend), CMD_REG_FED (counter is the priority block), CMD_BROKER_ACK, CMD_FED_ACK *)
Inductive rmsg :=
| RegBroker (n : string) (src : Z) (addr : nat) (counter : Z)
| RegFed (n : string) (src : Z) (counter : Z) (own : nat)
| BrokerAck (n : string) (src dst : Z) (err : bool) (own : nat)
| FedAck (n : string) (src dst : Z) (err : bool) (own : nat).

(** The state of a broker or core: CoreBroker.hpp:100-130, BrokerBase.hpp:40-50, CommonCore.hpp:374.
    n_routes: what addRoute registered with the communication layer.  n_local: the federates of a core with their ids.
    n_ub: the code dereferenced the end of a container. *)
Record node : Type := mkNode {
  n_root : bool;
  n_core : bool;
  n_name : string;
  n_id : Z;
  n_higher : Z;
  n_brokers : list bentry;
  n_feds : list fentry;
  n_table : list (Z * Z);
  n_routes : list (Z * nat);
  n_rc : Z;
  n_delay : list rmsg;
  n_local : list (string * Z);
  n_ub : bool
}.
(** field update of [node] above (C++ member assignment) *)
Definition set_n_root (v : bool) (r : node) : node := mkNode v (n_core r) (n_name r) (n_id r) (n_higher r) (n_brokers r) (n_feds r) (n_table r) (n_routes r) (n_rc r) (n_delay r) (n_local r) (n_ub r).
(** field update of [node] above (C++ member assignment) *)
Definition set_n_core (v : bool) (r : node) : node := mkNode (n_root r) v (n_name r) (n_id r) (n_higher r) (n_brokers r) (n_feds r) (n_table r) (n_routes r) (n_rc r) (n_delay r) (n_local r) (n_ub r).
(** field update of [node] above (C++ member assignment) *)
Definition set_n_name (v : string) (r : node) : node := mkNode (n_root r) (n_core r) v (n_id r) (n_higher r) (n_brokers r) (n_feds r) (n_table r) (n_routes r) (n_rc r) (n_delay r) (n_local r) (n_ub r).
(** field update of [node] above (C++ member assignment) *)
Definition set_n_id (v : Z) (r : node) : node := mkNode (n_root r) (n_core r) (n_name r) v (n_higher r) (n_brokers r) (n_feds r) (n_table r) (n_routes r) (n_rc r) (n_delay r) (n_local r) (n_ub r).
(** field update of [node] above (C++ member assignment) *)
Definition set_n_higher (v : Z) (r : node) : node := mkNode (n_root r) (n_core r) (n_name r) (n_id r) v (n_brokers r) (n_feds r) (n_table r) (n_routes r) (n_rc r) (n_delay r) (n_local r) (n_ub r).
(** field update of [node] above (C++ member assignment) *)
Definition set_n_brokers (v : list bentry) (r : node) : node := mkNode (n_root r) (n_core r) (n_name r) (n_id r) (n_higher r) v (n_feds r) (n_table r) (n_routes r) (n_rc r) (n_delay r) (n_local r) (n_ub r).
(** field update of [node] above (C++ member assignment) *)
Definition set_n_feds (v : list fentry) (r : node) : node := mkNode (n_root r) (n_core r) (n_name r) (n_id r) (n_higher r) (n_brokers r) v (n_table r) (n_routes r) (n_rc r) (n_delay r) (n_local r) (n_ub r).
(** field update of [node] above (C++ member assignment) *)
Definition set_n_table (v : list (Z * Z)) (r : node) : node := mkNode (n_root r) (n_core r) (n_name r) (n_id r) (n_higher r) (n_brokers r) (n_feds r) v (n_routes r) (n_rc r) (n_delay r) (n_local r) (n_ub r).
(** field update of [node] above (C++ member assignment) *)
Definition set_n_routes (v : list (Z * nat)) (r : node) : node := mkNode (n_root r) (n_core r) (n_name r) (n_id r) (n_higher r) (n_brokers r) (n_feds r) (n_table r) v (n_rc r) (n_delay r) (n_local r) (n_ub r).
(** field update of [node] above (C++ member assignment) *)
Definition set_n_rc (v : Z) (r : node) : node := mkNode (n_root r) (n_core r) (n_name r) (n_id r) (n_higher r) (n_brokers r) (n_feds r) (n_table r) (n_routes r) v (n_delay r) (n_local r) (n_ub r).
(** field update of [node] above (C++ member assignment) *)
Definition set_n_delay (v : list rmsg) (r : node) : node := mkNode (n_root r) (n_core r) (n_name r) (n_id r) (n_higher r) (n_brokers r) (n_feds r) (n_table r) (n_routes r) (n_rc r) v (n_local r) (n_ub r).
(** field update of [node] above (C++ member assignment) *)
Definition set_n_local (v : list (string * Z)) (r : node) : node := mkNode (n_root r) (n_core r) (n_name r) (n_id r) (n_higher r) (n_brokers r) (n_feds r) (n_table r) (n_routes r) (n_rc r) (n_delay r) v (n_ub r).
(** field update of [node] above (C++ member assignment) *)
Definition set_n_ub (v : bool) (r : node) : node := mkNode (n_root r) (n_core r) (n_name r) (n_id r) (n_higher r) (n_brokers r) (n_feds r) (n_table r) (n_routes r) (n_rc r) (n_delay r) (n_local r) v.


(** GlobalFederateId.hpp:67 parent_broker_id; :221 parent_route_id *)
Definition parentId : Z := 0.
Definition parentRoute : Z := 0.

(** std::unordered_map find and emplace (which keeps an existing entry) *)
Fixpoint lookup {A} (l : list (Z * A)) (k : Z) : option A :=
  match l with [] => None | (k', v) :: r => if k' =? k then Some v else lookup r k end.
Definition emplace {A} (k : Z) (v : A) (l : list (Z * A)) : list (Z * A) :=
  match lookup l k with Some _ => l | None => l ++ [(k, v)] end.

(** gmlc DualMappedVector: find by name, the update through the iterator *)
Fixpoint findB (l : list bentry) (n : string) : option bentry :=
  match l with [] => None | e :: r => if String.eqb (be_name e) n then Some e else findB r n end.
Fixpoint findF (l : list fentry) (n : string) : option fentry :=
  match l with [] => None | e :: r => if String.eqb (fe_name e) n then Some e else findF r n end.
Definition updB (l : list bentry) (n : string) (f : bentry -> bentry) : list bentry :=
  map (fun e => if String.eqb (be_name e) n then f e else e) l.
Definition updF (l : list fentry) (n : string) (f : fentry -> fentry) : list fentry :=
  map (fun e => if String.eqb (fe_name e) n then f e else e) l.

(** CoreBroker.cpp:153-161 getRoute *)
Definition getRoute (x : node) (g : Z) : Z :=
  if (g =? parentId) || (g =? n_higher x) then parentRoute
  else match lookup (n_table x) g with Some r => r | None => parentRoute end.

(** where a message is handed to: a route, or the temporary route made for one answer (CoreBroker.cpp:334-337, 358-360) *)
Inductive target := ToRoute (r : Z) | ToAddr (a : nat).

(** CoreBroker.cpp:329-361 sendBrokerErrorAck; the destination of a new ActionMessage is parent_broker_id (ActionMessage.hpp:39) *)
Definition brokerErrorAck (x : node) (n : string) (src : Z) (addr : nat) : node * list (target * rmsg) :=
  let m := BrokerAck n (n_id x) parentId true addr in
  if negb (isValid src) || (src =? parentId) then (set_n_rc (n_rc x + 1) x, [(ToAddr addr, m)])
  else (x, [(ToRoute (getRoute x src), m)]).

(** CoreBroker.cpp:363-516 brokerRegistration *)
Definition brokerRegistration (x : node) (n : string) (src : Z) (addr : nat) (counter : Z) (ok : bool) : node * list (target * rmsg) :=
  match (if 0 <? counter then findB (n_brokers x) n else None) with
  | Some e => (* 369-396: a resend *)
      let r := n_rc x in
      let x := set_n_rc (r + 1) (set_n_routes (n_routes x ++ [(r, addr)]) x) in
      let x := set_n_brokers (updB (n_brokers x) n (fun e => mkB (be_name e) (be_gid e) r (be_own e))) x in
      let x := set_n_table ((be_gid e, r) :: filter (fun kv => negb (fst kv =? be_gid e)) (n_table x)) x in
      (x, [(ToRoute r, BrokerAck n (n_id x) (be_gid e) false addr)])
  | None =>
      if negb ok then brokerErrorAck x n src addr
      else match findB (n_brokers x) n with
      | Some _ => brokerErrorAck x n src addr
      | None =>
          let '(x, r) := if negb (isValid src) || (src =? parentId)
                         then (set_n_rc (n_rc x + 1) (set_n_routes (n_routes x ++ [(n_rc x, addr)]) x), n_rc x)
                         else (x, getRoute x src) in
          if n_root x then
            let g := newBrokerId (Z.of_nat (length (n_brokers x))) in
            let x := set_n_brokers (n_brokers x ++ [mkB n g r addr]) x in
            let x := set_n_table (emplace g r (n_table x)) x in
            (x, [(ToRoute r, BrokerAck n (n_id x) g false addr)])
          else
            let x := set_n_brokers (n_brokers x ++ [mkB n invalidId r addr]) x in
            if isValid (n_id x) && negb (n_id x =? parentId)
            then (x, [(ToRoute parentRoute, RegBroker n (n_id x) addr counter)])
            else (set_n_delay (n_delay x ++ [RegBroker n src addr counter]) x, [])
      end
  end.

(** CoreBroker.cpp:546-694 fedRegistration, sendFedErrorAck 518-526 *)
Definition fedRegistration (x : node) (n : string) (src counter : Z) (own : nat) (ok : bool) : node * list (target * rmsg) :=
  let refuse := (x, [(ToRoute (getRoute x src), FedAck n (n_id x) parentId true own)]) in
  if negb ok then refuse
  else match findF (n_feds x) n with
  | Some _ => refuse
  | None =>
      let r := getRoute x src in
      if n_root x then
        let g := newFederateId (Z.of_nat (length (n_feds x))) counter in
        let x := set_n_feds (n_feds x ++ [mkF n g r own]) x in
        let x := set_n_table (emplace g r (n_table x)) x in
        (x, [(ToRoute r, FedAck n (n_id x) g false own)])
      else
        let x := set_n_feds (n_feds x ++ [mkF n invalidId r own]) x in
        if isValid (n_id x) then (x, [(ToRoute parentRoute, RegFed n (n_id x) counter own)])
        else (set_n_delay (n_delay x ++ [RegFed n src counter own]) x, [])
  end.

(** CoreBroker.cpp:738-764: CMD_FED_ACK at a broker *)
Definition brokerFedAck (x : node) (n : string) (src dst : Z) (err : bool) (own : nat) : node * list (target * rmsg) :=
  match findF (n_feds x) n with
  | Some e =>
      let g := if isValid (fe_gid e) then fe_gid e else dst in
      let x := set_n_feds (updF (n_feds x) n (fun e => mkF (fe_name e) g (fe_route e) (fe_own e))) x in
      (set_n_table (emplace g (fe_route e) (n_table x)) x, [(ToRoute (fe_route e), FedAck n src dst err own)])
  | None => (set_n_ub true x, [])
  end.

(** the delayed messages with the new source: CoreBroker.cpp:944-952 transmitDelayedMessages *)
Definition withSource (i : Z) (m : rmsg) : rmsg :=
  match m with
  | RegBroker n _ a c => RegBroker n i a c
  | RegFed n _ c o => RegFed n i c o
  | BrokerAck n _ d e o => BrokerAck n i d e o
  | FedAck n _ d e o => FedAck n i d e o
  end.

(** CoreBroker.cpp:766-824: CMD_BROKER_ACK at a broker *)
Definition brokerBrokerAck (x : node) (n : string) (src dst : Z) (err : bool) (own : nat) : node * list (target * rmsg) :=
  if String.eqb n (n_name x) then
    if err then (x, [])
    else (set_n_delay [] (set_n_higher src (set_n_id dst x)), map (fun m => (ToRoute parentRoute, withSource dst m)) (n_delay x))
  else
    match findB (n_brokers x) n with
    | Some e =>
        if be_gid e =? dst then (x, [])
        else
          let x := set_n_brokers (updB (n_brokers x) n (fun e => mkB (be_name e) dst (be_route e) (be_own e))) x in
          (set_n_table (emplace dst (be_route e) (n_table x)) x, [(ToRoute (be_route e), BrokerAck n (n_id x) dst err own)])
    | None => (set_n_ub true x, [])
    end.

(** CommonCore.cpp:3265-3312 CMD_BROKER_ACK and 3313-3335 CMD_FED_ACK at a core *)
Definition coreBrokerAck (x : node) (n : string) (src dst : Z) (err : bool) : node * list (target * rmsg) :=
  if String.eqb n (n_name x) && negb err then (set_n_higher src (set_n_id dst x), []) else (x, []).
Definition coreFedAck (x : node) (n : string) (dst : Z) (err : bool) : node * list (target * rmsg) :=
  if err then (x, [])
  else (set_n_local (map (fun f => if String.eqb (fst f) n then (fst f, dst) else f) (n_local x)) x, []).

(** one message received: CoreBroker.cpp:697-824, CommonCore.cpp:3205-3335 processPriorityCommand *)
Definition receive (x : node) (m : rmsg) (ok : bool) : node * list (target * rmsg) :=
  if n_core x then
    match m with
    | RegBroker n src a c => if String.eqb n (n_name x) then (x, []) else (x, [(ToRoute parentRoute, m)])
    | RegFed _ _ _ _ => (x, [])
    | BrokerAck n src dst err own => coreBrokerAck x n src dst err
    | FedAck n src dst err own => coreFedAck x n dst err
    end
  else
    match m with
    | RegBroker n src a c => brokerRegistration x n src a c ok
    | RegFed n src c own => fedRegistration x n src c own ok
    | BrokerAck n src dst err own => brokerBrokerAck x n src dst err own
    | FedAck n src dst err own => brokerFedAck x n src dst err own
    end.

(** ** The tree *)
Record topology := mkTopo { t_root : nat; t_parent : nat -> option nat; t_depth : nat -> nat; t_core : nat -> bool; t_name : nat -> string }.
(** a tree: every other node has a parent one level up, which is not a core; names may coincide *)
Definition tree (T : topology) : Prop :=
  t_parent T (t_root T) = None /\ t_core T (t_root T) = false /\
  (forall x, x <> t_root T -> exists p, t_parent T x = Some p) /\
  (forall x p, t_parent T x = Some p -> t_core T p = false /\ t_depth T x = S (t_depth T p)).

Definition packet := (nat * nat * rmsg)%type.   (* from, to, message *)
Record net := mkNet { nodes : nat -> node; wire : list packet }.

(** a node after set-up: the root's id is gRootBrokerID (CoreBroker.cpp:2470-2477), the others' parent_broker_id
    (BrokerBase.hpp:43, CoreBroker.cpp:715-717); the parent's id is 0 (BrokerBase.hpp:46); routes start at 1 (CoreBroker.hpp:106) *)
Definition node0 (T : topology) (x : nat) : node :=
  mkNode (Nat.eqb x (t_root T)) (t_core T x) (t_name T x) (if Nat.eqb x (t_root T) then rootId else parentId) 0 [] [] [] [] 1 [] [] false.
Definition net0 (T : topology) : net := mkNet (node0 T) [].

(** transmit: route 0 is the connection to the parent, the others are those of addRoute; an unknown route drops the message *)
Definition resolve (T : topology) (x : nat) (st : node) (t : target) : option nat :=
  match t with
  | ToAddr a => Some a
  | ToRoute r => if r =? parentRoute then t_parent T x else lookup (n_routes st) r
  end.
Definition packets (T : topology) (x : nat) (st : node) (out : list (target * rmsg)) : list packet :=
  flat_map (fun tm => match resolve T x st (fst tm) with Some y => [(x, y, snd tm)] | None => [] end) out.

Definition setNode (f : nat -> node) (x : nat) (v : node) : nat -> node := fun y => if Nat.eqb y x then v else f y.
Fixpoint without (k : nat) (l : list packet) : list packet :=
  match l, k with [], _ => [] | _ :: r, O => r | p :: r, S k => p :: without k r end.

(** E_connect: a node starts and registers with its parent (CoreBroker.cpp:2479-2515, CommonCore.cpp:195-222).
    E_resend: it registers again (CommonCore.cpp:3501-3515).
    E_register: registerFederate at a core which has its id (CommonCore.cpp:766-868, 3222-3240; the name must
    be new to it; the index group becomes the uint16_t counter).
    E_deliver k ok: the k-th packet on the way is delivered; [ok] = false if a limit, the broker's state or the key refuses it.
    E_lose k: it is lost. *)
Inductive event := E_connect (x : nat) | E_resend (x : nat) | E_register (x : nat) (n : string) (counter : Z) | E_deliver (k : nat) (ok : bool) | E_lose (k : nat).

Definition step (T : topology) (s : net) (e : event) : net :=
  match e with
  | E_connect x | E_resend x =>
      match t_parent T x with
      | None => s
      | Some p => mkNet (nodes s) (wire s ++ [(x, p, RegBroker (t_name T x) invalidId x (match e with E_resend _ => 1 | _ => 0 end))])
      end
  | E_register x n c =>
      let st := nodes s x in
      if t_core T x && isValid (n_id st) && negb (n_id st =? parentId) && negb (existsb (fun f => String.eqb (fst f) n) (n_local st)) then
        match t_parent T x with
        | None => s
        | Some p => mkNet (setNode (nodes s) x (set_n_local (n_local st ++ [(n, invalidId)]) st))
                          (wire s ++ [(x, p, RegFed n (n_id st) (toU16 c) x)])
        end
      else s
  | E_deliver k ok =>
      match nth_error (wire s) k with
      | None => s
      | Some (_, y, m) =>
          let '(st, out) := receive (nodes s y) m ok in
          mkNet (setNode (nodes s) y st) (without k (wire s) ++ packets T y st out)
      end
  | E_lose k => mkNet (nodes s) (without k (wire s))
  end.
Definition run (T : topology) (es : list event) (s : net) : net := fold_left (step T) es s.

(** ** Routing a command: CoreBroker.cpp:1586-1589, 2672-2680 routeMessage; CommonCore.cpp:5467-5495, 417-424 (a core's own
    routing table stays empty) *)
Inductive hop := Here | Next (y : nat) | Lost.
Definition localFed (st : node) (g : Z) : bool := existsb (fun f => snd f =? g) (n_local st).
Definition hopAt (T : topology) (s : net) (x : nat) (g : Z) : hop :=
  let st := nodes s x in
  let up := match t_parent T x with Some p => Next p | None => Lost end in
  if t_core T x then
    if (g =? parentId) || (g =? n_higher st) then up
    else if (g =? n_id st) || localFed st g then Here else up
  else if g =? n_id st then Here
  else let r := getRoute st g in
       if r =? parentRoute then up
       else match lookup (n_routes st) r with Some y => Next y | None => Lost end.
(** following the hops: where the command ends, and after how many *)
Fixpoint follow (T : topology) (s : net) (fuel : nat) (x : nat) (g : Z) : option (nat * nat) :=
  match fuel with
  | O => None
  | S fuel => match hopAt T s x g with
              | Here => Some (x, O)
              | Next y => match follow T s fuel y g with Some (z, n) => Some (z, S n) | None => None end
              | Lost => None
              end
  end.
