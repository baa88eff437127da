(** * The way of a published value from the publication to the inputs (model)

    The core of the publication (CommonCore.cpp setValue), the brokers between the two cores (CoreBroker.cpp, routing as
    in Route.v), and the core of the input, which hands the command to the federate.  Every pair of neighbours has one
    first-in first-out connection (the networks below are not modelled); the commands which a core's own threads queue
    wait in the connection of the core with itself.  Which connection is served next is up to the history; this is more
    general than the single queue of the code (C38: ordinary commands leave it in the order of arrival). *)
From Coq Require Import String ZArith Bool List Lia.
From Verif Require Import HTime Action Codec Bundle Interfaces Route.
Import ListNotations.
Open Scope Z_scope.

(** a command under way.  [v_copy] marks the copy of the last value which a core itself sends to a new subscriber; it is
    not in the code and no function below looks at it. *)
Record flit := mkV { v_copy : bool; v_cmd : amsg }.
(** d_links x y: the connection from x to y; d_box: the commands handed to a federate, in order (FederateState.hpp queue);
    d_pub and d_used: the publications (PublicationInfo.hpp) and BasicHandleInfo.hpp used; d_over: the federate is
    FINISHED or ERRORED *)
Record dsys : Type := mkD {
  d_net : net;
  d_links : nat -> nat -> list flit;
  d_box : Z -> list flit;
  d_pub : Z * Z -> pubinfo;
  d_used : Z * Z -> bool;
  d_over : Z -> bool
}.
(** field update of [dsys] above (C++ member assignment) *)
Definition set_d_net (v : net) (r : dsys) : dsys := mkD v (d_links r) (d_box r) (d_pub r) (d_used r) (d_over r).
(** field update of [dsys] above (C++ member assignment) *)
Definition set_d_links (v : nat -> nat -> list flit) (r : dsys) : dsys := mkD (d_net r) v (d_box r) (d_pub r) (d_used r) (d_over r).
(** field update of [dsys] above (C++ member assignment) *)
Definition set_d_box (v : Z -> list flit) (r : dsys) : dsys := mkD (d_net r) (d_links r) v (d_pub r) (d_used r) (d_over r).
(** field update of [dsys] above (C++ member assignment) *)
Definition set_d_pub (v : Z * Z -> pubinfo) (r : dsys) : dsys := mkD (d_net r) (d_links r) (d_box r) v (d_used r) (d_over r).
(** field update of [dsys] above (C++ member assignment) *)
Definition set_d_used (v : Z * Z -> bool) (r : dsys) : dsys := mkD (d_net r) (d_links r) (d_box r) (d_pub r) v (d_over r).
(** field update of [dsys] above (C++ member assignment) *)
Definition set_d_over (v : Z -> bool) (r : dsys) : dsys := mkD (d_net r) (d_links r) (d_box r) (d_pub r) (d_used r) v.

(** before any registration; no publication is known and nothing is under way (CommonCore.hpp, FederateState.hpp initial members) *)
Definition dsys0 (T : topology) : dsys := mkD (net0 T) (fun _ _ => []) (fun _ => []) (fun _ => pub_new) (fun _ => false) (fun _ => false).
(** assignment to one element of a table (the maps of CommonCore.hpp and InterfaceInfo.hpp) *)
Definition upd {A} (eqb : A -> A -> bool) {B} (f : A -> B) (a : A) (b : B) : A -> B := fun x => if eqb x a then b else f x.
(** a connection takes another command: CommsInterface.cpp transmit / BrokerBase.hpp addActionMessage *)
Definition push (x y : nat) (l : list flit) (s : dsys) : dsys :=
  set_d_links (fun a b => if Nat.eqb a x && Nat.eqb b y then d_links s a b ++ l else d_links s a b) s.
(** CommonCore.cpp:1825-1831, 1839-1844 (and FederateState.cpp:1779-1784): the command for one value *)
Definition valueCmd (p : Z * Z) (iter : Z) (data : list Z) (t : Z) : amsg :=
  set_m_actionTime t (set_m_payload data (set_m_counter iter (set_m_source_handle (snd p) (set_m_source_id (fst p) (fresh CMD_PUB))))).
Section Deliver.
Variable json : amsg -> list Z -> amsg * bool.
Variable jsonText : amsg -> list Z.
Variable host : bool.
Variable T : topology.

(** one node passes a command on: CommonCore.cpp:3650-3652, 5467-5495 (a federate which is FINISHED or ERRORED does not get
    it) and CoreBroker.cpp:1462-1464 *)
Definition pass (x : nat) (s : dsys) (v : flit) : dsys :=
  let g := m_dest_id (v_cmd v) in
  match hopAt T (d_net s) x g with
  | Here => if d_over s g then s else set_d_box (upd Z.eqb (d_box s) g (d_box s g ++ [v])) s
  | Next y => push x y [v] s
  | Lost => s
  end.
(** BrokerBase.cpp:1151-1186: the commands in one entry of the queue *)
Definition unpack (v : flit) : list flit := map (mkV (v_copy v)) (fst (commandProcessor json host 2 false (v_cmd v))).
(** the next entry of the connection from x to y is processed by y *)
Definition serve (x y : nat) (s : dsys) : dsys :=
  match d_links s x y with
  | [] => s
  | v :: r =>
      fold_left (pass y) (unpack v) (set_d_links (fun a b => if Nat.eqb a x && Nat.eqb b y then r else d_links s a b) s)
  end.
(** CommonCore.cpp:1798-1860 setValue; the granted time [now], the time [send] of the value and the iteration are the
    federate's (C01, C10); [force] is only_transmit_on_change *)
Definition publish (K : nat) (p : Z * Z) (data : list Z) (now send iter : Z) (force : bool) (s : dsys) : dsys :=
  if localFed (nodes (d_net s) K) (fst p) && d_used s p then
    let '(info, ok) := checkSetValue (d_pub s p) data now force in
    let s := set_d_pub (upd gh_eqb (d_pub s) p info) s in
    if ok then push K K (map (mkV false) (publishTo jsonText host (valueCmd p iter data send) (map fst (p_subs info)))) s else s
  else s.
(** the last value, for a new subscriber: CommonCore.cpp:4240-4250 and FederateState.cpp:1778-1786 *)
Definition lastValue (p i : Z * Z) (iter : Z) (info : pubinfo) : list amsg :=
  if negb (beq (p_data info) []) && (minVal <? p_last info) then [setDestination i (valueCmd p iter (p_data info) (p_last info))] else [].
(** CommonCore.cpp:4229-4252: the core of the publication learns of a subscriber; [late]: the federate is not in the created
    state *)
Definition coreSubscribes (K : nat) (p i : Z * Z) (late : bool) (s : dsys) : dsys :=
  if localFed (nodes (d_net s) K) (fst p) then
    let s := set_d_used (upd gh_eqb (d_used s) p true) s in
    if late then fold_left (pass K) (map (mkV true) (lastValue p i 0 (d_pub s p))) s else s
  else s.
(** FederateState.cpp:1762-1788: then its federate does *)
Definition fedSubscribes (K : nat) (p i : Z * Z) (name : list Z) (iter : Z) (late : bool) (s : dsys) : dsys :=
  if localFed (nodes (d_net s) K) (fst p) then
    let info := fst (addSubscriber (d_pub s p) i name) in
    let s := set_d_pub (upd gh_eqb (d_pub s) p info) s in
    if late then push K K (map (mkV false) (lastValue p i iter info)) s else s
  else s.
(** the histories: registrations (Route.v), publishing, subscribing and its ends (FederateState.cpp:1841-1846, 1589,
    PublicationInfo.cpp), options, the end of a federate, and the service of a connection *)
Inductive devent :=
| D_route (e : event)
| D_publish (K : nat) (p : Z * Z) (data : list Z) (now send iter : Z) (force : bool)
| D_coreSub (K : nat) (p i : Z * Z) (late : bool)
| D_fedSub (K : nat) (p i : Z * Z) (name : list Z) (iter : Z) (late : bool)
| D_unsub (p i : Z * Z)
| D_gone (p : Z * Z) (f : Z)
| D_option (p : Z * Z) (o v : Z)
| D_over (g : Z)
| D_serve (x y : nat).
(** the effect of one event: the functions above (CommonCore.cpp, FederateState.cpp, CoreBroker.cpp lines as cited there) *)
Definition dstep (s : dsys) (e : devent) : dsys :=
  match e with
  | D_route e => set_d_net (step T (d_net s) e) s
  | D_publish K p data now send iter force => publish K p data now send iter force s
  | D_coreSub K p i late => coreSubscribes K p i late s
  | D_fedSub K p i name iter late => fedSubscribes K p i name iter late s
  | D_unsub p i => set_d_pub (upd gh_eqb (d_pub s) p (removeSubscriber (d_pub s p) i)) s
  | D_gone p f => set_d_pub (upd gh_eqb (d_pub s) p (pubDisconnect (d_pub s p) f)) s
  | D_option p o v => set_d_pub (upd gh_eqb (d_pub s) p (pubSetProperty o v (d_pub s p))) s
  | D_over g => set_d_over (upd Z.eqb (d_over s) g true) s
  | D_serve x y => serve x y s
  end.
(** a whole history from the start (not in the code) *)
Definition drun (es : list devent) : dsys := fold_left dstep es (dsys0 T).
End Deliver.
