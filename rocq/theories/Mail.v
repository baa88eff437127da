(** * The way of a message from one endpoint to another (model)

    Sending by the name of an endpoint (CommonCore.cpp sendTo) and to the targets of a targeted endpoint (send), the
    registration of endpoints through the cores and brokers, and the brokers' look-up of names.  Every pair of neighbours
    has one first-in first-out connection, the queue of a core is its connection with itself; routing between them as in
    Route.v.  Not modelled: filters at either end (C35, C36, C43: processMessage and the destination filter flag),
    translators, aliases, the networks below.  The table knownExternalEndpoints of the code is never filled. *)
From Coq Require Import String ZArith Bool List Lia.
From Verif Require Import HTime Action Interfaces Route.
Import ListNotations.
Open Scope Z_scope.

(** a message under way (ActionMessage CMD_SEND_MESSAGE): source endpoint, name of the destination, destination (None: the
    default parent_broker_id), optional_flag, data.  [k_seq] numbers all messages of the system; it is not in the code and
    no function below looks at it *)
Record msg := mkMsg { k_seq : nat; k_src : Z * Z; k_name : string; k_dest : option (Z * Z); k_opt : bool; k_data : list Z }.
(** an entry of a connection: CMD_REG_ENDPOINT or CMD_SEND_MESSAGE *)
Inductive entry := Reg (n : string) (h : Z * Z) | Mail (m : msg).
(** what became of a message: handed to the federate of the endpoint; the sender is warned (CoreBroker.cpp:1427-1440); or
    nothing happens *)
Inductive outcome := Delivered (h : Z * Z) | Reported | Dropped.
(** p_own: the handles of a core (CommonCore.hpp handles); p_names: the names a core's own thread or a broker knows
    (CommonCore.hpp loopHandles, CoreBroker.hpp handles); p_box: the queue of a federate; p_log and p_count: not in the code *)
Record msys : Type := mkP {
  p_net : net;
  p_links : nat -> nat -> list entry;
  p_own : nat -> list (string * (Z * Z));
  p_names : nat -> list (string * (Z * Z));
  p_box : Z -> list msg;
  p_log : list (nat * outcome);
  p_count : nat
}.
(** field update of [msys] above (C++ member assignment) *)
Definition set_p_net (v : net) (r : msys) : msys := mkP v (p_links r) (p_own r) (p_names r) (p_box r) (p_log r) (p_count r).
(** field update of [msys] above (C++ member assignment) *)
Definition set_p_links (v : nat -> nat -> list entry) (r : msys) : msys := mkP (p_net r) v (p_own r) (p_names r) (p_box r) (p_log r) (p_count r).
(** field update of [msys] above (C++ member assignment) *)
Definition set_p_own (v : nat -> list (string * (Z * Z))) (r : msys) : msys := mkP (p_net r) (p_links r) v (p_names r) (p_box r) (p_log r) (p_count r).
(** field update of [msys] above (C++ member assignment) *)
Definition set_p_names (v : nat -> list (string * (Z * Z))) (r : msys) : msys := mkP (p_net r) (p_links r) (p_own r) v (p_box r) (p_log r) (p_count r).
(** field update of [msys] above (C++ member assignment) *)
Definition set_p_box (v : Z -> list msg) (r : msys) : msys := mkP (p_net r) (p_links r) (p_own r) (p_names r) v (p_log r) (p_count r).
(** field update of [msys] above (C++ member assignment) *)
Definition set_p_log (v : list (nat * outcome)) (r : msys) : msys := mkP (p_net r) (p_links r) (p_own r) (p_names r) (p_box r) v (p_count r).
(** field update of [msys] above (C++ member assignment) *)
Definition set_p_count (v : nat) (r : msys) : msys := mkP (p_net r) (p_links r) (p_own r) (p_names r) (p_box r) (p_log r) v.

(** before any registration (initial members of the classes) *)
Definition msys0 (T : topology) : msys := mkP (net0 T) (fun _ _ => []) (fun _ => []) (fun _ => []) (fun _ => []) [] 0.
(** HandleManager.cpp getInterfaceHandle: the endpoint with a name *)
Definition lookupName (l : list (string * (Z * Z))) (n : string) : option (Z * Z) := option_map snd (find (fun p => String.eqb (fst p) n) l).
(** HandleManager.cpp findHandle *)
Definition hasHandle (l : list (string * (Z * Z))) (h : Z * Z) : bool := existsb (fun p => gh_eqb (snd p) h) l.
(** a connection takes another entry: CommsInterface.cpp transmit, BrokerBase.hpp addActionMessage *)
Definition putOn (x y : nat) (l : list entry) (s : msys) : msys :=
  set_p_links (fun a b => if Nat.eqb a x && Nat.eqb b y then p_links s a b ++ l else p_links s a b) s.
(** a name becomes known at a node *)
Definition learn (x : nat) (n : string) (h : Z * Z) (s : msys) : msys :=
  set_p_names (fun a => if Nat.eqb a x then p_names s a ++ [(n, h)] else p_names s a) s.
(** the end of a message, for the record (not in the code) *)
Definition note (m : msg) (o : outcome) (s : msys) : msys := set_p_log (p_log s ++ [(k_seq m, o)]) s.
(** ActionMessage.hpp setDestination *)
Definition setDest (h : Z * Z) (m : msg) : msg := mkMsg (k_seq m) (k_src m) (k_name m) (Some h) (k_opt m) (k_data m).
Section Mail.
Variable T : topology.
(** transmit(parent_route_id, ..) *)
Definition up (x : nat) (e : entry) (s : msys) : msys := match t_parent T x with Some q => putOn x q [e] s | None => match e with Mail m => note m Dropped s | _ => s end end.
(** transmit(getRoute(dest_id), ..): CoreBroker.cpp:1443-1445 *)
Definition route (x : nat) (h : Z * Z) (m : msg) (s : msys) : msys :=
  match hopAt T (p_net s) x (fst h) with Next y => putOn x y [Mail m] s | _ => note m Dropped s end.
(** the federate of a core gets a message: CommonCore.cpp:2431-2439; there are no translators here *)
Definition hand (x : nat) (h : Z * Z) (m : msg) (s : msys) : msys :=
  if localFed (nodes (p_net s) x) (fst h)
  then note m (Delivered h) (set_p_box (fun g => if Z.eqb g (fst h) then p_box s g ++ [setDest h m] else p_box s g) s)
  else note m Dropped s.
(** CommonCore.cpp:3777-3863 registerInterface, 3729-3736 and 2400-2440 deliverMessage *)
Definition coreDoes (x : nat) (e : entry) (s : msys) : msys :=
  match e with
  | Reg n h => let s := learn x n h s in if String.eqb n "" then s else up x e s
  | Mail m =>
      let found := match k_dest m with None => lookupName (p_names s x) (k_name m) | Some h => if hasHandle (p_names s x) h then Some h else None end in
      match found with Some h => hand x h m s | None => up x e s end
  end.
(** CoreBroker.cpp:2080-2101, 2172-2204 addEndpoint; 1420-1446 and 297-310 fillMessageRouteInformation *)
Definition brokerDoes (x : nat) (e : entry) (s : msys) : msys :=
  match e with
  | Reg n h => match lookupName (p_names s x) n with Some _ => s | None => let s := learn x n h s in if Nat.eqb x (t_root T) then s else up x e s end
  | Mail m =>
      match k_dest m with
      | Some h => route x h m s
      | None => match lookupName (p_names s x) (k_name m) with
                | Some h => route x h (setDest h m) s
                | None => if Nat.eqb x (t_root T) then note m (if k_opt m then Dropped else Reported) s else up x e s
                end
      end
  end.
(** the two classes of nodes: CommonCore.cpp and CoreBroker.cpp processCommand *)
Definition does (x : nat) (e : entry) (s : msys) : msys := if t_core T x then coreDoes x e s else brokerDoes x e s.
(** the next entry of the connection from x to y is processed by y *)
Definition attend (x y : nat) (s : msys) : msys :=
  match p_links s x y with
  | [] => s
  | e :: r => does y e (set_p_links (fun a b => if Nat.eqb a x && Nat.eqb b y then r else p_links s a b) s)
  end.
(** CommonCore.cpp:1903-1928 registerEndpoint, checkNewInterface (a name in use at this core is refused), createBasicHandle
    (the handle is the next index, HandleManager.cpp addHandle; other interfaces of the core, which share the numbers, are left out) *)
Definition registerEnd (K : nat) (g : Z) (n : string) (s : msys) : msys :=
  if localFed (nodes (p_net s) K) g && match lookupName (p_own s K) n with Some _ => false | None => true end then
    let h := (g, Z.of_nat (length (p_own s K))) in
    putOn K K [Reg n h] (set_p_own (fun a => if Nat.eqb a K then p_own s a ++ [(n, h)] else p_own s a) s)
  else s.
(** CommonCore.cpp:2164-2202 sendTo (and 2204-2247 sendToAt, 2381-2397 sendMessage with a destination) *)
Definition sendName (K : nat) (a : Z * Z) (n : string) (opt : bool) (data : list Z) (s : msys) : msys :=
  if localFed (nodes (p_net s) K) (fst a) then
    putOn K K [Mail (mkMsg (p_count s) a n None opt data)] (set_p_count (S (p_count s)) s)
  else s.
(** the messages of one call of send, numbered from [c] *)
Fixpoint copies (c : nat) (a : Z * Z) (data : list Z) (targets : list ((Z * Z) * string)) : list msg :=
  match targets with [] => [] | t :: r => mkMsg c a (snd t) (Some (fst t)) false data :: copies (S c) a data r end.
(** CommonCore.cpp:2280-2304 send and 2249-2278 generateMessages, to the targets of the endpoint; the bundle of several
    messages is unpacked by the core itself into these messages in this order (C39) *)
Definition sendTargets (K : nat) (a : Z * Z) (targets : list ((Z * Z) * string)) (data : list Z) (s : msys) : msys :=
  if localFed (nodes (p_net s) K) (fst a) then
    putOn K K (map Mail (copies (p_count s) a data targets)) (set_p_count (length targets + p_count s)%nat s)
  else s.
(** the histories: registrations of cores, brokers and federates (Route.v), registrations of endpoints, sending, and the
    service of a connection *)
Inductive mevent :=
| P_route (e : event)
| P_register (K : nat) (g : Z) (n : string)
| P_send (K : nat) (a : Z * Z) (n : string) (opt : bool) (data : list Z)
| P_targets (K : nat) (a : Z * Z) (targets : list ((Z * Z) * string)) (data : list Z)
| P_serve (x y : nat).
(** the effect of one event: the functions above *)
Definition mstep (s : msys) (e : mevent) : msys :=
  match e with
  | P_route e => set_p_net (step T (p_net s) e) s
  | P_register K g n => registerEnd K g n s
  | P_send K a n opt data => sendName K a n opt data s
  | P_targets K a ts data => sendTargets K a ts data s
  | P_serve x y => attend x y s
  end.
(** a whole history from the start (not in the code) *)
Definition mrun (es : list mevent) : msys := fold_left mstep es (msys0 T).
End Mail.
