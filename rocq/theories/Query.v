(** * Queries which collect answers from all parts of the federation (model)

    Queries such as federate_map, global_state, global_time or global_flush: a broker asks all its children, a core all its
    federates, and answers when all have answered.  fileops::JsonMapBuilder (common/JsonBuilder.cpp), and its use in
    CoreBroker and CommonCore: initializeMapBuilder, generateQueryAnswer / coreQuery, processLocalQuery / processQueryCommand,
    processQueryResponse, checkInFlightQueries / checkInFlightQueriesForDisconnect.

    One core ([K = true]) or broker ([K = false]) with its children.  The text of an answer is a number, or [None] when it is
    no JSON (or "#invalid").  A map is the list of its entries in the order in which they were added; the information on the
    node itself (addBaseInformation) and what generateGlobalStatus makes of the map are left out.  The queries which the node
    has sent and which have not been answered are part of the state; a child answers them in any order; what it has not
    answered when it disconnects is lost.  Query timeouts are left out: they replace a missing answer by an error. *)
From Coq Require Import ZArith Bool List Lia.
Import ListNotations.
Open Scope nat_scope.

(** who asked: the node itself (global_broker_id_local), the API of the core (gDirectCoreId, GlobalFederateId.hpp:131), or another node *)
Inductive who := WSelf | WDirect | WOther.
Record req := mkReq { rwho : who; rid : nat }.
(** the arrays "federates", "cores" and "brokers" *)
Inductive loc := LFed | LCore | LBroker.
(** an element: JSON text; an empty object; the state of a child which has left (CoreBroker.cpp:4049-4069) *)
Inductive entry := JVal (j : nat) | JEmpty | JState (c : nat).
Inductive answer := AMap (m : list (loc * entry)) | AFlush | AWait.
(** setDelayedValue; routeMessage (transmit) of the reply; the last element of an empty vector (undefined behaviour) *)
Inductive output := OLocal (r : nat) (a : answer) | OSend (w : who) (r : nat) (a : answer) | OCrash.

(** JsonMapBuilder (JsonBuilder.hpp:18-23): jMap, missing_components (ordered by index), counterCode *)
Record builder : Type := mkB {
  jm : option (list (loc * entry));
  miss : list (nat * (loc * nat));
  cc : Z
}.
(** field update of [builder] above (C++ member assignment) *)
Definition set_jm (v : option (list (loc * entry))) (r : builder) : builder := mkB v (miss r) (cc r).
(** field update of [builder] above (C++ member assignment) *)
Definition set_miss (v : list (nat * (loc * nat))) (r : builder) : builder := mkB (jm r) v (cc r).
(** field update of [builder] above (C++ member assignment) *)
Definition set_cc (v : Z) (r : builder) : builder := mkB (jm r) (miss r) v.

(** an element of mapBuilders (CoreBroker.hpp:135); its QueryReuse is the constant [reuse] below *)
Record slot : Type := mkSlot {
  sb : builder;
  rq : list req
}.
(** field update of [slot] above (C++ member assignment) *)
Definition set_sb (v : builder) (r : slot) : slot := mkSlot v (rq r).
(** field update of [slot] above (C++ member assignment) *)
Definition set_rq (v : list req) (r : slot) : slot := mkSlot (sb r) v.

(** an element of mBrokers with this node as parent (loopFederates): id, _core, ConnectionState (CoreBroker.hpp:41-48) *)
Record kid : Type := mkKid {
  kno : nat;
  kcore : bool;
  kst : Z
}.
(** field update of [kid] above (C++ member assignment) *)
Definition set_kno (v : nat) (r : kid) : kid := mkKid v (kcore r) (kst r).
(** field update of [kid] above (C++ member assignment) *)
Definition set_kcore (v : bool) (r : kid) : kid := mkKid (kno r) v (kst r).
(** field update of [kid] above (C++ member assignment) *)
Definition set_kst (v : Z) (r : kid) : kid := mkKid (kno r) (kcore r) v.

(** slots, nsl: mapBuilders and its size; other: the rest of generateMapObjectCounter (state of the node, of the federates, number
    of handles); ost i: queries of the kind i sent and not answered: (child, messageID); outs: what was answered, in order *)
Record qs : Type := mkQs {
  slots : nat -> slot;
  nsl : nat;
  kids : list kid;
  other : Z;
  ost : nat -> list (nat * nat);
  outs : list output
}.
(** field update of [qs] above (C++ member assignment) *)
Definition set_slots (v : nat -> slot) (r : qs) : qs := mkQs v (nsl r) (kids r) (other r) (ost r) (outs r).
(** field update of [qs] above (C++ member assignment) *)
Definition set_nsl (v : nat) (r : qs) : qs := mkQs (slots r) v (kids r) (other r) (ost r) (outs r).
(** field update of [qs] above (C++ member assignment) *)
Definition set_kids (v : list kid) (r : qs) : qs := mkQs (slots r) (nsl r) v (other r) (ost r) (outs r).
(** field update of [qs] above (C++ member assignment) *)
Definition set_other (v : Z) (r : qs) : qs := mkQs (slots r) (nsl r) (kids r) v (ost r) (outs r).
(** field update of [qs] above (C++ member assignment) *)
Definition set_ost (v : nat -> list (nat * nat)) (r : qs) : qs := mkQs (slots r) (nsl r) (kids r) (other r) v (outs r).
(** field update of [qs] above (C++ member assignment) *)
Definition set_outs (v : list output) (r : qs) : qs := mkQs (slots r) (nsl r) (kids r) (other r) (ost r) v.


(** Subqueries (queryHelpers.hpp:23-36) *)
Definition GLOBAL_STATE : nat := 6.
Definition GLOBAL_FLUSH : nat := 8.
(** coreBrokerMapIndex (CoreBroker.cpp:88-104), commonCoreMapIndex (CommonCore.cpp:57-73): true = QueryReuse::ENABLED *)
Definition reuse (K : bool) (i : nat) : bool :=
  match i with 1 => negb K | 3 | 4 => true | 5 => negb K | _ => false end.
(** the kinds of queries which are collected *)
Definition collected (K : bool) (i : nat) : bool :=
  match i with 1 | 5 => negb K | 2 | 3 | 4 | 6 | 7 | 8 | 9 | 11 | 14 => true | _ => false end.

Definition b0 : builder := mkB None [] 0.
Definition slot0 : slot := mkSlot b0 [].
Definition qs0 : qs := mkQs (fun _ => slot0) 0 [] 0 (fun _ => []) [].

(** JsonBuilder.cpp:35-38 isCompleted; JsonBuilder.hpp isActive *)
Definition active (b : builder) : bool := match jm b with Some _ => true | None => false end.
Definition completed (b : builder) : bool := active b && match miss b with [] => true | _ => false end.
(** JsonBuilder.cpp:99-103 reset; the counter code stays *)
Definition reset (b : builder) : builder := mkB None [] (cc b).
(** std::map::emplace: no effect when the key is there *)
Fixpoint emplace (k : nat) (v : loc * nat) (l : list (nat * (loc * nat))) : list (nat * (loc * nat)) :=
  match l with
  | [] => [(k, v)]
  | (j, w) :: r => if k <? j then (k, v) :: l else if k =? j then l else (j, w) :: emplace k v r
  end.
(** JsonBuilder.cpp:40-45 generatePlaceHolder *)
Definition placeHolder (l : loc) (code : nat) (b : builder) : nat * builder :=
  let j := length (miss b) + 2 in (j, set_miss (emplace j (l, code) (miss b)) b).
(** jMap at location: push_back; the caller has called getJValue *)
Definition push (l : loc) (e : entry) (b : builder) : builder :=
  set_jm (Some (match jm b with Some m => m ++ [(l, e)] | None => [(l, e)] end)) b.
Definition elem (p : option nat) : entry := match p with Some j => JVal j | None => JEmpty end.
(** std::map::find and erase *)
Fixpoint lookup (k : nat) (l : list (nat * (loc * nat))) : option (loc * nat) :=
  match l with [] => None | (j, v) :: r => if j =? k then Some v else lookup k r end.
Definition erase (k : nat) (l : list (nat * (loc * nat))) : list (nat * (loc * nat)) := filter (fun e => negb (fst e =? k)) l.
Definition isNil {A} (l : list A) : bool := match l with [] => true | _ => false end.
(** JsonBuilder.cpp:47-70 addComponent *)
Definition addComponent (p : option nat) (k : nat) (b : builder) : builder * bool :=
  match lookup k (miss b) with
  | Some (l, _) => let b1 := set_miss (erase k (miss b)) (push l (elem p) b) in (b1, isNil (miss b1))
  | None => (b, false)
  end.
(** JsonBuilder.cpp:72-81 clearComponents(code) *)
Fixpoint eraseCode (c : nat) (l : list (nat * (loc * nat))) : list (nat * (loc * nat)) :=
  match l with [] => [] | (j, v) :: r => if snd v =? c then r else (j, v) :: eraseCode c r end.
Definition hasCode (c : nat) (l : list (nat * (loc * nat))) : bool := existsb (fun e => snd (snd e) =? c) l.
Definition clearCode (c : nat) (b : builder) : builder * bool :=
  if hasCode c (miss b) then let b1 := set_miss (eraseCode c (miss b)) b in (b1, isNil (miss b1)) else (b, false).
(** JsonBuilder.cpp:83-87 clearComponents() *)
Definition clearAll (b : builder) : builder * bool := (set_miss [] b, active b).
(** JsonBuilder.cpp:89-95 generate *)
Definition generate (b : builder) : list (loc * entry) := match jm b with Some m => m | None => [] end.

Definition setS (i : nat) (x : slot) (s : qs) : qs := set_slots (fun j => if j =? i then x else slots s j) s.
Definition setO (i : nat) (o : list (nat * nat)) (s : qs) : qs := set_ost (fun j => if j =? i then o else ost s j) s.
Definition emit (o : list output) (s : qs) : qs := set_outs (outs s ++ o) s.

(** generateMapObjectCounter (CoreBroker.cpp:931-942, CommonCore.cpp:5342-5350) *)
Definition counter (s : qs) : Z := (other s + fold_right Z.add 0 (map kst (kids s)))%Z.

(** CoreBroker.cpp:4018-4073, CommonCore.cpp:2819-2854: one child after the other.  [orc]: what federateQuery answers at once
    (None: "#wait", the query goes into the queue of the federate); the filter and the translator federate are children which
    always answer at once.  A broker always sends the query. *)
Definition askKid (K : bool) (i : nat) (orc : nat -> option (option nat)) (acc : builder * list (nat * nat)) (k : kid) : builder * list (nat * nat) :=
  let '(b, asks) := acc in
  let l := if K then LFed else if kcore k then LCore else LBroker in
  if K || (kst k <? 40)%Z then
    let '(j, b1) := placeHolder l (kno k) b in
    match (if K then orc (kno k) else None) with
    | Some p => (fst (addComponent p j b1), asks)
    | None => (b1, asks ++ [(kno k, j)])
    end
  else if i =? GLOBAL_STATE then (push l (JState (kno k)) b, asks) else (b, asks).
(** initializeMapBuilder (CoreBroker.cpp:3995-4017, CommonCore.cpp:2801-2818) *)
Definition initBuilder (K : bool) (i : nat) (orc : nat -> option (option nat)) (s : qs) : qs :=
  let b := set_jm (Some []) (reset (sb (slots s i))) in
  let '(b1, asks) := fold_left (askKid K i orc) (kids s) (b, []) in
  setO i (ost s i ++ asks) (set_nsl (Nat.max (nsl s) (S i)) (setS i (set_sb b1 (slots s i)) s)).

(** the answer to a query which need not wait (CoreBroker.cpp:4192-4196, CommonCore.cpp:5063-5075) *)
Definition reply (K : bool) (r : req) (a : answer) : output :=
  match rwho r, K with WSelf, false => OLocal (rid r) a | WDirect, true => OLocal (rid r) a | w, _ => OSend w (rid r) a end.
(** the answers to all who wait (CoreBroker.cpp:4475-4489, CommonCore.cpp:4314-4328; [d] = gDirectCoreId is looked at for the
    last one: CommonCore.cpp:4322 only) *)
Fixpoint deliver (d : bool) (rs : list req) (a : answer) : list output :=
  match rs with
  | [] => [OCrash]
  | [r] => [match rwho r with WSelf => OLocal (rid r) a | WDirect => if d then OLocal (rid r) a else OSend WDirect (rid r) a | WOther => OSend WOther (rid r) a end]
  | r :: rest => (match rwho r with WSelf => OLocal (rid r) a | w => OSend w (rid r) a end) :: deliver d rest a
  end.

Inductive todo := Cached | Wait | Build.
(** CoreBroker.cpp:3860-3876, CommonCore.cpp:3005-3022 *)
Definition decide (K : bool) (i : nat) (s : qs) : todo :=
  let b := sb (slots s i) in
  if (i <? nsl s) && reuse K i then
    if completed b then if (counter s =? cc b)%Z then Cached else Build
    else if active b then Wait else Build
  else Build.
(** CoreBroker.cpp:3877-3888, CommonCore.cpp:3022-3032: None is "#wait" *)
Definition mapQuery (K : bool) (i : nat) (orc : nat -> option (option nat)) (s : qs) : option answer * qs :=
  match decide K i s with
  | Cached => (Some (AMap (generate (sb (slots s i)))), s)
  | Wait => (None, s)
  | Build =>
    let s1 := initBuilder K i orc s in
    let b := sb (slots s1 i) in
    if completed b then (Some (AMap (generate b)), if reuse K i then setS i (set_sb (set_cc (counter s1) b) (slots s1 i)) s1 else s1)
    else (None, s1)
  end.
(** processLocalQuery (CoreBroker.cpp:4173-4197), CMD_BROKER_QUERY (CommonCore.cpp:5057-5096) *)
Definition query (K : bool) (r : req) (i : nat) (orc : nat -> option (option nat)) (s : qs) : qs :=
  match mapQuery K i orc s with
  | (Some a, s1) => emit [reply K r a] s1
  | (None, s1) => setS i (set_rq (rq (slots s1 i) ++ [r]) (slots s1 i)) s1
  end.
(** CMD_QUERY with the name of the node (CommonCore.cpp:5121-5157: "#wait" is sent as the answer; CoreBroker.cpp:4295-4297) *)
Definition named (K : bool) (r : req) (i : nat) (orc : nat -> option (option nat)) (s : qs) : qs :=
  if K then match mapQuery K i orc s with
       | (Some a, s1) => emit [reply K r a] s1
       | (None, s1) => emit [reply K r AWait] s1
       end
  else query K r i orc s.
(** all have answered: CoreBroker.cpp:4462-4495, CommonCore.cpp:4310-4336 *)
Definition finish (K : bool) (i : nat) (s : qs) : qs :=
  let x := slots s i in
  let a := if i =? GLOBAL_FLUSH then AFlush else AMap (generate (sb x)) in
  let s1 := emit (deliver K (rq x) a) s in
  setS i (mkSlot (if reuse K i then set_cc (counter s1) (sb x) else reset (sb x)) []) s1.
(** processQueryResponse (CoreBroker.cpp:4452-4498, CommonCore.cpp:4300-4338) *)
Definition response (K : bool) (i k : nat) (p : option nat) (s : qs) : qs :=
  if i <? nsl s then
    let '(b1, fin) := addComponent p k (sb (slots s i)) in
    let s1 := setS i (set_sb b1 (slots s i)) s in
    if fin then finish K i s1 else s1
  else s.
(** the same when a child is gone: CoreBroker.cpp:3489-3513, CommonCore.cpp:5358-5379 *)
Definition finishGone (K : bool) (i : nat) (s : qs) : qs :=
  let x := slots s i in
  let s1 := emit (deliver false (rq x) (AMap (generate (sb x)))) s in
  setS i (mkSlot (if reuse K i then sb x else reset (sb x)) []) s1.
(** the loops of checkInFlightQueries (CoreBroker.cpp:3483-3515) and checkInFlightQueriesForDisconnect (CommonCore.cpp:5352-5381) *)
Fixpoint inFlight (K : bool) (clear : builder -> builder * bool) (js : list nat) (s : qs) : qs :=
  match js with
  | [] => s
  | j :: r =>
    if completed (sb (slots s j)) then s
    else let '(b1, fin) := clear (sb (slots s j)) in
         let s1 := setS j (set_sb b1 (slots s j)) s in
         inFlight K clear r (if fin then finishGone K j s1 else s1)
  end.
(** markAsDisconnected (CoreBroker.cpp:3520-3545): ERROR_STATE (40) stays *)
Definition markGone (c : nat) (k : kid) : kid := if (kno k =? c) && negb (kst k =? 40)%Z then set_kst 50%Z k else k.
(** disconnectBroker (CoreBroker.cpp:3547-3550) *)
Definition goneKid (c : nat) (s : qs) : qs :=
  let s1 := set_ost (fun i => filter (fun a => negb (fst a =? c)) (ost s i)) (set_kids (map (markGone c) (kids s)) s) in
  inFlight false (clearCode c) (seq 0 (nsl s)) s1.
Definition flushAll (s : qs) : qs := inFlight true clearAll (seq 0 (nsl s)) s.

Inductive event :=
| EQuery (r : req) (i : nat) (orc : nat -> option (option nat))   (* a query of the kind i *)
| ENamed (r : req) (i : nat) (orc : nat -> option (option nat))   (* the same, by name *)
| EReply (c i : nat) (p : option nat)                             (* the child c answers its oldest query of the kind i *)
| EGone (c : nat)                                                 (* CMD_DISCONNECT of a child of the broker *)
| EFlush                                                          (* the core disconnects *)
| EJoin (c : nat) (core : bool)                                   (* a child is registered: state CONNECTED = 0 *)
| EState (c : nat) (v : Z)                                        (* the state of a child *)
| EOther (v : Z).                                                 (* the rest of the counter *)
(** the oldest query to c, and the others *)
Fixpoint takeAsk (c : nat) (l : list (nat * nat)) : option (nat * list (nat * nat)) :=
  match l with
  | [] => None
  | (d, k) :: r => if d =? c then Some (k, r) else match takeAsk c r with Some (j, q) => Some (j, (d, k) :: q) | None => None end
  end.
Definition isKid (c : nat) (l : list kid) : bool := existsb (fun k => kno k =? c) l.
Definition step (K : bool) (s : qs) (e : event) : qs :=
  match e with
  | EQuery r i orc => if collected K i then query K r i orc s else s
  | ENamed r i orc => if collected K i then named K r i orc s else s
  | EReply c i p => match takeAsk c (ost s i) with Some (k, o) => response K i k p (setO i o s) | None => s end
  | EGone c => if K then s else goneKid c s
  | EFlush => if K then flushAll s else s
  | EJoin c core => if isKid c (kids s) then s else set_kids (kids s ++ [mkKid c core 0]) s
  | EState c v => set_kids (map (fun k => if kno k =? c then set_kst v k else k) (kids s)) s
  | EOther v => set_other v s
  end.
Definition run (K : bool) (h : list event) : qs := fold_left (step K) h qs0.
