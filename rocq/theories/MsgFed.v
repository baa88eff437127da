(** * The message queues of a message federate (model)

    A federate's endpoints in the core (EndpointInfo, as modelled in Interfaces) and the queues the application reads
    (MessageFederateManager).  The endpoints of a federate are numbered in the order of their registration, which is the order
    of both containers; a handle leads to the endpoint with it (C26, C27).  Messages get into an endpoint's queue only while
    the federate's own thread processes its command queue, so not during updateTime.  Not modelled: the callbacks which
    updateTime calls. *)
From Coq Require Import ZArith Bool List Lia.
From Verif Require Import HTime Interfaces.
Import ListNotations.
Open Scope Z_scope.

(** sl_ep: the EndpointInfo in the core; sl_box: MessageFederateManager.hpp:129 EndpointData::messages *)
Record slot : Type := mkSlot {
  sl_ep : epinfo;
  sl_box : list emsg
}.
(** field update of [slot] above (C++ member assignment) *)
Definition set_sl_ep (v : epinfo) (r : slot) : slot := mkSlot v (sl_box r).
(** field update of [slot] above (C++ member assignment) *)
Definition set_sl_box (v : list emsg) (r : slot) : slot := mkSlot (sl_ep r) v.

(** a_n endpoints (the others do not exist); a_time: FederateState.hpp time_granted *)
Record afed : Type := mkAF {
  a_n : nat;
  a_slot : nat -> slot;
  a_time : Z
}.
(** field update of [afed] above (C++ member assignment) *)
Definition set_a_n (v : nat) (r : afed) : afed := mkAF v (a_slot r) (a_time r).
(** field update of [afed] above (C++ member assignment) *)
Definition set_a_slot (v : nat -> slot) (r : afed) : afed := mkAF (a_n r) v (a_time r).
(** field update of [afed] above (C++ member assignment) *)
Definition set_a_time (v : Z) (r : afed) : afed := mkAF (a_n r) (a_slot r) v.

(** a federate with n endpoints at the start (initial members of the classes) *)
Definition afed0 (n : nat) : afed := mkAF n (fun _ => mkSlot ep_new []) timeZero.
(** one endpoint changes *)
Definition atSlot (k : nat) (f : slot -> slot) (s : afed) : afed := set_a_slot (fun j => if Nat.eqb j k then f (a_slot s k) else a_slot s j) s.
(** a message for an endpoint: FederateState.cpp processActionMessage CMD_SEND_MESSAGE, EndpointInfo::addMessage *)
Definition deliverTo (k : nat) (m : emsg) (s : afed) : afed :=
  if Nat.ltb k (a_n s) then atSlot k (fun x => set_sl_ep (addMessage (sl_ep x) m) x) s else s.
(** FederateState.cpp:287-294 getQueueSize; CommonCore.cpp:2488-2500 receiveCountAny *)
Definition receiveCountAny (s : afed) : Z := fold_left (fun c k => c + ep_avail (sl_ep (a_slot s k))) (seq 0 (a_n s)) 0.
(** FederateState.cpp:313-323 (receiveAny): the endpoint with the earliest message *)
Definition earliest (s : afed) : Z * option nat :=
  fold_left (fun acc k => let t := firstMessageTime (sl_ep (a_slot s k)) in if t <? fst acc then (t, Some k) else acc) (seq 0 (a_n s)) (maxVal, None).
(** FederateState.cpp:311-336 receiveAny *)
Definition receiveAny (s : afed) : afed * option (nat * emsg) :=
  match earliest s with
  | (_, None) => (s, None)
  | (t, Some k) =>
      if t <=? a_time s then
        let (e, m) := getMessage (sl_ep (a_slot s k)) (a_time s) in
        (atSlot k (set_sl_ep e) s, match m with Some m => Some (k, m) | None => None end)
      else (s, None)
  end.
(** MessageFederateManager.cpp:194-220: the loop of updateTime *)
Fixpoint moveMessages (n : nat) (s : afed) : afed :=
  match n with
  | O => s
  | S n => match receiveAny s with
           | (s, Some (k, m)) => moveMessages n (atSlot k (fun x => set_sl_box (sl_box x ++ [m]) x) s)
           | (s, None) => s
           end
  end.
(** MessageFederateManager.cpp:184-221 updateTime *)
Definition updateTime (s : afed) : afed := moveMessages (Z.to_nat (receiveCountAny s)) s.
(** FederateState.cpp:819-906: the new granted time and fillEventVectorUpTo, fillEventVectorInclusive,
    fillEventVectorNextIteration for the endpoints *)
Definition fillEvents (mode : advance) (t : Z) (s : afed) : afed :=
  set_a_time t (set_a_slot (fun k => set_sl_ep (fst (epUpdateTime mode (sl_ep (a_slot s k)) t)) (a_slot s k)) s).
(** Federate.cpp:1187-1197 updateSimulationTime after the core has granted the time *)
Definition grant (mode : advance) (t : Z) (s : afed) : afed := updateTime (fillEvents mode t s).
(** MessageFederateManager.cpp:157-167 getMessage(ept) *)
Definition getFrom (k : nat) (s : afed) : afed * option (nat * emsg) :=
  if Nat.ltb k (a_n s) then
    match sl_box (a_slot s k) with
    | [] => (s, None)
    | m :: r => (atSlot k (set_sl_box r) s, Some (k, m))
    end
  else (s, None).
(** MessageFederateManager.cpp:169-182 getMessage() *)
Definition getAny (s : afed) : afed * option (nat * emsg) :=
  match find (fun k => negb (Nat.eqb (length (sl_box (a_slot s k))) 0)) (seq 0 (a_n s)) with
  | Some k => getFrom k s
  | None => (s, None)
  end.
(** MessageFederateManager.cpp:105-114 hasMessage *)
Definition hasMessage (s : afed) : bool := existsb (fun k => negb (Nat.eqb (length (sl_box (a_slot s k))) 0)) (seq 0 (a_n s)).
(** MessageFederateManager.cpp:141-147 pendingMessageCount *)
Definition pendingMessageCount (s : afed) : nat := fold_left (fun c k => (c + length (sl_box (a_slot s k)))%nat) (seq 0 (a_n s)) 0%nat.
(** what can happen to a federate: a message arrives, a time is granted, the application reads *)
Inductive aevent :=
| A_deliver (k : nat) (m : emsg)
| A_grant (mode : advance) (t : Z)
| A_get (k : nat)
| A_getAny.
(** the effect of one event, and the message which is returned: the functions above *)
Definition astep (s : afed) (e : aevent) : afed * option (nat * emsg) :=
  match e with
  | A_deliver k m => (deliverTo k m s, None)
  | A_grant mode t => (grant mode t s, None)
  | A_get k => getFrom k s
  | A_getAny => getAny s
  end.
(** a whole history: the federate, and the messages which were returned (not in the code) *)
Definition arun (n : nat) (es : list aevent) : afed * list (nat * emsg) :=
  fold_left (fun (a : afed * list (nat * emsg)) e => let '(s, out) := a in let (s', r) := astep s e in (s', match r with Some x => out ++ [x] | None => out end)) es (afed0 n, []).
