(** * The time barrier of a federation (model)

    The root broker's part in time barriers: setTimeBarrier, clearTimeBarrier, the "set barrier" and "clear barrier" command
    instructions, and federates which join.  A federate is the list of the barrier messages sent to it, oldest first; what it does
    with them is TimeCoord and C05.  Left out: brokers in between (they and the cores pass the messages on to all below, CoreBroker.cpp:1379-1382,
    CommonCore.cpp:3516-3519), disconnected cores, federates which register as observers. *)
From Coq Require Import ZArith Bool List Lia.
From Verif Require Import HTime Action.
Import ListNotations.
Open Scope Z_scope.

(** what happens at the root broker; an id of 0 stands for a command without an id *)
Inductive op : Type :=
| SetBarrier (t : Z)            (* CoreBroker.cpp:2535-2545 setTimeBarrier *)
| ClearBarrier                  (* CoreBroker.cpp:2547-2554 clearTimeBarrier *)
| CommandSet (t id : Z)         (* CoreBroker.cpp:4530-4538 *)
| CommandClear (id : Z)         (* CoreBroker.cpp:4539-4546 *)
| Join.                         (* CoreBroker.cpp:640-695 a federate is registered *)
(** CoreBroker.hpp mNextTimeBarrier; the messages sent to every federate, in the order of joining *)
Record net : Type := mkNet { n_next : Z; n_feds : list (list amsg) }.
(** ActionMessage.hpp an otherwise empty message: action, messageID, source, actionTime *)
Definition message (action id t : Z) : amsg := mkMsg action id gRootBrokerID 0 0 0 0 0 0 t 0 0 0 [] [].
(** CoreBroker.cpp:2706-2714 broadcast, and CommonCore::broadcastToFederates *)
Definition broadcast (m : amsg) (fs : list (list amsg)) : list (list amsg) := map (fun f => f ++ [m]) fs.
(** CoreBroker.cpp:909-929 generateTimeBarrier; the id of the request to cancel is not looked at: the test at 914 is on the new message *)
Definition generateTimeBarrier (cancel : bool) (id t : Z) (n : net) : net :=
  if cancel then
    let new_id := 0 in
    mkNet maxVal (broadcast (message CMD_TIME_BARRIER_CLEAR (if new_id =? 0 then gRootBrokerID else new_id) 0) (n_feds n))
  else mkNet t (broadcast (message CMD_TIME_BARRIER (if id =? 0 then gRootBrokerID else id) t) (n_feds n)).
(** CoreBroker.cpp:688-693 a new federate gets the barrier which is set *)
Definition join (n : net) : net :=
  mkNet (n_next n) (n_feds n ++ [if n_next n <? maxVal then [message CMD_TIME_BARRIER gRootBrokerID (n_next n)] else []]).
(** one event *)
Definition stepNet (n : net) (o : op) : net :=
  match o with
  | SetBarrier t => if t =? maxVal then generateTimeBarrier true 0 maxVal n else generateTimeBarrier false 0 t n
  | ClearBarrier => generateTimeBarrier true 0 maxVal n
  | CommandSet t id => generateTimeBarrier false id t n
  | CommandClear id => generateTimeBarrier true id 0 n
  | Join => join n
  end.
(** CoreBroker.hpp mNextTimeBarrier{Time::maxVal()} *)
Definition runNet (os : list op) : net := fold_left stepNet os (mkNet maxVal []).
