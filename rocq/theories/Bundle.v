(** * Bundles of commands and the command queue of cores and brokers (model)

    src/helics/core/ActionMessage.cpp (setString, getString, appendMessage), src/helics/core/CommonCore.cpp
    (setValue, generateMessages), src/helics/core/BrokerBase.cpp (addActionMessage, commandProcessor,
    queueProcessingLoop), src/helics/core/BaseTimeCoordinator.cpp (disconnect). *)
From Coq Require Import ZArith Bool List Lia.
From Verif Require Import HTime Action Codec.
Import ListNotations.
Open Scope Z_scope.

(** src/helics/core/ActionMessageDefintions.hpp:53-136 *)
Definition CMD_TICK := 1.
Definition CMD_STOP := 30.
Definition CMD_TERMINATE_IMMEDIATELY := 31.
Definition CMD_BASE_CONFIGURE := 213.
Definition CMD_PING := 298.
Definition CMD_ERROR_CHECK := 10001.
(** ActionMessage.hpp:34-48, ActionMessage.cpp:31-35: a command constructed from its action *)
Definition fresh (action : Z) : amsg := newMsg action parent_broker_id.
(** use_json_serialization_flag, flagOperations.hpp *)
Definition jsonFlag : Z := 6.

(** std::vector<std::string>::resize and assignment at [i]; ActionMessage.cpp:159-168 setString (an index of 255 or
    more throws: [None]) *)
Definition setAt (i : nat) (s : list Z) (l : list (list Z)) : list (list Z) :=
  if (i <? length l)%nat then firstn i l ++ s :: skipn (S i) l else l ++ repeat [] (i - length l) ++ [s].
Definition setString (i : Z) (s : list Z) (m : amsg) : option amsg :=
  if (255 <=? i) || (i <? 0) then None else Some (set_m_strings (setAt (Z.to_nat i) s (m_strings m)) m).
(** ActionMessage.cpp:150-157 getString *)
Definition getString (i : Z) (m : amsg) : list Z := if (i <? 0) then [] else nth (Z.to_nat i) (m_strings m) [].

Section Bundle.
(** the JSON reader and writer (ActionMessage.cpp:316-359, 623-664) are not modelled: any functions *)
Variable json : amsg -> list Z -> amsg * bool.
Variable jsonText : amsg -> list Z.
Variable host : bool.

(** ActionMessage.cpp:303-314 to_string *)
Definition serialize (m : amsg) : list Z := if Z.testbit (m_flags m) jsonFlag then jsonText m else toString host m.
(** ActionMessage.cpp:971-980 appendMessage: the bundle and the number returned *)
Definition appendMessage (multi new : amsg) : amsg * Z :=
  if m_action multi =? CMD_MULTI_MESSAGE then
    if m_counter multi <? 255 then
      match setString (m_counter multi) (serialize new) multi with
      | Some b => (set_m_counter (m_counter multi + 1) b, m_counter multi + 1)
      | None => (multi, -1)
      end
    else (multi, -1)
  else (multi, -1).
(** CommonCore.cpp:1835-1838, 1852-1854, 2261-2263: a new bundle of a sender *)
Definition newPackage (fed h : Z) : amsg := set_m_source_handle h (set_m_source_id fed (fresh CMD_MULTI_MESSAGE)).
(** CommonCore.cpp:1846-1857 and 2265-2277: the loop over the targets; a full bundle is sent and a new one started *)
Fixpoint bundleAll (fed h : Z) (package : amsg) (ms : list amsg) : list amsg :=
  match ms with
  | [] => [package]
  | m :: r =>
      let '(p, res) := appendMessage package m in
      if res <? 0 then p :: bundleAll fed h (fst (appendMessage (newPackage fed h) m)) r
      else bundleAll fed h p r
  end.
(** CommonCore.cpp:1818-1858 setValue: the commands queued for the subscribers [subs] of a publication *)
Definition setDestination (t : Z * Z) (m : amsg) : amsg := set_m_dest_id (fst t) (set_m_dest_handle (snd t) m).
Definition publishTo (pub : amsg) (subs : list (Z * Z)) : list amsg :=
  match subs with
  | [] => []
  | [t] => [setDestination t pub]
  | _ => bundleAll (m_source_id pub) (m_source_handle pub) (newPackage (m_source_id pub) (m_source_handle pub)) (map (fun t => setDestination t pub) subs)
  end.
(** BaseTimeCoordinator.cpp:102-122 (and TimeCoordinator.cpp:209-228): the disconnect notices of a time coordinator;
    the result of appendMessage is ignored *)
Definition goodbyes (byes : list amsg) : amsg := fold_left (fun multi bye => fst (appendMessage multi bye)) byes (fresh CMD_MULTI_MESSAGE).

(** BrokerBase.cpp:1151-1186 commandProcessor: the commands handed to processPriorityCommand/processCommand, in
    order, and the returned action.  [halt] is haltOperations, taken as not changing meanwhile.  The depth of nested
    bundles is limited by [depth]. *)
Definition decoded (s : list Z) : amsg := match fromString json host (fresh CMD_IGNORE) s with Done m _ => m | _ => fresh CMD_IGNORE end.
Definition isControl (a : Z) : bool :=
  (a =? CMD_TERMINATE_IMMEDIATELY) || (a =? CMD_STOP) || (a =? CMD_TICK) || (a =? CMD_BASE_CONFIGURE) || (a =? CMD_PING) || (a =? CMD_ERROR_CHECK).
Fixpoint commandProcessor (depth : nat) (halt : bool) (c : amsg) : list amsg * Z :=
  match depth with
  | O => ([], CMD_IGNORE)
  | S d =>
      if m_action c =? CMD_IGNORE then ([], CMD_IGNORE)
      else if isControl (m_action c) then ([], m_action c)
      else if m_action c =? CMD_MULTI_MESSAGE then
        (fix loop (n : nat) (i : nat) : list amsg * Z :=
           match n with
           | O => ([], CMD_IGNORE)
           | S k =>
               let '(done, r) := commandProcessor d halt (decoded (getString (Z.of_nat i) c)) in
               if negb (r =? CMD_IGNORE) && negb (r =? CMD_TICK) then (done, r)
               else let '(more, r') := loop k (S i) in (done ++ more, r')
           end) (Z.to_nat (m_counter c)) 0%nat
      else if halt then ([], CMD_IGNORE) else ([c], CMD_IGNORE)
  end.
End Bundle.

(** ** The command queue: gmlc::containers::BlockingPriorityQueue (a dependency: taken as two queues, the priority
    one is emptied first) *)
Record queue := mkQueue { q_prio : list amsg; q_ord : list amsg }.
(** ActionMessage.hpp:233-236 isPriorityCommand *)
Definition isPriority (m : amsg) : bool := m_action m <? CMD_IGNORE.
(** BrokerBase.cpp:777-807 addActionMessage *)
Definition addAction (m : amsg) (q : queue) : queue :=
  if isPriority m then mkQueue (q_prio q ++ [m]) (q_ord q) else mkQueue (q_prio q) (q_ord q ++ [m]).
(** pop (blocking: [None] when empty) *)
Definition popQueue (q : queue) : option (amsg * queue) :=
  match q_prio q with
  | m :: r => Some (m, mkQueue r (q_ord q))
  | [] => match q_ord q with m :: r => Some (m, mkQueue [] r) | [] => None end
  end.
(** schedules of threads adding commands and of the processing thread (BrokerBase.cpp:934-944) taking them *)
Inductive qevent := Add (m : amsg) | Take.
Definition qstep (s : queue * list amsg) (e : qevent) : queue * list amsg :=
  match e with
  | Add m => (addAction m (fst s), snd s)
  | Take => match popQueue (fst s) with Some (m, q) => (q, snd s ++ [m]) | None => s end
  end.
Definition qrun (es : list qevent) : queue * list amsg := fold_left qstep es (mkQueue [] [], []).
