(** The filter federate of a core and the core's time blocks: /repo/src/helics/core/FilterFederate.cpp:72-533 and
    CommonCore.cpp:2400-2445, 3446-3472, 3547-3575, 3630-3648, 4746-4753, 5226-5234, 5276-5300, 5560-5574. *)
From Coq Require Import ZArith List Lia Bool.
From Verif Require Import HTime Action Bundle MsgConv Interfaces Ids Handles Filters.
Import ListNotations.
Local Open Scope Z_scope.

(** ActionMessageDefintions.hpp:156-168 *)
Definition CMD_NULL_MESSAGE := 726. Definition CMD_NULL_DEST_MESSAGE := 730.
Definition CMD_SEND_FOR_FILTER := cmd_info_basis + 30. Definition CMD_SEND_FOR_DEST_FILTER_AND_RETURN := cmd_info_basis + 31.
Definition CMD_SEND_FOR_FILTER_AND_RETURN := cmd_info_basis + 35.
Definition CMD_FILTER_RESULT := cmd_info_basis + 40. Definition CMD_DEST_FILTER_RESULT := cmd_info_basis + 41.

(** FilterInfo.hpp:42-54: managing core (the filter federate's identifier), handle, cloning, disconnected_flag, operator *)
Record filt := mkFilt { fi_core : Z; fi_handle : Z; fi_cloning : bool; fi_closed : bool; fi_op : option operator }.
(** FilterCoordinator.hpp:17-33 (the ordered source filters, the destination filter, the cloning destination filters) *)
Record chain := mkChain { ch_source : list filt; ch_dest : option filt; ch_clones : list filt }.
(** what a step makes other parts of the program do *)
Inductive out :=
| O_main (m : amsg)       (* deliverMessage of the message itself *)
| O_deliver (m : amsg)    (* deliverMessage of a copy *)
| O_send (m : amsg)       (* routeMessage *)
| O_timing (m : amsg)     (* routeMessage of a federate's timing command *)
| O_arrive (m : amsg)     (* handed to the receiving federate *)
| O_msgTime (t : Z)       (* TimeCoordinator::updateMessageTime of the filter federate *)
| O_fedBlock (g pid : Z) | O_fedUnblock (g pid : Z). (* CMD_TIME_BLOCK / CMD_TIME_UNBLOCK to a receiving federate *)
(** FilterFederate.hpp:30-66 and CommonCore's timeBlocks and delayedTimingMessages.  [ff_owner]: the federate of a local endpoint handle,
    [ff_key]: its name (from the HandleManager).  Process identifiers are unbounded integers (the int32 wrap is not modelled). *)
Record ff := mkFf {
  ff_id : Z; ff_owner : Z -> option Z; ff_key : Z -> list Z; ff_chains : Z -> chain;
  ff_ongoing : list (Z * Z); ff_ongoingDest : list (Z * Z); ff_returns : list (Z * Z); ff_minReturn : Z; ff_counter : Z;
  ff_blocks : list (Z * Z); ff_delayed : list (Z * amsg) }.
(** FilterFederate.hpp:55-63; helicsTime.hpp:37 cBigTime = 9223372000 s *)
Definition cBigTime : Z := 9223372000000000000.
Definition noChain : chain := mkChain [] None [].
Definition ff_init (id : Z) (owner : Z -> option Z) (key : Z -> list Z) : ff := mkFf id owner key (fun _ => noChain) [] [] [] maxVal 54 [] [].
Definition withTracking (s : ff) (on od rt : list (Z * Z)) (mr ct : Z) (bl : list (Z * Z)) (dl : list (Z * amsg)) : ff :=
  mkFf (ff_id s) (ff_owner s) (ff_key s) (ff_chains s) on od rt mr ct bl dl.
Definition setChain (s : ff) (h : Z) (c : chain) : ff :=
  mkFf (ff_id s) (ff_owner s) (ff_key s) (fun x => if x =? h then c else ff_chains s x) (ff_ongoing s) (ff_ongoingDest s) (ff_returns s) (ff_minReturn s) (ff_counter s) (ff_blocks s) (ff_delayed s).
Definition setCounter (s : ff) (n : Z) : ff := withTracking s (ff_ongoing s) (ff_ongoingDest s) (ff_returns s) (ff_minReturn s) n (ff_blocks s) (ff_delayed s).
Definition pairEqb (a b : Z * Z) : bool := (fst a =? fst b) && (snd a =? snd b).
Definition hasAny (l : list (Z * Z)) (g : Z) : bool := existsb (fun x => fst x =? g) l.
Definition insertP (l : list (Z * Z)) (g pid : Z) : list (Z * Z) := if existsb (pairEqb (g, pid)) l then l else l ++ [(g, pid)].
Definition eraseP (l : list (Z * Z)) (g pid : Z) : list (Z * Z) := filter (fun x => negb (pairEqb (g, pid) x)) l.

(** FilterFederate.cpp:501-508 addTimeReturn *)
Definition addTimeReturn (s : ff) (pid t : Z) : ff * list out :=
  let lower := t <? ff_minReturn s in
  (withTracking s (ff_ongoing s) (ff_ongoingDest s) (ff_returns s ++ [(pid, t)]) (if lower then t else ff_minReturn s) (ff_counter s) (ff_blocks s) (ff_delayed s),
   if lower then [O_msgTime t] else []).
(** FilterFederate.cpp:510-533 clearTimeReturn: only the oldest entry is looked at *)
Definition clearTimeReturn (s : ff) (pid : Z) : ff * list out :=
  match ff_returns s with
  | [] => (s, [])
  | (p, t) :: r =>
      if p =? pid then
        let low := fold_left (fun a x => if snd x <? a then snd x else a) r cBigTime in
        let re := t =? ff_minReturn s in
        (withTracking s (ff_ongoing s) (ff_ongoingDest s) r (if re then low else ff_minReturn s) (ff_counter s) (ff_blocks s) (ff_delayed s), if re then [O_msgTime low] else [])
      else (s, [])
  end.
(** CommonCore.cpp:5278-5288 manageTimeBlocks, CMD_TIME_BLOCK *)
Definition coreBlock (s : ff) (g : Z) : ff :=
  let bl := if hasAny (ff_blocks s) g then map (fun b => if fst b =? g then (fst b, snd b + 1) else b) (ff_blocks s) else ff_blocks s ++ [(g, 1)] in
  withTracking s (ff_ongoing s) (ff_ongoingDest s) (ff_returns s) (ff_minReturn s) (ff_counter s) bl (ff_delayed s).
(** CommonCore.cpp:5289-5299 manageTimeBlocks, CMD_TIME_UNBLOCK, and 3465-3471: the delayed timing commands of the federate are routed and forgotten.
    (3448-3463 re-send commands waiting for a route and are not modelled.) *)
Definition coreUnblock (s : ff) (g : Z) : ff * list out :=
  let bl := map (fun b => if fst b =? g then (fst b, Z.max 0 (snd b - 1)) else b) (ff_blocks s) in
  let free := existsb (fun b => (fst b =? g) && (snd b - 1 <=? 0)) (ff_blocks s) in
  (withTracking s (ff_ongoing s) (ff_ongoingDest s) (ff_returns s) (ff_minReturn s) (ff_counter s) bl (if free then filter (fun d => negb (fst d =? g)) (ff_delayed s) else ff_delayed s),
   if free then map (fun d => O_timing (snd d)) (filter (fun d => fst d =? g) (ff_delayed s)) else []).
(** CommonCore.cpp:5226-5234 hasTimeBlock *)
Definition hasTimeBlock (s : ff) (g : Z) : bool := match List.find (fun b => fst b =? g) (ff_blocks s) with Some b => negb (snd b =? 0) | None => false end.
(** CommonCore.cpp:3560-3567 and 4746-4753: a timing command of a local federate *)
Definition timingCommand (s : ff) (m : amsg) : ff * list out :=
  if hasTimeBlock s (m_source_id m)
  then (withTracking s (ff_ongoing s) (ff_ongoingDest s) (ff_returns s) (ff_minReturn s) (ff_counter s) (ff_blocks s) (ff_delayed s ++ [(m_source_id m, m)]), [])
  else (s, [O_timing m]).

(** FilterFederate.cpp:187-199 generateProcessMarker: the CMD_TIME_BLOCK reaches manageTimeBlocks at once (CommonCore.cpp:5472, 5210) *)
Definition generateProcessMarker (s : ff) (g pid t : Z) : ff * list out :=
  let s := if hasAny (ff_ongoing s) g then s else coreBlock s g in
  addTimeReturn (withTracking s (insertP (ff_ongoing s) g pid) (ff_ongoingDest s) (ff_returns s) (ff_minReturn s) (ff_counter s) (ff_blocks s) (ff_delayed s)) pid t.
(** FilterFederate.cpp:201-214 acceptProcessReturn *)
Definition acceptProcessReturn (s : ff) (g pid : Z) : ff * list out :=
  let s := withTracking s (eraseP (ff_ongoing s) g pid) (ff_ongoingDest s) (ff_returns s) (ff_minReturn s) (ff_counter s) (ff_blocks s) (ff_delayed s) in
  let '(s, o1) := if hasAny (ff_ongoing s) g then (s, []) else coreUnblock s g in
  let '(s, o2) := clearTimeReturn s pid in (s, o1 ++ o2).
(** FilterFederate.cpp:216-229 generateDestProcessMarker *)
Definition generateDestProcessMarker (s : ff) (g pid t : Z) : ff * list out :=
  let o1 := if hasAny (ff_ongoingDest s) g then [] else [O_fedBlock g pid] in
  let '(s, o2) := addTimeReturn (withTracking s (ff_ongoing s) (insertP (ff_ongoingDest s) g pid) (ff_returns s) (ff_minReturn s) (ff_counter s) (ff_blocks s) (ff_delayed s)) pid t in
  (s, o1 ++ o2).
(** FilterFederate.cpp:231-244 acceptDestProcessReturn *)
Definition acceptDestProcessReturn (s : ff) (g pid : Z) : ff * list out :=
  let s := withTracking s (ff_ongoing s) (eraseP (ff_ongoingDest s) g pid) (ff_returns s) (ff_minReturn s) (ff_counter s) (ff_blocks s) (ff_delayed s) in
  let o1 := if hasAny (ff_ongoingDest s) g then [] else [O_fedUnblock g pid] in
  let '(s, o2) := clearTimeReturn s pid in (s, o1 ++ o2).

Definition withDestination (m : amsg) (g h : Z) : amsg := set_m_dest_handle h (set_m_dest_id g m).
Definition withSource (m : amsg) (g h : Z) : amsg := set_m_source_handle h (set_m_source_id g m).
(** flagOperations.hpp clone_flag *)
Definition clone_flag : Z := 9.
(** FilterFederate.cpp:330-373 executeFilter; the flag tells whether the chain goes on; [None]: a null pointer is dereferenced *)
Definition executeFilter (self : Z) (m : amsg) (f : filt) : option (amsg * bool * list out) :=
  if fi_core f =? self then
    match fi_op f with
    | None => None
    | Some op =>
        if fi_cloning f then Some (m, true, map (fun g => O_deliver (commandOf g)) (op_vector op (messageOf m)))
        else match op_process op (messageOf m) with Some g => Some (commandOf g, true, []) | None => Some (fresh CMD_IGNORE, false, []) end
    end
  else if fi_cloning f then
    Some (m, true, [O_send (withDestination (set_m_flags (setActionFlag (m_flags m) clone_flag) (set_m_action CMD_SEND_FOR_FILTER m)) (fi_core f) (fi_handle f))])
  else Some (withDestination m (fi_core f) (fi_handle f), false, []).
(** FilterFederate.cpp:382-406, the loop of processMessage; a closed filter does not advance [ii].  The flag tells that the message must come back. *)
Fixpoint processLoop (self : Z) (size ii : nat) (fs : list filt) (m : amsg) : option (amsg * bool * list out) :=
  match fs with
  | [] => Some (m, false, [])
  | f :: r =>
      if fi_closed f then processLoop self size ii r m
      else match executeFilter self m f with
           | None => None
           | Some (m, true, o) => match processLoop self size (S ii) r m with Some (m, b, o') => Some (m, b, o ++ o') | None => None end
           | Some (m, false, o) =>
               if m_action m =? CMD_IGNORE then Some (m, false, o)
               else let m := set_m_counter (Z.of_nat ii mod 65536) m in
                    if (ii <? size - 1)%nat then Some (set_m_action CMD_SEND_FOR_FILTER_AND_RETURN m, true, o)
                    else Some (set_m_action CMD_SEND_FOR_FILTER m, false, o)
           end
  end.
(** FilterFederate.cpp:375-410 processMessage, then CommonCore.cpp:3732 deliverMessage; [h]: the sending endpoint *)
Definition sendMessage (s : ff) (h : Z) (m : amsg) : option (ff * list out) :=
  match ff_owner s h with
  | None => Some (s, [O_main m])
  | Some g =>
      let fs := ch_source (ff_chains s h) in
      match processLoop (ff_id s) (length fs) 0 fs m with
      | None => None
      | Some (m, true, o) =>
          let m := set_m_sequenceID (ff_counter s) m in
          let '(s, o2) := generateProcessMarker (setCounter s (ff_counter s + 1)) g (ff_counter s) (m_actionTime m) in
          Some (s, o ++ o2 ++ [O_main m])
      | Some (m, false, o) => Some (s, o ++ [O_main m])
      end
  end.
(** FilterFederate.cpp:265-292, the loop of processFilterReturn over the filters after the one that answered *)
Fixpoint returnLoop (self : Z) (size ii : nat) (fs : list filt) (m : amsg) : option (amsg * bool * list out) :=
  match fs with
  | [] => Some (m, false, [])
  | f :: r =>
      if fi_closed f then returnLoop self size (S ii) r m
      else match executeFilter self m f with
           | None => None
           | Some (m, true, o) => match returnLoop self size (S ii) r m with Some (m, b, o') => Some (m, b, o ++ o') | None => None end
           | Some (m, false, o) =>
               if m_action m =? CMD_IGNORE then Some (m, false, o)
               else if (ii <? size - 1)%nat then Some (set_m_action CMD_SEND_FOR_FILTER_AND_RETURN (set_m_counter (Z.of_nat ii mod 65536) m), true, o)
               else Some (set_m_action CMD_SEND_FOR_FILTER m, false, o)
           end
  end.
(** FilterFederate.cpp:247-297 processFilterReturn *)
Definition filterReturn (s : ff) (m : amsg) : option (ff * list out) :=
  match ff_owner s (m_dest_handle m) with
  | None => Some (s, [])
  | Some g =>
      let h := m_dest_handle m in
      let mid := m_sequenceID m in
      if existsb (pairEqb (g, mid)) (ff_ongoing s) then
        if m_action m =? CMD_NULL_MESSAGE then Some (acceptProcessReturn s g mid)
        else
          let fs := ch_source (ff_chains s h) in
          let ii := S (Z.to_nat (m_counter m)) in
          match returnLoop (ff_id s) (length fs) ii (skipn ii fs) (set_m_action CMD_SEND_MESSAGE m) with
          | None => None
          | Some (m, again, o) =>
              let '(s, m, o2) := if again then let m := withSource (set_m_sequenceID (ff_counter s) m) g h in
                                               let '(s, o2) := generateProcessMarker (setCounter s (ff_counter s + 1)) g (ff_counter s) (m_actionTime m) in (s, m, o2)
                                 else (s, m, []) in
              let '(s, o3) := acceptProcessReturn s g mid in
              Some (s, o ++ o2 ++ o3 ++ (if m_action m =? CMD_IGNORE then [] else [O_main m]))
          end
      else Some (s, [])
  end.
(** FilterFederate.cpp:459-499 runCloningDestinationFilters *)
Definition cloneOne (s : ff) (h : Z) (m : amsg) (f : filt) : list out :=
  if fi_closed f then []
  else if fi_core f =? ff_id s then
    match fi_op f with
    | Some op => map (fun g => if beq (g_dest g) (ff_key s h) then O_send (withDestination (commandOf g) (match ff_owner s h with Some x => x | None => invalidId end) h) else O_deliver (commandOf g))
                     (op_vector op (messageOf m))
    | None => [] end
  else [O_send (withDestination (set_m_action CMD_SEND_FOR_FILTER m) (fi_core f) (fi_handle f))].
Definition runClones (s : ff) (h : Z) (m : amsg) : list out := flat_map (cloneOne s h m) (ch_clones (ff_chains s h)).
(** FilterFederate.cpp:412-457 destinationProcessMessage and CommonCore.cpp:2419-2430; [h]: the receiving endpoint *)
Definition destArrive (s : ff) (h : Z) (m : amsg) : option (ff * list out) :=
  match ff_owner s h with
  | None => Some (s, [])
  | Some g =>
      let go m := let o := runClones s h m in
                  Some (s, o ++ [O_arrive (if m_dest_id m =? parent_broker_id then withDestination m g h else m)]) in
      match ch_dest (ff_chains s h) with
      | Some f =>
          if fi_closed f then go m
          else if negb (fi_core f =? ff_id s) then
            let mid := ff_counter s + 1 in
            let '(s, o) := generateDestProcessMarker (setCounter s mid) g mid (m_actionTime m) in
            Some (s, o ++ [O_send (withDestination (withSource (set_m_sequenceID mid (set_m_action CMD_SEND_FOR_DEST_FILTER_AND_RETURN m)) g h) (fi_core f) (fi_handle f))])
          else match fi_op f with
               | None => go m
               | Some op => match op_process op (messageOf m) with
                            | None => None
                            | Some g' => if beq (g_dest (messageOf m)) (g_dest g') then go (assignMessage g' m) else Some (s, [O_deliver (assignMessage g' m)]) end
               end
      | None => go m
      end
  end.
(** FilterFederate.cpp:300-328 processDestFilterReturn *)
Definition destReturn (s : ff) (m : amsg) : option (ff * list out) :=
  match ff_owner s (m_dest_handle m) with
  | None => Some (s, [])
  | Some g =>
      let h := m_dest_handle m in
      let mid := m_sequenceID m in
      if existsb (pairEqb (g, mid)) (ff_ongoingDest s) then
        if m_action m =? CMD_NULL_DEST_MESSAGE then Some (acceptDestProcessReturn s g mid)
        else let o := runClones s h m in
             let '(s, o2) := acceptDestProcessReturn s g mid in
             Some (s, o ++ [O_send (set_m_action CMD_SEND_MESSAGE m)] ++ o2)
      else Some (s, [])
  end.
(** FilterFederate.cpp:72-185 processMessageFilter at the core that owns the filter [f], whose filter federate is [self] *)
Definition filterHere (self : Z) (f : filt) (m : amsg) : list out :=
  let isDest := m_action m =? CMD_SEND_FOR_DEST_FILTER_AND_RETURN in
  let back := (m_action m =? CMD_SEND_FOR_FILTER_AND_RETURN) || isDest in
  match (if fi_closed f then None else fi_op f) with
  | Some op =>
      if fi_cloning f then map (fun g => O_deliver (commandOf g)) (op_vector op (messageOf m))
      else
        let '(o, r) := match op_process op (messageOf m) with
                       | None => ([], None)
                       | Some g => if negb (beq (g_dest g) (g_dest (messageOf m))) && isDest then ([O_deliver (commandOf g)], None) else ([], Some (commandOf g))
                       end in
        o ++ if negb back then match r with None => [] | Some c => [O_main (withDestination (withSource c (m_source_id m) (m_source_handle m)) parent_broker_id invalidHandle)] end
             else let c := match r with Some c => c | None => fresh CMD_IGNORE end in
                  let c := withSource (set_m_sequenceID (m_sequenceID m) (set_m_counter (m_counter m) (withDestination c (m_source_id m) (m_source_handle m)))) self (fi_handle f) in
                  [O_main (set_m_action (match r with Some _ => if isDest then CMD_DEST_FILTER_RESULT else CMD_FILTER_RESULT
                                                    | None => if isDest then CMD_NULL_DEST_MESSAGE else CMD_NULL_MESSAGE end) c)]
  | None =>
      if negb back then [O_main (withDestination (set_m_action CMD_SEND_MESSAGE m) parent_broker_id invalidHandle)]
      else [O_main (withSource (set_m_action (if isDest then CMD_DEST_FILTER_RESULT else CMD_FILTER_RESULT) (withDestination m (m_source_id m) (m_source_handle m))) self (fi_handle f))]
  end.

(** ** Histories.  Deliveries of copies to endpoints of the same core are separate later steps (in the program they are nested calls). *)
Inductive fevent :=
| F_send (h : Z) (m : amsg)       (* CommonCore.cpp:3729-3733, 5560-5574 *)
| F_return (m : amsg)             (* CommonCore.cpp:3638-3643 *)
| F_arrive (h : Z) (m : amsg)     (* CommonCore.cpp:2418-2430 *)
| F_destReturn (m : amsg)         (* CommonCore.cpp:3644-3648 *)
| F_timing (m : amsg)             (* CMD_TIME_REQUEST, CMD_TIME_GRANT, CMD_EXEC_REQUEST, CMD_EXEC_GRANT of a local federate *)
| F_chain (h : Z) (c : chain).    (* filters added, ordered (855-917) or closed (FilterCoordinator.cpp:13-30) *)
Definition fstep (s : ff) (e : fevent) : option (ff * list out) :=
  match e with
  | F_send h m => sendMessage s h (set_m_action CMD_SEND_MESSAGE m)
  | F_return m => filterReturn s m
  | F_arrive h m => destArrive s h m
  | F_destReturn m => destReturn s m
  | F_timing m => Some (timingCommand s m)
  | F_chain h c => Some (setChain s h c, [])
  end.
(** a history: the state and the outputs of every event; [None]: the program has crashed *)
Fixpoint frun (s : ff) (es : list fevent) : option (ff * list (fevent * list out)) :=
  match es with
  | [] => Some (s, [])
  | e :: r => match fstep s e with
              | None => None
              | Some (s, o) => match frun s r with Some (s, t) => Some (s, (e, o) :: t) | None => None end
              end
  end.
