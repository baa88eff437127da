(** * Commands exchanged between cores, brokers and federates (model)

    src/helics/core/ActionMessage.hpp:30-50 (class ActionMessage) and
    src/helics/core/ActionMessageDefintions.hpp:20-208 (action codes). *)
From Coq Require Import ZArith Bool List Lia.
From Verif Require Import HTime.
Import ListNotations.
Open Scope Z_scope.

(** ActionMessage.hpp:34-50.  Bytes are [Z] in [0,256).  The constructor takes every field. *)
Record amsg : Type := mkMsg {
  m_action : Z;
  m_messageID : Z;
  m_source_id : Z;
  m_source_handle : Z;
  m_dest_id : Z;
  m_dest_handle : Z;
  m_counter : Z;
  m_flags : Z;
  m_sequenceID : Z;
  m_actionTime : Z;
  m_Te : Z;
  m_Tdemin : Z;
  m_Tso : Z;
  m_payload : list Z;
  m_strings : list (list Z)
}.
(** field update of [amsg] above (C++ member assignment) *)
Definition set_m_action (v : Z) (r : amsg) : amsg := mkMsg v (m_messageID r) (m_source_id r) (m_source_handle r) (m_dest_id r) (m_dest_handle r) (m_counter r) (m_flags r) (m_sequenceID r) (m_actionTime r) (m_Te r) (m_Tdemin r) (m_Tso r) (m_payload r) (m_strings r).
(** field update of [amsg] above (C++ member assignment) *)
Definition set_m_messageID (v : Z) (r : amsg) : amsg := mkMsg (m_action r) v (m_source_id r) (m_source_handle r) (m_dest_id r) (m_dest_handle r) (m_counter r) (m_flags r) (m_sequenceID r) (m_actionTime r) (m_Te r) (m_Tdemin r) (m_Tso r) (m_payload r) (m_strings r).
(** field update of [amsg] above (C++ member assignment) *)
Definition set_m_source_id (v : Z) (r : amsg) : amsg := mkMsg (m_action r) (m_messageID r) v (m_source_handle r) (m_dest_id r) (m_dest_handle r) (m_counter r) (m_flags r) (m_sequenceID r) (m_actionTime r) (m_Te r) (m_Tdemin r) (m_Tso r) (m_payload r) (m_strings r).
(** field update of [amsg] above (C++ member assignment) *)
Definition set_m_source_handle (v : Z) (r : amsg) : amsg := mkMsg (m_action r) (m_messageID r) (m_source_id r) v (m_dest_id r) (m_dest_handle r) (m_counter r) (m_flags r) (m_sequenceID r) (m_actionTime r) (m_Te r) (m_Tdemin r) (m_Tso r) (m_payload r) (m_strings r).
(** field update of [amsg] above (C++ member assignment) *)
Definition set_m_dest_id (v : Z) (r : amsg) : amsg := mkMsg (m_action r) (m_messageID r) (m_source_id r) (m_source_handle r) v (m_dest_handle r) (m_counter r) (m_flags r) (m_sequenceID r) (m_actionTime r) (m_Te r) (m_Tdemin r) (m_Tso r) (m_payload r) (m_strings r).
(** field update of [amsg] above (C++ member assignment) *)
Definition set_m_dest_handle (v : Z) (r : amsg) : amsg := mkMsg (m_action r) (m_messageID r) (m_source_id r) (m_source_handle r) (m_dest_id r) v (m_counter r) (m_flags r) (m_sequenceID r) (m_actionTime r) (m_Te r) (m_Tdemin r) (m_Tso r) (m_payload r) (m_strings r).
(** field update of [amsg] above (C++ member assignment) *)
Definition set_m_counter (v : Z) (r : amsg) : amsg := mkMsg (m_action r) (m_messageID r) (m_source_id r) (m_source_handle r) (m_dest_id r) (m_dest_handle r) v (m_flags r) (m_sequenceID r) (m_actionTime r) (m_Te r) (m_Tdemin r) (m_Tso r) (m_payload r) (m_strings r).
(** field update of [amsg] above (C++ member assignment) *)
Definition set_m_flags (v : Z) (r : amsg) : amsg := mkMsg (m_action r) (m_messageID r) (m_source_id r) (m_source_handle r) (m_dest_id r) (m_dest_handle r) (m_counter r) v (m_sequenceID r) (m_actionTime r) (m_Te r) (m_Tdemin r) (m_Tso r) (m_payload r) (m_strings r).
(** field update of [amsg] above (C++ member assignment) *)
Definition set_m_sequenceID (v : Z) (r : amsg) : amsg := mkMsg (m_action r) (m_messageID r) (m_source_id r) (m_source_handle r) (m_dest_id r) (m_dest_handle r) (m_counter r) (m_flags r) v (m_actionTime r) (m_Te r) (m_Tdemin r) (m_Tso r) (m_payload r) (m_strings r).
(** field update of [amsg] above (C++ member assignment) *)
Definition set_m_actionTime (v : Z) (r : amsg) : amsg := mkMsg (m_action r) (m_messageID r) (m_source_id r) (m_source_handle r) (m_dest_id r) (m_dest_handle r) (m_counter r) (m_flags r) (m_sequenceID r) v (m_Te r) (m_Tdemin r) (m_Tso r) (m_payload r) (m_strings r).
(** field update of [amsg] above (C++ member assignment) *)
Definition set_m_Te (v : Z) (r : amsg) : amsg := mkMsg (m_action r) (m_messageID r) (m_source_id r) (m_source_handle r) (m_dest_id r) (m_dest_handle r) (m_counter r) (m_flags r) (m_sequenceID r) (m_actionTime r) v (m_Tdemin r) (m_Tso r) (m_payload r) (m_strings r).
(** field update of [amsg] above (C++ member assignment) *)
Definition set_m_Tdemin (v : Z) (r : amsg) : amsg := mkMsg (m_action r) (m_messageID r) (m_source_id r) (m_source_handle r) (m_dest_id r) (m_dest_handle r) (m_counter r) (m_flags r) (m_sequenceID r) (m_actionTime r) (m_Te r) v (m_Tso r) (m_payload r) (m_strings r).
(** field update of [amsg] above (C++ member assignment) *)
Definition set_m_Tso (v : Z) (r : amsg) : amsg := mkMsg (m_action r) (m_messageID r) (m_source_id r) (m_source_handle r) (m_dest_id r) (m_dest_handle r) (m_counter r) (m_flags r) (m_sequenceID r) (m_actionTime r) (m_Te r) (m_Tdemin r) v (m_payload r) (m_strings r).
(** field update of [amsg] above (C++ member assignment) *)
Definition set_m_payload (v : list Z) (r : amsg) : amsg := mkMsg (m_action r) (m_messageID r) (m_source_id r) (m_source_handle r) (m_dest_id r) (m_dest_handle r) (m_counter r) (m_flags r) (m_sequenceID r) (m_actionTime r) (m_Te r) (m_Tdemin r) (m_Tso r) v (m_strings r).
(** field update of [amsg] above (C++ member assignment) *)
Definition set_m_strings (v : list (list Z)) (r : amsg) : amsg := mkMsg (m_action r) (m_messageID r) (m_source_id r) (m_source_handle r) (m_dest_id r) (m_dest_handle r) (m_counter r) (m_flags r) (m_sequenceID r) (m_actionTime r) (m_Te r) (m_Tdemin r) (m_Tso r) (m_payload r) v.


(** ActionMessage.hpp:34-48 default member initialisers, with the given action and source. *)
Definition newMsg (action source : Z) : amsg :=
  mkMsg action 0 source invalidHandle parent_broker_id invalidHandle 0 0 0 0 0 0 0 [] [].

(** ActionMessage.hpp:158-164: "extra data" lives in the handle fields. *)
Definition setExtraData (v : Z) (m : amsg) : amsg := set_m_dest_handle v m.
Definition getExtraData (m : amsg) : Z := m_dest_handle m.
Definition setExtraDestData (v : Z) (m : amsg) : amsg := set_m_source_handle v m.
Definition getExtraDestData (m : amsg) : Z := m_source_handle m.

(** ActionMessageDefintions.hpp:21-208, the codes used by the model *)
Definition CMD_PRIORITY_DISCONNECT := -3.
Definition CMD_IGNORE := 0.
Definition CMD_DISCONNECT := 3.
Definition CMD_DISCONNECT_FED := 6.
Definition CMD_BROADCAST_DISCONNECT := 7.
Definition CMD_DISCONNECT_CORE := 8.
Definition CMD_DISCONNECT_BROKER := 9.
Definition CMD_EXEC_REQUEST := 20.
Definition CMD_EXEC_GRANT := 22.
Definition CMD_TIME_GRANT := 35.
Definition CMD_REQUEST_CURRENT_TIME := 38.
Definition CMD_TIME_BLOCK := 40.
Definition CMD_TIME_UNBLOCK := 41.
Definition CMD_TIME_BARRIER := 43.
Definition CMD_TIME_BARRIER_CLEAR := 44.
Definition CMD_PUB := 52.
Definition CMD_TIMING_INFO := 310.
Definition CMD_TIME_REQUEST := 500.
Definition CMD_FORCE_TIME_GRANT := 525.
Definition CMD_LOCAL_ERROR := 10003.
Definition CMD_GLOBAL_ERROR := 10005.
Definition CMD_MULTI_MESSAGE := 1037.
Definition CMD_INVALID := 1010101.
Definition cmd_info_basis := 268435456.
Definition CMD_SEND_MESSAGE := cmd_info_basis + 20.
Definition CMD_ADD_DEPENDENCY := 140.
Definition CMD_REMOVE_DEPENDENCY := 141.
Definition CMD_ADD_DEPENDENT := 144.
Definition CMD_REMOVE_DEPENDENT := 145.
Definition CMD_ADD_INTERDEPENDENCY := 148.
Definition CMD_REMOVE_INTERDEPENDENCY := 149.

(** flagOperations.hpp:16-62 flag indices *)
Definition iteration_requested_flag := 0.
Definition destination_target := 1.
Definition required_flag := 2.
Definition error_flag := 4.
Definition indicator_flag := 5.
Definition non_granting_flag := 7.
Definition interrupted_flag := 8.
Definition delayed_timing_flag := 10.
Definition parent_flag := 13.
Definition child_flag := 14.

(** flagOperations.hpp:120-150 : the flag word is a uint16_t, flags are bit positions *)
Definition setFlag (f : Z) (m : amsg) : amsg := set_m_flags (Z.lor (m_flags m) (Z.shiftl 1 f)) m.
Definition checkFlag (f : Z) (m : amsg) : bool := Z.testbit (m_flags m) f.
Definition setFlagIf (b : bool) (f : Z) (m : amsg) : amsg := if b then setFlag f m else m.

(** CoreTypes.hpp:103-109 IterationRequest *)
Inductive iter_req := NO_ITERATIONS | FORCE_ITERATION | ITERATE_IF_NEEDED | HALT_OPERATIONS | ERROR_CONDITION.
Definition is_no_iter (i : iter_req) : bool := match i with NO_ITERATIONS => true | _ => false end.
Definition is_force_iter (i : iter_req) : bool := match i with FORCE_ITERATION => true | _ => false end.

(** ActionMessage.cpp:982-1000 setIterationFlags *)
Definition setIterationFlags (i : iter_req) (m : amsg) : amsg :=
  match i with
  | FORCE_ITERATION => setFlag required_flag (setFlag iteration_requested_flag m)
  | ITERATE_IF_NEEDED => setFlag iteration_requested_flag m
  | ERROR_CONDITION => setFlag error_flag m
  | _ => m
  end.

(** CoreTypes.hpp:75-87 MessageProcessingResult (the values the coordinators return) *)
Inductive mpr := CONTINUE_PROCESSING | NEXT_STEP | ITERATING | HALTED.
