(** * The federate time coordinator (model of src/helics/core/TimeCoordinator.cpp/.hpp and of
      src/helics/core/BaseTimeCoordinator.cpp)

    Every member function is a function from the coordinator state to the new state and the list of
    commands handed to sendMessageFunction.  Not modelled: the thread-safe copies of the dependency
    lists (dependent_federates / dependency_federates), JSON/debug output and logging. *)
From Coq Require Import ZArith Bool List Lia.
From Verif Require Import HTime Action TimeDep.
Import ListNotations.
Open Scope Z_scope.

(** TimeCoordinator.hpp:24-42 struct tcoptions *)
Record tcopts : Type := mkOpts {
  o_timeDelta : Z;
  o_inputDelay : Z;
  o_outputDelay : Z;
  o_offset : Z;
  o_period : Z;
  o_wait : bool;
  o_uninterruptible : bool;
  o_restrictive : bool;
  o_event_triggered : bool;
  o_maxIterations : Z
}.
(** field update of [tcopts] above (C++ member assignment) *)
Definition set_o_timeDelta (v : Z) (r : tcopts) : tcopts := mkOpts v (o_inputDelay r) (o_outputDelay r) (o_offset r) (o_period r) (o_wait r) (o_uninterruptible r) (o_restrictive r) (o_event_triggered r) (o_maxIterations r).
(** field update of [tcopts] above (C++ member assignment) *)
Definition set_o_inputDelay (v : Z) (r : tcopts) : tcopts := mkOpts (o_timeDelta r) v (o_outputDelay r) (o_offset r) (o_period r) (o_wait r) (o_uninterruptible r) (o_restrictive r) (o_event_triggered r) (o_maxIterations r).
(** field update of [tcopts] above (C++ member assignment) *)
Definition set_o_outputDelay (v : Z) (r : tcopts) : tcopts := mkOpts (o_timeDelta r) (o_inputDelay r) v (o_offset r) (o_period r) (o_wait r) (o_uninterruptible r) (o_restrictive r) (o_event_triggered r) (o_maxIterations r).
(** field update of [tcopts] above (C++ member assignment) *)
Definition set_o_offset (v : Z) (r : tcopts) : tcopts := mkOpts (o_timeDelta r) (o_inputDelay r) (o_outputDelay r) v (o_period r) (o_wait r) (o_uninterruptible r) (o_restrictive r) (o_event_triggered r) (o_maxIterations r).
(** field update of [tcopts] above (C++ member assignment) *)
Definition set_o_period (v : Z) (r : tcopts) : tcopts := mkOpts (o_timeDelta r) (o_inputDelay r) (o_outputDelay r) (o_offset r) v (o_wait r) (o_uninterruptible r) (o_restrictive r) (o_event_triggered r) (o_maxIterations r).
(** field update of [tcopts] above (C++ member assignment) *)
Definition set_o_wait (v : bool) (r : tcopts) : tcopts := mkOpts (o_timeDelta r) (o_inputDelay r) (o_outputDelay r) (o_offset r) (o_period r) v (o_uninterruptible r) (o_restrictive r) (o_event_triggered r) (o_maxIterations r).
(** field update of [tcopts] above (C++ member assignment) *)
Definition set_o_uninterruptible (v : bool) (r : tcopts) : tcopts := mkOpts (o_timeDelta r) (o_inputDelay r) (o_outputDelay r) (o_offset r) (o_period r) (o_wait r) v (o_restrictive r) (o_event_triggered r) (o_maxIterations r).
(** field update of [tcopts] above (C++ member assignment) *)
Definition set_o_restrictive (v : bool) (r : tcopts) : tcopts := mkOpts (o_timeDelta r) (o_inputDelay r) (o_outputDelay r) (o_offset r) (o_period r) (o_wait r) (o_uninterruptible r) v (o_event_triggered r) (o_maxIterations r).
(** field update of [tcopts] above (C++ member assignment) *)
Definition set_o_event_triggered (v : bool) (r : tcopts) : tcopts := mkOpts (o_timeDelta r) (o_inputDelay r) (o_outputDelay r) (o_offset r) (o_period r) (o_wait r) (o_uninterruptible r) (o_restrictive r) v (o_maxIterations r).
(** field update of [tcopts] above (C++ member assignment) *)
Definition set_o_maxIterations (v : Z) (r : tcopts) : tcopts := mkOpts (o_timeDelta r) (o_inputDelay r) (o_outputDelay r) (o_offset r) (o_period r) (o_wait r) (o_uninterruptible r) (o_restrictive r) (o_event_triggered r) v.


(** TimeCoordinator.hpp:25-41 default values *)
Definition opts_default : tcopts := mkOpts 1 0 0 0 0 false false false false 50.

(** TimeCoordinator.hpp:48-100 and BaseTimeCoordinator.hpp:29-46.  [c_ub] is a ghost flag: it becomes
    true when the code would dereference a null DependencyInfo pointer. *)
Record tc : Type := mkTC {
  c_deps : table;
  c_id : Z;
  c_seq : Z;
  c_checkingExec : bool;
  c_execMode : bool;
  c_nonGranting : bool;
  c_delayed : bool;
  c_disconnected : bool;
  c_upstream : tdata;
  c_total : tdata;
  c_lastSend : tdata;
  c_granted : Z;
  c_requested : Z;
  c_next : Z;
  c_minminDe : Z;
  c_minDe : Z;
  c_allow : Z;
  c_exec : Z;
  c_message : Z;
  c_value : Z;
  c_grantBase : Z;
  c_block : Z;
  c_maxTime : Z;
  c_blocks : list (Z * Z);
  c_opts : tcopts;
  c_restrLevel : Z;
  c_iterating : iter_req;
  c_hasInit : bool;
  c_hasIter : bool;
  c_needSendAll : bool;
  c_trig : bool;
  c_globalTime : bool;
  c_dynamic : bool;
  c_iteration : Z;
  c_ub : bool
}.
(** field update of [tc] above (C++ member assignment) *)
Definition set_c_deps (v : table) (r : tc) : tc := mkTC v (c_id r) (c_seq r) (c_checkingExec r) (c_execMode r) (c_nonGranting r) (c_delayed r) (c_disconnected r) (c_upstream r) (c_total r) (c_lastSend r) (c_granted r) (c_requested r) (c_next r) (c_minminDe r) (c_minDe r) (c_allow r) (c_exec r) (c_message r) (c_value r) (c_grantBase r) (c_block r) (c_maxTime r) (c_blocks r) (c_opts r) (c_restrLevel r) (c_iterating r) (c_hasInit r) (c_hasIter r) (c_needSendAll r) (c_trig r) (c_globalTime r) (c_dynamic r) (c_iteration r) (c_ub r).
(** field update of [tc] above (C++ member assignment) *)
Definition set_c_id (v : Z) (r : tc) : tc := mkTC (c_deps r) v (c_seq r) (c_checkingExec r) (c_execMode r) (c_nonGranting r) (c_delayed r) (c_disconnected r) (c_upstream r) (c_total r) (c_lastSend r) (c_granted r) (c_requested r) (c_next r) (c_minminDe r) (c_minDe r) (c_allow r) (c_exec r) (c_message r) (c_value r) (c_grantBase r) (c_block r) (c_maxTime r) (c_blocks r) (c_opts r) (c_restrLevel r) (c_iterating r) (c_hasInit r) (c_hasIter r) (c_needSendAll r) (c_trig r) (c_globalTime r) (c_dynamic r) (c_iteration r) (c_ub r).
(** field update of [tc] above (C++ member assignment) *)
Definition set_c_seq (v : Z) (r : tc) : tc := mkTC (c_deps r) (c_id r) v (c_checkingExec r) (c_execMode r) (c_nonGranting r) (c_delayed r) (c_disconnected r) (c_upstream r) (c_total r) (c_lastSend r) (c_granted r) (c_requested r) (c_next r) (c_minminDe r) (c_minDe r) (c_allow r) (c_exec r) (c_message r) (c_value r) (c_grantBase r) (c_block r) (c_maxTime r) (c_blocks r) (c_opts r) (c_restrLevel r) (c_iterating r) (c_hasInit r) (c_hasIter r) (c_needSendAll r) (c_trig r) (c_globalTime r) (c_dynamic r) (c_iteration r) (c_ub r).
(** field update of [tc] above (C++ member assignment) *)
Definition set_c_checkingExec (v : bool) (r : tc) : tc := mkTC (c_deps r) (c_id r) (c_seq r) v (c_execMode r) (c_nonGranting r) (c_delayed r) (c_disconnected r) (c_upstream r) (c_total r) (c_lastSend r) (c_granted r) (c_requested r) (c_next r) (c_minminDe r) (c_minDe r) (c_allow r) (c_exec r) (c_message r) (c_value r) (c_grantBase r) (c_block r) (c_maxTime r) (c_blocks r) (c_opts r) (c_restrLevel r) (c_iterating r) (c_hasInit r) (c_hasIter r) (c_needSendAll r) (c_trig r) (c_globalTime r) (c_dynamic r) (c_iteration r) (c_ub r).
(** field update of [tc] above (C++ member assignment) *)
Definition set_c_execMode (v : bool) (r : tc) : tc := mkTC (c_deps r) (c_id r) (c_seq r) (c_checkingExec r) v (c_nonGranting r) (c_delayed r) (c_disconnected r) (c_upstream r) (c_total r) (c_lastSend r) (c_granted r) (c_requested r) (c_next r) (c_minminDe r) (c_minDe r) (c_allow r) (c_exec r) (c_message r) (c_value r) (c_grantBase r) (c_block r) (c_maxTime r) (c_blocks r) (c_opts r) (c_restrLevel r) (c_iterating r) (c_hasInit r) (c_hasIter r) (c_needSendAll r) (c_trig r) (c_globalTime r) (c_dynamic r) (c_iteration r) (c_ub r).
(** field update of [tc] above (C++ member assignment) *)
Definition set_c_nonGranting (v : bool) (r : tc) : tc := mkTC (c_deps r) (c_id r) (c_seq r) (c_checkingExec r) (c_execMode r) v (c_delayed r) (c_disconnected r) (c_upstream r) (c_total r) (c_lastSend r) (c_granted r) (c_requested r) (c_next r) (c_minminDe r) (c_minDe r) (c_allow r) (c_exec r) (c_message r) (c_value r) (c_grantBase r) (c_block r) (c_maxTime r) (c_blocks r) (c_opts r) (c_restrLevel r) (c_iterating r) (c_hasInit r) (c_hasIter r) (c_needSendAll r) (c_trig r) (c_globalTime r) (c_dynamic r) (c_iteration r) (c_ub r).
(** field update of [tc] above (C++ member assignment) *)
Definition set_c_delayed (v : bool) (r : tc) : tc := mkTC (c_deps r) (c_id r) (c_seq r) (c_checkingExec r) (c_execMode r) (c_nonGranting r) v (c_disconnected r) (c_upstream r) (c_total r) (c_lastSend r) (c_granted r) (c_requested r) (c_next r) (c_minminDe r) (c_minDe r) (c_allow r) (c_exec r) (c_message r) (c_value r) (c_grantBase r) (c_block r) (c_maxTime r) (c_blocks r) (c_opts r) (c_restrLevel r) (c_iterating r) (c_hasInit r) (c_hasIter r) (c_needSendAll r) (c_trig r) (c_globalTime r) (c_dynamic r) (c_iteration r) (c_ub r).
(** field update of [tc] above (C++ member assignment) *)
Definition set_c_disconnected (v : bool) (r : tc) : tc := mkTC (c_deps r) (c_id r) (c_seq r) (c_checkingExec r) (c_execMode r) (c_nonGranting r) (c_delayed r) v (c_upstream r) (c_total r) (c_lastSend r) (c_granted r) (c_requested r) (c_next r) (c_minminDe r) (c_minDe r) (c_allow r) (c_exec r) (c_message r) (c_value r) (c_grantBase r) (c_block r) (c_maxTime r) (c_blocks r) (c_opts r) (c_restrLevel r) (c_iterating r) (c_hasInit r) (c_hasIter r) (c_needSendAll r) (c_trig r) (c_globalTime r) (c_dynamic r) (c_iteration r) (c_ub r).
(** field update of [tc] above (C++ member assignment) *)
Definition set_c_upstream (v : tdata) (r : tc) : tc := mkTC (c_deps r) (c_id r) (c_seq r) (c_checkingExec r) (c_execMode r) (c_nonGranting r) (c_delayed r) (c_disconnected r) v (c_total r) (c_lastSend r) (c_granted r) (c_requested r) (c_next r) (c_minminDe r) (c_minDe r) (c_allow r) (c_exec r) (c_message r) (c_value r) (c_grantBase r) (c_block r) (c_maxTime r) (c_blocks r) (c_opts r) (c_restrLevel r) (c_iterating r) (c_hasInit r) (c_hasIter r) (c_needSendAll r) (c_trig r) (c_globalTime r) (c_dynamic r) (c_iteration r) (c_ub r).
(** field update of [tc] above (C++ member assignment) *)
Definition set_c_total (v : tdata) (r : tc) : tc := mkTC (c_deps r) (c_id r) (c_seq r) (c_checkingExec r) (c_execMode r) (c_nonGranting r) (c_delayed r) (c_disconnected r) (c_upstream r) v (c_lastSend r) (c_granted r) (c_requested r) (c_next r) (c_minminDe r) (c_minDe r) (c_allow r) (c_exec r) (c_message r) (c_value r) (c_grantBase r) (c_block r) (c_maxTime r) (c_blocks r) (c_opts r) (c_restrLevel r) (c_iterating r) (c_hasInit r) (c_hasIter r) (c_needSendAll r) (c_trig r) (c_globalTime r) (c_dynamic r) (c_iteration r) (c_ub r).
(** field update of [tc] above (C++ member assignment) *)
Definition set_c_lastSend (v : tdata) (r : tc) : tc := mkTC (c_deps r) (c_id r) (c_seq r) (c_checkingExec r) (c_execMode r) (c_nonGranting r) (c_delayed r) (c_disconnected r) (c_upstream r) (c_total r) v (c_granted r) (c_requested r) (c_next r) (c_minminDe r) (c_minDe r) (c_allow r) (c_exec r) (c_message r) (c_value r) (c_grantBase r) (c_block r) (c_maxTime r) (c_blocks r) (c_opts r) (c_restrLevel r) (c_iterating r) (c_hasInit r) (c_hasIter r) (c_needSendAll r) (c_trig r) (c_globalTime r) (c_dynamic r) (c_iteration r) (c_ub r).
(** field update of [tc] above (C++ member assignment) *)
Definition set_c_granted (v : Z) (r : tc) : tc := mkTC (c_deps r) (c_id r) (c_seq r) (c_checkingExec r) (c_execMode r) (c_nonGranting r) (c_delayed r) (c_disconnected r) (c_upstream r) (c_total r) (c_lastSend r) v (c_requested r) (c_next r) (c_minminDe r) (c_minDe r) (c_allow r) (c_exec r) (c_message r) (c_value r) (c_grantBase r) (c_block r) (c_maxTime r) (c_blocks r) (c_opts r) (c_restrLevel r) (c_iterating r) (c_hasInit r) (c_hasIter r) (c_needSendAll r) (c_trig r) (c_globalTime r) (c_dynamic r) (c_iteration r) (c_ub r).
(** field update of [tc] above (C++ member assignment) *)
Definition set_c_requested (v : Z) (r : tc) : tc := mkTC (c_deps r) (c_id r) (c_seq r) (c_checkingExec r) (c_execMode r) (c_nonGranting r) (c_delayed r) (c_disconnected r) (c_upstream r) (c_total r) (c_lastSend r) (c_granted r) v (c_next r) (c_minminDe r) (c_minDe r) (c_allow r) (c_exec r) (c_message r) (c_value r) (c_grantBase r) (c_block r) (c_maxTime r) (c_blocks r) (c_opts r) (c_restrLevel r) (c_iterating r) (c_hasInit r) (c_hasIter r) (c_needSendAll r) (c_trig r) (c_globalTime r) (c_dynamic r) (c_iteration r) (c_ub r).
(** field update of [tc] above (C++ member assignment) *)
Definition set_c_next (v : Z) (r : tc) : tc := mkTC (c_deps r) (c_id r) (c_seq r) (c_checkingExec r) (c_execMode r) (c_nonGranting r) (c_delayed r) (c_disconnected r) (c_upstream r) (c_total r) (c_lastSend r) (c_granted r) (c_requested r) v (c_minminDe r) (c_minDe r) (c_allow r) (c_exec r) (c_message r) (c_value r) (c_grantBase r) (c_block r) (c_maxTime r) (c_blocks r) (c_opts r) (c_restrLevel r) (c_iterating r) (c_hasInit r) (c_hasIter r) (c_needSendAll r) (c_trig r) (c_globalTime r) (c_dynamic r) (c_iteration r) (c_ub r).
(** field update of [tc] above (C++ member assignment) *)
Definition set_c_minminDe (v : Z) (r : tc) : tc := mkTC (c_deps r) (c_id r) (c_seq r) (c_checkingExec r) (c_execMode r) (c_nonGranting r) (c_delayed r) (c_disconnected r) (c_upstream r) (c_total r) (c_lastSend r) (c_granted r) (c_requested r) (c_next r) v (c_minDe r) (c_allow r) (c_exec r) (c_message r) (c_value r) (c_grantBase r) (c_block r) (c_maxTime r) (c_blocks r) (c_opts r) (c_restrLevel r) (c_iterating r) (c_hasInit r) (c_hasIter r) (c_needSendAll r) (c_trig r) (c_globalTime r) (c_dynamic r) (c_iteration r) (c_ub r).
(** field update of [tc] above (C++ member assignment) *)
Definition set_c_minDe (v : Z) (r : tc) : tc := mkTC (c_deps r) (c_id r) (c_seq r) (c_checkingExec r) (c_execMode r) (c_nonGranting r) (c_delayed r) (c_disconnected r) (c_upstream r) (c_total r) (c_lastSend r) (c_granted r) (c_requested r) (c_next r) (c_minminDe r) v (c_allow r) (c_exec r) (c_message r) (c_value r) (c_grantBase r) (c_block r) (c_maxTime r) (c_blocks r) (c_opts r) (c_restrLevel r) (c_iterating r) (c_hasInit r) (c_hasIter r) (c_needSendAll r) (c_trig r) (c_globalTime r) (c_dynamic r) (c_iteration r) (c_ub r).
(** field update of [tc] above (C++ member assignment) *)
Definition set_c_allow (v : Z) (r : tc) : tc := mkTC (c_deps r) (c_id r) (c_seq r) (c_checkingExec r) (c_execMode r) (c_nonGranting r) (c_delayed r) (c_disconnected r) (c_upstream r) (c_total r) (c_lastSend r) (c_granted r) (c_requested r) (c_next r) (c_minminDe r) (c_minDe r) v (c_exec r) (c_message r) (c_value r) (c_grantBase r) (c_block r) (c_maxTime r) (c_blocks r) (c_opts r) (c_restrLevel r) (c_iterating r) (c_hasInit r) (c_hasIter r) (c_needSendAll r) (c_trig r) (c_globalTime r) (c_dynamic r) (c_iteration r) (c_ub r).
(** field update of [tc] above (C++ member assignment) *)
Definition set_c_exec (v : Z) (r : tc) : tc := mkTC (c_deps r) (c_id r) (c_seq r) (c_checkingExec r) (c_execMode r) (c_nonGranting r) (c_delayed r) (c_disconnected r) (c_upstream r) (c_total r) (c_lastSend r) (c_granted r) (c_requested r) (c_next r) (c_minminDe r) (c_minDe r) (c_allow r) v (c_message r) (c_value r) (c_grantBase r) (c_block r) (c_maxTime r) (c_blocks r) (c_opts r) (c_restrLevel r) (c_iterating r) (c_hasInit r) (c_hasIter r) (c_needSendAll r) (c_trig r) (c_globalTime r) (c_dynamic r) (c_iteration r) (c_ub r).
(** field update of [tc] above (C++ member assignment) *)
Definition set_c_message (v : Z) (r : tc) : tc := mkTC (c_deps r) (c_id r) (c_seq r) (c_checkingExec r) (c_execMode r) (c_nonGranting r) (c_delayed r) (c_disconnected r) (c_upstream r) (c_total r) (c_lastSend r) (c_granted r) (c_requested r) (c_next r) (c_minminDe r) (c_minDe r) (c_allow r) (c_exec r) v (c_value r) (c_grantBase r) (c_block r) (c_maxTime r) (c_blocks r) (c_opts r) (c_restrLevel r) (c_iterating r) (c_hasInit r) (c_hasIter r) (c_needSendAll r) (c_trig r) (c_globalTime r) (c_dynamic r) (c_iteration r) (c_ub r).
(** field update of [tc] above (C++ member assignment) *)
Definition set_c_value (v : Z) (r : tc) : tc := mkTC (c_deps r) (c_id r) (c_seq r) (c_checkingExec r) (c_execMode r) (c_nonGranting r) (c_delayed r) (c_disconnected r) (c_upstream r) (c_total r) (c_lastSend r) (c_granted r) (c_requested r) (c_next r) (c_minminDe r) (c_minDe r) (c_allow r) (c_exec r) (c_message r) v (c_grantBase r) (c_block r) (c_maxTime r) (c_blocks r) (c_opts r) (c_restrLevel r) (c_iterating r) (c_hasInit r) (c_hasIter r) (c_needSendAll r) (c_trig r) (c_globalTime r) (c_dynamic r) (c_iteration r) (c_ub r).
(** field update of [tc] above (C++ member assignment) *)
Definition set_c_grantBase (v : Z) (r : tc) : tc := mkTC (c_deps r) (c_id r) (c_seq r) (c_checkingExec r) (c_execMode r) (c_nonGranting r) (c_delayed r) (c_disconnected r) (c_upstream r) (c_total r) (c_lastSend r) (c_granted r) (c_requested r) (c_next r) (c_minminDe r) (c_minDe r) (c_allow r) (c_exec r) (c_message r) (c_value r) v (c_block r) (c_maxTime r) (c_blocks r) (c_opts r) (c_restrLevel r) (c_iterating r) (c_hasInit r) (c_hasIter r) (c_needSendAll r) (c_trig r) (c_globalTime r) (c_dynamic r) (c_iteration r) (c_ub r).
(** field update of [tc] above (C++ member assignment) *)
Definition set_c_block (v : Z) (r : tc) : tc := mkTC (c_deps r) (c_id r) (c_seq r) (c_checkingExec r) (c_execMode r) (c_nonGranting r) (c_delayed r) (c_disconnected r) (c_upstream r) (c_total r) (c_lastSend r) (c_granted r) (c_requested r) (c_next r) (c_minminDe r) (c_minDe r) (c_allow r) (c_exec r) (c_message r) (c_value r) (c_grantBase r) v (c_maxTime r) (c_blocks r) (c_opts r) (c_restrLevel r) (c_iterating r) (c_hasInit r) (c_hasIter r) (c_needSendAll r) (c_trig r) (c_globalTime r) (c_dynamic r) (c_iteration r) (c_ub r).
(** field update of [tc] above (C++ member assignment) *)
Definition set_c_maxTime (v : Z) (r : tc) : tc := mkTC (c_deps r) (c_id r) (c_seq r) (c_checkingExec r) (c_execMode r) (c_nonGranting r) (c_delayed r) (c_disconnected r) (c_upstream r) (c_total r) (c_lastSend r) (c_granted r) (c_requested r) (c_next r) (c_minminDe r) (c_minDe r) (c_allow r) (c_exec r) (c_message r) (c_value r) (c_grantBase r) (c_block r) v (c_blocks r) (c_opts r) (c_restrLevel r) (c_iterating r) (c_hasInit r) (c_hasIter r) (c_needSendAll r) (c_trig r) (c_globalTime r) (c_dynamic r) (c_iteration r) (c_ub r).
(** field update of [tc] above (C++ member assignment) *)
Definition set_c_blocks (v : list (Z * Z)) (r : tc) : tc := mkTC (c_deps r) (c_id r) (c_seq r) (c_checkingExec r) (c_execMode r) (c_nonGranting r) (c_delayed r) (c_disconnected r) (c_upstream r) (c_total r) (c_lastSend r) (c_granted r) (c_requested r) (c_next r) (c_minminDe r) (c_minDe r) (c_allow r) (c_exec r) (c_message r) (c_value r) (c_grantBase r) (c_block r) (c_maxTime r) v (c_opts r) (c_restrLevel r) (c_iterating r) (c_hasInit r) (c_hasIter r) (c_needSendAll r) (c_trig r) (c_globalTime r) (c_dynamic r) (c_iteration r) (c_ub r).
(** field update of [tc] above (C++ member assignment) *)
Definition set_c_opts (v : tcopts) (r : tc) : tc := mkTC (c_deps r) (c_id r) (c_seq r) (c_checkingExec r) (c_execMode r) (c_nonGranting r) (c_delayed r) (c_disconnected r) (c_upstream r) (c_total r) (c_lastSend r) (c_granted r) (c_requested r) (c_next r) (c_minminDe r) (c_minDe r) (c_allow r) (c_exec r) (c_message r) (c_value r) (c_grantBase r) (c_block r) (c_maxTime r) (c_blocks r) v (c_restrLevel r) (c_iterating r) (c_hasInit r) (c_hasIter r) (c_needSendAll r) (c_trig r) (c_globalTime r) (c_dynamic r) (c_iteration r) (c_ub r).
(** field update of [tc] above (C++ member assignment) *)
Definition set_c_restrLevel (v : Z) (r : tc) : tc := mkTC (c_deps r) (c_id r) (c_seq r) (c_checkingExec r) (c_execMode r) (c_nonGranting r) (c_delayed r) (c_disconnected r) (c_upstream r) (c_total r) (c_lastSend r) (c_granted r) (c_requested r) (c_next r) (c_minminDe r) (c_minDe r) (c_allow r) (c_exec r) (c_message r) (c_value r) (c_grantBase r) (c_block r) (c_maxTime r) (c_blocks r) (c_opts r) v (c_iterating r) (c_hasInit r) (c_hasIter r) (c_needSendAll r) (c_trig r) (c_globalTime r) (c_dynamic r) (c_iteration r) (c_ub r).
(** field update of [tc] above (C++ member assignment) *)
Definition set_c_iterating (v : iter_req) (r : tc) : tc := mkTC (c_deps r) (c_id r) (c_seq r) (c_checkingExec r) (c_execMode r) (c_nonGranting r) (c_delayed r) (c_disconnected r) (c_upstream r) (c_total r) (c_lastSend r) (c_granted r) (c_requested r) (c_next r) (c_minminDe r) (c_minDe r) (c_allow r) (c_exec r) (c_message r) (c_value r) (c_grantBase r) (c_block r) (c_maxTime r) (c_blocks r) (c_opts r) (c_restrLevel r) v (c_hasInit r) (c_hasIter r) (c_needSendAll r) (c_trig r) (c_globalTime r) (c_dynamic r) (c_iteration r) (c_ub r).
(** field update of [tc] above (C++ member assignment) *)
Definition set_c_hasInit (v : bool) (r : tc) : tc := mkTC (c_deps r) (c_id r) (c_seq r) (c_checkingExec r) (c_execMode r) (c_nonGranting r) (c_delayed r) (c_disconnected r) (c_upstream r) (c_total r) (c_lastSend r) (c_granted r) (c_requested r) (c_next r) (c_minminDe r) (c_minDe r) (c_allow r) (c_exec r) (c_message r) (c_value r) (c_grantBase r) (c_block r) (c_maxTime r) (c_blocks r) (c_opts r) (c_restrLevel r) (c_iterating r) v (c_hasIter r) (c_needSendAll r) (c_trig r) (c_globalTime r) (c_dynamic r) (c_iteration r) (c_ub r).
(** field update of [tc] above (C++ member assignment) *)
Definition set_c_hasIter (v : bool) (r : tc) : tc := mkTC (c_deps r) (c_id r) (c_seq r) (c_checkingExec r) (c_execMode r) (c_nonGranting r) (c_delayed r) (c_disconnected r) (c_upstream r) (c_total r) (c_lastSend r) (c_granted r) (c_requested r) (c_next r) (c_minminDe r) (c_minDe r) (c_allow r) (c_exec r) (c_message r) (c_value r) (c_grantBase r) (c_block r) (c_maxTime r) (c_blocks r) (c_opts r) (c_restrLevel r) (c_iterating r) (c_hasInit r) v (c_needSendAll r) (c_trig r) (c_globalTime r) (c_dynamic r) (c_iteration r) (c_ub r).
(** field update of [tc] above (C++ member assignment) *)
Definition set_c_needSendAll (v : bool) (r : tc) : tc := mkTC (c_deps r) (c_id r) (c_seq r) (c_checkingExec r) (c_execMode r) (c_nonGranting r) (c_delayed r) (c_disconnected r) (c_upstream r) (c_total r) (c_lastSend r) (c_granted r) (c_requested r) (c_next r) (c_minminDe r) (c_minDe r) (c_allow r) (c_exec r) (c_message r) (c_value r) (c_grantBase r) (c_block r) (c_maxTime r) (c_blocks r) (c_opts r) (c_restrLevel r) (c_iterating r) (c_hasInit r) (c_hasIter r) v (c_trig r) (c_globalTime r) (c_dynamic r) (c_iteration r) (c_ub r).
(** field update of [tc] above (C++ member assignment) *)
Definition set_c_trig (v : bool) (r : tc) : tc := mkTC (c_deps r) (c_id r) (c_seq r) (c_checkingExec r) (c_execMode r) (c_nonGranting r) (c_delayed r) (c_disconnected r) (c_upstream r) (c_total r) (c_lastSend r) (c_granted r) (c_requested r) (c_next r) (c_minminDe r) (c_minDe r) (c_allow r) (c_exec r) (c_message r) (c_value r) (c_grantBase r) (c_block r) (c_maxTime r) (c_blocks r) (c_opts r) (c_restrLevel r) (c_iterating r) (c_hasInit r) (c_hasIter r) (c_needSendAll r) v (c_globalTime r) (c_dynamic r) (c_iteration r) (c_ub r).
(** field update of [tc] above (C++ member assignment) *)
Definition set_c_globalTime (v : bool) (r : tc) : tc := mkTC (c_deps r) (c_id r) (c_seq r) (c_checkingExec r) (c_execMode r) (c_nonGranting r) (c_delayed r) (c_disconnected r) (c_upstream r) (c_total r) (c_lastSend r) (c_granted r) (c_requested r) (c_next r) (c_minminDe r) (c_minDe r) (c_allow r) (c_exec r) (c_message r) (c_value r) (c_grantBase r) (c_block r) (c_maxTime r) (c_blocks r) (c_opts r) (c_restrLevel r) (c_iterating r) (c_hasInit r) (c_hasIter r) (c_needSendAll r) (c_trig r) v (c_dynamic r) (c_iteration r) (c_ub r).
(** field update of [tc] above (C++ member assignment) *)
Definition set_c_dynamic (v : bool) (r : tc) : tc := mkTC (c_deps r) (c_id r) (c_seq r) (c_checkingExec r) (c_execMode r) (c_nonGranting r) (c_delayed r) (c_disconnected r) (c_upstream r) (c_total r) (c_lastSend r) (c_granted r) (c_requested r) (c_next r) (c_minminDe r) (c_minDe r) (c_allow r) (c_exec r) (c_message r) (c_value r) (c_grantBase r) (c_block r) (c_maxTime r) (c_blocks r) (c_opts r) (c_restrLevel r) (c_iterating r) (c_hasInit r) (c_hasIter r) (c_needSendAll r) (c_trig r) (c_globalTime r) v (c_iteration r) (c_ub r).
(** field update of [tc] above (C++ member assignment) *)
Definition set_c_iteration (v : Z) (r : tc) : tc := mkTC (c_deps r) (c_id r) (c_seq r) (c_checkingExec r) (c_execMode r) (c_nonGranting r) (c_delayed r) (c_disconnected r) (c_upstream r) (c_total r) (c_lastSend r) (c_granted r) (c_requested r) (c_next r) (c_minminDe r) (c_minDe r) (c_allow r) (c_exec r) (c_message r) (c_value r) (c_grantBase r) (c_block r) (c_maxTime r) (c_blocks r) (c_opts r) (c_restrLevel r) (c_iterating r) (c_hasInit r) (c_hasIter r) (c_needSendAll r) (c_trig r) (c_globalTime r) (c_dynamic r) v (c_ub r).
(** field update of [tc] above (C++ member assignment) *)
Definition set_c_ub (v : bool) (r : tc) : tc := mkTC (c_deps r) (c_id r) (c_seq r) (c_checkingExec r) (c_execMode r) (c_nonGranting r) (c_delayed r) (c_disconnected r) (c_upstream r) (c_total r) (c_lastSend r) (c_granted r) (c_requested r) (c_next r) (c_minminDe r) (c_minDe r) (c_allow r) (c_exec r) (c_message r) (c_value r) (c_grantBase r) (c_block r) (c_maxTime r) (c_blocks r) (c_opts r) (c_restrLevel r) (c_iterating r) (c_hasInit r) (c_hasIter r) (c_needSendAll r) (c_trig r) (c_globalTime r) (c_dynamic r) (c_iteration r) v.


(** TimeCoordinator.hpp:51-100 initial member values *)
Definition tc_init (id : Z) (o : tcopts) : tc :=
  mkTC [] id 0 false false false false false td_default td_default td_default minVal maxVal 0 0 0 minVal maxVal
       maxVal maxVal minVal maxVal maxVal [] o 0 NO_ITERATIONS false false false false false false 0 false.

(** ceil(a / b) for b > 0.  TimeCoordinator.cpp:511 computes this quotient in double precision;
    the model uses the exact ceiling (see DESIGN.md, trusted base). *)
Definition ceil_div (a b : Z) : Z := - ((- a) / b).

(** TimeCoordinator.cpp:497-518 generateAllowedTime *)
Definition generateAllowedTime (c : tc) (testTime : Z) : Z :=
  let o := c_opts c in
  if timeEpsilon <? o_period o then
    if cTerminationTime <=? testTime then testTime
    else if (c_grantBase c <? o_offset o) && (testTime <=? o_offset o) then o_offset o
    else
      let base := if c_grantBase c <? o_offset o then o_offset o else c_grantBase c in
      if o_period o <? testTime - base
      then base + ceil_div (testTime - base) (o_period o) * o_period o
      else base + o_period o
  else testTime.

(** TimeCoordinator.cpp:485-488: [while (retTime < timeDelta) retTime += period], in closed form (the
    smallest start + k*period, k >= 0, not below the bound) *)
Definition stepUntil (start period bound : Z) : Z :=
  if start <? bound then start + ceil_div (bound - start) period * period else start.

(** TimeCoordinator.cpp:473-495 getNextPossibleTime *)
Definition getNextPossibleTime (c : tc) : Z :=
  let o := c_opts c in
  if c_granted c =? timeZero then
    if o_timeDelta o <? o_offset o then o_offset o
    else if o_offset o =? timeZero then generateAllowedTime c (Z.max (o_timeDelta o) (o_period o))
    else if o_period o <=? timeEpsilon then o_timeDelta o
    else stepUntil (o_offset o + o_period o) (o_period o) (o_timeDelta o)
  else if cTerminationTime - Z.max (o_timeDelta o) (o_period o) <=? c_grantBase c then maxVal
  else generateAllowedTime c (c_grantBase c + Z.max (o_timeDelta o) (o_period o)).

(** TimeCoordinator.cpp:859-862 checkAdd *)
Definition checkAdd (v inc : Z) : Z := if v <? maxVal - inc then v + inc else maxVal.

(** TimeCoordinator.cpp:272-306 updateNextExecutionTime *)
Definition updateNextExecutionTime (c : tc) : tc * bool :=
  let o := c_opts c in
  let data := Z.min (c_message c) (c_value c) in
  let data := if data <? cTerminationTime then data + o_inputDelay o else data in
  let e :=
    if o_uninterruptible o then
      if is_no_iter (c_iterating c) then generateAllowedTime c (c_requested c)
      else if data <=? c_granted c then c_granted c else generateAllowedTime c (c_requested c)
    else
      let e := Z.min (c_requested c) data in
      let e := if e <=? c_granted c
               then if is_no_iter (c_iterating c) then getNextPossibleTime c else c_granted c
               else e in
      if c_granted c <? cTerminationTime
      then if c_granted c <? e then generateAllowedTime c e else e
      else generateAllowedTime c e in
  (set_c_exec e c, negb (e =? c_exec c)).

(** TimeCoordinator.cpp:308-333 updateNextPossibleEventTime *)
Definition updateNextPossibleEventTime (c : tc) : tc :=
  let o := c_opts c in
  let n := if is_no_iter (c_iterating c) then getNextPossibleTime c else c_granted c in
  let n :=
    if o_uninterruptible o then
      if is_no_iter (c_iterating c) then generateAllowedTime c (c_requested c) + o_outputDelay o
      else
        let n := if (c_minminDe c <? cTerminationTime) && negb (o_restrictive o)
                    && (n <? c_minminDe c + o_inputDelay o)
                 then generateAllowedTime c (c_requested c) else n in
        Z.min n (c_exec c) + o_outputDelay o
    else
      let n := if (c_minminDe c <? cTerminationTime) && negb (o_restrictive o)
                  && (n <? c_minminDe c + o_inputDelay o)
               then generateAllowedTime c (c_minminDe c + o_inputDelay o) else n in
      Z.min n (c_exec c) + o_outputDelay o in
  set_c_next n c.

(** TimeCoordinator.cpp:554-602 updateTimeFactors *)
Definition updateTimeFactors (c : tc) : tc * bool :=
  let o := c_opts c in
  let r := o_restrictive o || c_globalTime c in
  let total := generateMinTimeTotal (c_deps c) r invalidId invalidId (c_seq c) in
  let up := generateMinTimeUpstream (c_deps c) r invalidId invalidId (c_seq c) in
  let up := if c_globalTime c && (Nat.eqb (length (c_deps c)) 1) then set_minFed invalidId total else up in
  let mx := cTerminationTime - o_outputDelay o - Z.max (o_period o) (o_timeDelta o) in
  let c0 := set_c_maxTime mx (set_c_minminDe (minDe total) c) in
  let c1 := updateNextPossibleEventTime c0 in
  let upd := negb (c_next c =? c_next c1) in
  let total := if minDe total <? mx
               then set_minDe (generateAllowedTime c1 (minDe total) + o_outputDelay o) total else total in
  let up := if (minDe up <? mx) && (minDe total <? minDe up)
            then set_minDe (generateAllowedTime c1 (minDe up) + o_outputDelay o) up else up in
  let up := if negb (c_globalTime c) && (o_event_triggered o || (cTerminationTime <=? c_requested c))
               && (Te up <? mx)
            then set_Te (generateAllowedTime c1 (minDe up)) up else up in
  let upd := upd || negb (minDe total =? c_minDe c) in
  let al := if next total <? mx then o_inputDelay o + next total else maxVal in
  let c2 := set_c_total total (set_c_upstream up (set_c_minDe (minDe total) (set_c_allow al c1))) in
  (fst (updateNextExecutionTime c2), upd).

(** TimeCoordinator.cpp:1022-1039 transmitTimingMessages: the messages sent and whether [skip] was met *)
Definition transmit (c : tc) (msg : amsg) (skip : Z) : list amsg * bool :=
  let deps := filter dependent (c_deps c) in
  (map (fun d => let m := set_m_dest_id (fedID d) msg in
                 if (m_action msg =? CMD_EXEC_REQUEST) || (m_action msg =? CMD_TIME_REQUEST)
                 then setExtraDestData (sequenceCounter d) m else m)
       (filter (fun d => negb (fedID d =? skip)) deps),
   existsb (fun d => fedID d =? skip) deps).

(** TimeCoordinator.cpp:821-857 checkAndSendTimeRequest *)
Definition checkAndSendTimeRequest (c : tc) (upd : amsg) (skip : Z) : tc * list amsg * (bool * bool) :=
  let l := c_lastSend c in
  let changed :=
    negb (next l =? m_actionTime upd) || negb (minDe l =? m_Tdemin upd) || negb (Te l =? m_Te upd)
    || negb (minFed l =? getExtraData upd) || negb (ts_eqb (tst l) ts_time_requested)
    || negb (sequenceCounter l =? c_seq c)
    || negb (Bool.eqb (interrupted l) (checkFlag interrupted_flag upd)) in
  if changed then
    let l := set_next (m_actionTime upd) (set_minDe (m_Tdemin upd) (set_Te (m_Te upd)
               (set_sequenceCounter (c_seq c) (set_minFed (getExtraData upd) (set_tst ts_time_requested
               (set_interrupted (checkFlag interrupted_flag upd) l)))))) in
    let '(out, skipped) := transmit c upd skip in
    (set_c_lastSend l c, out, (true, skipped))
  else (c, [], (false, false)).

(** TimeCoordinator.cpp:864-905: the TIME_REQUEST about to be sent *)
Definition timeRequestMessage (c : tc) : amsg :=
  let o := c_opts c in
  let upd := newMsg CMD_TIME_REQUEST (c_id c) in
  let upd := setFlagIf (c_nonGranting c) non_granting_flag upd in
  let upd := if o_wait o then setFlag delayed_timing_flag upd
             else setFlagIf (c_next c <? c_requested c) interrupted_flag upd in
  let trig := negb (c_globalTime c) && (o_event_triggered o || (cTerminationTime <=? c_requested c)) in
  let te := checkAdd (c_exec c) (o_outputDelay o) in
  let te := if trig then Z.max (Z.min te (checkAdd (Te (c_upstream c)) (o_outputDelay o))) timeZero else te in
  let at_ := if trig then Z.min (c_next c) te else c_next c in
  let td := Z.min (checkAdd (Te (c_upstream c)) (o_outputDelay o)) te in
  let td := if trig then Z.max (Z.min td (checkAdd (minDe (c_upstream c)) (o_outputDelay o))) timeZero else td in
  let at_ := if trig then Z.min at_ td else at_ in
  let td := Z.max td at_ in
  let upd := setExtraData (minFed (c_upstream c))
               (set_m_Tdemin td (set_m_Te te (set_m_actionTime at_ (set_m_counter (u16 (c_seq c)) upd)))) in
  let upd := if is_no_iter (c_iterating c) then upd else setIterationFlags (c_iterating c) upd in
  setFlagIf (c_trig c) destination_target upd.

(** TimeCoordinator.cpp:864-935 sendTimeRequest *)
Definition sendTimeRequest (c : tc) (triggerFed : Z) : tc * list amsg :=
  let o := c_opts c in
  let up := c_upstream c in
  let upd := timeRequestMessage c in
  let trig := negb (c_globalTime c) && (o_event_triggered o || (cTerminationTime <=? c_requested c)) in
  match checkAndSendTimeRequest c upd (minFed up) with
  | (c1, out, (true, skipped)) =>
      if skipped && isValidId (minFed up) then
        let te := if trig then Z.min (checkAdd (c_exec c) (o_outputDelay o)) (checkAdd (TeAlt up) (o_outputDelay o))
                  else m_Te upd in
        let m := set_m_dest_id (minFed up) (setExtraData invalidId
                   (setExtraDestData (responseSequenceCounter up)
                   (set_m_Te te (set_m_Tdemin (Z.min (TeAlt up) te) upd)))) in
        (c1, out ++ [m])
      else (c1, out)
  | (c1, out, (false, _)) =>
      if isValidId triggerFed then
        match getDep (c_deps c) triggerFed with
        | None => (set_c_ub true c1, out)
        | Some d => if dependent d
                    then (c1, out ++ [setExtraDestData (sequenceCounter d) (set_m_dest_id triggerFed upd)])
                    else (c1, out)
        end
      else (c1, out)
  end.

(** TimeCoordinator.cpp:228-270 timeRequest *)
Definition timeRequest (c : tc) (nextTime : Z) (it : iter_req) (newValueTime newMessageTime : Z) : tc * list amsg :=
  let o := c_opts c in
  let c := set_c_iterating it c in
  let '(c, nextTime) :=
    if negb (is_no_iter it) then
      (c, if (nextTime <? c_granted c) || is_force_iter it then c_granted c else nextTime)
    else
      let tn := getNextPossibleTime c in
      let nt := if nextTime <? tn then tn else nextTime in
      (set_c_next (if o_uninterruptible o then generateAllowedTime c nt else tn) c, nt) in
  let c := set_c_requested nextTime c in
  let lo := if negb (is_no_iter it) then c_granted c else c_next c in
  let c := set_c_value (if lo <? newValueTime then newValueTime else lo) c in
  let c := set_c_message (if lo <? newMessageTime then newMessageTime else lo) c in
  let e := Z.min (c_value c) (Z.min (c_message c) (c_requested c)) in
  let e := if o_uninterruptible o && ((c_granted c <? e) || is_no_iter it) then c_requested c else e in
  let c := set_c_exec e c in
  let c := set_c_deps (resetDependentEvents (c_granted c) (c_deps c)) c in
  let c := set_c_seq (c_seq c + 1) c in
  let c := fst (updateTimeFactors c) in
  match c_deps c with
  | [] => (c, [])
  | _ => sendTimeRequest c invalidId
  end.

(** TimeCoordinator.cpp:335-367 updateValueTime (the second component is the data time after clamping) *)
Definition clampData (c : tc) (t : Z) : Z :=
  if negb (is_no_iter (c_iterating c)) then (if t <=? c_granted c then c_granted c else t)
  else let np := getNextPossibleTime c in if t <=? np then np else t.
Definition updateValueTime (c : tc) (t : Z) (allowSend : bool) : tc * list amsg :=
  if negb (c_execMode c) then (if t <? timeZero then set_c_hasInit true c else c, [])
  else
    let c := if t <=? c_granted c then set_c_hasIter true c else c in
    if t <? c_value c then
      let p := c_value c in
      let c := set_c_value (clampData c t) c in
      if (c_value c <? p) && negb (c_disconnected c) then
        let '(c, ch) := updateNextExecutionTime c in
        if ch && allowSend then sendTimeRequest c invalidId else (c, [])
      else (c, [])
    else (c, []).
(** TimeCoordinator.cpp:520-552 updateMessageTime *)
Definition updateMessageTime (c : tc) (t : Z) (allowSend : bool) : tc * list amsg :=
  if negb (c_execMode c) then (if t <? timeZero then set_c_hasInit true c else c, [])
  else
    let c := if t <=? c_granted c then set_c_hasIter true c else c in
    if t <? c_message c then
      let p := c_message c in
      let c := set_c_message (clampData c t) c in
      if (c_message c <? p) && negb (c_disconnected c) then
        let '(c, ch) := updateNextExecutionTime c in
        if ch && allowSend then sendTimeRequest c invalidId else (c, [])
      else (c, [])
    else (c, []).

(** TimeCoordinator.cpp:1359-1375 updateTimeBlocks: replace or append, then the minimum *)
Fixpoint setBlock (l : list (Z * Z)) (id t : Z) : list (Z * Z) :=
  match l with
  | [] => [(t, id)]
  | (t0, i) :: r => if i =? id then (t, i) :: r else (t0, i) :: setBlock r id t
  end.
Definition minBlock (l : list (Z * Z)) : Z :=
  match l with
  | [] => maxVal
  | (t, _) :: r => fold_left (fun a b => if fst b <? a then fst b else a) r t
  end.
(** TimeCoordinator.cpp:1377-1400 processTimeBlockMessage *)
Definition processTimeBlockMessage (c : tc) (cmd : amsg) : tc * tpr :=
  let a := m_action cmd in
  let c' :=
    if (a =? CMD_TIME_BLOCK) || (a =? CMD_TIME_BARRIER) then
      set_c_blocks (setBlock (c_blocks c) (m_messageID cmd) (m_actionTime cmd)) c
    else if (a =? CMD_TIME_UNBLOCK) || (a =? CMD_TIME_BARRIER_CLEAR) then
      match c_blocks c with
      | [] => c
      | _ => set_c_blocks (setBlock (c_blocks c) (m_messageID cmd) maxVal) c
      end
    else c in
  let lt :=
    if (a =? CMD_TIME_BLOCK) || (a =? CMD_TIME_BARRIER) || (a =? CMD_TIME_UNBLOCK)
       || (a =? CMD_TIME_BARRIER_CLEAR)
    then minBlock (c_blocks c') else maxVal in
  (set_c_block lt c', if c_block c <? lt then PROCESSED else NOT_PROCESSED).

(** TimeCoordinator.cpp:1257-1264 case labels for the block messages *)
Definition isBlockCmd (a : Z) : bool :=
  (a =? CMD_TIME_BLOCK) || (a =? CMD_TIME_UNBLOCK) || (a =? CMD_TIME_BARRIER) || (a =? CMD_TIME_BARRIER_CLEAR).
(** TimeCoordinator.cpp:1281-1287 case labels of the commands which remove the dependent *)
Definition removesDependent (a : Z) : bool :=
  (a =? CMD_DISCONNECT) || (a =? CMD_BROADCAST_DISCONNECT) || (a =? CMD_DISCONNECT_CORE)
  || (a =? CMD_DISCONNECT_FED) || (a =? CMD_DISCONNECT_BROKER) || (a =? CMD_GLOBAL_ERROR)
  || (a =? CMD_LOCAL_ERROR).

(** BaseTimeCoordinator.cpp:306-383 generateTimeRequest *)
Definition generateTimeRequest (c : tc) (dep : tdata) (fed : Z) (responseCode : Z) : amsg :=
  let m := set_m_actionTime (next dep) (set_m_dest_id fed (newMsg CMD_TIME_REQUEST (c_id c))) in
  let m := setFlagIf (interrupted dep) interrupted_flag m in
  let treq m := setExtraDestData responseCode (set_m_counter (u16 (c_seq c)) (set_m_Te (Te dep)
                  (set_m_Tdemin (Z.min (minDe dep) (Te dep)) (setExtraData (minFed dep) m)))) in
  let ereq m := setExtraDestData responseCode (set_m_counter (u16 (c_seq c)) (setExtraData (minFed dep)
                  (set_m_action CMD_EXEC_REQUEST m))) in
  match tst dep with
  | ts_time_granted => set_m_action CMD_TIME_GRANT m
  | ts_time_requested => treq m
  | ts_time_requested_iterative => treq (setIterationFlags ITERATE_IF_NEEDED m)
  | ts_time_requested_require_iteration => treq (setIterationFlags FORCE_ITERATION m)
  | ts_exec_requested =>
      setExtraDestData responseCode (set_m_counter (u16 (c_seq c)) (set_m_actionTime timeZero
        (set_m_action CMD_EXEC_REQUEST m)))
  | ts_error => set_m_action CMD_IGNORE m
  | ts_exec_requested_iterative => ereq (setIterationFlags ITERATE_IF_NEEDED m)
  | ts_exec_requested_require_iteration => ereq (setIterationFlags FORCE_ITERATION m)
  | ts_initialized =>
      if responseSequenceCounter dep =? 0 then set_m_action CMD_IGNORE m
      else setExtraDestData responseCode (set_m_counter (u16 (c_seq c)) (setExtraData (minFed dep)
             (setIterationFlags ITERATE_IF_NEEDED (set_m_action CMD_EXEC_GRANT m))))
  end.

(** The global error sent when two federates wait for the current time
    (TimeCoordinator.cpp:157-162, 1346-1351; the payload text is omitted) *)
Definition issueError (c : tc) : amsg :=
  set_m_messageID 15 (set_m_dest_id parent_broker_id (newMsg CMD_GLOBAL_ERROR (c_id c))).

(** TimeCoordinator.cpp:1270-1277: the forced grant *)
Definition grantTo (t : Z) (c : tc) : tc * list amsg :=
  let l := set_next t (set_Te t (set_minDe t (set_tst ts_time_granted (c_lastSend c)))) in
  let m := set_m_actionTime t (newMsg CMD_TIME_GRANT (c_id c)) in
  let c := set_c_granted t (set_c_grantBase t (set_c_lastSend l c)) in
  (c, fst (transmit c m invalidId)).

(** TimeCoordinator.cpp:1257-1357 processTimeMessage.  The inner switch at 1313-1341 has only
    commented-out bodies; its single effect is the early return for a TIME_GRANT from a federate
    that is not in the table, which updateTime also reports as NOT_PROCESSED. *)
Definition processTimeMessage (c : tc) (cmd : amsg) : tc * list amsg * tpr :=
  let a := m_action cmd in
  if isBlockCmd a then let '(c, r) := processTimeBlockMessage c cmd in (c, [], r)
  else if a =? CMD_FORCE_TIME_GRANT then
    if c_granted c <? m_actionTime cmd
    then let '(c, out) := grantTo (m_actionTime cmd) c in (c, out, PROCESSED)
    else (c, [], NOT_PROCESSED)
  else if a =? CMD_REQUEST_CURRENT_TIME then
    if c_disconnected c || ts_eqb (tst (c_lastSend c)) ts_error then
      (c, [setExtraDestData (m_counter cmd) (set_m_dest_id (m_source_id cmd) (newMsg CMD_DISCONNECT (c_id c)))], PROCESSED)
    else
      let resp := generateTimeRequest c (c_lastSend c) (m_source_id cmd) (m_counter cmd) in
      let resp := setFlagIf (c_trig c) destination_target resp in
      let c := if c_trig c && (m_source_id cmd =? gRootBrokerID) then set_c_trig false c else c in
      (set_c_deps (fst (updateTime (c_deps c) cmd)) c, [resp], PROCESSED)
  else
    let c := if removesDependent a then set_c_deps (removeDependent (c_deps c) (m_source_id cmd)) c else c in
    let '(deps, r) := updateTime (c_deps c) cmd in
    let c := set_c_deps deps c in
    match r with
    | PROCESSED_AND_CHECK =>
        (c, if checkForIssues (o_wait (c_opts c)) deps then [issueError c] else [], PROCESSED)
    | _ => (c, [], r)
    end.

(** BaseTimeCoordinator.cpp:94, 107: who is told about a disconnect *)
Definition toldBye (d : dinfo) : bool := (dependency d && (next d <? cTerminationTime)) || dependent d.

(** BaseTimeCoordinator.cpp:80-123 disconnect.  The CMD_MULTI_MESSAGE bundle is represented by its
    contents; appendMessage (ActionMessage.cpp:971-980) silently refuses more than 255 entries, hence
    the [firstn 255]. *)
Definition disconnect (c : tc) : tc * list amsg :=
  if c_disconnected c then (c, [])
  else
    let bye := newMsg CMD_DISCONNECT (c_id c) in
    let told := filter toldBye (c_deps c) in
    let others := filter (fun d => negb (fedID d =? c_id c)) told in
    let local := existsb (fun d => fedID d =? c_id c) told in
    let '(c1, out1) := if local then fst (processTimeMessage c (set_m_dest_id (c_id c) bye)) else (c, []) in
    let byes := map (fun d => set_m_dest_id (fedID d) bye) others in
    let byes := if Nat.eqb (length (c_deps c)) 1 then byes else firstn 255 byes in
    (set_c_disconnected true c1, out1 ++ byes).

(** TimeCoordinator.cpp:937-962 updateTimeGrant *)
Definition updateTimeGrant (c : tc) : tc * list amsg :=
  let c := if is_force_iter (c_iterating c) then c
           else set_c_granted (c_exec c) (set_c_grantBase (c_exec c) c) in
  let s := c_seq c + 1 in
  let m := set_m_counter (u16 s) (set_m_actionTime (c_granted c) (newMsg CMD_TIME_GRANT (c_id c))) in
  let c := set_c_seq (if u16 s =? s then s else 0) c in
  let c := if is_no_iter (c_iterating c) then c
           else set_c_deps (resetIteratingTimeRequests (c_exec c) (c_deps c)) c in
  let g := c_granted c in
  let c := set_c_lastSend (set_next g (set_Te g (set_minDe g (set_tst ts_time_granted (c_lastSend c))))) c in
  (c, fst (transmit c m invalidId)).

(** TimeCoordinator.cpp:26-30 RestrictionCheckResult *)
Record restr := mkRestr { r_allowed : bool; r_advance : bool; r_level : Z }.

(** TimeCoordinator.cpp:46-68 the loop of checkTimeGrantRestriction *)
Fixpoint grantRestrLoop (l : table) (src seq t : Z) (restricted : bool) (r : restr) : restr :=
  match l with
  | [] => r
  | dep :: rest =>
      if negb (dependency dep) then grantRestrLoop rest src seq t restricted r
      else if (t <? next dep) || conn_eqb (connection dep) c_SELF then grantRestrLoop rest src seq t restricted r
      else
        let r := if negb (minFed dep =? src) then mkRestr false (r_advance r) (r_level r) else r in
        if responseSequenceCounter dep =? seq then
          grantRestrLoop rest src seq t restricted
            (if restricted then mkRestr (r_allowed r) (r_advance r) (Z.min (r_level r) (restrictionLevel dep)) else r)
        else mkRestr false false (r_level r)
  end.
(** TimeCoordinator.cpp:32-71 checkTimeGrantRestriction *)
Definition checkTimeGrantRestriction (l : table) (src seq t : Z) (waiting restricted : bool) : restr :=
  let r := mkRestr (negb waiting) restricted 50 in
  if waiting then r else grantRestrLoop l src seq t restricted r.
(** TimeCoordinator.cpp:86-112 the loop of checkExecEntryRestriction *)
Fixpoint execRestrLoop (l : table) (src seq : Z) (restricted : bool) (r : restr) : restr :=
  match l with
  | [] => r
  | dep :: rest =>
      if negb (dependency dep) then execRestrLoop rest src seq restricted r
      else if ts_eqb (tst dep) ts_initialized then mkRestr false false (r_level r)
      else if ts_leb ts_exec_requested (tst dep) then execRestrLoop rest src seq restricted r
      else
        let r := if negb (minFed dep =? src) then mkRestr false (r_advance r) (r_level r) else r in
        if responseSequenceCounter dep =? seq then
          execRestrLoop rest src seq restricted
            (if restricted then mkRestr (r_allowed r) (r_advance r) (Z.min (r_level r) (restrictionLevel dep)) else r)
        else mkRestr false false (r_level r)
  end.
(** TimeCoordinator.cpp:73-115 checkExecEntryRestriction *)
Definition checkExecEntryRestriction (l : table) (src seq : Z) (waiting restricted : bool) : restr :=
  let r := mkRestr (negb waiting) restricted 50 in
  if waiting then r else execRestrLoop l src seq restricted r.

(** TimeCoordinator.cpp:117-145 applyRestrictionCheckResult *)
Definition applyRestriction (k : restr) (restricted : bool) (c : tc) (sendAll : bool) (allowed : mpr)
  : tc * bool * mpr :=
  if r_allowed k then
    if negb restricted || (1 <=? r_level k) then (c, sendAll, allowed)
    else if negb (c_restrLevel c =? r_level k + 1)
    then (set_c_restrLevel (u8 (r_level k + 1)) (set_c_seq (c_seq c + 1) c), true, CONTINUE_PROCESSING)
    else (c, sendAll, CONTINUE_PROCESSING)
  else if r_advance k
  then (set_c_restrLevel (u8 (r_level k + 1)) (set_c_seq (c_seq c + 1) c), true, CONTINUE_PROCESSING)
  else (c, sendAll, CONTINUE_PROCESSING).

(** TimeCoordinator.cpp:615-630: refusal, with an answer to the federate which triggered the check *)
Definition refuse (c : tc) (triggerFed : Z) : tc * list amsg * mpr :=
  if isValidId triggerFed && negb (triggerFed =? c_id c)
  then let '(c, out) := sendTimeRequest c triggerFed in (c, out, CONTINUE_PROCESSING)
  else (c, [], CONTINUE_PROCESSING).

(** TimeCoordinator.cpp:678-683, 689-693, 700-704: a completed step *)
Definition grantStep (c : tc) : tc * list amsg * mpr :=
  let '(c, out) := updateTimeGrant (set_c_hasIter false (set_c_seq 0 (set_c_iteration 0 c))) in
  (c, out, NEXT_STEP).

(** TimeCoordinator.cpp:733-776: the decision for an iterative request when allow == exec *)
Definition iterDecision (c : tc) (sendAll : bool) : tc * bool * mpr :=
  let o := c_opts c in
  if c_allow c =? c_requested c then
    if negb (o_wait o) &&
       ((c_requested c <=? c_exec c) || checkIfReadyForTimeGrant false (c_exec c) dm_NONE (c_deps c))
    then (c, sendAll, NEXT_STEP)
    else (c, sendAll, CONTINUE_PROCESSING)
  else if checkIfReadyForTimeGrant true (c_exec c) (getDelayMode (o_wait o) false) (c_deps c) then
    if c_hasIter c then (c, sendAll, ITERATING)
    else if c_granted c <? c_exec c then (c, sendAll, NEXT_STEP)
    else
      let k := checkTimeGrantRestriction (c_deps c) (c_id c) (c_seq c) (c_exec c) (o_wait o) (o_restrictive o) in
      applyRestriction k (o_restrictive o) c sendAll NEXT_STEP
  else (c, sendAll, CONTINUE_PROCESSING).

(** TimeCoordinator.cpp:783-818: acting on the decision *)
Definition actOn (c : tc) (sendAll : bool) (r : mpr) (triggerFed : Z) : tc * list amsg * mpr :=
  match r with
  | CONTINUE_PROCESSING =>
      if sendAll then let '(c, out) := sendTimeRequest c invalidId in (c, out, r)
      else if isValidId triggerFed && negb (triggerFed =? c_id c)
      then let '(c, out) := sendTimeRequest c triggerFed in (c, out, r)
      else (c, [], r)
  | ITERATING =>
      let '(c, out) := updateTimeGrant (set_c_hasIter false (set_c_iteration (c_iteration c + 1) c)) in
      (c, out, ITERATING)
  | NEXT_STEP =>
      if is_force_iter (c_iterating c) then
        let '(c, out) := updateTimeGrant (set_c_exec (c_granted c)
                           (set_c_hasIter false (set_c_iteration (c_iteration c + 1) c))) in
        (c, out, ITERATING)
      else grantStep c
  | HALTED => (c, [], HALTED)
  end.

(** TimeCoordinator.cpp:609-819: the decision of checkTimeGrant after updateTimeFactors *)
Definition grantFrom (c : tc) (triggerFed : Z) : tc * list amsg * mpr :=
  let o := c_opts c in
  if (cTerminationTime <=? c_exec c) && (cTerminationTime <=? c_allow c) then
    let '(c, out) := disconnect (set_c_granted maxVal (set_c_grantBase maxVal c)) in (c, out, HALTED)
  else if (c_block c <=? c_exec c) && (c_block c <? cTerminationTime) then refuse c triggerFed
  else if c_nonGranting c && (c_exec c <? c_requested c) then refuse c triggerFed
  else
    let sendAll := c_needSendAll c in
    let c := set_c_needSendAll false c in
    match c_iterating c with
    | NO_ITERATIONS =>
        if c_exec c <? c_allow c then grantStep c
        else if c_allow c =? c_exec c then
          if negb (o_wait o) && (c_requested c <=? c_exec c) then grantStep c
          else if checkIfReadyForTimeGrant false (c_exec c)
                    (getDelayMode (o_wait o) (c_exec c <? c_requested c)) (c_deps c)
          then grantStep c
          else actOn c sendAll CONTINUE_PROCESSING triggerFed
        else actOn c sendAll CONTINUE_PROCESSING triggerFed
    | ITERATE_IF_NEEDED | FORCE_ITERATION =>
        if c_exec c <? c_allow c then
          if (c_exec c <=? c_granted c) || c_hasIter c then
            let '(c, out) := updateTimeGrant (set_c_hasIter false (set_c_iteration (c_iteration c + 1) c)) in
            (c, out, ITERATING)
          else if is_force_iter (c_iterating c) then
            let '(c, out) := updateTimeGrant (set_c_iteration (c_iteration c + 1) c) in (c, out, ITERATING)
          else
            let '(c, out) := updateTimeGrant (set_c_iteration 0 (set_c_seq 0 c)) in (c, out, NEXT_STEP)
        else if c_allow c =? c_exec c then
          let '(c, sendAll, r) := iterDecision c sendAll in actOn c sendAll r triggerFed
        else actOn c sendAll CONTINUE_PROCESSING triggerFed
    | _ => actOn c sendAll CONTINUE_PROCESSING triggerFed
    end.
(** TimeCoordinator.cpp:604-819 checkTimeGrant *)
Definition checkTimeGrant (c : tc) (triggerFed : Z) : tc * list amsg * mpr :=
  grantFrom (fst (updateTimeFactors c)) triggerFed.

(** BaseTimeCoordinator.cpp:286-304 sendTimingInfo *)
Definition sendTimingInfo (c : tc) : list amsg :=
  let m := setExtraData 1 (setFlagIf (c_delayed c) delayed_timing_flag
             (setFlagIf (c_nonGranting c) non_granting_flag (newMsg CMD_TIMING_INFO (c_id c)))) in
  map (fun d => set_m_dest_id (fedID d) m) (filter dependent (c_deps c)).

(** TimeCoordinator.cpp:149-183 enteringExecMode *)
Definition enteringExecMode (c : tc) (mode : iter_req) : tc * list amsg :=
  if c_execMode c then (c, [])
  else
    let c := set_c_iterating mode c in
    if checkForIssues (o_wait (c_opts c)) (c_deps c) then (c, [issueError c])
    else
      let info := sendTimingInfo c in
      let c := set_c_checkingExec true c in
      let m := newMsg CMD_EXEC_REQUEST (c_id c) in
      let '(c, m) :=
        if is_no_iter mode then (c, m)
        else
          let c := set_c_seq (c_seq c + 1) c in
          let m := set_m_counter (u16 (c_seq c)) (setIterationFlags mode m) in
          (c, if negb (c_hasInit c)
              then setExtraData (fedID (getExecEntryMinFederate (c_deps c) (c_id c) c_NONE invalidId)) m
              else m) in
      let m := setFlagIf (o_wait (c_opts c)) delayed_timing_flag m in
      (c, info ++ fst (transmit c m invalidId)).

(** TimeCoordinator.cpp:1041-1074 sendUpdatedExecRequest *)
Definition sendUpdatedExecRequest (c : tc) (target minf rsc : Z) : list amsg :=
  let mfed := getExecEntryMinFederate (c_deps c) (c_id c) c_NONE invalidId in
  let '(minf, rsc) := if negb (isValidId minf) then (fedID mfed, sequenceCounter mfed) else (minf, rsc) in
  let m := setIterationFlags (c_iterating c) (newMsg CMD_EXEC_REQUEST (c_id c)) in
  let m := set_m_messageID (c_restrLevel c) (setExtraData minf (set_m_counter (u16 (c_seq c)) m)) in
  let m := setFlagIf (o_wait (c_opts c)) delayed_timing_flag m in
  if isValidId target then [setExtraDestData rsc (set_m_dest_id target m)]
  else map (fun d : dinfo => setExtraDestData (sequenceCounter d) (set_m_dest_id (fedID d) m))
           (filter (fun d : dinfo => dependent d && ts_ltb (tst d) ts_time_granted) (c_deps c)).

(** TimeCoordinator.cpp:1110-1168: the decision of checkExecEntry *)
Definition execDecision (c : tc) (sendAll : bool) : tc * bool * mpr :=
  let o := c_opts c in
  let allowedRes := if is_force_iter (c_iterating c) then ITERATING else NEXT_STEP in
  match c_iterating c with
  | NO_ITERATIONS =>
      if negb (o_wait o) then (c, sendAll, NEXT_STEP)
      else
        let total := generateMinTimeTotal (c_deps c) (o_restrictive o || c_globalTime c) (c_id c) (c_id c) (c_seq c) in
        (set_c_total total c, sendAll, if timeZero <? next total then NEXT_STEP else CONTINUE_PROCESSING)
  | ITERATE_IF_NEEDED | FORCE_ITERATION =>
      if o_maxIterations o <=? c_iteration c then (c, sendAll, allowedRes)
      else if c_hasInit c then (c, sendAll, ITERATING)
      else if checkIfReadyForExecEntry false (o_wait o) (c_deps c)
              || (o_wait o && checkIfAllDependenciesArePastExec true (c_deps c))
      then (c, sendAll, allowedRes)
      else
        let k := checkExecEntryRestriction (c_deps c) (c_id c) (c_seq c) (o_wait o) (o_restrictive o) in
        applyRestriction k (o_restrictive o) c sendAll allowedRes
  | _ => (c, sendAll, CONTINUE_PROCESSING)
  end.

(** TimeCoordinator.cpp:1169-1211: entering execution or iterating *)
Definition execAct (c : tc) (r : mpr) : tc * list amsg :=
  if negb (c_dynamic c) then
    match r with
    | NEXT_STEP =>
        let c := set_c_restrLevel 0 (set_c_iteration 0 (set_c_execMode true
                   (set_c_granted timeZero (set_c_grantBase timeZero c)))) in
        (c, fst (transmit c (setExtraDestData 1 (newMsg CMD_EXEC_GRANT (c_id c))) invalidId))
    | ITERATING =>
        let c := set_c_iteration (c_iteration c + 1) (set_c_hasInit false
                   (set_c_deps (resetIteratingExecRequests (c_deps c)) c)) in
        let m := setFlag iteration_requested_flag (setExtraDestData 1
                   (set_m_counter (u16 (c_iteration c)) (newMsg CMD_EXEC_GRANT (c_id c)))) in
        (set_c_restrLevel 0 c, fst (transmit c m invalidId))
    | _ => (c, [])
    end
  else
    match r with
    | NEXT_STEP =>
        let c := fst (updateTimeFactors c) in
        let g := if 0 <? activeDependencyCount (c_deps c)
                 then generateAllowedTime c (next (c_total c)) - Z.max (o_period (c_opts c)) (o_timeDelta (c_opts c))
                 else timeZero in
        let c := set_c_restrLevel 0 (set_c_iteration 0 (set_c_execMode true
                   (set_c_granted g (set_c_grantBase g c)))) in
        let m := setExtraDestData 1 (set_m_actionTime g
                   (newMsg (if timeZero <? g then CMD_TIME_GRANT else CMD_EXEC_GRANT) (c_id c))) in
        (c, fst (transmit c m invalidId))
    | _ => (c, [])
    end.

(** TimeCoordinator.cpp:1212-1230: tell the triggering federate that we are still waiting *)
Definition execFollowUp (c : tc) (sendAll : bool) (r : mpr) (triggerFed : Z) : tc * list amsg :=
  match r with
  | CONTINUE_PROCESSING =>
      if isValidId triggerFed && negb (is_no_iter (c_iterating c)) then
        let mfed := getExecEntryMinFederate (c_deps c) (c_id c) c_NONE invalidId in
        if sendAll then (c, sendUpdatedExecRequest c invalidId (fedID mfed) (sequenceCounter mfed))
        else if triggerFed =? c_id c then (c, [])
        else if (triggerFed =? fedID mfed) && dependent mfed
        then (c, sendUpdatedExecRequest c triggerFed (fedID mfed) (sequenceCounter mfed))
        else match getDep (c_deps c) triggerFed with
             | None => (set_c_ub true c, [])
             | Some d => (c, if dependent d then sendUpdatedExecRequest c triggerFed (fedID mfed) (sequenceCounter d) else [])
             end
      else (c, [])
  | _ => (c, [])
  end.

(** TimeCoordinator.cpp:1076-1232 checkExecEntry *)
Definition checkExecEntry (c : tc) (triggerFed : Z) : tc * list amsg * mpr :=
  if c_block c <=? timeZero then (c, [], CONTINUE_PROCESSING)
  else if negb (checkIfReadyForExecEntry (negb (is_no_iter (c_iterating c))) (o_wait (c_opts c)) (c_deps c)) then
    if negb (c_hasInit c) && isValidId triggerFed && negb (is_no_iter (c_iterating c)) then
      if checkIfReadyForExecEntry false false (c_deps c) then
        let mfed := getExecEntryMinFederate (c_deps c) (c_id c) c_NONE invalidId in
        if fedID mfed =? triggerFed
        then (c, sendUpdatedExecRequest c triggerFed invalidId (sequenceCounter mfed), CONTINUE_PROCESSING)
        else match getDep (c_deps c) triggerFed with
             | None => (set_c_ub true c, [], CONTINUE_PROCESSING)
             | Some d => (c, if dependent d then sendUpdatedExecRequest c triggerFed invalidId (sequenceCounter d) else [],
                          CONTINUE_PROCESSING)
             end
      else (set_c_needSendAll true c, [], CONTINUE_PROCESSING)
    else (c, [], CONTINUE_PROCESSING)
  else
    let sendAll := c_needSendAll c in
    let c := set_c_needSendAll false c in
    let '(c, sendAll, r) := execDecision c sendAll in
    let '(c, out1) := execAct c r in
    let '(c, out2) := execFollowUp c sendAll r triggerFed in
    (c, out1 ++ out2, r).

(** TimeCoordinator.cpp:185-226 localError.  The bundle is represented by its contents as in
    [disconnect]. *)
Definition localError (c : tc) : tc * list amsg :=
  if c_disconnected c then (c, [])
  else
    let c := set_c_granted maxVal (set_c_grantBase maxVal c) in
    match c_deps c with
    | [] => (c, [])
    | _ =>
      let bye := newMsg CMD_LOCAL_ERROR (c_id c) in
      let told := filter toldBye (c_deps c) in
      let others := filter (fun d => negb (fedID d =? c_id c)) told in
      let local := existsb (fun d => fedID d =? c_id c) told in
      let '(c1, out1) := if local then fst (processTimeMessage c (set_m_dest_id (c_id c) bye)) else (c, []) in
      let byes := map (fun d => set_m_dest_id (fedID d) bye) others in
      let byes := if Nat.eqb (length (c_deps c)) 1 then byes else firstn 255 byes in
      (set_c_disconnected true c1, out1 ++ byes)
    end.

(** BaseTimeCoordinator.cpp:163-211: addDependency (marks the own id), setAsChild, setAsParent, setVersion *)
Definition tcAddDependency (c : tc) (g : Z) : tc * bool :=
  let '(deps, added) := addDependency (c_deps c) g in
  let deps := if added && (g =? c_id c) then updDep deps g (set_connection c_SELF) else deps in
  (set_c_deps deps c, added).
Definition setConnection (c : tc) (g : Z) (k : conn) : tc :=
  if g =? c_id c then c else set_c_deps (updDep (c_deps c) g (set_connection k)) c.
Definition setVersion (c : tc) (g v : Z) : tc :=
  set_c_deps (updDep (c_deps c) g (updTD (set_timingVersion v))) c.

(** BaseTimeCoordinator.cpp:413-454 processDependencyUpdateMessage *)
Definition processDependencyUpdateMessage (c : tc) (cmd : amsg) : tc :=
  let a := m_action cmd in
  let g := m_source_id cmd in
  let '(c, added) :=
    if a =? CMD_ADD_DEPENDENCY then tcAddDependency c g
    else if a =? CMD_REMOVE_DEPENDENCY then (set_c_deps (removeDependency (c_deps c) g) c, false)
    else if a =? CMD_ADD_DEPENDENT then (set_c_deps (fst (addDependent (c_deps c) g)) c, false)
    else if a =? CMD_REMOVE_DEPENDENT then (set_c_deps (removeDependent (c_deps c) g) c, false)
    else if a =? CMD_ADD_INTERDEPENDENCY then
      let '(c, ad) := tcAddDependency c g in (set_c_deps (fst (addDependent (c_deps c) g)) c, ad)
    else if a =? CMD_REMOVE_INTERDEPENDENCY then
      (set_c_deps (removeDependent (removeDependency (c_deps c) g) g) c, false)
    else if a =? CMD_TIMING_INFO then (set_c_deps (fst (updateTime (c_deps c) cmd)) c, false)
    else (c, false) in
  if added then
    let c := if checkFlag child_flag cmd then setConnection c g c_CHILD else c in
    let c := if checkFlag parent_flag cmd then setConnection c g c_PARENT else c in
    if 0 <? m_counter cmd then setVersion c g (s8 (m_counter cmd)) else c
  else c.

(** TimeCoordinator.cpp:1403-1427 setProperty (time-valued) *)
Inductive time_property := P_OUTPUT_DELAY | P_INPUT_DELAY | P_TIME_DELTA | P_PERIOD | P_OFFSET.
Definition setTimeProperty (p : time_property) (v : Z) (o : tcopts) : tcopts :=
  match p with
  | P_OUTPUT_DELAY => set_o_outputDelay v o
  | P_INPUT_DELAY => set_o_inputDelay v o
  | P_TIME_DELTA => set_o_timeDelta (if v <=? timeZero then timeEpsilon else v) o
  | P_PERIOD => set_o_period v o
  | P_OFFSET => set_o_offset v o
  end.
(** TimeCoordinator.cpp:1460-1476 getTimeProperty *)
Definition getTimeProperty (p : time_property) (o : tcopts) : Z :=
  match p with
  | P_OUTPUT_DELAY => o_outputDelay o
  | P_INPUT_DELAY => o_inputDelay o
  | P_TIME_DELTA => o_timeDelta o
  | P_PERIOD => o_period o
  | P_OFFSET => o_offset o
  end.
(** TimeCoordinator.cpp:1439-1457 setOptionFlag *)
Inductive option_flag := F_UNINTERRUPTIBLE | F_WAIT | F_RESTRICTIVE | F_EVENT_TRIGGERED.
Definition setOptionFlag (f : option_flag) (v : bool) (o : tcopts) : tcopts :=
  match f with
  | F_UNINTERRUPTIBLE => set_o_uninterruptible v o
  | F_WAIT => set_o_wait v o
  | F_RESTRICTIVE => set_o_restrictive v o
  | F_EVENT_TRIGGERED => set_o_event_triggered v o
  end.
(** TimeCoordinator.cpp:1490-1506 getOptionFlag (the unknown-flag branch throws and is not modelled) *)
Definition getOptionFlag (f : option_flag) (o : tcopts) : bool :=
  match f with
  | F_UNINTERRUPTIBLE => o_uninterruptible o
  | F_WAIT => o_wait o
  | F_RESTRICTIVE => o_restrictive o
  | F_EVENT_TRIGGERED => o_event_triggered o
  end.
(** TimeCoordinator.cpp:1429-1432 MAX_ITERATIONS *)
Definition setMaxIterations (v : Z) (o : tcopts) : tcopts := set_o_maxIterations v o.

(** TimeCoordinator.hpp:132 allowedSendTime *)
Definition allowedSendTime (c : tc) : Z := c_granted c + o_outputDelay (c_opts c).
