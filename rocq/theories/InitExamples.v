(** * C45: histories of the initialization barrier — the hypotheses are met, and what the code does otherwise *)
From Coq Require Import String ZArith Bool List Lia.
From Verif Require Import Route InitMode InitInv PropsInit.
Import ListNotations.
Open Scope nat_scope.

(** the root 0; the brokers 1 and 2, in a chain; the cores 3 and 4 below 2; every other number is a core below the root *)
Definition exTree : topology :=
  mkTopo 0 (fun x => match x with 0 => None | 1 => Some 0 | 2 => Some 1 | 3 | 4 => Some 2 | _ => Some 0 end)
    (fun x => match x with 0 => 0 | 1 => 1 | 2 => 2 | 3 | 4 => 3 | _ => 1 end)
    (fun x => match x with 0 | 1 | 2 => false | _ => true end) (fun _ => EmptyString).
Lemma exTree_tree : tree exTree.
Proof.
  split; [reflexivity|]. split; [reflexivity|]. split; [intros [|[|[|[|[|x]]]]] H; [elim H; reflexivity| | | | |]; eexists; reflexivity|].
  intros [|[|[|[|[|x]]]]] p E; injection E as <- || discriminate; split; reflexivity.
Qed.
(** the default limits (BrokerBase.hpp: minFederateCount 1, minBrokerCount 1 at the brokers), with minFederateCount k at the root *)
Definition exCfg (k : nat) : config :=
  mkCfg (fun n => match n with 0 => mkLim k 1 0 0 0 1000 1000 [] | _ => mkLim 1 0 0 0 0 1000 1000 [] end) (fun _ => false).
(** the ways up from a node *)
Definition ups (n : nat) : list event :=
  match n with 0 => [] | 1 => [EUpP 1] | 2 => [EUpP 2; EUpP 1] | 3 => [EUpP 3; EUpP 2; EUpP 1] | 4 => [EUpP 4; EUpP 2; EUpP 1] | k => [EUpP k] end.
Definition upsN (n : nat) : list event := map (fun e => match e with EUpP k => EUpN k | e => e end) (ups n).
Definition join (n : nat) : list event := EJoin n :: ups n ++ [EAck (AckN n)].
Definition fedAt (c f : nat) : list event := EReg c f :: ups c ++ [EAck (AckF f)].

(** a federation of two brokers below the root and three cores: everybody registers, asks, and is let in; the second
    federate asks last, and nobody is let in before *)
Definition goodStart : list event := join 1 ++ join 2 ++ join 3 ++ join 4 ++ join 5 ++ fedAt 3 10 ++ fedAt 4 11 ++ fedAt 5 12 ++
  [ERequest 10 false; ECore 3] ++ upsN 3 ++ [ERequest 12 false; ECore 5; EUpN 5].
Definition goodEnd : list event := [ERequest 11 false; ECore 4] ++ upsN 4 ++
  [EDown 1; EDown 2; EDown 3; EDown 4; EDown 5; EReply 10; EReply 11; EReply 12].
Theorem C45_example_history :
  let C := exCfg 3 in let s1 := run exTree C goodStart in let s2 := run exTree C (goodStart ++ goodEnd) in
  noIter (goodStart ++ goodEnd) /\
  (forall f, In f [10; 12] -> f_wait (fds s1 f) = true /\ f_in (fds s1 f) = []) /\ f_wait (fds s1 11) = false /\
  (forall f, In f [10; 11; 12] -> f_done (fds s2 f) = true) /\
  inTime exTree s2 3 /\ inTime exTree s2 4 /\ fedInTime s2 3 10 /\ fedInTime s2 4 11.
Proof.
  cbv zeta. split; [intros f I; vm_compute in I; repeat (destruct I as [I|I]; [discriminate|]); exact I|].
  split; [intros f [<-|[<-|[]]]; vm_compute; split; reflexivity|]. split; [vm_compute; reflexivity|].
  split; [intros f [<-|[<-|[<-|[]]]]; vm_compute; reflexivity|].
  assert (inTime exTree (run exTree (exCfg 3) (goodStart ++ goodEnd)) 2) as I2.
  { apply (inTime_child exTree _ 1 (mkEnt 2 1 true false true false false)); [|vm_compute; left; reflexivity|reflexivity|reflexivity].
    apply (inTime_child exTree _ 0 (mkEnt 1 0 true false true false false)); [constructor|vm_compute; left; reflexivity|reflexivity|reflexivity]. }
  split; [apply (inTime_child exTree _ 2 (mkEnt 3 2 true true true false false)); [exact I2|vm_compute; left; reflexivity|reflexivity|reflexivity]|].
  split; [apply (inTime_child exTree _ 2 (mkEnt 4 2 true true true false false)); [exact I2|vm_compute; right; left; reflexivity|reflexivity|reflexivity]|].
  split; eexists; (split; [vm_compute; left; reflexivity|split; reflexivity]).
Qed.

(** ** What is not waited for *)
(** A federate which registers with a core that has already reported ready does not hold back the others: the federate 11
    is registered and acknowledged before the last core asks, and never asks; 10 and 12 are in initializing mode
    (CommonCore.cpp:3222-3241 sends no CMD_INIT_NOT_READY, and CommonCore::allInitReady is not asked again) *)
Theorem C45_late_federate_not_waited_for_refuted :
  let s0 := run exTree (exCfg 2) (join 5 ++ join 6 ++ fedAt 5 10 ++ fedAt 6 12 ++ [ERequest 10 false; ECore 5; EUpN 5] ++ fedAt 5 11) in
  let s := fold_left (step exTree (exCfg 2)) [ERequest 12 false; ECore 6; EUpN 6; EDown 5; EDown 6; EReply 10; EReply 12] s0 in
  f_ack (fds s0 11) = true /\ (forall f i, ~ returns s0 f i) /\ f_done (fds s 10) = true /\ f_done (fds s 12) = true /\
  f_ack (fds s 11) = true /\ ~ hasAsked s 11.
Proof.
  cbv zeta. split; [vm_compute; reflexivity|]. split.
  { intros f i [W [r E]]. vm_compute in E. destruct f as [|[|[|[|[|[|[|[|[|[|[|[|[|f]]]]]]]]]]]]]; vm_compute in W; try discriminate; vm_compute in E; discriminate. }
  split; [vm_compute; reflexivity|]. split; [vm_compute; reflexivity|]. split; [vm_compute; reflexivity|].
  intros [H|H]; vm_compute in H; discriminate.
Qed.

(** A core which joins below a chain of two brokers after they have reported ready is not waited for: CMD_INIT_NOT_READY is
    passed on with the source it came with (CoreBroker.cpp:1656-1671), which the next broker up looks up among its children and
    marks instead of the one the command came from: here the entry of broker 1 at the root stays "requested" although the
    core 4 below it, with the federate 11, is not ready.  Every command arrives in the order it was sent, and the last core asks
    long after *)
Theorem C45_not_ready_lost_above_two_brokers_refuted :
  let h := join 1 ++ join 2 ++ join 3 ++ join 5 ++ fedAt 3 10 ++ fedAt 5 12 ++ [ERequest 10 false; ECore 3] ++ upsN 3 ++ [EJoin 4; EUpP 4; EUpN 2; EUpP 2; EUpP 1; EUpN 1; EAck (AckN 4)] ++ fedAt 4 11 in
  let s0 := run exTree (exCfg 2) h in
  let s := fold_left (step exTree (exCfg 2)) [ERequest 12 false; ECore 5; EUpN 5; EDown 1; EDown 2; EDown 3; EDown 5; EReply 10; EReply 12] s0 in
  upN (nodes s0 1) = [] /\ upN (nodes s0 2) = [] /\ f_ack (fds s0 11) = true /\ (forall f i, ~ returns s0 f i) /\
  f_done (fds s 10) = true /\ f_done (fds s 12) = true /\ ~ hasAsked s 11.
Proof.
  cbv zeta. split; [vm_compute; reflexivity|]. split; [vm_compute; reflexivity|]. split; [vm_compute; reflexivity|]. split.
  { intros f i [W [r E]]. vm_compute in E. destruct f as [|[|[|[|[|[|[|[|[|[|[|[|[|f]]]]]]]]]]]]]; vm_compute in W; try discriminate; vm_compute in E; discriminate. }
  split; [vm_compute; reflexivity|]. split; [vm_compute; reflexivity|]. intros [H|H]; vm_compute in H; discriminate.
Qed.

(** ** What is never answered *)
Definition quiet (s : gs) (n : nat) : Prop := upP (nodes s n) = [] /\ upN (nodes s n) = [] /\ dn (nodes s n) = [] /\ cq (nodes s n) = [].
(** The root waits for two federates.  10 registers with the core 5 and asks, the core reports ready; then 11 registers with
    the same core and asks.  Both federates the root wants are there and have asked, every queue is empty, and nobody is
    answered: the root looked at its limits when the core reported ready, and the core does not report again *)
Theorem C45_minimum_reached_later_hangs_refuted :
  let s := run exTree (exCfg 2) (join 5 ++ fedAt 5 10 ++ [ERequest 10 false; ECore 5; EUpN 5] ++ fedAt 5 11 ++ [ERequest 11 false; ECore 5]) in
  (forall n, quiet s n) /\ acks s = [] /\ (forall f, In f [10; 11] -> f_wait (fds s f) = true /\ f_in (fds s f) = []) /\
  readyB (c_lim (exCfg 2) 0) 0 (nodes s 0) = true.
Proof.
  cbv zeta. split; [intros [|[|[|[|[|[|n]]]]]]; vm_compute; repeat split|].
  split; [vm_compute; reflexivity|]. split; [intros f [<-|[<-|[]]]; vm_compute; split; reflexivity|]. vm_compute. reflexivity.
Qed.
(** setCoreReadyToInit (ENABLE_INIT_ENTRY) on a core which has no id yet: the core goes to INITIALIZING and its CMD_INIT carries
    the id 0, for which the broker has no entry.  The federate which registers afterwards asks in vain
    (here a core without minimum; the counter of CommonCore.cpp:4941-4956) *)
Theorem C45_enabled_before_connected_hangs_refuted :
  let C := mkCfg (fun n => match n with 0 => mkLim 1 1 0 0 0 1000 1000 [] | _ => mkLim 0 0 0 0 0 1000 1000 [] end) (fun _ => false) in
  let s := run exTree C ([EJoin 5; EEnable 5; EUpP 5; EAck (AckN 5)] ++ fedAt 5 10 ++ [ERequest 10 false; ECore 5]) in
  (forall n, quiet s n) /\ acks s = [] /\ f_wait (fds s 10) = true /\ f_in (fds s 10) = [].
Proof.
  cbv zeta. split; [intros [|[|[|[|[|[|n]]]]]]; vm_compute; repeat split|]. repeat split; vm_compute; reflexivity.
Qed.

(** ** Iterations which are not given *)
(** 10 asks to iterate (enterInitializingModeIterative); the other federate of the federation does not.  The core was told to
    delay the entry, and is then allowed: the CMD_INIT of ENABLE_INIT_ENTRY carries no iteration flag, and 10 is let into
    initializing mode directly.  Without the delay the same calls give an iteration (the second part) *)
Theorem C45_iteration_lost_when_enabled_refuted :
  let pre := join 5 ++ fedAt 5 10 in
  let s := run exTree (exCfg 1) (pre ++ [EDelay 5; ERequest 10 true; ECore 5; EEnable 5; EUpN 5; EDown 5]) in
  let s' := run exTree (exCfg 1) (pre ++ [ERequest 10 true; ECore 5; EUpN 5; EDown 5]) in
  returns s 10 false /\ returns s' 10 true.
Proof. cbv zeta. split; vm_compute; (split; [reflexivity|eexists; reflexivity]). Qed.
