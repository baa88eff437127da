(** * C51: what does not hold; examples *)
From Coq Require Import String ZArith Bool List Lia.
From Verif Require Import Route RouteInv PropsRoute RouteLive Errors PropsErrors.
Import ListNotations.
Open Scope Z_scope.

(** in the tree of RouteLive: a root 0 with a broker 1 and a core 3, and a core 2 behind the broker *)
Definition kids1 (x : nat) : list nat := match x with 0%nat => [1%nat; 3%nat] | 1%nat => [2%nat] | _ => [] end.
(** federates 10 and 11 at the core 2, 20 at the core 3 *)
Definition feds1 (x : nat) : list Z := match x with 2%nat => [10; 11] | 3%nat => [20] | _ => [] end.
(** the one which is told to terminate on errors *)
Definition only (x : nat) : nat -> bool := Nat.eqb x.
Definition nobody {A : Type} : A -> bool := fun _ => false.
Lemma T0_kids x c : In c (kids1 x) -> t_parent T0 c = Some x.
Proof. destruct x as [|[|x]]; cbn; [intros [<-|[<-|[]]]|intros [<-|[]]|intros []]; reflexivity. Qed.
Lemma T0_feds x g : In g (feds1 x) -> t_core T0 x = true.
Proof. destruct x as [|[|[|[|x]]]]; cbn; intuition. Qed.
Lemma T0_joined x : In x [0%nat; 1%nat; 2%nat; 3%nat] -> joined kids1 0%nat x.
Proof.
  assert (J1 : joined kids1 0%nat 1%nat) by (apply (joined_up kids1 0%nat 1%nat 0%nat); [left; reflexivity|constructor]).
  intros [<-|[<-|[<-|[<-|[]]]]]; [constructor|exact J1| |].
  - apply (joined_up kids1 0%nat 2%nat 1%nat); [left; reflexivity|exact J1].
  - apply (joined_up kids1 0%nat 3%nat 0%nat); [right; left; reflexivity|constructor].
Qed.
(** all connections and queues of these nodes and federates are worked off often enough *)
Definition round : list xevent :=
  [X_fed 2 10; X_fed 2 11; X_fed 3 20; X_serve 2 2; X_serve 2 2; X_serve 3 3; X_serve 2 1; X_serve 2 1; X_serve 3 0; X_serve 1 1; X_serve 1 0; X_serve 0 0; X_serve 0 1; X_serve 0 3; X_serve 1 2]%nat.
Definition rounds : list xevent := round ++ round ++ round ++ round ++ round ++ round.
Ltac atrest := split; [intros x y; destruct x as [|[|[|[|x]]]], y as [|[|[|[|y]]]]; vm_compute; reflexivity|intros K g I; destruct K as [|[|[|[|K]]]]; cbn in I; intuition; subst g; vm_compute; reflexivity].
(** a federate next to the root reports a global error, another one at the same time a local one *)
Definition h1 : list xevent := [X_local 2 10 5; X_global 3 20 7].
Example C51_nonvacuous :
  tree T0 /\ (forall x c, In c (kids1 x) -> t_parent T0 c = Some x) /\ (forall x g, In g (feds1 x) -> t_core T0 x = true)
  /\ t_parent T0 3%nat = Some (t_root T0) /\ joined kids1 0%nat 2%nat
  /\ atRest feds1 (xrun T0 kids1 feds1 nobody nobody (h1 ++ rounds)) /\ map (x_fed (xrun T0 kids1 feds1 nobody nobody (h1 ++ rounds))) [10; 11; 20] = [InError; InError; InError]
  /\ map (x_fed (xrun T0 kids1 feds1 nobody nobody h1)) [10; 11; 20] = [Running; Running; Running].
Proof. split; [apply T0_tree|]. split; [apply T0_kids|]. split; [apply T0_feds|]. split; [reflexivity|]. split; [apply T0_joined; cbn; auto|]. split; [atrest|]. split; vm_compute; reflexivity. Qed.
(** a local error at a core which terminates on errors *)
Example C51_escalated_nonvacuous :
  let s := xrun T0 kids1 feds1 (only 2) nobody (X_local 2 10 7 :: rounds) in atRest feds1 s /\ map (x_fed s) [10; 11; 20] = [InError; InError; InError].
Proof. split; [atrest|vm_compute; reflexivity]. Qed.
(** a local error without any of that *)
Example C51_local_nonvacuous :
  let s := xrun T0 kids1 feds1 nobody nobody (X_local 2 10 7 :: rounds) in Forall onlyLocal (X_local 2 10 7 :: rounds) /\ atRest feds1 s /\ map (x_fed s) [10; 11; 20] = [InError; Running; Running].
Proof. split; [repeat constructor|]. split; [atrest|vm_compute; reflexivity]. Qed.

(** "global errors propagate through the entire federation and will halt operations" (Federate.hpp:241-246): an error
    anywhere stops every federate *)
Definition globalMeansAll : Prop := forall T kids feds nodeTerm fedTerm, tree T -> (forall x c, In c (kids x) -> t_parent T c = Some x) -> (forall x g, In g (feds x) -> t_core T x = true) ->
  forall es1 es2 K g code K' g', joined kids (t_root T) K -> joined kids (t_root T) K' -> In g (feds K) -> In g' (feds K') ->
  atRest feds (xrun T kids feds nodeTerm fedTerm (es1 ++ X_global K g code :: es2)) -> x_fed (xrun T kids feds nodeTerm fedTerm (es1 ++ X_global K g code :: es2)) g' <> Running.
(** the broker 1 passes the error of the federate 10 on to the nodes below it and to nobody else *)
Theorem C51_global_error_means_all_refuted : ~ globalMeansAll.
Proof.
  intros H. apply (H T0 kids1 feds1 nobody nobody T0_tree T0_kids T0_feds [] rounds 2%nat 10 7 3%nat 20); [apply T0_joined; cbn; auto|apply T0_joined; cbn; auto|cbn; auto|cbn; auto|atrest|vm_compute; reflexivity].
Qed.
(** nor does the error of a broker which is not the root *)
Definition brokerMeansAll : Prop := forall T kids feds nodeTerm fedTerm, tree T -> (forall x c, In c (kids x) -> t_parent T c = Some x) -> (forall x g, In g (feds x) -> t_core T x = true) ->
  forall es1 es2 x code K' g', joined kids (t_root T) x -> joined kids (t_root T) K' -> In g' (feds K') ->
  atRest feds (xrun T kids feds nodeTerm fedTerm (es1 ++ X_node x code :: es2)) -> x_fed (xrun T kids feds nodeTerm fedTerm (es1 ++ X_node x code :: es2)) g' <> Running.
Theorem C51_broker_error_means_all_refuted : ~ brokerMeansAll.
Proof.
  intros H. apply (H T0 kids1 feds1 nobody nobody T0_tree T0_kids T0_feds [] rounds 1%nat 7 3%nat 20); [apply T0_joined; cbn; auto|apply T0_joined; cbn; auto|cbn; auto|atrest|vm_compute; reflexivity].
Qed.
(** nor the local error which a broker in between turns into a global one *)
Definition brokerEscalationMeansAll : Prop := forall T kids feds nodeTerm fedTerm, tree T -> (forall x c, In c (kids x) -> t_parent T c = Some x) -> (forall x g, In g (feds x) -> t_core T x = true) ->
  forall es1 es2 K p g code K' g', t_parent T K = Some p -> nodeTerm p = true -> joined kids (t_root T) K -> joined kids (t_root T) K' -> In g (feds K) -> In g' (feds K') ->
  atRest feds (xrun T kids feds nodeTerm fedTerm (es1 ++ X_local K g code :: es2)) -> x_fed (xrun T kids feds nodeTerm fedTerm (es1 ++ X_local K g code :: es2)) g' <> Running.
Theorem C51_broker_escalation_means_all_refuted : ~ brokerEscalationMeansAll.
Proof.
  intros H. apply (H T0 kids1 feds1 (only 1) nobody T0_tree T0_kids T0_feds [] rounds 2%nat 1%nat 10 7 3%nat 20); [reflexivity|reflexivity|apply T0_joined; cbn; auto|apply T0_joined; cbn; auto|cbn; auto|cbn; auto|atrest|vm_compute; reflexivity].
Qed.
