(** * C46: histories of the shutdown — the hypotheses are met, and what the code does otherwise *)
From Coq Require Import String ZArith Bool List Lia.
From Verif Require Import Route Shutdown PropsShutdown ShutdownLive ShutdownEnd ShutdownTerm.
Import ListNotations.
Open Scope nat_scope.

(** the root 0; the broker 1; the cores 2 and 3 below it and 4 below the root; every other number is a core below the root
    which does not take part *)
Definition exTree : topology :=
  mkTopo 0 (fun x => match x with 0 => None | 2 | 3 => Some 1 | _ => Some 0 end)
    (fun x => match x with 0 => 0 | 2 | 3 => 2 | _ => 1 end)
    (fun x => match x with 0 | 1 => false | _ => true end) (fun _ => EmptyString).
Lemma exTree_tree : tree exTree.
Proof.
  split; [reflexivity|]. split; [reflexivity|]. split; [intros [|[|[|[|x]]]] H; [elim H; reflexivity| | | |]; eexists; reflexivity|].
  intros [|[|[|[|x]]]] p E; injection E as <- || discriminate; split; reflexivity.
Qed.
(** the federates 0 and 1 of the core 2; 2 of the core 3; 3 of the core 4 *)
Definition exFed (g : bool) : fedn :=
  mkFedn (fun n => match n with 0 => [1; 4] | 1 => [2; 3] | _ => [] end) (fun n => match n with 2 => [0; 1] | 3 => [2] | 4 => [3] | _ => [] end)
    (fun f => match f with 0 | 1 => 2 | 2 => 3 | _ => 4 end) g.
Lemma exFed_wf g : wf exTree (exFed g).
Proof.
  split; [intros [|[|n]] k I; cbn in I; repeat (destruct I as [<-|I]; [reflexivity|]); destruct I|].
  split; [intros [|[|n]] E; try discriminate; reflexivity|]. split; [intros [|[|n]] E; try discriminate; reflexivity|].
  intros [|[|[|[|[|n]]]]] f I; cbn in I; repeat (destruct I as [<-|I]; [reflexivity|]); destruct I.
Qed.
Lemma exFed_member g n : member exTree (exFed g) n -> n <= 4.
Proof. induction 1 as [|n k M IH I]; [cbn; lia|]. destruct n as [|[|n]]; cbn in I; repeat (destruct I as [<-|I]; [lia|]); destruct I. Qed.
Lemma exFed_members g n : n <= 4 -> member exTree (exFed g) n.
Proof.
  intros L. assert (member exTree (exFed g) 1) as M1 by (apply (member_kid _ _ 0); [apply member_root|left; reflexivity]).
  destruct n as [|[|[|[|[|n]]]]]; [apply member_root|exact M1|apply (member_kid _ _ 1 2 M1); left; reflexivity|apply (member_kid _ _ 1 3 M1); right; left; reflexivity|
    apply (member_kid _ _ 0); [apply member_root|right; left; reflexivity]|lia].
Qed.
Lemma exFed_populated g : populated exTree (exFed g) 2.
Proof. intros n M. apply exFed_member in M. do 5 (destruct n as [|n]; [split; [cbn; lia|cbn; discriminate]|]). lia. Qed.

(** when nothing is left to do *)
Lemma settled_intro T N s : (forall f, isFin (fst_ (fds s f)) = true \/ fq (fds s f) = []) -> (forall n, isStop (rs (nodes s n)) = true \/ cq (nodes s n) = []) ->
  (forall n, up (nodes s n) = []) -> (forall n, isStop (rs (nodes s n)) = true \/ (dn (nodes s n) = [] /\ stopping (nodes s n) = false)) -> settled T N s.
Proof.
  intros A B C D e I _. destruct e; try destruct I; cbn [step].
  - destruct (A f) as [E|E]; [rewrite E; reflexivity|]. rewrite E. destruct (isFin _); reflexivity.
  - destruct (B c) as [E|E]; [rewrite E; reflexivity|]. rewrite E. destruct (isStop _ || _); reflexivity.
  - rewrite C. destruct (t_parent T k); reflexivity.
  - destruct (D n) as [E|[E _]]; [rewrite E; reflexivity|]. rewrite E. destruct (isStop _); reflexivity.
  - destruct (D n) as [E|[_ E]]; rewrite E; [rewrite andb_false_r|]; reflexivity.
Qed.
Ltac fin5 := intros n; do 6 (try destruct n as [|n]); vm_compute; try (left; reflexivity); try (right; reflexivity); try (right; split; reflexivity); reflexivity.

(** finalize of a federate, up to its CMD_DISCONNECT at the core *)
Definition final (f c : nat) : list event := [EFinal f; ECore c; EFed f; ECore c].
Definition start : list event := [EOper 0; EOper 1; EOper 2; EOper 3; EOper 4].

(** without --global_disconnect: the federate 0 has its answer from its core at once; then everybody leaves and all stops *)
Definition first : list event := start ++ final 0 2 ++ [EUp 2; EUp 1; EFed 0].
Definition others : list event := final 2 3 ++ [EUp 3; EDown 3; EFed 2; EStop 3] ++ final 1 2 ++ [EUp 2; EUp 1; EDown 1; EDown 2; EFed 1; EStop 2; EStop 1] ++
  final 3 4 ++ [EUp 4; EDown 4; EFed 3; EStop 4; EStop 0].
Lemma first_settled : settled exTree (exFed false) (run exTree (exFed false) first).
Proof. apply settled_intro; fin5. Qed.
Lemma all_settled : settled exTree (exFed false) (run exTree (exFed false) (first ++ others)).
Proof. apply settled_intro; fin5. Qed.
Theorem C46_example :
  let N := exFed false in let s1 := run exTree N first in let s2 := run exTree N (first ++ others) in
  returned s1 0 /\ (forall f, In f [1; 2; 3] -> called (fds s1 f) = false) /\ (forall n, n <= 4 -> rs (nodes s1 n) = Run) /\
  (forall f, In f [0; 1; 2; 3] -> returned s2 f) /\ (forall n, n <= 4 -> rs (nodes s2 n) = Stop) /\
  noUser (first ++ others) /\ settled exTree N s1 /\ settled exTree N s2.
Proof.
  cbv zeta. split; [vm_compute; split; reflexivity|]. split; [intros f [<-|[<-|[<-|[]]]]; vm_compute; reflexivity|].
  split; [intros n L; do 5 (destruct n as [|n]; [vm_compute; reflexivity|]); lia|].
  split; [intros f [<-|[<-|[<-|[<-|[]]]]]; vm_compute; split; reflexivity|].
  split; [intros n L; do 5 (destruct n as [|n]; [vm_compute; reflexivity|]); lia|].
  split; [intros n I; vm_compute in I; repeat (destruct I as [I|I]; [discriminate|]); exact I|]. split; [exact first_settled|exact all_settled].
Qed.
(** the general theorems on this history *)
Theorem C46_example_by_theorem : (forall f, In f [0; 1; 2; 3] -> returned (run exTree (exFed false) (first ++ others)) f) /\
  (forall n, n <= 4 -> rs (nodes (run exTree (exFed false) (first ++ others)) n) = Stop).
Proof.
  assert (noUser (first ++ others)) as NU by apply C46_example.
  destruct (C46_shutdown_completes exTree (exFed false) exTree_tree (exFed_wf false) (first ++ others) 2) as [A B].
  - intros n I. elim (NU n I).
  - apply exFed_populated.
  - exact all_settled.
  - intros c f M I. apply exFed_member in M. do 5 (destruct c as [|c]; [cbn in I; repeat (destruct I as [<-|I]; [vm_compute; reflexivity|]); destruct I|]). lia.
  - split; [|intros n L; apply A, exFed_members, L]. intros f [<-|[<-|[<-|[<-|[]]]]];
      [apply (B NU 2)|apply (B NU 2)|apply (B NU 3)|apply (B NU 4)]; try (apply exFed_members; lia); cbn; auto.
Qed.

(** with --global_disconnect: nobody has an answer before the last federate has called; disconnect() on the root *)
Definition gstart : list event := start ++ final 0 2 ++ [EUp 2; EUp 1] ++ final 1 2 ++ [EUp 2] ++ final 2 3 ++ [EUp 3; EUp 1].
Definition gend : list event := final 3 4 ++ [EUp 4; EDown 1; EDown 2; EDown 3; EDown 4; EFed 0; EFed 1; EFed 2; EFed 3; EStop 4; EStop 3; EStop 2; EStop 1; EStop 0].
Theorem C46_example_global :
  let N := exFed true in let s1 := run exTree N gstart in let s2 := run exTree N (gstart ++ gend) in
  (forall f, In f [0; 1; 2] -> called (fds s1 f) = true /\ ~ returned s1 f) /\ settled exTree N s1 /\ undisturbed (gstart ++ gend) /\
  (forall f, In f [0; 1; 2; 3] -> returned s2 f) /\ (forall n, n <= 4 -> rs (nodes s2 n) = Stop).
Proof.
  cbv zeta. split; [intros f [<-|[<-|[<-|[]]]]; (split; [vm_compute; reflexivity|intros [_ X]; vm_compute in X; discriminate])|].
  split; [apply settled_intro; fin5|].
  split; [intros n; split; intros I; vm_compute in I; repeat (destruct I as [I|I]; [discriminate|]); exact I|].
  split; [intros f [<-|[<-|[<-|[<-|[]]]]]; vm_compute; split; reflexivity|].
  intros n L; do 5 (destruct n as [|n]; [vm_compute; reflexivity|]); lia.
Qed.
Definition kill : list event := start ++ [EUser 0; EDown 1; EDown 4; EDown 2; EDown 3; EStop 0; EStop 1; EStop 2; EStop 3; EStop 4; EUp 1; EUp 2; EUp 3; EUp 4; EFed 0; EFed 1; EFed 2; EFed 3].
Theorem C46_example_root_disconnect :
  let s := run exTree (exFed false) kill in fair exTree kill /\ settled exTree (exFed false) s /\ (forall n, n <= 4 -> rs (nodes s n) = Stop) /\ (forall f, In f [0; 1; 2; 3] -> fst_ (fds s f) = Fin).
Proof.
  cbv zeta. split; [intros n I; vm_compute in I; repeat (destruct I as [I|I]; [try discriminate; injection I as <-; right; reflexivity|]); destruct I|].
  split; [apply settled_intro; fin5|]. split; [intros n L; do 5 (destruct n as [|n]; [vm_compute; reflexivity|]); lia|].
  intros f [<-|[<-|[<-|[<-|[]]]]]; vm_compute; reflexivity.
Qed.

(** ** What the code does not do *)
(** disconnect() on a broker which is not the root: its children stop and it stops, but it marks them as disconnected first, and
    so does not tell its own parent (CoreBroker.cpp:1062-1093, 1327-1339). The root waits for ever, although every
    federate has called finalize or was cut off *)
Definition cutOff : list event := start ++ [EUser 1; EStop 1; EDown 2; EDown 3; EUp 2; EUp 3; EStop 2; EStop 3; EFed 0; EFed 1; EFed 2] ++
  map EFinal [0; 1; 2] ++ final 3 4 ++ [EUp 4; EDown 4; EFed 3; EStop 4].
Theorem C46_broker_disconnect_leaves_the_root_waiting_refuted :
  let s := run exTree (exFed false) cutOff in settled exTree (exFed false) s /\ (forall f, In f [0; 1; 2; 3] -> returned s f) /\
  (forall n, In n [1; 2; 3; 4] -> rs (nodes s n) = Stop) /\ rs (nodes s 0) = Run.
Proof.
  cbv zeta. split; [apply settled_intro; fin5|]. split; [intros f [<-|[<-|[<-|[<-|[]]]]]; vm_compute; split; reflexivity|].
  split; [intros n [<-|[<-|[<-|[<-|[]]]]]; vm_compute; reflexivity|vm_compute; reflexivity].
Qed.
(** the timer of a core which waits for the acknowledgement answers the federate, --global_disconnect or not
    (CommonCore.cpp:4642-4657): finalize returns although other federates go on *)
Theorem C46_timer_breaks_global_disconnect_refuted :
  let s := run exTree (exFed true) (start ++ final 3 4 ++ [EUp 4; ETick 4; EFed 3]) in returned s 3 /\ (forall f, In f [0; 1; 2] -> called (fds s f) = false /\ fst_ (fds s f) = Act).
Proof. cbv zeta. split; [vm_compute; split; reflexivity|]. intros f [<-|[<-|[<-|[]]]]; vm_compute; split; reflexivity. Qed.
(** disconnect() on a core whose federate has called finalize and waits for the acknowledgement: the core stops without an
    answer to the federate (CommonCore.cpp:4777-4793 and 4861-4871: nothing is sent in the state TERMINATING), finalize does not return *)
Theorem C46_disconnect_while_finalizing_refuted :
  let h := start ++ final 3 4 ++ [EUser 4; EStop 4; EUp 4; EDown 4] in let s := run exTree (exFed false) h in
  fair exTree h /\ settled exTree (exFed false) s /\ called (fds s 3) = true /\ ~ returned s 3 /\ rs (nodes s 4) = Stop.
Proof.
  cbv zeta. split; [intros n I; vm_compute in I; repeat (destruct I as [I|I]; [try discriminate; injection I as <-; left; reflexivity|]); destruct I|].
  split; [apply settled_intro; fin5|]. split; [vm_compute; reflexivity|]. split; [intros [_ X]; vm_compute in X; discriminate|vm_compute; reflexivity].
Qed.
(** a core without federates (here 4) takes no part in the shutdown: the others have all finalized, the root goes on waiting *)
Definition lonely : fedn := mkFedn (kids (exFed false)) (fun n => match n with 2 => [0; 1] | 3 => [2] | _ => [] end) (coreOf (exFed false)) false.
Theorem C46_empty_core_blocks_shutdown_refuted :
  let s := run exTree lonely (start ++ final 0 2 ++ final 1 2 ++ final 2 3 ++ [EUp 2; EUp 2; EDown 2; EUp 3; EUp 1; EUp 1; EDown 1; EDown 3; EFed 0; EFed 1; EFed 2; EStop 1; EStop 2; EStop 3]) in
  settled exTree lonely s /\ (forall f, In f [0; 1; 2] -> returned s f) /\ rs (nodes s 0) = Run /\ rs (nodes s 4) = Run.
Proof.
  cbv zeta. split; [apply settled_intro; fin5|]. split; [intros f [<-|[<-|[<-|[]]]]; vm_compute; split; reflexivity|]. split; vm_compute; reflexivity.
Qed.

(** everybody calls finalize, then the commands are processed one by one until nothing is left to do *)
Definition allCalled : list event := start ++ [EFinal 0; EFinal 1; EFinal 2; EFinal 3].
Definition allDone : list event :=
  [ECore 2; EFed 0; ECore 2; ECore 2; EUp 2; EUp 1; EFed 1; ECore 2; EUp 2; ECore 3; EFed 2; ECore 3; EUp 3; EUp 1; EDown 1; EDown 2; EDown 3;
   EFed 0; EFed 1; EFed 2; EStop 2; EStop 3; EStop 1; ECore 4; EFed 3; ECore 4; EUp 4; EDown 4; EFed 3; EStop 4; EStop 0].
Definition seen (s : gs) := (map (fun n => let x := nodes s n in (length (cq x), length (up x), length (dn x), rs x, stopping x)) [0; 1; 2; 3; 4],
  map (fun f => let y := fds s f in (length (fq y), fst_ y)) [0; 1; 2; 3]).
Lemma exFed_finite g : finite exTree (exFed g).
Proof.
  exists [0; 1; 2; 3; 4], [0; 1; 2; 3]. split.
  - intros n M. apply exFed_member in M. do 5 (destruct n as [|n]; [cbn; tauto|]). lia.
  - intros c f M J. apply exFed_member in M. do 5 (destruct c as [|c]; [cbn in *; tauto|]). lia.
Qed.
Lemma allDone_works : works exTree (exFed false) (run exTree (exFed false) allCalled) allDone.
Proof.
  unfold allDone.
  repeat (apply works_cons; [exact I|
    first [cbn [ofFederation]; apply exFed_members; lia
          |match goal with |- ofFederation _ _ (EFed ?f) => exists (coreOf (exFed false) f) end; split; [apply exFed_members; vm_compute; lia|vm_compute; tauto]]|
    intros E; apply (f_equal seen) in E; vm_compute in E; discriminate E|]).
  apply works_nil.
Qed.
Lemma allDone_settled : settled exTree (exFed false) (run exTree (exFed false) (allCalled ++ allDone)).
Proof. apply settled_intro; fin5. Qed.
(** the hypotheses of the theorems on every schedule are met, and so all stop and return *)
Theorem C46_example_every_schedule :
  let N := exFed false in
  works exTree N (run exTree N allCalled) allDone /\
  (forall n, n <= 4 -> rs (nodes (run exTree N allCalled) n) = Run /\ rs (nodes (run exTree N (allCalled ++ allDone)) n) = Stop) /\
  (forall f, In f [0; 1; 2; 3] -> returned (run exTree N (allCalled ++ allDone)) f) /\
  exists B, length allDone <= B /\ forall es, works exTree N (run exTree N allCalled) es -> length es <= B.
Proof.
  cbv zeta. split; [exact allDone_works|].
  assert (noUser allCalled) as NU by (intros n J; vm_compute in J; repeat (destruct J as [J|J]; [discriminate|]); exact J).
  destruct (C46_every_schedule_shuts_down exTree (exFed false) exTree_tree (exFed_wf false) allCalled allDone) as [A B].
  - intros n J. elim (NU n J).
  - apply exFed_finite.
  - intros n M. apply exFed_populated. exact M.
  - intros c f M J. apply exFed_member in M. do 5 (destruct c as [|c]; [cbn in J; repeat (destruct J as [<-|J]; [vm_compute; reflexivity|]); destruct J|]). lia.
  - exact allDone_works.
  - exact allDone_settled.
  - split; [|split].
    + intros n L. split; [do 5 (destruct n as [|n]; [vm_compute; reflexivity|]); lia|apply A, exFed_members, L].
    + intros f J. apply (B NU (coreOf (exFed false) f)); [apply exFed_members|]; destruct J as [<-|[<-|[<-|[<-|[]]]]]; vm_compute; tauto || lia.
    + destruct (C46_commands_come_to_an_end exTree (exFed false) exTree_tree (exFed_wf false) (run exTree (exFed false) allCalled) (exFed_finite false)) as [b H].
      exists b. split; [apply H, allDone_works|exact H].
Qed.
