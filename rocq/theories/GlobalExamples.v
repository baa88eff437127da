(** * C48: concrete histories of the global time coordinator, and what it does not guarantee *)
From Coq Require Import ZArith Bool List Lia.
From Verif Require Import HTime Action TimeDep TimeDepProofs TimeCoord Forward GlobalTime GlobalInv PropsGlobal GlobalLive.
Import ListNotations.
Open Scope Z_scope.

(** compute the list in a hypothesis [In x list] *)
Lemma in_tab {T} (l l' : list T) x : l = l' -> In x l -> In x l'.
Proof. intros ->. auto. Qed.
Lemma knows_in id es d : knows id es d -> In d (g_deps (grun id es)).
Proof. auto. Qed.
Lemma in_knows id es d : In d (g_deps (grun id es)) -> knows id es d.
Proof. auto. Qed.
Ltac tabled H := match type of H with knows _ _ _ => apply knows_in in H | _ => idtac end;
  match type of H with In ?d ?l => let nf := eval vm_compute in l in let E := fresh in
    assert (E : l = nf) by (vm_cast_no_check (eq_refl nf)); apply (in_tab l nf d E) in H; clear E; cbn [In] in H end.
Definition root : Z := 1879048192.
(** CoreBroker.cpp:660-669: a federate registers with the root *)
Definition join (f : Z) : bevent := B_dependency (set_m_flags (Z.shiftl 1 child_flag) (set_m_counter 1 (newMsg CMD_ADD_INTERDEPENDENCY f))).
Definition execReq (f : Z) : bevent := B_exec (setExtraDestData 0 (newMsg CMD_EXEC_REQUEST f)).
Definition execGranted (f : Z) : bevent := B_exec (newMsg CMD_EXEC_GRANT f).
(** a time request: next time [t], event [te], the number [n] of the last message from the coordinator *)
Definition want (f t te n : Z) : bevent := B_timing (setExtraDestData n (set_m_Tdemin te (set_m_Te te (set_m_actionTime t (newMsg CMD_TIME_REQUEST f))))).
Definition fa : Z := 131073.
Definition fb : Z := 131074.
Definition start : list bevent := [join fa; join fb; B_init; execReq fa; execReq fb; execGranted fa; execGranted fb].
Definition asked : list bevent := start ++ [want fa 10 10 0; want fb 20 20 0].
Definition thePermission : amsg := permitMsg root 2 11 (mkDep (set_sequenceCounter 0 td_default) fa false c_CHILD true true false false false false).

(** two federates ask for 10 and 20; only the first may act, is asked with the number 1 and answers; it is permitted 10 + epsilon *)
Example C48_meets_hypotheses :
  permission root asked (want fa 10 10 1) thePermission /\ echoes root (asked ++ [want fa 10 10 1]) /\ g_rounds (grun root asked) <= 32767
  /\ (forall d, knows root (asked ++ [want fa 10 10 1]) d -> fedID d = fa -> mayActBy (m_actionTime thePermission) d).
Proof.
  split; [|split; [|split]].
  - split; [|reflexivity]. vm_compute. left. reflexivity.
  - intros a x b c E Ec.
    do 9 (destruct a as [|? a]; [injection E as <- _; first [discriminate Ec|cbn in Ec; injection Ec as <-; split; [discriminate|split; [intros H; first [discriminate H|reflexivity]|intros H; first [discriminate H|left; reflexivity]]]]|injection E as <- E]).
    destruct a as [|? a]; [|destruct a; discriminate E]. injection E as <- _. cbn in Ec. injection Ec as <-. split; [discriminate|]. split; [discriminate|]. intros _. right.
    exists (start ++ [want fa 10 10 0]), (want fb 20 20 0), [], (askMsg root 1 (mkDep (set_sequenceCounter 0 td_default) fa false c_CHILD true true false false false false)).
    split; [reflexivity|]. split; [vm_compute; left; reflexivity|]. repeat split; auto.
  - vm_compute. discriminate.
  - intros d Kd F. tabled Kd. destruct Kd as [<-|[<-|[]]]; [vm_compute; repeat split; discriminate|vm_compute in F; discriminate].
Qed.

(** the same history with a federate which may act, has answered, and nobody who is executing *)
Example C48_silence_meets_hypotheses :
  isValidId root = true /\ g_entered (grun root (start ++ [want fa 10 10 0])) = true
  /\ (exists d, getDep (g_deps (grun root (start ++ [want fa 10 10 0]))) fb = Some d /\ dependency d = true)
  /\ allWaiting root (g_deps (grun root ((start ++ [want fa 10 10 0]) ++ [want fb 20 20 0]))).
Proof.
  split; [reflexivity|]. split; [reflexivity|]. split; [eexists; split; [vm_compute; reflexivity|reflexivity]|].
  split; [|split].
  - intros d Kd. tabled Kd. destruct Kd as [<-|[<-|[]]]; left; reflexivity.
  - intros d Kd. tabled Kd. destruct Kd as [<-|[<-|[]]]; vm_compute; discriminate.
  - eexists. split; [vm_compute; left; reflexivity|]. vm_compute. repeat split; (discriminate || reflexivity).
Qed.

(** CommonCore.cpp:3945-3960 connectFilterTiming: the filter federate of a core sends CMD_ADD_DEPENDENCY to the root; the
    CMD_ADD_DEPENDENT prepared after it is never sent *)
Definition joinFilters (f : Z) : bevent := B_dependency (set_m_flags (Z.shiftl 1 child_flag) (newMsg CMD_ADD_DEPENDENCY f)).
Definition ff : Z := 131075.
Definition filters : list bevent :=
  [join fa; join fb; joinFilters ff; B_init; execReq fa; execReq fb; execReq ff; execGranted fa; execGranted fb; execGranted ff;
   want fa 10 10 0; want fb 20 20 0; B_timing (set_m_flags (Z.shiftl 1 non_granting_flag) (setExtraDestData 0 (set_m_Tdemin 5 (set_m_Te 5 (set_m_actionTime 5 (newMsg CMD_TIME_REQUEST ff))))))].
(** C48, refuted for the filter federate of a core: it asked for 5 and was asked in the round, but the permission goes out
    without its answer *)
Theorem C48_filter_federate_not_awaited_refuted :
  (exists q, In q (sends root (removelast filters) (last filters B_init)) /\ m_action q = CMD_REQUEST_CURRENT_TIME /\ m_dest_id q = ff /\ m_counter q = 1)
  /\ exists m, permission root filters (want fa 10 10 1) m /\ m_actionTime m = 11
     /\ exists d, knows root (filters ++ [want fa 10 10 1]) d /\ fedID d = ff /\ dependency d = true /\ tst d = ts_time_requested /\ next d = 5
        /\ responseSequenceCounter d = 0 /\ updateRequested d = true.
Proof.
  split.
  - eexists. split; [vm_compute; right; left; reflexivity|]. vm_compute. auto.
  - eexists. split; [split; [vm_compute; left; reflexivity|reflexivity]|]. split; [reflexivity|].
    eexists. split; [apply in_knows; vm_compute; right; right; left; reflexivity|]. vm_compute. repeat split.
Qed.

(** GlobalTimeCoordinator.cpp:138-159 ("sequence check but no request"): a federate whose next time moves below the asked time
    in the middle of a round is waited for, but it is not asked: after the answer of everyone asked the coordinator stays silent *)
Definition moved : list bevent := asked ++ [want fb 5 5 0].
Theorem C48_unasked_federate_refuted :
  harmless (sends root asked (want fb 5 5 0)) /\ harmless (sends root moved (want fa 10 10 1))
  /\ (forall d, knows root (moved ++ [want fa 10 10 1]) d -> isRequested (tst d) = true /\ (updateRequested d = true -> False))
  /\ exists d, knows root (moved ++ [want fa 10 10 1]) d /\ fedID d = fb /\ responseSequenceCounter d <> g_seq (grun root (moved ++ [want fa 10 10 1])).
Proof.
  split; [intros m H; tabled H; destruct H|]. split; [intros m H; tabled H; destruct H|]. split.
  - intros d Kd. tabled Kd. destruct Kd as [<-|[<-|[]]]; (split; [reflexivity|discriminate]).
  - eexists. split; [apply in_knows; vm_compute; right; left; reflexivity|]. vm_compute. split; [reflexivity|discriminate].
Qed.
