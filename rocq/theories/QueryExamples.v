(** * C47: examples, and what is not true *)
From Coq Require Import ZArith Bool List Lia.
From Verif Require Import Query PropsQuery QueryInv QueryLive QueryCache.
Import ListNotations.
Open Scope nat_scope.

(** a federate which does not answer at once *)
Definition slow : nat -> option (option nat) := fun _ => None.
Definition ask (w : who) (r i : nat) : event := EQuery (mkReq w r) i slow.

(** deciding [orderly] *)
Definition okB (K : bool) (s : qs) (e : event) : bool :=
  match e with
  | EQuery _ i _ => isNil (rq (slots s i)) || reuse K i
  | ENamed _ i _ => negb K && (isNil (rq (slots s i)) || reuse K i)
  | EGone c => forallb (fun i => forallb (fun j => negb (hasCode c (miss (sb (slots s i)))) || negb (completed (sb (slots s j)))) (seq 0 i)) (seq 0 (nsl s))
  | EFlush => negb K
  | _ => true
  end.
Fixpoint orderlyB (K : bool) (s : qs) (h : list event) : bool := match h with [] => true | e :: r => okB K s e && orderlyB K (step K s e) r end.
Lemma okB_ok K s e : inv s -> okB K s e = true -> okEvent K s e.
Proof.
  intros IV H. destruct e as [r i orc|r i orc|c i p|c| |c co|c v|v]; cbn [okB okEvent] in *; try exact I.
  - apply orb_prop in H as [H|H]; [destruct (rq (slots s i)); [congruence|discriminate]|auto].
  - apply andb_prop in H as [K0 H]. split; [destruct K; [discriminate|reflexivity]|]. apply orb_prop in H as [H|H]; [destruct (rq (slots s i)); [congruence|discriminate]|auto].
  - intros i j L HC. rewrite forallb_forall in H. assert (i < nsl s) as LI. { destruct (Nat.le_gt_cases (nsl s) i) as [X|X]; [|exact X]. destruct (proj1 IV i) as [_ [_ [_ [_ [_ O6]]]]]. rewrite (O6 X) in HC. discriminate. }
    specialize (H i ltac:(apply in_seq; lia)). rewrite forallb_forall in H. specialize (H j ltac:(apply in_seq; lia)). rewrite HC in H. destruct (completed _); [discriminate|reflexivity].
  - destruct K; [discriminate|reflexivity].
Qed.
Lemma orderlyB_ok K h : orderlyB K qs0 h = true -> orderly K h.
Proof.
  assert (forall h s, inv s -> orderlyB K s h = true -> forall h1 e h2, h = h1 ++ e :: h2 -> okEvent K (fold_left (step K) h1 s) e) as H.
  { clear h. induction h as [|x h IH]; intros s IV H h1 e h2 E; [destruct h1; discriminate|]. cbn in H. apply andb_prop in H as [H1 H2]. destruct h1 as [|y h1]; cbn in E; injection E as <- E.
    - apply okB_ok; assumption.
    - cbn. apply (IH (step K s x)) with (h2 := h2); [apply step_inv; [exact IV|apply okB_ok; assumption]|exact H2|exact E]. }
  intros E h1 e h2. apply (H h qs0 inv0 E).
Qed.

(** a broker with two cores and a broker below; somebody else asks for the global state (6), the local API for the data flow graph (5, cached);
    one core answers both, the broker below leaves, the other core answers *)
Definition exB : list event :=
  [EJoin 1 true; EJoin 2 true; EJoin 3 false; EState 1 2; EState 2 2; ask WOther 100 6; ask WSelf 101 5; ask WOther 102 5; EReply 1 6 (Some 11); EReply 2 5 (Some 25); EReply 1 5 (Some 15); EGone 3;
   EReply 2 6 None].
Example C47_example_orderly : orderly false exB.
Proof. apply orderlyB_ok. vm_compute. reflexivity. Qed.
Example C47_example_answers : outs (run false exB) = [OLocal 101 (AMap [(LCore, JVal 25); (LCore, JVal 15)]); OSend WOther 102 (AMap [(LCore, JVal 25); (LCore, JVal 15)]); OSend WOther 100 (AMap [(LCore, JVal 11); (LCore, JEmpty)])].
Proof. vm_compute. reflexivity. Qed.
(** the hypotheses of [C47_answer_is_complete] are met by the query 100 *)
Example C47_example_complete : reached (mkReq WOther 100) (AMap [(LCore, JVal 11); (LCore, JEmpty)]) (run false exB).
Proof.
  assert (exB = [EJoin 1 true; EJoin 2 true; EJoin 3 false; EState 1 2; EState 2 2] ++ ask WOther 100 6 :: [ask WSelf 101 5; ask WOther 102 5; EReply 1 6 (Some 11); EReply 2 5 (Some 25); EReply 1 5 (Some 15); EGone 3] ++ [EReply 2 6 None]) as E by reflexivity.
  pose proof C47_example_orderly as O. rewrite E in *. refine (C47_answer_is_complete false _ _ _ _ _ _ O _ _ _ _ _ _); try (vm_compute; reflexivity); try discriminate.
Qed.
Example C47_example_nothing_waits : (forall i, ost (run false exB) i = []) /\ asked false 100 exB = 1 /\ asked false 101 exB = 1.
Proof. split; [|split; vm_compute; reflexivity]. intros i. do 15 (destruct i as [|i]; [vm_compute; reflexivity|]). vm_compute. reflexivity. Qed.

(** a third query for the data flow graph, later, is answered from the cache; not after a change of the state of a child *)
Definition exC : list event := [EJoin 1 true; EState 1 2; ask WSelf 1 5; EReply 1 5 (Some 15)].
Example C47_example_cached : alwaysGrowing false exC /\ decide false 5 (run false exC) = Cached /\ decide false 5 (run false (exC ++ [EJoin 2 true])) = Cached /\ decide false 5 (run false (exC ++ [EJoin 2 true; EState 2 1])) = Build.
Proof.
  split; [|repeat split; vm_compute; reflexivity]. intros h1 e h2 E. do 4 (destruct h1 as [|? h1]; cbn in E; [injection E as <- _; first [exact I | intros k Hk _; vm_compute in Hk; destruct Hk as [<-|[]]; cbn; lia]|injection E as <- E]). destruct h1; discriminate.
Qed.
(** so a child which has just joined is missing in the answer, although it is a child: CONNECTED = 0 does not change the counter
    (CoreBroker.cpp:931-942) *)
Theorem C47_new_child_not_in_cached_map_refuted : exists h r, isKid 2 (kids (run false h)) = true /\
  outs (run false (h ++ [EQuery r 5 slow])) = outs (run false h) ++ [OLocal (rid r) (AMap [(LCore, JVal 15)])].
Proof. exists (exC ++ [EJoin 2 true]), (mkReq WSelf 2). split; vm_compute; reflexivity. Qed.

(** a core with two federates, and a disconnect *)
Definition exD : list event := [EJoin 1 true; EJoin 2 true; ask WSelf 1 6; EReply 1 6 (Some 7); ask WOther 2 3].
Example C47_example_core_disconnect : orderly true exD /\ (forall j, completed (sb (slots (run true exD) j)) = false) /\ waiting 1 (run true exD) = 1 /\ waiting 2 (run true exD) = 1 /\
  outs (run true (exD ++ [EFlush])) = [OSend WOther 2 (AMap []); OLocal 1 (AMap [(LFed, JVal 7)])].
Proof.
  split; [apply orderlyB_ok; vm_compute; reflexivity|]. split; [|repeat split; vm_compute; reflexivity]. intros i. do 15 (destruct i as [|i]; [vm_compute; reflexivity|]). vm_compute. reflexivity.
Qed.

(** ** What is not true *)
(** a finished map stored in front of it: the query waits for ever, because checkInFlightQueriesForDisconnect returns
    (CommonCore.cpp:5357) where it should continue; the federates 1 answers the first query at once *)
Theorem C47_core_disconnect_leaves_query_refuted : exists h r, orderly true h /\ waiting r (run true (h ++ [EFlush])) = 1.
Proof.
  exists [EJoin 1 true; EQuery (mkReq WSelf 1) 2 (fun _ => Some (Some 5)); ask WSelf 2 6], 2. split; [apply orderlyB_ok; vm_compute; reflexivity|vm_compute; reflexivity].
Qed.
(** the same at a broker when a child leaves (CoreBroker.cpp:3488): no child has anything to answer any more *)
Theorem C47_child_gone_leaves_query_refuted : exists h r, (forall i, ost (run false h) i = []) /\ waiting r (run false h) = 1 /\ answers r (run false h) = 0.
Proof.
  exists (exC ++ [ask WSelf 2 6; EGone 1]), 2. split; [|split; vm_compute; reflexivity]. intros i. do 15 (destruct i as [|i]; [vm_compute; reflexivity|]). vm_compute. reflexivity.
Qed.
(** two local queries of a core: the answer to the first is given to routeMessage with the id of the API (gDirectCoreId) as the
    destination, not to the caller (CommonCore.cpp:4314-4321) *)
Theorem C47_local_query_of_a_core_lost_refuted : exists h, orderly true h /\ outs (run true h) = [OSend WDirect 1 (AMap [(LFed, JVal 9)]); OLocal 2 (AMap [(LFed, JVal 9)])].
Proof. exists [EJoin 1 true; ask WDirect 1 3; ask WDirect 2 3; EReply 1 3 (Some 9)]. split; [apply orderlyB_ok; vm_compute; reflexivity|vm_compute; reflexivity]. Qed.
(** a core asked by its name: it answers "#wait", and uses the last element of an empty vector when the federate answers
    (CommonCore.cpp:5121-5157, 4322) *)
Theorem C47_named_core_query_crashes_refuted : exists h, outs (run true h) = [OSend WOther 1 AWait; OCrash].
Proof. exists [EJoin 1 true; ENamed (mkReq WOther 1) 6 slow; EReply 1 6 (Some 9)]. vm_compute. reflexivity. Qed.
(** a query which is not cached, asked while somebody waits for the first one, throws the answers away which have come; both get the answers of the
    second; and the late answer to the first counts as an answer to the second *)
Theorem C47_overlapping_queries_mixed_refuted : exists h, outs (run false h) = [OSend WOther 1 (AMap [(LCore, JVal 20); (LCore, JVal 11)]); OSend WOther 2 (AMap [(LCore, JVal 20); (LCore, JVal 11)])] /\
  ost (run false h) 6 = [(1, 2); (2, 3)].
Proof. exists [EJoin 1 true; EJoin 2 true; ask WOther 1 6; ask WOther 2 6; EReply 2 6 (Some 20); EReply 1 6 (Some 11)]. split; vm_compute; reflexivity. Qed.
(** at a core the second may be answered at once; then the first waits for ever *)
Theorem C47_overlapping_query_at_core_lost_refuted : exists h r, (forall i, ost (run true h) i = []) /\ waiting r (run true h) = 1.
Proof.
  exists [EJoin 1 true; ask WOther 1 6; EQuery (mkReq WOther 2) 6 (fun _ => Some (Some 5)); EReply 1 6 (Some 9)], 1. split; [|vm_compute; reflexivity]. intros i. do 15 (destruct i as [|i]; [vm_compute; reflexivity|]). vm_compute. reflexivity.
Qed.
