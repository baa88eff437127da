(** * The Player (model)

    apps/Player.cpp: a federate which publishes given values and sends given messages at given times.
    The points and messages are those after sorting and indexing (sortTags, cleanUpPointList, 512-564); which of two equal
    points comes first is left open by std::sort.  A relation [G] says which times requestTime may grant: [G now t g] when the
    federate is at [now], asks for [t] and gets [g] (C01-C04).  Output to the console (nextPrintTime) is left out, so are
    points and messages added after initialize. *)
From Coq Require Import ZArith Bool List Lia.
Import ListNotations.
Open Scope Z_scope.

(** Player.hpp:22-33 ValueSetter: time, iteration; [pid] stands for the publication and the value *)
Record point : Type := mkPoint { pt : Z; pit : Z; pid : nat }.
(** Player.hpp:36-41 MessageHolder: sendTime; [mid] stands for the endpoint and the message *)
Record mess : Type := mkMess { mt : Z; mid : nat }.
(** what the federation sees, with the time and the iteration at which it happens *)
Inductive event := Pub (now iteration : Z) (p : point) | Send (now : Z) (m : mess).
(** Player.hpp:229-245 points from pointIndex on, messages from messageIndex on; the current time of the federate; the events *)
Record player : Type := mkPlayer { y_points : list point; y_messages : list mess; y_now : Z; y_out : list event }.
(** helicsTime.hpp Time::maxVal *)
Definition maxTime : Z := 2 ^ 63 - 1.
(** while (f(list[index])) { ...; ++index; if (index >= size) break; } : what the loop goes over *)
Fixpoint takeW {A} (f : A -> bool) (l : list A) : list A := match l with x :: r => if f x then x :: takeW f r else [] | [] => [] end.
(** ... and what is left (Player.cpp:580-586, 588-595, 599-605, 624-629, 632-637) *)
Fixpoint dropW {A} (f : A -> bool) (l : list A) : list A := match l with x :: r => if f x then dropW f r else l | [] => [] end.
(** Player.cpp:577-607 sendInformation *)
Definition sendInformation (t it : Z) (s : player) : player :=
  let early := fun p => pt p <? t in
  let due := fun p => (pt p =? t) && (pit p =? it) in
  let rest := dropW early (y_points s) in
  let sendM := fun m => mt m <=? t in
  mkPlayer (dropW due rest) (dropW sendM (y_messages s)) (y_now s)
    (y_out s ++ map (Pub (y_now s) it) (takeW early (y_points s) ++ takeW due rest) ++ map (Send (y_now s)) (takeW sendM (y_messages s))).
(** Player.cpp:646-654: nextSendTime and nextIteration *)
Definition nextSend (s : player) : Z * Z :=
  match y_points s, y_messages s with
  | [], [] => (maxTime, 0)
  | p :: _, [] => (Z.min maxTime (pt p), pit p)
  | [], m :: _ => (Z.min maxTime (mt m), 0)
  | p :: _, m :: _ => (Z.min (Z.min maxTime (pt p)) (mt m), 0)
  end.
(** the time of the federate changes (Federate::requestTime) *)
Definition at_ (g : Z) (s : player) : player := mkPlayer (y_points s) (y_messages s) g (y_out s).
(** Player.cpp:645-677 the main loop with currentIteration: [loop G stop s it s'] when it ends with [s'] *)
Inductive loop (G : Z -> Z -> Z -> Prop) (stop : Z) : player -> Z -> player -> Prop :=
| L_nothing s it : fst (nextSend s) = maxTime -> loop G stop s it s
| L_stop s it : fst (nextSend s) <> maxTime -> stop < fst (nextSend s) -> loop G stop s it s
| L_request s it g s' : fst (nextSend s) <> maxTime -> fst (nextSend s) <= stop -> snd (nextSend s) = 0 \/ y_now s < fst (nextSend s) ->
    G (y_now s) (fst (nextSend s)) g -> loop G stop (sendInformation g 0 (at_ g s)) 0 s' -> loop G stop s it s'
| L_iterate s it s' : fst (nextSend s) <> maxTime -> fst (nextSend s) <= stop -> ~ (snd (nextSend s) = 0 \/ y_now s < fst (nextSend s)) ->
    loop G stop (sendInformation (fst (nextSend s)) (it + 1) s) (it + 1) s' -> loop G stop s it s'.
(** Player.cpp:678-680 *)
Inductive finish (G : Z -> Z -> Z -> Prop) (stop : Z) : player -> player -> Prop :=
| F_done s : stop <= y_now s -> finish G stop s s
| F_more s g s' : y_now s < stop -> G (y_now s) stop g -> finish G stop (at_ g s) s' -> finish G stop s s'.
(** the time of the federate in the initializing mode, when sendInformation(-Time::epsilon()) is called *)
Definition initTime : Z := -1.
(** Player.cpp:609-620 runTo from the startup mode; time zero is granted in enterExecutingMode *)
Definition startUp (ps : list point) (ms : list mess) : player :=
  sendInformation 0 0 (at_ 0 (sendInformation (-1) 0 (mkPlayer ps ms initTime []))).
(** Player.cpp:622-638 runTo in the executing mode *)
Definition skipOld (s : player) : player :=
  mkPlayer (dropW (fun p => pt p <=? y_now s) (y_points s)) (dropW (fun m => mt m <=? y_now s) (y_messages s)) (y_now s) (y_out s).
(** Player.cpp:641-681: the rest of runTo *)
Definition runOn G stop s s' : Prop := exists s1, loop G stop s 0 s1 /\ finish G stop s1 s'.
(** a first runTo and more of them *)
Inductive runs (G : Z -> Z -> Z -> Prop) (ps : list point) (ms : list mess) : list Z -> player -> Prop :=
| R_first stop s : runOn G stop (startUp ps ms) s -> runs G ps ms [stop] s
| R_next stops s stop s' : runs G ps ms stops s -> runOn G stop (skipOld s) s' -> runs G ps ms (stops ++ [stop]) s'.
