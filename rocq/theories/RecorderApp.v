(** * The Recorder (model)

    apps/Recorder.cpp: a federate which records every value and message it receives.  What the federation gives it is an input:
    a list of grants, each with the values which are new and the messages which wait.  Left out: console output, the map file, the
    output files, subscriptions added after initialize. *)
From Coq Require Import String ZArith Bool List Lia Arith.
Import ListNotations.
Open Scope list_scope.
Open Scope Z_scope.

(** what a time request gives: the granted time, whether it is a NEXT_STEP (true) or an ITERATING (false), for every
    subscription the new value if isUpdated(), for every endpoint the messages which wait, and those at the clone endpoint *)
Record grant : Type := mkGrant { g_time : Z; g_next : bool; g_upd : list (option string); g_msgs : list (list string); g_clone : list string }.
(** Recorder.hpp:127-139 ValueCapture *)
Record point : Type := mkPoint { p_time : Z; p_sub : nat; p_value : string; p_iter : Z; p_first : bool }.
(** Recorder.hpp:155, 160, 165: points, messages, vStat[].cnt *)
Record recorder : Type := mkRecorder { r_points : list point; r_msgs : list string; r_cnt : nat -> nat }.
(** Recorder.hpp:131 the iteration is kept in an int16_t *)
Definition int16 (z : Z) : Z := (z + 32768) mod 65536 - 32768.
(** vStat[i].cnt = v *)
Definition setCnt (f : nat -> nat) (i v : nat) : nat -> nat := fun j => if Nat.eqb j i then v else f j.
(** Recorder.cpp:393-439 captureForCurrentTime, the subscriptions from the [i]-th on *)
Fixpoint capSubs (i : nat) (t it : Z) (us : list (option string)) (r : recorder) : recorder :=
  match us with
  | [] => r
  | None :: us' => capSubs (S i) t it us' r
  | Some v :: us' =>
      capSubs (S i) t it us'
        (mkRecorder (r_points r ++ [mkPoint t i v (if 0 <? it then int16 it else 0) (Nat.eqb (r_cnt r i) 0)])
                    (r_msgs r) (setCnt (r_cnt r) i (S (r_cnt r i))))
  end.
(** Recorder.cpp:391-470 captureForCurrentTime *)
Definition capture (t it : Z) (g : grant) (r : recorder) : recorder :=
  let r1 := capSubs 0 t it (g_upd g) r in
  mkRecorder (r_points r1) (r_msgs r1 ++ concat (g_msgs g) ++ g_clone g) (r_cnt r1).
(** Recorder.cpp:497-531 the loop of runTo: the recorder after it and the grants not asked for yet; the loop ends as well when
    the federation gives no more grants (the exception caught at 533) *)
Fixpoint runLoop (allow : bool) (stop : Z) (it : Z) (gs : list grant) (r : recorder) : recorder * list grant :=
  match gs with
  | [] => (r, [])
  | g :: rest =>
      let it1 := if allow then (if g_next g then 0 else it) else 0 in
      let r1 := capture (g_time g) it1 g r in
      if stop <=? g_time g then (r1, rest) else runLoop allow stop (if allow then it1 + 1 else it) rest r1
  end.
(** Recorder.cpp:473-536 runTo, once initialized *)
Definition runTo (allow : bool) (stop : Z) (gs : list grant) (r : recorder) : recorder * list grant := runLoop allow stop 0 gs r.
(** Recorder.cpp:348-363 initialize: what came at the end of the initializing mode is recorded at -1.0, then at 0.0 *)
Definition initialize (g0 g1 : grant) : recorder :=
  capture 0 0 g1 (capture (-1000000000) 0 g0 (mkRecorder [] [] (fun _ => 0%nat))).
(** one runTo after another *)
Fixpoint runsTo (allow : bool) (stops : list Z) (gs : list grant) (r : recorder) : recorder * list grant :=
  match stops with
  | [] => (r, gs)
  | stop :: more => let (r1, rest) := runTo allow stop gs r in runsTo allow more rest r1
  end.
