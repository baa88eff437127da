(** The message timer: /repo/src/helics/core/MessageTimer.cpp, MessageTimer.hpp.
    Every function body runs under one mutex (lines 50, 72, 81, 92, 115, 136, 153, 161) and is one step here, except that
    sendMessage releases the mutex before it calls the send function (lines 166-168): taking the message and handing it
    over are two steps, between which other threads run.  The timers of asio (the callbacks) are not modelled: any
    callback may come at any moment, any number of times, for any index.  Indices are the size of the vector at the call
    (int32_t: fewer than 2^31 timers). *)
From Coq Require Import ZArith List Lia Bool Permutation.
From Verif Require Import HTime Action.
Import ListNotations.
Local Open Scope Z_scope.

(** MessageTimer.hpp:56-57: buffers[i], expirationTimes[i] *)
Record slot := mkSlot { s_msg : amsg; s_exp : Z }.
(** [tm_flight]: messages taken out of their slot whose send function call is still to come, with the timer's index *)
Record timers := mkTm { tm_slots : list slot; tm_flight : list (nat * amsg) }.
Definition tm_init : timers := mkTm [] [].
Definition armedMsg (m : amsg) : bool := negb (m_action m =? CMD_IGNORE).
Fixpoint setNth {A} (i : nat) (v : A) (l : list A) : list A :=
  match l, i with [], _ => [] | _ :: r, O => v :: r | x :: r, S k => x :: setNth k v r end.
(** (index >= 0) && (index < timers.size()): run [f] on the slot *)
Definition atSlot (i : Z) (f : slot -> slot) (l : list slot) : list slot :=
  if (0 <=? i) && (i <? Z.of_nat (length l)) then
    match nth_error l (Z.to_nat i) with Some s => setNth (Z.to_nat i) (f s) l | None => l end
  else l.
Definition ignored (m : amsg) : amsg := set_m_action CMD_IGNORE m.
(** MessageTimer.cpp:159-173 sendMessage, at a clock reading [now]: up to the release of the mutex *)
Definition takeMessage (i : Z) (now : Z) (t : timers) : timers :=
  if (0 <=? i) && (i <? Z.of_nat (length (tm_slots t))) then
    match nth_error (tm_slots t) (Z.to_nat i) with
    | Some s => if s_exp s <=? now
                then if armedMsg (s_msg s)
                     then mkTm (setNth (Z.to_nat i) (mkSlot (ignored (s_msg s)) (s_exp s)) (tm_slots t)) (tm_flight t ++ [(Z.to_nat i, s_msg s)])
                     else t
                else t
    | None => t
    end
  else t.
(** MessageTimer.cpp:22-34 processTimerCallback *)
Definition callback (i : Z) (aborted : bool) (now : Z) (t : timers) : timers := if aborted then t else takeMessage i now t.
(** MessageTimer.cpp:41-65 addTimer; [now]: the clock read at line 57, [now2] the one read in sendMessage when the timer has expired already.
    The code releases the mutex in between: another thread's step there is the same as one before the call, because the new index is not known yet
    (a call with a guessed index is not considered). *)
Definition addTimer (exp : Z) (m : amsg) (now now2 : Z) (t : timers) : timers :=
  let i := Z.of_nat (length (tm_slots t)) in
  let t := mkTm (tm_slots t ++ [mkSlot m exp]) (tm_flight t) in
  if now <? exp then t else callback i false now2 t.
Definition setMsg (f : amsg -> amsg) (s : slot) : slot := mkSlot (f (s_msg s)) (s_exp s).
Definition setExp (e : Z) (s : slot) : slot := mkSlot (s_msg s) e.
(** MessageTimer.cpp:67-75 cancelTimer; 77-87 cancelAll *)
Definition cancelTimer (i : Z) (t : timers) : timers := mkTm (atSlot i (setMsg ignored) (tm_slots t)) (tm_flight t).
Definition cancelAll (t : timers) : timers := mkTm (map (setMsg ignored) (tm_slots t)) (tm_flight t).
(** MessageTimer.cpp:89-105 updateTimer with a message *)
Definition updateTimerMsg (i exp : Z) (m : amsg) (t : timers) : timers := mkTm (atSlot i (fun _ => mkSlot m exp) (tm_slots t)) (tm_flight t).
(** MessageTimer.cpp:114-132 addTimeToTimer *)
Definition addTimeToTimer (i d : Z) (t : timers) : timers :=
  mkTm (atSlot i (fun s => if armedMsg (s_msg s) then setExp (s_exp s + d) s else s) (tm_slots t)) (tm_flight t).
(** MessageTimer.cpp:134-149 updateTimer *)
Definition updateTimer (i exp : Z) (t : timers) : timers := mkTm (atSlot i (setExp exp) (tm_slots t)) (tm_flight t).
(** MessageTimer.cpp:152-158 updateMessage *)
Definition updateMessage (i : Z) (m : amsg) (t : timers) : timers := mkTm (atSlot i (setMsg (fun _ => m)) (tm_slots t)) (tm_flight t).

Inductive tevent :=
| AddTimer (exp : Z) (m : amsg) (now now2 : Z)
| Cancel (i : Z)
| CancelAll
| UpdateBoth (i exp : Z) (m : amsg)
| UpdateTime (i exp : Z)
| AddTime (i d : Z)
| UpdateMessage (i : Z) (m : amsg)
| Callback (i : Z) (aborted : bool) (now : Z)
| Deliver (k : nat).        (* MessageTimer.cpp:168: the send function is called for the k-th message taken *)
Definition remove {A} (k : nat) (l : list A) : list A := firstn k l ++ skipn (S k) l.
Definition tmstep (t : timers) (e : tevent) : timers * list amsg :=
  match e with
  | AddTimer x m n n2 => (addTimer x m n n2 t, [])
  | Cancel i => (cancelTimer i t, [])
  | CancelAll => (cancelAll t, [])
  | UpdateBoth i x m => (updateTimerMsg i x m t, [])
  | UpdateTime i x => (updateTimer i x t, [])
  | AddTime i d => (addTimeToTimer i d t, [])
  | UpdateMessage i m => (updateMessage i m t, [])
  | Callback i a n => (callback i a n t, [])
  | Deliver k => match nth_error (tm_flight t) k with
                 | Some (_, m) => (mkTm (tm_slots t) (remove k (tm_flight t)), [m])
                 | None => (t, []) end
  end.
Definition tmafter (es : list tevent) : timers := fold_left (fun t e => fst (tmstep t e)) es tm_init.
(** the calls of the send function *)
Fixpoint sentFrom (t : timers) (es : list tevent) : list amsg :=
  match es with [] => [] | e :: r => snd (tmstep t e) ++ sentFrom (fst (tmstep t e)) r end.
Definition sent (es : list tevent) : list amsg := sentFrom tm_init es.
