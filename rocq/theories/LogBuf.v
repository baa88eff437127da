(** The log buffer: /repo/src/helics/common/LogBuffer.cpp, LogBuffer.hpp. *)
From Coq Require Import ZArith List Lia Bool.
Import ListNotations.

Section LogBuffer.
(** LogBuffer.hpp:25: std::tuple<int, std::string, std::string>, not looked at by the class *)
Variable message : Type.
Record buf := mkBuf { lb_max : nat; lb_msgs : list message }.
(** LogBuffer.hpp:30-31 *)
Definition lb_new (n : nat) : buf := mkBuf n [].
(** LogBuffer.hpp:29 *)
Definition cDefaultBufferSize : nat := 10.
(** LogBuffer.cpp:21-23: pop_front while size() > newSize *)
Fixpoint trim (n : nat) (l : list message) : list message :=
  match l with [] => [] | _ :: r => if n <? length l then trim n r else l end.
(** LogBuffer.cpp:17-27 resize *)
Definition resize (n : nat) (b : buf) : buf :=
  mkBuf n (if n <? lb_max b then trim n (lb_msgs b) else lb_msgs b).
(** LogBuffer.cpp:29-38 enable *)
Definition enable (on : bool) (b : buf) : buf :=
  if on then (if lb_max b =? 0 then resize cDefaultBufferSize b else b) else resize 0 b.
(** LogBuffer.cpp:45-49: under the lock, with [max] read there; [None]: pop_front of an empty deque (undefined) *)
Definition pushLocked (max : nat) (x : message) (l : list message) : option (list message) :=
  if length l =? max then match l with [] => None | _ :: r => Some (r ++ [x]) end else Some (l ++ [x]).
(** LogBuffer.cpp:40-50 push *)
Definition push (x : message) (b : buf) : option buf :=
  if lb_max b =? 0 then Some b
  else match pushLocked (lb_max b) x (lb_msgs b) with Some l => Some (mkBuf (lb_max b) l) | None => None end.
(** LogBuffer.cpp:52-62 process: the messages handed to the function, in order *)
Definition process (b : buf) : list message := lb_msgs b.

(** ** one call at a time *)
Inductive call := Push (x : message) | Resize (n : nat) | Enable (on : bool).
Definition lstep (b : buf) (c : call) : option buf :=
  match c with Push x => push x b | Resize n => Some (resize n b) | Enable on => Some (enable on b) end.
Fixpoint lrun (b : buf) (cs : list call) : option buf :=
  match cs with [] => Some b | c :: r => match lstep b c with Some b' => lrun b' r | None => None end end.

(** ** several threads: each call is a sequence of steps between which others may run.
    push: line 42 reads the limit, then lines 45-49 run under the lock.  resize: line 19 reads the limit, lines 20-24 run
    under the lock, line 26 writes the limit. *)
Inductive thread := Idle | PushWait (x : message) | ResizeTrim (n : nat) | ResizeStore (n : nat).
Record shared := mkSh { sh_buf : buf; sh_threads : nat -> thread }.
Definition upd (f : nat -> thread) (k : nat) (v : thread) : nat -> thread := fun x => if x =? k then v else f x.
Inductive outcome := Fine (s : shared) | Broken.
Inductive choice := StartPush (t : nat) (x : message) | StartResize (t : nat) (n : nat) | Continue (t : nat).
Definition tstep (s : shared) (c : choice) : outcome :=
  let b := sh_buf s in
  match c with
  | StartPush t x => match sh_threads s t with
      | Idle => Fine (mkSh b (upd (sh_threads s) t (if lb_max b =? 0 then Idle else PushWait x)))
      | _ => Fine s end
  | StartResize t n => match sh_threads s t with
      | Idle => Fine (mkSh b (upd (sh_threads s) t (if n <? lb_max b then ResizeTrim n else ResizeStore n)))
      | _ => Fine s end
  | Continue t => match sh_threads s t with
      | Idle => Fine s
      | PushWait x => match pushLocked (lb_max b) x (lb_msgs b) with
                      | Some l => Fine (mkSh (mkBuf (lb_max b) l) (upd (sh_threads s) t Idle))
                      | None => Broken end
      | ResizeTrim n => Fine (mkSh (mkBuf (lb_max b) (trim n (lb_msgs b))) (upd (sh_threads s) t (ResizeStore n)))
      | ResizeStore n => Fine (mkSh (mkBuf n (lb_msgs b)) (upd (sh_threads s) t Idle)) end
  end.
Fixpoint trun (s : shared) (cs : list choice) : outcome :=
  match cs with [] => Fine s | c :: r => match tstep s c with Fine s' => trun s' r | Broken => Broken end end.
Definition tnew (n : nat) : shared := mkSh (lb_new n) (fun _ => Idle).
End LogBuffer.
Arguments lb_max {_}. Arguments lb_msgs {_}. Arguments Push {_}. Arguments Resize {_}. Arguments Enable {_}.
Arguments lrun {_}. Arguments lstep {_}. Arguments push {_}. Arguments resize {_}. Arguments enable {_}. Arguments trim {_}. Arguments process {_}. Arguments pushLocked {_}. Arguments mkBuf {_}.
Arguments Idle {_}. Arguments PushWait {_}. Arguments ResizeTrim {_}. Arguments ResizeStore {_}. Arguments mkSh {_}. Arguments sh_buf {_}. Arguments sh_threads {_}.
Arguments Fine {_}. Arguments Broken {_}. Arguments StartPush {_}. Arguments StartResize {_}. Arguments Continue {_}. Arguments trun {_}. Arguments tstep {_}. Arguments upd {_}.
