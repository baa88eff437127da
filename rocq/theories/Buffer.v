(** * Payload buffers (model)

    src/helics/core/SmallBuffer.hpp.  The memory is explicit: every buffer object has its 64 inline bytes, and blocks are
    allocated and freed.  Reading or writing outside a block or an object, through a pointer to a freed block or a
    destroyed object, and freeing a block twice are undefined ([None]).  Uninitialized memory holds arbitrary bytes (the
    parameter [J], by block and position).
    Simplified: sizes are natural numbers (no wrap of size_t); the argument of assign/append is a list of bytes held
    elsewhere, except for [AppendSelf]; [userKey] is not modelled. *)
From Coq Require Import ZArith Bool List Lia PeanoNat.
Import ListNotations.

Definition oid := nat.
Definition bid := nat.
(** where a pointer points: the inline array of an object, or an allocated block *)
Inductive ptr := PIn (o : oid) | PBlk (b : bid).
(** SmallBuffer.hpp:391-398 the members *)
Record sb := mkSB { b_in : list Z; b_size : nat; b_cap : nat; b_heap : ptr; b_span : bool; b_locked : bool; b_alloc : bool; b_err : Z }.
(** [m_user]: the blocks which belong to the program, not to a buffer *)
Record mem := mkMem { m_objs : oid -> option sb; m_blks : bid -> option (list Z); m_next : bid; m_user : bid -> bool }.

Definition fupd {A} (f : nat -> A) (k : nat) (v : A) : nat -> A := fun x => if Nat.eqb x k then v else f x.
Definition setObj (o : oid) (x : option sb) (m : mem) : mem := mkMem (fupd (m_objs m) o x) (m_blks m) (m_next m) (m_user m).
Definition setBlk (b : bid) (l : option (list Z)) (m : mem) : mem := mkMem (m_objs m) (fupd (m_blks m) b l) (m_next m) (m_user m).
Definition bytesOf (m : mem) (p : ptr) : option (list Z) :=
  match p with PIn o => match m_objs m o with Some x => Some (b_in x) | None => None end | PBlk b => m_blks m b end.
(** read [n] bytes at [p + off] *)
Definition rd (m : mem) (p : ptr) (off n : nat) : option (list Z) :=
  match bytesOf m p with Some l => if off + n <=? length l then Some (firstn n (skipn off l)) else None | None => None end.
(** overwrite at position [off] *)
Definition splice (off : nat) (d l : list Z) : list Z := firstn off l ++ d ++ skipn (off + length d) l.
Definition setIn (x : sb) (l : list Z) : sb := mkSB l (b_size x) (b_cap x) (b_heap x) (b_span x) (b_locked x) (b_alloc x) (b_err x).
Definition wr (m : mem) (p : ptr) (off : nat) (d : list Z) : option mem :=
  match p with
  | PIn o => match m_objs m o with
             | Some x => if off + length d <=? length (b_in x) then Some (setObj o (Some (setIn x (splice off d (b_in x)))) m) else None
             | None => None end
  | PBlk b => match m_blks m b with
              | Some l => if off + length d <=? length l then Some (setBlk b (Some (splice off d l)) m) else None
              | None => None end
  end.
(** delete[] *)
Definition free (m : mem) (p : ptr) : option mem :=
  match p with PBlk b => match m_blks m b with Some _ => Some (setBlk b None m) | None => None end | PIn _ => None end.
Definition junk (J : bid -> nat -> Z) (b : bid) (n : nat) : list Z := map (J b) (seq 0 n).
(** new std::byte[n] *)
Definition alloc (J : bid -> nat -> Z) (m : mem) (n : nat) : mem * bid :=
  (mkMem (m_objs m) (fupd (m_blks m) (m_next m) (Some (junk J (m_next m) n))) (S (m_next m)) (fupd (m_user m) (m_next m) false), m_next m).
(** memory [cap] bytes long obtained by the program outside the buffer class, starting with [d]; [user]: it stays the program's *)
Definition foreign (J : bid -> nat -> Z) (m : mem) (user : bool) (d : list Z) (cap : nat) : mem * bid :=
  (mkMem (m_objs m) (fupd (m_blks m) (m_next m) (Some (d ++ junk J (m_next m) (cap - length d)))) (S (m_next m)) (fupd (m_user m) (m_next m) user), m_next m).

Definition sizeB (n : nat) (x : sb) : sb := mkSB (b_in x) n (b_cap x) (b_heap x) (b_span x) (b_locked x) (b_alloc x) (b_err x).
Definition lockB (l : bool) (x : sb) : sb := mkSB (b_in x) (b_size x) (b_cap x) (b_heap x) (b_span x) l (b_alloc x) (b_err x).
Definition errB (e : Z) (x : sb) : sb := mkSB (b_in x) (b_size x) (b_cap x) (b_heap x) (b_span x) (b_locked x) (b_alloc x) e.
(** heap pointer, capacity, ownership *)
Definition storeB (p : ptr) (cap : nat) (span alloc : bool) (x : sb) : sb := mkSB (b_in x) (b_size x) cap p span (b_locked x) alloc (b_err x).

(** the result of an operation: undefined, or the memory and whether std::bad_alloc was thrown *)
Definition res := option (mem * bool).
Definition andThen (r : res) (k : mem -> res) : res :=
  match r with Some (m, false) => k m | _ => r end.
Definition obind {A} (x : option A) (k : A -> res) : res := match x with Some a => k a | None => None end.
Definition ok (m : mem) : res := Some (m, false).
Definition withObj (m : mem) (o : oid) (k : sb -> res) : res := match m_objs m o with Some x => k x | None => None end.
Definition setB (o : oid) (f : sb -> sb) (m : mem) : res := withObj m o (fun x => ok (setObj o (Some (f x)) m)).

(** SmallBuffer.hpp:307 *)
Definition bigSize : Z := 1099511627776.
(** SmallBuffer.hpp:305-322 reserve *)
Definition reserve (J : bid -> nat -> Z) (o : oid) (n : nat) (m : mem) : res :=
  withObj m o (fun x =>
    if b_cap x <? n then
      if (bigSize <? Z.of_nat n)%Z || b_locked x then Some (m, true)
      else let (m1, b) := alloc J m (n + 8) in
           obind (rd m1 (b_heap x) 0 (b_size x)) (fun d =>
           obind (wr m1 (PBlk b) 0 d) (fun m2 =>
           obind (if b_alloc x && negb (b_span x) then free m2 (b_heap x) else Some m2) (fun m3 =>
           setB o (storeB (PBlk b) (n + 8) false true) m3)))
    else ok m).
(** SmallBuffer.hpp:292-296 resize(size) *)
Definition resize (J : bid -> nat -> Z) (o : oid) (n : nat) (m : mem) : res := andThen (reserve J o n m) (setB o (sizeB n)).
(** SmallBuffer.hpp:297-304 resize(size, val) *)
Definition resizeFill (J : bid -> nat -> Z) (o : oid) (n : nat) (v : Z) (m : mem) : res :=
  andThen (reserve J o n m) (fun m => withObj m o (fun x =>
    obind (if b_size x <? n then wr m (b_heap x) (b_size x) (repeat v (n - b_size x)) else Some m) (fun m =>
    setB o (sizeB n) m))).
(** memcpy(heap + off, d) *)
Definition store (o : oid) (off : nat) (d : list Z) (m : mem) : res :=
  withObj m o (fun x => obind (wr m (b_heap x) off d) ok).
(** SmallBuffer.hpp:201-206, 190-200 assign; 146-158 operator=(string) of other memory *)
Definition assign (J : bid -> nat -> Z) (o : oid) (d : list Z) (m : mem) : res :=
  andThen (resize J o (length d) m) (store o 0 d).
(** SmallBuffer.hpp:207-232 append; 234 push_back *)
Definition append (J : bid -> nat -> Z) (o : oid) (d : list Z) (m : mem) : res :=
  withObj m o (fun x => andThen (resize J o (b_size x + length d) m) (store o (b_size x) d)).
(** append of [n] bytes of the buffer's own contents from [i] on: the pointer is taken before the resize *)
Definition appendSelf (J : bid -> nat -> Z) (o : oid) (i n : nat) (m : mem) : res :=
  withObj m o (fun x => andThen (resize J o (b_size x + n) m) (fun m => obind (rd m (b_heap x) i n) (fun d => store o (b_size x) d m))).
(** SmallBuffer.hpp:84-92 operator=(const&) *)
Definition copy (J : bid -> nat -> Z) (o s : oid) (m : mem) : res :=
  if Nat.eqb o s then ok m
  else withObj m s (fun y => andThen (resize J o (b_size y) m) (fun m => obind (rd m (b_heap y) 0 (b_size y)) (fun d => store o 0 d m))).
(** SmallBuffer.hpp:27 the empty buffer *)
Definition fresh (o : oid) (inl : list Z) : sb := mkSB inl 0 64 (PIn o) false false false 0.
Definition zeros64 : list Z := repeat 0%Z 64.
Definition create (o : oid) (m : mem) : mem := setObj o (Some (fresh o zeros64)) m.
(** the object is not created when its constructor throws *)
Definition construct (o : oid) (r : res) : res := match r with Some (m, true) => Some (setObj o None m, true) | _ => r end.
(** SmallBuffer.hpp:35-51 the move constructor *)
Definition moveNew (o s : oid) (m : mem) : res :=
  withObj m s (fun y =>
    let m1 := create o m in
    let emptied m := setObj s (Some (mkSB (b_in y) 0 64 (PIn s) (b_span y) (b_locked y) false (b_err y))) m in
    if b_alloc y then ok (emptied (setObj o (Some (mkSB zeros64 (b_size y) (b_cap y) (b_heap y) (b_span y) false true 0)) m1))
    else obind (rd m1 (b_heap y) 0 (b_size y)) (fun d =>
         obind (wr m1 (PIn o) 0 d) (fun m2 => andThen (setB o (sizeB (b_size y)) m2) (fun m => ok (emptied m))))).
(** SmallBuffer.hpp:93-143 operator=(&&); a thrown bad_alloc is kept in errorCondition *)
Definition ptrEq (p q : ptr) : bool := match p, q with PIn a, PIn b => Nat.eqb a b | PBlk a, PBlk b => Nat.eqb a b | _, _ => false end.
Definition move (J : bid -> nat -> Z) (o s : oid) (m : mem) : res :=
  withObj m o (fun x => withObj m s (fun y =>
    if b_locked x then
      match copy J o s m with Some (m', true) => setB o (errB 2) m' | r => r end
    else if b_alloc x && ptrEq (b_heap y) (b_heap x) then
      setB o (fun x => mkSB (b_in x) (b_size y) (if b_span x then b_cap y else b_cap x) (b_heap x) (b_span x) (b_locked x) (b_alloc x) (b_err x)) m
    else obind (if b_alloc x && negb (b_span x) then free m (b_heap x) else Some m) (fun m =>
      andThen
       (if b_alloc y then setB o (storeB (b_heap y) (b_cap y) (b_span y) true) m
        else obind (rd m (b_heap y) 0 (b_size y)) (fun d => obind (wr m (PIn o) 0 d) (setB o (storeB (PIn o) 64 false false))))
       (fun m =>
      andThen (setB o (fun x => lockB (b_locked y) (sizeB (b_size y) x)) m)
       (setB s (fun y => mkSB (b_in y) 0 64 (PIn s) (b_span y) false false (b_err y))))))).
(** SmallBuffer.hpp:78-83 the destructor *)
Definition destroy (o : oid) (m : mem) : res :=
  withObj m o (fun x => obind (if b_alloc x && negb (b_span x) then free m (b_heap x) else Some m) (fun m => ok (setObj o None m))).
(** SmallBuffer.hpp:338-373 swap *)
Definition swap (o s : oid) (m : mem) : res :=
  withObj m o (fun x => withObj m s (fun y =>
    if Nat.eqb o s then ok m   (* each exchange of a member with itself changes nothing *)
    else if b_alloc y && b_alloc x then
      ok (setObj s (Some (mkSB (b_in y) (b_size x) (b_cap x) (b_heap x) (b_span x) (b_locked y) true (b_err y)))
         (setObj o (Some (mkSB (b_in x) (b_size y) (b_cap y) (b_heap y) (b_span y) (b_locked x) true (b_err x))) m))
    else if b_alloc x then
      andThen (setB s (storeB (b_heap x) (b_cap x) (b_span x) true) m) (fun m =>
      andThen (setB o (storeB (PIn o) 64 false false) m) (fun m =>
      obind (rd m (PIn s) 0 (b_size y)) (fun d => obind (wr m (PIn o) 0 d) (fun m =>
      andThen (setB s (sizeB (b_size x)) m) (setB o (sizeB (b_size y)))))))
    else if b_alloc y then
      andThen (setB o (storeB (b_heap y) (b_cap y) (b_span y) true) m) (fun m =>
      andThen (setB s (storeB (PIn o) 64 false false) m) (fun m =>     (* line 364: sb2.heap = buffer.data() *)
      obind (rd m (PIn o) 0 (b_size x)) (fun d => obind (wr m (PIn o) 0 d) (fun m =>
      andThen (setB s (sizeB (b_size x)) m) (setB o (sizeB (b_size y)))))))
    else
      ok (setObj s (Some (mkSB (b_in x) (b_size x) (b_cap y) (b_heap y) (b_span y) (b_locked y) (b_alloc y) (b_err y)))
         (setObj o (Some (mkSB (b_in y) (b_size y) (b_cap x) (b_heap x) (b_span x) (b_locked x) (b_alloc x) (b_err x))) m)))).
(** SmallBuffer.hpp:243-252 null_terminate *)
Definition popBack (o : oid) (m : mem) : res := setB o (fun x => sizeB (b_size x - 1) x) m.
Definition nullTerminate (J : bid -> nat -> Z) (o : oid) (m : mem) : res :=
  withObj m o (fun x => if b_size x <? b_cap x then store o (b_size x) [0%Z] m else andThen (append J o [0%Z] m) (popBack o)).
(** SmallBuffer.hpp:256-270 moveAssign of a new block (never the one held), 272-291 spanAssign of the same *)
Definition adopt (J : bid -> nat -> Z) (span : bool) (o : oid) (d : list Z) (cap : nat) (m : mem) : res :=
  let (m, b) := foreign J m span d cap in
  withObj m o (fun x => obind (if b_alloc x && negb (b_span x) then free m (b_heap x) else Some m) (fun m =>
    setB o (fun x => mkSB (b_in x) (length d) cap (PBlk b) span false true (b_err x)) m)).
(** SmallBuffer.hpp:375-388 release: the block is the program's from now on *)
Definition release (o : oid) (m : mem) : res :=
  withObj m o (fun x => if b_alloc x then
    ok (mkMem (fupd (m_objs m) o (Some (mkSB (b_in x) 0 64 (PIn o) false false false (b_err x)))) (m_blks m) (m_next m)
         (match b_heap x with PBlk b => fupd (m_user m) b true | PIn _ => m_user m end)) else ok m).

Inductive op :=
| New (o : oid) | NewFrom (o : oid) (d : list Z) | NewSize (o : oid) (n : nat) | NewFill (o : oid) (n : nat) (v : Z)
| CopyNew (o s : oid) | MoveNew (o s : oid) | Destroy (o : oid)
| Copy (o s : oid) | Move (o s : oid) | Swap (o s : oid)
| Assign (o : oid) (d : list Z) | Append (o : oid) (d : list Z) | AppendSelf (o : oid) (i n : nat)
| PopBack (o : oid) | NullTerminate (o : oid) | Clear (o : oid)
| Resize (o : oid) (n : nat) | ResizeFill (o : oid) (n : nat) (v : Z) | Reserve (o : oid) (n : nat)
| Lock (o : oid) (l : bool) | SetByte (o : oid) (i : nat) (v : Z)
| SpanAssign (o : oid) (d : list Z) (cap : nat) | MoveAssign (o : oid) (d : list Z) (cap : nat) | Release (o : oid).

(** one operation *)
Definition step (J : bid -> nat -> Z) (p : op) (m : mem) : res :=
  match p with
  | New o => ok (create o m)                                                             (* 27 *)
  | NewFrom o d => construct o (assign J o d (create o m))                               (* 53-66 *)
  | NewSize o n => construct o (resize J o n (create o m))                               (* 68 *)
  | NewFill o n v => construct o (resizeFill J o n v (create o m))                       (* 71-76 *)
  | CopyNew o s => construct o (copy J o s (create o m))                                 (* 29-33 *)
  | MoveNew o s => moveNew o s m
  | Destroy o => destroy o m
  | Copy o s => copy J o s m
  | Move o s => move J o s m
  | Swap o s => swap o s m
  | Assign o d => assign J o d m
  | Append o d => append J o d m
  | AppendSelf o i n => appendSelf J o i n m
  | PopBack o => popBack o m                                                             (* 236 *)
  | NullTerminate o => nullTerminate J o m
  | Clear o => setB o (sizeB 0) m                                                        (* 335 *)
  | Resize o n => resize J o n m
  | ResizeFill o n v => resizeFill J o n v m
  | Reserve o n => reserve J o n m
  | Lock o l => setB o (lockB l) m                                                       (* 323 *)
  | SetByte o i v => store o i [v] m                                                     (* 170-188: heap[i] = v *)
  | SpanAssign o d cap => adopt J true o d cap m
  | MoveAssign o d cap => adopt J false o d cap m
  | Release o => release o m
  end.
Definition empty : mem := mkMem (fun _ => None) (fun _ => None) 0 (fun _ => false).

(** SmallBuffer.hpp:238-241 to_string, 331-333 size, capacity, 325 isLocked *)
Definition text (m : mem) (o : oid) : option (list Z) := match m_objs m o with Some x => rd m (b_heap x) 0 (b_size x) | None => None end.
Definition live (m : mem) (o : oid) : Prop := m_objs m o <> None.
Definition capacity (m : mem) (o : oid) : nat := match m_objs m o with Some x => b_cap x | None => 0 end.
Definition isLocked (m : mem) (o : oid) : bool := match m_objs m o with Some x => b_locked x | None => false end.
(** whether the bytes are outside the object (SmallBuffer.hpp:397) *)
Definition onHeap (m : mem) (o : oid) : bool := match m_objs m o with Some x => b_alloc x | None => false end.
(** SmallBuffer.hpp:160 data() *)
Definition dataPtr (m : mem) (o : oid) : option ptr := match m_objs m o with Some x => Some (b_heap x) | None => None end.
