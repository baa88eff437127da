(** * The wire format of commands (model)

    src/helics/core/ActionMessage.cpp: toByteArray, serializedByteCount, to_string, packetize, fromByteArray,
    depacketize, from_string; src/helics/network/tcp/TcpComms.cpp dataReceive.
    Bytes are [Z] in [0,256).  Reading outside the buffer is an explicit outcome ([Fault]), as is not
    terminating ([NoEnd]).  The JSON form is not modelled: the JSON reader is a parameter [json] which may do
    anything to the message. *)
From Coq Require Import ZArith Bool List Lia.
From Verif Require Import HTime Action.
Import ListNotations.
Open Scope Z_scope.

Definition len {A} (l : list A) : Z := Z.of_nat (length l).

(** ** Integers in memory *)
Fixpoint leBytes (n : nat) (v : Z) : list Z :=
  match n with O => [] | S k => v mod 256 :: leBytes k (v / 256) end.
Fixpoint leVal (l : list Z) : Z := match l with [] => 0 | b :: r => b + 256 * leVal r end.
(** the bytes of an [n] byte integer in the memory of a host ([true]: little endian), and back *)
Definition toMem (host : bool) (n : nat) (v : Z) : list Z := if host then leBytes n v else rev (leBytes n v).
Definition fromMem (host : bool) (l : list Z) : Z := leVal (if host then l else rev l).
(** two's complement *)
Definition signed (n : nat) (u : Z) : Z := if u <? 2 ^ (8 * Z.of_nat n - 1) then u else u - 2 ^ (8 * Z.of_nat n).
(** ActionMessage.cpp:415-421 swap_bytes *)
Definition swapMem (swap : bool) (l : list Z) : list Z := if swap then rev l else l.

(** ActionMessage.cpp:153 maxPayloadSize, 175-176 action_message_base_size, 361-363 frame bytes *)
Definition maxPayload : Z := 16777215.
Definition baseSize : Z := 45.
Definition LEAD : Z := 243.
Definition TAIL1 : Z := 250.
Definition TAIL2 : Z := 252.
Definition BRACE : Z := 123.
(** ActionMessage.cpp:168-172 isLittleEndian *)
Definition endianByte (host : bool) : Z := if host then 1 else 0.

(** ** Encoding *)
(** ActionMessage.cpp:184-191 the size field *)
Definition sizeField (m : amsg) : Z :=
  if m_action m =? CMD_TIME_REQUEST then 0 else if maxPayload <=? len (m_payload m) then maxPayload else len (m_payload m).
(** ActionMessage.cpp:199-203 *)
Definition sizeBytes (s : Z) : list Z := [(s / 65536) mod 256; (s / 256) mod 256; s mod 256].
(** ActionMessage.cpp:204-226: the fixed fields *)
Definition fixedFields (host : bool) (m : amsg) : list Z :=
  toMem host 4 (m_action m) ++ toMem host 4 (m_messageID m) ++ toMem host 4 (m_source_id m) ++ toMem host 4 (m_source_handle m)
  ++ toMem host 4 (m_dest_id m) ++ toMem host 4 (m_dest_handle m) ++ toMem host 2 (m_counter m) ++ toMem host 2 (m_flags m)
  ++ toMem host 4 (m_sequenceID m) ++ toMem host 8 (m_actionTime m).
(** ActionMessage.cpp:256-268: one string *)
Definition stringBytes (host : bool) (s : list Z) : list Z := toMem host 4 (len s) ++ s.
(** ActionMessage.cpp:248-252 the number of strings *)
Definition countByte (m : amsg) : Z := (if maxPayload <=? len (m_payload m) then len (m_strings m) + 1 else len (m_strings m)) mod 256.
(** the bytes written by ActionMessage.cpp:178-281 toByteArray *)
Definition encode (host : bool) (m : amsg) : list Z :=
  endianByte host :: sizeBytes (sizeField m) ++ fixedFields host m ++
  (if m_action m =? CMD_TIME_REQUEST
   then toMem host 8 (m_Te m) ++ toMem host 8 (m_Tdemin m) ++ toMem host 8 (m_Tso m) ++ [0]
   else firstn (Z.to_nat (sizeField m)) (m_payload m) ++ countByte m :: flat_map (stringBytes host) (m_strings m)
        ++ (if maxPayload <? len (m_payload m) then stringBytes host (skipn (Z.to_nat maxPayload) (m_payload m)) else [])).
(** ActionMessage.cpp:283-301 serializedByteCount *)
Definition serializedByteCount (m : amsg) : Z :=
  if m_action m =? CMD_TIME_REQUEST then baseSize + 24
  else baseSize + len (m_payload m) + fold_right (fun s n => 4 + len s + n) 0 (m_strings m) + (if maxPayload <=? len (m_payload m) then 4 else 0).
(** std::string::resize: shortened, or filled up with zeros *)
Definition resize (n : Z) (l : list Z) : list Z := firstn (Z.to_nat n) l ++ repeat 0 (Z.to_nat n - length l).
(** toByteArray into a buffer which is large enough (the sizes of to_string and packetize are checked by
    [C20_size_predicted]): the written bytes replace the first ones of the buffer *)
Definition writeTo (host : bool) (m : amsg) (buf : list Z) : list Z := encode host m ++ skipn (length (encode host m)) buf.
(** ActionMessage.cpp:408-413 to_string(data), 303-314 to_string() without the JSON flag *)
Definition toStringIn (host : bool) (m : amsg) (old : list Z) : list Z := writeTo host m (resize (serializedByteCount m) old).
Definition toString (host : bool) (m : amsg) : list Z := toStringIn host m [].
(** ActionMessage.cpp:384-398 packetize(data), 365-370 packetize() *)
Definition packetizeIn (host : bool) (m : amsg) (old : list Z) : list Z :=
  let data := resize (4 + serializedByteCount m) old in
  LEAD :: sizeBytes (len data) ++ writeTo host m (skipn 4 data) ++ [TAIL1; TAIL2].
Definition packetize (host : bool) (m : amsg) : list Z := packetizeIn host m [].

(** ** Decoding *)
Inductive outcome :=
| Fault                          (* a byte outside the buffer was read *)
| NoEnd                          (* the recursion did not end *)
| Done (m : amsg) (used : Z).
Definition bind {A} (x : option A) (f : A -> outcome) : outcome := match x with Some a => f a | None => Fault end.
(** read [n] bytes at the data pointer *)
Definition take (n : Z) (l : list Z) : option (list Z * list Z) :=
  if len l <? n then None else Some (firstn (Z.to_nat n) l, skipn (Z.to_nat n) l).
Notation "'let*' p := x 'in' k" := (bind x (fun p => k)) (at level 200, p pattern, x at level 100, k at level 200).
Definition invalid (m : amsg) : amsg := set_m_action CMD_INVALID m.

(** ActionMessage.cpp:516-535: the strings; [got] holds those read so far *)
Fixpoint readStrings (host swap : bool) (bs : Z) (n : nat) (tsize : Z) (rest : list Z) (got : list (list Z)) (k : list (list Z) -> Z -> outcome) (m : amsg) : outcome :=
  match n with
  | O => k got tsize
  | S n' =>
      let* (b, rest) := take 4 rest in
      let ssize := fromMem host (swapMem swap b) in
      let tsize := tsize + ssize in
      if bs <? tsize then Done (invalid (set_m_strings got m)) 0
      else let* (s, rest) := take ssize rest in
           readStrings host swap bs n' tsize rest (got ++ [s]) k m
  end.
(** ActionMessage.cpp:440-569: fromByteArray from the size field on.  Fields are assigned in memory order and
    swapped at the end in the code; here each is swapped when it is read (no check looks at them in between).
    ActionMessage.cpp:538-562 does not swap sequenceID. *)
Definition fromFields (host : bool) (m0 : amsg) (buf : list Z) : outcome :=
  let bs := len buf in
  let* (h, rest) := take 4 buf in
  match h with
  | [b0; b1; b2; b3] =>
      let size := 65536 * b1 + 256 * b2 + b3 in
      let tsize := baseSize + size in
      if bs <? tsize then Done (invalid m0) 0
      else
        let swap := negb (b0 =? endianByte host) in
        let rdS n b := signed n (fromMem host (swapMem swap b)) in
        let* (b, rest) := take 4 rest in let m := set_m_action (rdS 4%nat b) m0 in
        let* (b, rest) := take 4 rest in let m := set_m_messageID (rdS 4%nat b) m in
        let* (b, rest) := take 4 rest in let m := set_m_source_id (rdS 4%nat b) m in
        let* (b, rest) := take 4 rest in let m := set_m_source_handle (rdS 4%nat b) m in
        let* (b, rest) := take 4 rest in let m := set_m_dest_id (rdS 4%nat b) m in
        let* (b, rest) := take 4 rest in let m := set_m_dest_handle (rdS 4%nat b) m in
        let* (b, rest) := take 2 rest in let m := set_m_counter (fromMem host (swapMem swap b)) m in
        let* (b, rest) := take 2 rest in let m := set_m_flags (fromMem host (swapMem swap b)) m in
        let* (b, rest) := take 4 rest in let m := set_m_sequenceID (fromMem host b) m in
        let* (b, rest) := take 8 rest in let m := set_m_actionTime (rdS 8%nat b) m in
        let finish m tsize rest :=
          let* (m, rest) := (if 0 <? size then match take size rest with Some (p, rest) => Some (set_m_payload p m, rest) | None => None end else Some (m, rest)) in
          let* (c, rest) := take 1 rest in
          let count := fromMem true c in
          if count =? 0 then Done (set_m_strings [] m) tsize
          else
            let tsize := tsize + 4 * count in
            if bs <? tsize then Done (invalid m) 0
            else readStrings host swap bs (Z.to_nat count) tsize rest []
              (fun strs tsize =>
                 Done (if size =? maxPayload
                       then set_m_payload (m_payload m ++ last strs []) (set_m_strings (removelast strs) m)
                       else set_m_strings strs m) tsize) m in
        if m_action m =? CMD_TIME_REQUEST then
          let tsize := tsize + 24 in
          if bs <? tsize then Done (invalid m) 0
          else
            let* (b, rest) := take 8 rest in let m := set_m_Te (rdS 8%nat b) m in
            let* (b, rest) := take 8 rest in let m := set_m_Tdemin (rdS 8%nat b) m in
            let* (b, rest) := take 8 rest in let m := set_m_Tso (rdS 8%nat b) m in
            finish m tsize rest
        else finish (set_m_Te 0 (set_m_Tdemin 0 (set_m_Tso 0 m))) tsize rest
  | _ => Fault
  end.

Section Json.
(** ActionMessage.cpp:623-664 from_json_string: any function *)
Variable json : amsg -> list Z -> amsg * bool.

(** ActionMessage.cpp:571-603 depacketize; [inner] is fromByteArray.  message_size - 4 is unsigned: below 4 it
    would wrap around and the inner reader be given memory outside the buffer ([Fault]). *)
Definition depackWith (inner : amsg -> list Z -> outcome) (m0 : amsg) (buf : list Z) : outcome :=
  let* b0 := nth_error buf 0 in
  if negb (b0 =? LEAD) then Done m0 0
  else if len buf <? 6 then Done m0 0
  else
    let* b1 := nth_error buf 1 in let* b2 := nth_error buf 2 in let* b3 := nth_error buf 3 in
    let size := (b1 * 256 + b2) * 256 + b3 in
    if len buf <? size + 2 then Done m0 0
    else
      let* t1 := nth_error buf (Z.to_nat size) in
      if negb (t1 =? TAIL1) then Done m0 0
      else
        let* t2 := nth_error buf (Z.to_nat (size + 1)) in
        if negb (t2 =? TAIL2) then Done m0 0
        else if size <? 4 then Fault
        else
          let sub := firstn (Z.to_nat (size - 4)) (skipn 4 buf) in
          match inner m0 sub with
          | Done m1 used =>
              if used =? 0 then let '(m2, ok) := json m1 sub in Done m2 (if ok then size + 2 else 0)
              else Done m1 (size + 2)
          | other => other
          end.
(** ActionMessage.cpp:423-439 and 440-569 fromByteArray; the depth of the recursion is bounded by [fuel] *)
Fixpoint fromBytes (fuel : nat) (host : bool) (m0 : amsg) (buf : list Z) : outcome :=
  match fuel with
  | O => NoEnd
  | S k =>
      if len buf <? baseSize then Done (invalid m0) 0
      else
        let* b0 := nth_error buf 0 in
        match (if b0 =? LEAD then depackWith (fromBytes k host) m0 buf else Done m0 0) with
        | Done m1 used =>
            if 0 <? used then Done m1 used
            else if b0 =? BRACE then Done m1 0
            else fromFields host m1 buf
        | other => other
        end
  end.
(** every call is given a buffer at least 6 bytes shorter than its caller's ([C22]) *)
Definition fromByteArray (host : bool) (m0 : amsg) (buf : list Z) : outcome := fromBytes (S (length buf)) host m0 buf.
Definition depacketize (host : bool) (m0 : amsg) (buf : list Z) : outcome := depackWith (fromByteArray host) m0 buf.
(** ActionMessage.cpp:605-614 from_string (from_vector, 666-677, is the same) *)
Definition fromString (host : bool) (m0 : amsg) (buf : list Z) : outcome :=
  match fromByteArray host m0 buf with
  | Done m1 used =>
      if (used =? 0) && (match buf with b :: _ => b =? BRACE | [] => false end)
      then let '(m2, ok) := json m1 buf in Done m2 (if ok then len buf else used)
      else Done m1 used
  | other => other
  end.
(** src/helics/network/tcp/TcpComms.cpp:98-137 dataReceive: the commands found at the front of the received
    bytes and the number of bytes used (the bytes not used stay in the connection's buffer and are offered again
    with the next data).  The protocol commands which are answered directly are listed with the others. *)
Fixpoint receiveLoop (fuel : nat) (host : bool) (fresh : amsg) (buf : list Z) : option (list amsg * Z) :=
  match fuel with
  | O => None
  | S k =>
      match buf with
      | [] => Some ([], 0)
      | _ =>
          match depacketize host fresh buf with
          | Done m used =>
              if used =? 0 then Some ([], 0)
              else match receiveLoop k host fresh (skipn (Z.to_nat used) buf) with
                   | Some (ms, n) => Some (m :: ms, used + n)
                   | None => None
                   end
          | _ => None
          end
      end
  end.
Definition dataReceive (host : bool) (fresh : amsg) (buf : list Z) : option (list amsg * Z) := receiveLoop (S (length buf)) host fresh buf.
(** a connection which gets its bytes in pieces (gmlc::networking::TcpConnection, a dependency: what was not
    used is put in front of the next piece) *)
Fixpoint receiveChunks (host : bool) (fresh : amsg) (held : list Z) (chunks : list (list Z)) : option (list amsg * list Z) :=
  match chunks with
  | [] => Some ([], held)
  | c :: r =>
      match dataReceive host fresh (held ++ c) with
      | None => None
      | Some (ms, n) =>
          match receiveChunks host fresh (skipn (Z.to_nat n) (held ++ c)) r with
          | Some (ms', h) => Some (ms ++ ms', h)
          | None => None
          end
      end
  end.
End Json.
