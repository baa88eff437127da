(** * Inputs, publications and endpoints (model)

    src/helics/core/InputInfo.{hpp,cpp}, PublicationInfo.{hpp,cpp}, EndpointInfo.{hpp,cpp}: the objects
    which hold the values and messages of one federate.  Payloads and names are byte strings ([list Z]).
    Not modelled: the cached JSON strings (getInjectionType/Units/Targets), unit and type matching, and the
    locks around the message queue (one call is one step). *)
From Coq Require Import ZArith Bool List Lia.
From Verif Require Import HTime Action StableSort.
Import ListNotations.
Open Scope Z_scope.

(** helics_enums.h:351-389 option codes *)
Definition OPT_CONNECTION_REQUIRED : Z := 397.
Definition OPT_CONNECTION_OPTIONAL : Z := 402.
Definition OPT_SINGLE_CONNECTION_ONLY : Z := 407.
Definition OPT_MULTIPLE_CONNECTIONS_ALLOWED : Z := 409.
Definition OPT_BUFFER_DATA : Z := 411.
Definition OPT_STRICT_TYPE_CHECKING : Z := 414.
Definition OPT_RECEIVE_ONLY : Z := 422.
Definition OPT_SEND_ONLY : Z := 423.
Definition OPT_IGNORE_UNIT_MISMATCH : Z := 447.
Definition OPT_ONLY_TRANSMIT_ON_CHANGE : Z := 452.
Definition OPT_ONLY_UPDATE_ON_CHANGE : Z := 454.
Definition OPT_IGNORE_INTERRUPTS : Z := 475.
Definition OPT_INPUT_PRIORITY_LOCATION : Z := 510.
Definition OPT_CLEAR_PRIORITY_LIST : Z := 512.
Definition OPT_CONNECTIONS : Z := 522.
Definition OPT_TIME_RESTRICTED : Z := 557.
(** Time(value, time_units::ms): milliseconds in nanoseconds *)
Definition msTicks : Z := 1000000.

(** ** Byte strings *)
Fixpoint beq (a b : list Z) : bool :=
  match a, b with
  | [], [] => true
  | x :: a, y :: b => (x =? y) && beq a b
  | _, _ => false
  end.
(** std::string operator<: lexicographic *)
Fixpoint blt (a b : list Z) : bool :=
  match a, b with
  | [], [] => false
  | [], _ :: _ => true
  | _ :: _, [] => false
  | x :: a, y :: b => if x <? y then true else if y <? x then false else blt a b
  end.
(** GlobalHandle: federate and interface number (GlobalFederateId.hpp:180-215) *)
Definition ghandle : Type := (Z * Z)%type.
Definition gh_eqb (a b : ghandle) : bool := (fst a =? fst b) && (snd a =? snd b).

(** ** Inputs *)
(** InputInfo.hpp:24-40 dataRecord *)
Record drec : Type := mkRec {
  r_time : Z;
  r_iter : Z;
  r_data : list Z
}.
(** field update of [drec] above (C++ member assignment) *)
Definition set_r_time (v : Z) (r : drec) : drec := mkRec v (r_iter r) (r_data r).
(** field update of [drec] above (C++ member assignment) *)
Definition set_r_iter (v : Z) (r : drec) : drec := mkRec (r_time r) v (r_data r).
(** field update of [drec] above (C++ member assignment) *)
Definition set_r_data (v : list Z) (r : drec) : drec := mkRec (r_time r) (r_iter r) v.

(** InputInfo.hpp:42-51, 79-88: the entries at one index of the parallel vectors input_sources, source_info,
    data_queues, current_data, current_data_time and deactivated (they always have the same length:
    InputInfo.cpp:205-210 is the only place which extends them and none shrinks them). *)
Record isrc : Type := mkSrc {
  s_handle : ghandle;
  s_key : list Z;
  s_type : list Z;
  s_units : list Z;
  s_queue : list drec;
  s_cur : option (list Z);
  s_curTime : Z;
  s_curIter : Z;
  s_deact : Z
}.
(** field update of [isrc] above (C++ member assignment) *)
Definition set_s_handle (v : ghandle) (r : isrc) : isrc := mkSrc v (s_key r) (s_type r) (s_units r) (s_queue r) (s_cur r) (s_curTime r) (s_curIter r) (s_deact r).
(** field update of [isrc] above (C++ member assignment) *)
Definition set_s_key (v : list Z) (r : isrc) : isrc := mkSrc (s_handle r) v (s_type r) (s_units r) (s_queue r) (s_cur r) (s_curTime r) (s_curIter r) (s_deact r).
(** field update of [isrc] above (C++ member assignment) *)
Definition set_s_type (v : list Z) (r : isrc) : isrc := mkSrc (s_handle r) (s_key r) v (s_units r) (s_queue r) (s_cur r) (s_curTime r) (s_curIter r) (s_deact r).
(** field update of [isrc] above (C++ member assignment) *)
Definition set_s_units (v : list Z) (r : isrc) : isrc := mkSrc (s_handle r) (s_key r) (s_type r) v (s_queue r) (s_cur r) (s_curTime r) (s_curIter r) (s_deact r).
(** field update of [isrc] above (C++ member assignment) *)
Definition set_s_queue (v : list drec) (r : isrc) : isrc := mkSrc (s_handle r) (s_key r) (s_type r) (s_units r) v (s_cur r) (s_curTime r) (s_curIter r) (s_deact r).
(** field update of [isrc] above (C++ member assignment) *)
Definition set_s_cur (v : option (list Z)) (r : isrc) : isrc := mkSrc (s_handle r) (s_key r) (s_type r) (s_units r) (s_queue r) v (s_curTime r) (s_curIter r) (s_deact r).
(** field update of [isrc] above (C++ member assignment) *)
Definition set_s_curTime (v : Z) (r : isrc) : isrc := mkSrc (s_handle r) (s_key r) (s_type r) (s_units r) (s_queue r) (s_cur r) v (s_curIter r) (s_deact r).
(** field update of [isrc] above (C++ member assignment) *)
Definition set_s_curIter (v : Z) (r : isrc) : isrc := mkSrc (s_handle r) (s_key r) (s_type r) (s_units r) (s_queue r) (s_cur r) (s_curTime r) v (s_deact r).
(** field update of [isrc] above (C++ member assignment) *)
Definition set_s_deact (v : Z) (r : isrc) : isrc := mkSrc (s_handle r) (s_key r) (s_type r) (s_units r) (s_queue r) (s_cur r) (s_curTime r) (s_curIter r) v.

(** InputInfo.hpp:60-88 *)
Record input : Type := mkInput {
  i_required : bool;
  i_hasTarget : bool;
  i_onChange : bool;
  i_notInt : bool;
  i_strict : bool;
  i_ignoreUnits : bool;
  i_reqConn : Z;
  i_gap : Z;
  i_prio : list Z;
  i_srcs : list isrc;
  i_bytes : Z
}.
(** field update of [input] above (C++ member assignment) *)
Definition set_i_required (v : bool) (r : input) : input := mkInput v (i_hasTarget r) (i_onChange r) (i_notInt r) (i_strict r) (i_ignoreUnits r) (i_reqConn r) (i_gap r) (i_prio r) (i_srcs r) (i_bytes r).
(** field update of [input] above (C++ member assignment) *)
Definition set_i_hasTarget (v : bool) (r : input) : input := mkInput (i_required r) v (i_onChange r) (i_notInt r) (i_strict r) (i_ignoreUnits r) (i_reqConn r) (i_gap r) (i_prio r) (i_srcs r) (i_bytes r).
(** field update of [input] above (C++ member assignment) *)
Definition set_i_onChange (v : bool) (r : input) : input := mkInput (i_required r) (i_hasTarget r) v (i_notInt r) (i_strict r) (i_ignoreUnits r) (i_reqConn r) (i_gap r) (i_prio r) (i_srcs r) (i_bytes r).
(** field update of [input] above (C++ member assignment) *)
Definition set_i_notInt (v : bool) (r : input) : input := mkInput (i_required r) (i_hasTarget r) (i_onChange r) v (i_strict r) (i_ignoreUnits r) (i_reqConn r) (i_gap r) (i_prio r) (i_srcs r) (i_bytes r).
(** field update of [input] above (C++ member assignment) *)
Definition set_i_strict (v : bool) (r : input) : input := mkInput (i_required r) (i_hasTarget r) (i_onChange r) (i_notInt r) v (i_ignoreUnits r) (i_reqConn r) (i_gap r) (i_prio r) (i_srcs r) (i_bytes r).
(** field update of [input] above (C++ member assignment) *)
Definition set_i_ignoreUnits (v : bool) (r : input) : input := mkInput (i_required r) (i_hasTarget r) (i_onChange r) (i_notInt r) (i_strict r) v (i_reqConn r) (i_gap r) (i_prio r) (i_srcs r) (i_bytes r).
(** field update of [input] above (C++ member assignment) *)
Definition set_i_reqConn (v : Z) (r : input) : input := mkInput (i_required r) (i_hasTarget r) (i_onChange r) (i_notInt r) (i_strict r) (i_ignoreUnits r) v (i_gap r) (i_prio r) (i_srcs r) (i_bytes r).
(** field update of [input] above (C++ member assignment) *)
Definition set_i_gap (v : Z) (r : input) : input := mkInput (i_required r) (i_hasTarget r) (i_onChange r) (i_notInt r) (i_strict r) (i_ignoreUnits r) (i_reqConn r) v (i_prio r) (i_srcs r) (i_bytes r).
(** field update of [input] above (C++ member assignment) *)
Definition set_i_prio (v : list Z) (r : input) : input := mkInput (i_required r) (i_hasTarget r) (i_onChange r) (i_notInt r) (i_strict r) (i_ignoreUnits r) (i_reqConn r) (i_gap r) v (i_srcs r) (i_bytes r).
(** field update of [input] above (C++ member assignment) *)
Definition set_i_srcs (v : list isrc) (r : input) : input := mkInput (i_required r) (i_hasTarget r) (i_onChange r) (i_notInt r) (i_strict r) (i_ignoreUnits r) (i_reqConn r) (i_gap r) (i_prio r) v (i_bytes r).
(** field update of [input] above (C++ member assignment) *)
Definition set_i_bytes (v : Z) (r : input) : input := mkInput (i_required r) (i_hasTarget r) (i_onChange r) (i_notInt r) (i_strict r) (i_ignoreUnits r) (i_reqConn r) (i_gap r) (i_prio r) (i_srcs r) v.

(** InputInfo.hpp:53-88 a new input *)
Definition input_new : input := mkInput false false false false false false 0 timeZero [] [] 0.

(** InputInfo.cpp:82-91 recordComparison *)
Definition rlt (a b : drec) : bool :=
  if r_time a <? r_time b then true else if r_time a =? r_time b then r_iter a <? r_iter b else false.
(** InputInfo.cpp:93-106 dataSize *)
Definition bytesOf (l : list drec) : Z := fold_right (fun r n => Z.of_nat (length (r_data r)) + n) 0 l.

(** InputInfo.cpp:159-162 std::upper_bound: the position in front of the first greater record, given as the
    parts before and after it.  (std::upper_bound promises this for an ordered queue, which C13 proves.) *)
Fixpoint upperBound (x : drec) (q : list drec) : list drec * list drec :=
  match q with
  | [] => ([], [])
  | y :: r => if rlt x y then ([], q) else let '(a, b) := upperBound x r in (y :: a, b)
  end.
(** the two tests of InputInfo.cpp:133-142, 146-155, 166-175 against an earlier time and value *)
Definition keeps (gap : Z) (onChange : bool) (t : Z) (d : list Z) (pt : Z) (pd : list Z) : bool :=
  negb ((timeZero <? gap) && (t - pt <? gap)) && negb (onChange && beq pd d).
(** InputInfo.cpp:130-180: the value is for this source; [None] when it is refused *)
Definition addToSource (gap : Z) (onChange : bool) (t it : Z) (d : list Z) (s : isrc) : option isrc :=
  let x := mkRec t it d in
  match lastOf (s_queue s) with
  | None =>
      match s_cur s with
      | Some cd => if keeps gap onChange t d (s_curTime s) cd then Some (set_s_queue [x] s) else None
      | None => Some (set_s_queue [x] s)
      end
  | Some back =>
      if r_time back <? t then
        if keeps gap onChange t d (r_time back) (r_data back) then Some (set_s_queue (s_queue s ++ [x]) s) else None
      else
        let '(a, b) := upperBound x (s_queue s) in
        match lastOf a with
        | None => Some (set_s_queue (a ++ x :: b) s)
        | Some prev => if keeps gap onChange t d (r_time prev) (r_data prev) then Some (set_s_queue (a ++ x :: b) s) else None
        end
  end.
(** InputInfo.cpp:116-129: the first source with this handle *)
Fixpoint addToSources (gap : Z) (onChange : bool) (h : ghandle) (t it : Z) (d : list Z) (l : list isrc) : option (list isrc) :=
  match l with
  | [] => None
  | s :: r =>
      if gh_eqb (s_handle s) h then
        if s_deact s <? t then None
        else match addToSource gap onChange t it d s with Some s' => Some (s' :: r) | None => None end
      else match addToSources gap onChange h t it d r with Some r' => Some (s :: r') | None => None end
  end.
(** InputInfo.cpp:108-181 addData; [None] data is the null pointer *)
Definition addData (i : input) (h : ghandle) (t it : Z) (d : option (list Z)) : input * bool :=
  match d with
  | None => (i, false)
  | Some d =>
      match addToSources (i_gap i) (i_onChange i) h t it d (i_srcs i) with
      | None => (i, false)
      | Some l => (set_i_bytes (i_bytes i + Z.of_nat (length d)) (set_i_srcs l i), true)
      end
  end.

(** InputInfo.cpp:188-201: the loop of addSource; [None] when the source is not there *)
Fixpoint reconnect (h : ghandle) (un : list Z) (l : list isrc) : option (list isrc * bool) :=
  match l with
  | [] => None
  | s :: r =>
      if gh_eqb (s_handle s) h then
        if s_deact s <? maxVal
        then Some (set_s_type un (set_s_units un (set_s_deact maxVal s)) :: r, true)
        else Some (l, false)
      else match reconnect h un r with Some (r', b) => Some (s :: r', b) | None => None end
  end.
(** InputInfo.cpp:183-213 addSource *)
Definition addSource (i : input) (h : ghandle) (name ty un : list Z) : input * bool :=
  match reconnect h un (i_srcs i) with
  | Some (l, b) => (set_i_srcs l i, b)
  | None => (set_i_hasTarget true (set_i_srcs (i_srcs i ++ [mkSrc h name ty un [] None minVal 0 maxVal]) i), true)
  end.
(** InputInfo.cpp:222-224, 241-243 *)
Definition deactivate (m : Z) (s : isrc) : isrc := if m <? s_deact s then set_s_deact m s else s.
(** InputInfo.cpp:215-228 disconnectFederate *)
Definition disconnectFed (i : input) (f m : Z) : input :=
  set_i_srcs (map (fun s => if fst (s_handle s) =? f then deactivate m s else s) (i_srcs i)) i.
(** InputInfo.cpp:237-240, 255-258: pop from the back while later than [m] *)
Fixpoint popLater (m : Z) (rq : list drec) : list drec * Z :=
  match rq with
  | [] => ([], 0)
  | x :: r => if m <? r_time x then let '(q, n) := popLater m r in (q, n + Z.of_nat (length (r_data x))) else (rq, 0)
  end.
Definition cutAfter (m : Z) (s : isrc) : isrc * Z :=
  let '(rq, n) := popLater m (rev (s_queue s)) in (deactivate m (set_s_queue (rev rq) s), n).
Fixpoint cutSources (sel : isrc -> bool) (m : Z) (l : list isrc) : list isrc * Z :=
  match l with
  | [] => ([], 0)
  | s :: r =>
      let '(r', n) := cutSources sel m r in
      if sel s then let '(s', k) := cutAfter m s in (s' :: r', k + n) else (s :: r', n)
  end.
(** InputInfo.cpp:230-247 removeSource by handle, 249-265 by name *)
Definition removeSource (i : input) (h : ghandle) (m : Z) : input :=
  let '(l, n) := cutSources (fun s => gh_eqb (s_handle s) h) m (i_srcs i) in
  set_i_bytes (i_bytes i - n) (set_i_srcs l i).
Definition removeSourceName (i : input) (name : list Z) (m : Z) : input :=
  let '(l, n) := cutSources (fun s => beq (s_key s) name) m (i_srcs i) in
  set_i_bytes (i_bytes i - n) (set_i_srcs l i).
(** InputInfo.cpp:267-273 clearFutureData *)
Definition clearFutureData (i : input) : input := set_i_bytes 0 (set_i_srcs (map (set_s_queue []) (i_srcs i)) i).

(** InputInfo.cpp:470-488 updateData *)
Definition updateData (onChange : bool) (u : drec) (s : isrc) : isrc * bool :=
  let take := (set_s_curIter (r_iter u) (set_s_curTime (r_time u) (set_s_cur (Some (r_data u)) s)), true) in
  match s_cur s with
  | None => take
  | Some cd =>
      if negb onChange then take
      else if negb (beq cd (r_data u)) then take
      else (if s_curTime s =? r_time u then set_s_curIter (r_iter u) s else s, false)
  end.

Inductive advance := UpTo | Inclusive | NextIteration.
(** the loops "while (currentValue != it_final && p) { last = currentValue; ++currentValue; }":
    the last record passed, how many bytes were passed, and the rest of the queue *)
Fixpoint passWhile (p : drec -> bool) (last : drec) (n : Z) (q : list drec) : drec * Z * list drec :=
  match q with
  | [] => (last, n, [])
  | x :: r => if p x then passWhile p x (n + Z.of_nat (length (r_data x))) r else (last, n, q)
  end.
(** InputInfo.cpp:362-380 (up to), 397-424 (next iteration), 441-458 (inclusive): the record to take, the
    bytes removed and what stays; [None] when there is nothing to take *)
Definition passQueue (mode : advance) (t : Z) (q : list drec) : option (drec * Z * list drec) :=
  match q with
  | [] => None
  | x :: r =>
      let n := Z.of_nat (length (r_data x)) in
      match mode with
      | UpTo => if t <=? r_time x then None else Some (passWhile (fun y => r_time y <? t) x n r)
      | Inclusive => if t <? r_time x then None else Some (passWhile (fun y => r_time y <=? t) x n r)
      | NextIteration =>
          if t <? r_time x then None
          else
            let '(last, n, q') := passWhile (fun y => r_time y <? t) x n r in
            match q' with
            | [] => Some (last, n, q')
            | y :: _ =>
                if r_time y =? t
                then Some (passWhile (fun z => (r_time z =? t) && (r_iter z =? r_iter last)) last n q')
                else Some (last, n, q')
            end
      end
  end.
(** one round of the loops at InputInfo.cpp:361-388, 396-432, 440-466 *)
Definition advanceSource (mode : advance) (onChange : bool) (t : Z) (s : isrc) : isrc * bool * Z :=
  match passQueue mode t (s_queue s) with
  | None => (s, false, 0)
  | Some (u, n, q) => let '(s', b) := updateData onChange u s in (set_s_queue q s', b, n)
  end.
Fixpoint advanceSources (mode : advance) (onChange : bool) (t : Z) (l : list isrc) : list isrc * bool * Z :=
  match l with
  | [] => ([], false, 0)
  | s :: r =>
      let '(s', b, n) := advanceSource mode onChange t s in
      let '(r', b', n') := advanceSources mode onChange t r in
      (s' :: r', b || b', n + n')
  end.
(** InputInfo.cpp:357-390 updateTimeUpTo, 392-434 updateTimeNextIteration, 436-468 updateTimeInclusive *)
Definition updateTimeTo (mode : advance) (i : input) (t : Z) : input * bool :=
  let '(l, b, n) := advanceSources mode (i_onChange i) t (i_srcs i) in
  (set_i_bytes (i_bytes i - n) (set_i_srcs l i), b).
(** InputInfo.cpp:490-504 nextValueTime *)
Definition nextValueTime (i : input) : Z :=
  if i_notInt i then maxVal
  else fold_left (fun m s => match s_queue s with x :: _ => if r_time x <? m then r_time x else m | [] => m end) (i_srcs i) maxVal.

(** InputInfo.cpp:39-52 priorityCheck, on the list read from the back *)
Fixpoint priorityScan (a b : Z) (rp : list Z) : bool :=
  match rp with
  | [] => false
  | p :: r => if p =? a then true else if p =? b then false else priorityScan a b r
  end.
Definition priorityCheck (a b : Z) (prio : list Z) : bool := priorityScan a b (rev prio).
(** InputInfo.cpp:56-69: the loop of getData(uint32_t* ) *)
Fixpoint newestLoop (prio : list Z) (ind mx mxTime : Z) (l : list isrc) : Z :=
  match l with
  | [] => mx
  | s :: r =>
      if mxTime <? s_curTime s then newestLoop prio (ind + 1) ind (s_curTime s) r
      else if (s_curTime s =? mxTime) && priorityCheck ind mx prio then newestLoop prio (ind + 1) ind mxTime r
      else newestLoop prio (ind + 1) mx mxTime r
  end.
(** InputInfo.cpp:54-80 getData(uint32_t* ): the data (null when there is none) and the index reported *)
Definition getData (i : input) : option (list Z) * Z :=
  let mx := newestLoop (i_prio i) 0 (-1) minVal (i_srcs i) in
  if 0 <=? mx then (match nth_error (i_srcs i) (Z.to_nat mx) with Some s => s_cur s | None => None end, mx)
  else (None, 0).

Definition z2b (v : Z) : bool := negb (v =? 0).
Definition b2z (b : bool) : Z := if b then 1 else 0.
(** InputInfo.cpp:506-549 setProperty *)
Definition inputSetProperty (o v : Z) (i : input) : input :=
  let b := z2b v in
  if o =? OPT_IGNORE_INTERRUPTS then set_i_notInt b i
  else if o =? OPT_ONLY_UPDATE_ON_CHANGE then set_i_onChange b i
  else if o =? OPT_CONNECTION_REQUIRED then set_i_required b i
  else if o =? OPT_CONNECTION_OPTIONAL then set_i_required (negb b) i
  else if o =? OPT_SINGLE_CONNECTION_ONLY then set_i_reqConn (if b then 1 else 0) i
  else if o =? OPT_MULTIPLE_CONNECTIONS_ALLOWED then set_i_reqConn (if b then 0 else 1) i
  else if o =? OPT_STRICT_TYPE_CHECKING then set_i_strict b i
  else if o =? OPT_IGNORE_UNIT_MISMATCH then set_i_ignoreUnits b i
  else if o =? OPT_CONNECTIONS then set_i_reqConn v i
  else if o =? OPT_INPUT_PRIORITY_LOCATION then set_i_prio (i_prio i ++ [v]) i
  else if o =? OPT_CLEAR_PRIORITY_LIST then set_i_prio [] i
  else if o =? OPT_TIME_RESTRICTED then set_i_gap (v * msTicks) i
  else i.
(** InputInfo.cpp:551-589 getProperty *)
Definition inputGetProperty (o : Z) (i : input) : Z :=
  if o =? OPT_IGNORE_INTERRUPTS then b2z (i_notInt i)
  else if o =? OPT_ONLY_UPDATE_ON_CHANGE then b2z (i_onChange i)
  else if o =? OPT_CONNECTION_REQUIRED then b2z (i_required i)
  else if o =? OPT_CONNECTION_OPTIONAL then b2z (negb (i_required i))
  else if o =? OPT_SINGLE_CONNECTION_ONLY then b2z (i_reqConn i =? 1)
  else if o =? OPT_MULTIPLE_CONNECTIONS_ALLOWED then b2z (negb (i_reqConn i =? 1))
  else if o =? OPT_STRICT_TYPE_CHECKING then b2z (i_strict i)
  else if o =? OPT_CONNECTIONS then Z.of_nat (length (i_srcs i))
  else if o =? OPT_INPUT_PRIORITY_LOCATION then match lastOf (i_prio i) with Some p => p | None => -1 end
  else if o =? OPT_CLEAR_PRIORITY_LIST then b2z (match i_prio i with [] => true | _ => false end)
  else if o =? OPT_TIME_RESTRICTED then i_gap i / msTicks
  else 0.

(** ** Publications *)
(** PublicationInfo.hpp:36-49 *)
Record pubinfo : Type := mkPub {
  p_subs : list (ghandle * list Z);
  p_data : list Z;
  p_last : Z;
  p_onChange : bool;
  p_required : bool;
  p_buffer : bool;
  p_reqConn : Z;
  p_gap : Z
}.
(** field update of [pubinfo] above (C++ member assignment) *)
Definition set_p_subs (v : list (ghandle * list Z)) (r : pubinfo) : pubinfo := mkPub v (p_data r) (p_last r) (p_onChange r) (p_required r) (p_buffer r) (p_reqConn r) (p_gap r).
(** field update of [pubinfo] above (C++ member assignment) *)
Definition set_p_data (v : list Z) (r : pubinfo) : pubinfo := mkPub (p_subs r) v (p_last r) (p_onChange r) (p_required r) (p_buffer r) (p_reqConn r) (p_gap r).
(** field update of [pubinfo] above (C++ member assignment) *)
Definition set_p_last (v : Z) (r : pubinfo) : pubinfo := mkPub (p_subs r) (p_data r) v (p_onChange r) (p_required r) (p_buffer r) (p_reqConn r) (p_gap r).
(** field update of [pubinfo] above (C++ member assignment) *)
Definition set_p_onChange (v : bool) (r : pubinfo) : pubinfo := mkPub (p_subs r) (p_data r) (p_last r) v (p_required r) (p_buffer r) (p_reqConn r) (p_gap r).
(** field update of [pubinfo] above (C++ member assignment) *)
Definition set_p_required (v : bool) (r : pubinfo) : pubinfo := mkPub (p_subs r) (p_data r) (p_last r) (p_onChange r) v (p_buffer r) (p_reqConn r) (p_gap r).
(** field update of [pubinfo] above (C++ member assignment) *)
Definition set_p_buffer (v : bool) (r : pubinfo) : pubinfo := mkPub (p_subs r) (p_data r) (p_last r) (p_onChange r) (p_required r) v (p_reqConn r) (p_gap r).
(** field update of [pubinfo] above (C++ member assignment) *)
Definition set_p_reqConn (v : Z) (r : pubinfo) : pubinfo := mkPub (p_subs r) (p_data r) (p_last r) (p_onChange r) (p_required r) (p_buffer r) v (p_gap r).
(** field update of [pubinfo] above (C++ member assignment) *)
Definition set_p_gap (v : Z) (r : pubinfo) : pubinfo := mkPub (p_subs r) (p_data r) (p_last r) (p_onChange r) (p_required r) (p_buffer r) (p_reqConn r) v.

Definition pub_new : pubinfo := mkPub [] [] timeZero false false false 0 timeZero.
(** PublicationInfo.cpp:18-39 CheckSetValue *)
Definition checkSetValue (p : pubinfo) (d : list Z) (t : Z) (force : bool) : pubinfo * bool :=
  if (timeZero <? p_gap p) && (t - p_last p <? p_gap p) then (p, false)
  else if p_onChange p || force then
    if negb (beq d (p_data p)) then (set_p_last t (set_p_data d p), true) else (p, false)
  else (set_p_last t (if p_buffer p then set_p_data d p else p), true).
(** PublicationInfo.cpp:41-50 addSubscriber *)
Definition addSubscriber (p : pubinfo) (h : ghandle) (name : list Z) : pubinfo * bool :=
  if existsb (fun s => gh_eqb (fst s) h) (p_subs p) then (p, false) else (set_p_subs (p_subs p ++ [(h, name)]) p, true).
(** PublicationInfo.cpp:52-60 disconnectFederate, 62-70 removeSubscriber *)
Definition pubDisconnect (p : pubinfo) (f : Z) : pubinfo := set_p_subs (filter (fun s => negb (fst (fst s) =? f)) (p_subs p)) p.
Definition removeSubscriber (p : pubinfo) (h : ghandle) : pubinfo := set_p_subs (filter (fun s => negb (gh_eqb (fst s) h)) (p_subs p)) p.
(** PublicationInfo.cpp:72-103 setProperty *)
Definition pubSetProperty (o v : Z) (p : pubinfo) : pubinfo :=
  let b := z2b v in
  if o =? OPT_ONLY_TRANSMIT_ON_CHANGE then set_p_onChange b p
  else if o =? OPT_CONNECTION_REQUIRED then set_p_required b p
  else if o =? OPT_CONNECTION_OPTIONAL then set_p_required (negb b) p
  else if o =? OPT_SINGLE_CONNECTION_ONLY then set_p_reqConn (if b then 1 else 0) p
  else if o =? OPT_MULTIPLE_CONNECTIONS_ALLOWED then set_p_reqConn (if negb b then 0 else 1) p
  else if o =? OPT_BUFFER_DATA then set_p_buffer b p
  else if o =? OPT_CONNECTIONS then set_p_reqConn v p
  else if o =? OPT_TIME_RESTRICTED then set_p_gap (v * msTicks) p
  else p.
(** PublicationInfo.cpp:105-135 getProperty *)
Definition pubGetProperty (o : Z) (p : pubinfo) : Z :=
  if o =? OPT_ONLY_TRANSMIT_ON_CHANGE then b2z (p_onChange p)
  else if o =? OPT_CONNECTION_REQUIRED then b2z (p_required p)
  else if o =? OPT_CONNECTION_OPTIONAL then b2z (negb (p_required p))
  else if o =? OPT_SINGLE_CONNECTION_ONLY then b2z (p_reqConn p =? 1)
  else if o =? OPT_MULTIPLE_CONNECTIONS_ALLOWED then b2z (negb (p_reqConn p =? 1))
  else if o =? OPT_BUFFER_DATA then b2z (p_buffer p)
  else if o =? OPT_CONNECTIONS then Z.of_nat (length (p_subs p))
  else if o =? OPT_TIME_RESTRICTED then p_gap p / msTicks
  else 0.

(** ** Endpoints *)
(** src/helics/core/core-data.hpp Message: the fields the queue looks at, and the rest *)
Record emsg : Type := mkEMsg {
  em_time : Z;
  em_osrc : list Z;
  em_rest : list Z
}.
(** field update of [emsg] above (C++ member assignment) *)
Definition set_em_time (v : Z) (r : emsg) : emsg := mkEMsg v (em_osrc r) (em_rest r).
(** field update of [emsg] above (C++ member assignment) *)
Definition set_em_osrc (v : list Z) (r : emsg) : emsg := mkEMsg (em_time r) v (em_rest r).
(** field update of [emsg] above (C++ member assignment) *)
Definition set_em_rest (v : list Z) (r : emsg) : emsg := mkEMsg (em_time r) (em_osrc r) v.

(** EndpointInfo.hpp:44-60 *)
Record epinfo : Type := mkEp {
  ep_queue : list emsg;
  ep_avail : Z;
  ep_sources : list (ghandle * list Z);
  ep_targets : list (ghandle * list Z);
  ep_required : bool;
  ep_sourceOnly : bool;
  ep_receiveOnly : bool;
  ep_reqConn : Z
}.
(** field update of [epinfo] above (C++ member assignment) *)
Definition set_ep_queue (v : list emsg) (r : epinfo) : epinfo := mkEp v (ep_avail r) (ep_sources r) (ep_targets r) (ep_required r) (ep_sourceOnly r) (ep_receiveOnly r) (ep_reqConn r).
(** field update of [epinfo] above (C++ member assignment) *)
Definition set_ep_avail (v : Z) (r : epinfo) : epinfo := mkEp (ep_queue r) v (ep_sources r) (ep_targets r) (ep_required r) (ep_sourceOnly r) (ep_receiveOnly r) (ep_reqConn r).
(** field update of [epinfo] above (C++ member assignment) *)
Definition set_ep_sources (v : list (ghandle * list Z)) (r : epinfo) : epinfo := mkEp (ep_queue r) (ep_avail r) v (ep_targets r) (ep_required r) (ep_sourceOnly r) (ep_receiveOnly r) (ep_reqConn r).
(** field update of [epinfo] above (C++ member assignment) *)
Definition set_ep_targets (v : list (ghandle * list Z)) (r : epinfo) : epinfo := mkEp (ep_queue r) (ep_avail r) (ep_sources r) v (ep_required r) (ep_sourceOnly r) (ep_receiveOnly r) (ep_reqConn r).
(** field update of [epinfo] above (C++ member assignment) *)
Definition set_ep_required (v : bool) (r : epinfo) : epinfo := mkEp (ep_queue r) (ep_avail r) (ep_sources r) (ep_targets r) v (ep_sourceOnly r) (ep_receiveOnly r) (ep_reqConn r).
(** field update of [epinfo] above (C++ member assignment) *)
Definition set_ep_sourceOnly (v : bool) (r : epinfo) : epinfo := mkEp (ep_queue r) (ep_avail r) (ep_sources r) (ep_targets r) (ep_required r) v (ep_receiveOnly r) (ep_reqConn r).
(** field update of [epinfo] above (C++ member assignment) *)
Definition set_ep_receiveOnly (v : bool) (r : epinfo) : epinfo := mkEp (ep_queue r) (ep_avail r) (ep_sources r) (ep_targets r) (ep_required r) (ep_sourceOnly r) v (ep_reqConn r).
(** field update of [epinfo] above (C++ member assignment) *)
Definition set_ep_reqConn (v : Z) (r : epinfo) : epinfo := mkEp (ep_queue r) (ep_avail r) (ep_sources r) (ep_targets r) (ep_required r) (ep_sourceOnly r) (ep_receiveOnly r) v.

Definition ep_new : epinfo := mkEp [] 0 [] [] false false false 0.
(** EndpointInfo.cpp:112-117 msgSorter *)
Definition mlt (a b : emsg) : bool :=
  if negb (em_time a =? em_time b) then em_time a <? em_time b else blt (em_osrc a) (em_osrc b).
(** EndpointInfo.cpp:119-124 addMessage; std::stable_sort is [isort] (the order a stable sort must produce) *)
Definition addMessage (e : epinfo) (m : emsg) : epinfo := set_ep_queue (isort mlt (ep_queue e ++ [m])) e.
(** EndpointInfo.cpp:26-36, 47-57, 68-78: count from the front while [p] *)
Fixpoint countWhile (p : emsg -> bool) (q : list emsg) : Z :=
  match q with
  | [] => 0
  | m :: r => if p m then 1 + countWhile p r else 0
  end.
(** EndpointInfo.cpp:23-42 updateTimeUpTo, 44-63 updateTimeNextIteration, 65-84 updateTimeInclusive *)
Definition epUpdateTime (mode : advance) (e : epinfo) (t : Z) : epinfo * bool :=
  let n := countWhile (fun m => match mode with UpTo => negb (t <=? em_time m) | _ => negb (t <? em_time m) end) (ep_queue e) in
  if n =? ep_avail e then (e, false) else (set_ep_avail n e, true).
(** EndpointInfo.cpp:86-103 getMessage *)
Definition getMessage (e : epinfo) (t : Z) : epinfo * option emsg :=
  if 0 <? ep_avail e then
    match ep_queue e with
    | [] => (e, None)
    | m :: r => if em_time m <=? t then (set_ep_queue r (set_ep_avail (ep_avail e - 1) e), Some m) else (e, None)
    end
  else (e, None).
(** EndpointInfo.cpp:105-109 firstMessageTime *)
Definition firstMessageTime (e : epinfo) : Z := match ep_queue e with [] => maxVal | m :: _ => em_time m end.
(** EndpointInfo.cpp:126-130 clearQueue *)
Definition clearQueue (e : epinfo) : epinfo := set_ep_queue [] (set_ep_avail 0 e).
(** EndpointInfo.cpp:152-164 queueSize, 166-178 queueSizeUpTo *)
Definition queueSize (e : epinfo) (t : Z) : Z := countWhile (fun m => em_time m <=? t) (ep_queue e).
Definition queueSizeUpTo (e : epinfo) (t : Z) : Z := countWhile (fun m => em_time m <? t) (ep_queue e).
(** EndpointInfo.cpp:180-209 addDestination, addSource *)
Definition epAddTarget (e : epinfo) (h : ghandle) (name : list Z) : epinfo :=
  if existsb (fun s => gh_eqb (fst s) h) (ep_targets e) then e else set_ep_targets (ep_targets e ++ [(h, name)]) e.
Definition epAddSource (e : epinfo) (h : ghandle) (name : list Z) : epinfo :=
  if existsb (fun s => gh_eqb (fst s) h) (ep_sources e) then e else set_ep_sources (ep_sources e ++ [(h, name)]) e.
(** EndpointInfo.cpp:212-235 removeTarget, 237-261 disconnectFederate *)
Definition epRemove (e : epinfo) (h : ghandle) : epinfo :=
  set_ep_sources (filter (fun s => negb (gh_eqb (fst s) h)) (ep_sources e))
    (set_ep_targets (filter (fun s => negb (gh_eqb (fst s) h)) (ep_targets e)) e).
Definition epDisconnect (e : epinfo) (f : Z) : epinfo :=
  set_ep_sources (filter (fun s => negb (fst (fst s) =? f)) (ep_sources e))
    (set_ep_targets (filter (fun s => negb (fst (fst s) =? f)) (ep_targets e)) e).
(** EndpointInfo.cpp:351-379 setProperty *)
Definition epSetProperty (o v : Z) (e : epinfo) : epinfo :=
  let b := z2b v in
  if o =? OPT_CONNECTION_REQUIRED then set_ep_required b e
  else if o =? OPT_CONNECTION_OPTIONAL then set_ep_required (negb b) e
  else if o =? OPT_SEND_ONLY then set_ep_sourceOnly b e
  else if o =? OPT_RECEIVE_ONLY then set_ep_receiveOnly b e
  else if o =? OPT_SINGLE_CONNECTION_ONLY then set_ep_reqConn (if b then 1 else 0) e
  else if o =? OPT_MULTIPLE_CONNECTIONS_ALLOWED then set_ep_reqConn (if negb b then 0 else 1) e
  else if o =? OPT_CONNECTIONS then set_ep_reqConn v e
  else e.
(** EndpointInfo.cpp:381-409 getProperty *)
Definition epGetProperty (o : Z) (e : epinfo) : Z :=
  if o =? OPT_CONNECTION_REQUIRED then b2z (ep_required e)
  else if o =? OPT_CONNECTION_OPTIONAL then b2z (negb (ep_required e))
  else if o =? OPT_SINGLE_CONNECTION_ONLY then b2z (ep_reqConn e =? 1)
  else if o =? OPT_SEND_ONLY then b2z (ep_sourceOnly e)
  else if o =? OPT_RECEIVE_ONLY then b2z (ep_receiveOnly e)
  else if o =? OPT_MULTIPLE_CONNECTIONS_ALLOWED then b2z (negb (ep_reqConn e =? 1))
  else if o =? OPT_CONNECTIONS then Z.of_nat (length (ep_targets e))
  else 0.

(** ** Histories *)
(** the calls FederateState makes on an input *)
Inductive iop :=
| I_add (h : ghandle) (t it : Z) (d : option (list Z))
| I_advance (mode : advance) (t : Z)
| I_addSource (h : ghandle) (name ty un : list Z)
| I_remove (h : ghandle) (m : Z)
| I_removeName (name : list Z) (m : Z)
| I_disconnect (f m : Z)
| I_clear
| I_set (o v : Z).
Definition istep (i : input) (o : iop) : input * bool :=
  match o with
  | I_add h t it d => addData i h t it d
  | I_advance mode t => updateTimeTo mode i t
  | I_addSource h n ty un => addSource i h n ty un
  | I_remove h m => (removeSource i h m, true)
  | I_removeName n m => (removeSourceName i n m, true)
  | I_disconnect f m => (disconnectFed i f m, true)
  | I_clear => (clearFutureData i, true)
  | I_set o v => (inputSetProperty o v i, true)
  end.
Fixpoint irun (i : input) (os : list iop) : input :=
  match os with [] => i | o :: r => irun (fst (istep i o)) r end.

(** the calls on an endpoint; a receive returns a message or nothing *)
Inductive eop :=
| E_add (m : emsg)
| E_advance (mode : advance) (t : Z)
| E_receive (t : Z)
| E_clear.
Definition estep (e : epinfo) (o : eop) : epinfo * option emsg :=
  match o with
  | E_add m => (addMessage e m, None)
  | E_advance mode t => (fst (epUpdateTime mode e t), None)
  | E_receive t => getMessage e t
  | E_clear => (clearQueue e, None)
  end.
Fixpoint erun (e : epinfo) (os : list eop) : epinfo * list emsg :=
  match os with
  | [] => (e, [])
  | o :: r => let '(e1, m) := estep e o in let '(e2, ms) := erun e1 r in
              (e2, match m with Some x => x :: ms | None => ms end)
  end.

(** successive publish calls: data, time, whether the federate forces the change check *)
Fixpoint prun (p : pubinfo) (ps : list (list Z * Z * bool)) : pubinfo * list (list Z * Z) :=
  match ps with
  | [] => (p, [])
  | (d, t, fc) :: r => let '(p1, b) := checkSetValue p d t fc in let '(p2, out) := prun p1 r in
                       (p2, if b then (d, t) :: out else out)
  end.
