(** * The interface registry (model)

    src/helics/core/HandleManager.cpp, HandleManager.hpp, BasicHandleInfo.hpp; CommonCore::checkNewInterface.
    Names are byte strings.  The std::unordered_map's are lists of pairs searched from the front; their string_view keys point
    into stable storage (the deque of handles, alias_names), which is not modelled except for the vectors of aliases: changing
    one of them while it is being iterated over is an explicit outcome ([Broken]).
    An exception leaves the object as it was at the throw: operations return the state and a flag "thrown".
    Units, tags and flags of a handle are not modelled (options: see C31). *)
From Coq Require Import ZArith Bool List Lia.
From Verif Require Import HTime Action Interfaces Ids.
Import ListNotations.
Open Scope Z_scope.

Definition name := list Z.
(** std::string_view operator<: lexicographic, unsigned bytes *)
Fixpoint nameLt (a b : name) : bool :=
  match a, b with
  | _, [] => false
  | [], _ :: _ => true
  | x :: a, y :: b => if x <? y then true else if y <? x then false else nameLt a b
  end.

(** std::unordered_map: find, try_emplace/emplace (no effect when present), erase, operator[] = v *)
Section Map.
Context {A : Type}.
Fixpoint find (n : name) (m : list (name * A)) : option A :=
  match m with
  | [] => None
  | (k, v) :: r => if beq k n then Some v else find n r
  end.
Definition emplace (n : name) (v : A) (m : list (name * A)) : list (name * A) := match find n m with Some _ => m | None => m ++ [(n, v)] end.
Definition erase (n : name) (m : list (name * A)) : list (name * A) := filter (fun p => negb (beq (fst p) n)) m.
Fixpoint assign (n : name) (v : A) (m : list (name * A)) : list (name * A) :=
  match m with
  | [] => [(n, v)]
  | (k, w) :: r => if beq k n then (k, v) :: r else (k, w) :: assign n v r
  end.
End Map.

(** CoreTypes.hpp:112-120 *)
Inductive kind := UNKNOWN | PUBLICATION | INPUT | ENDPOINT | FILTER | TRANSLATOR | SINK.
Definition kind_eqb (a b : kind) : bool :=
  match a, b with
  | UNKNOWN, UNKNOWN | PUBLICATION, PUBLICATION | INPUT, INPUT | ENDPOINT, ENDPOINT | FILTER, FILTER | TRANSLATOR, TRANSLATOR | SINK, SINK => true
  | _, _ => false
  end.
(** BasicHandleInfo.hpp:20-61; the default constructed one has invalid ids and no name *)
Record info := mkInfo { h_id : Z * Z; h_kind : kind; h_key : name; h_type : name; h_units : name }.
Definition blank : info := mkInfo (invalidId, invalidHandle) UNKNOWN [] [] [].

(** the four search maps *)
Inductive table := Pubs | Epts | Inps | Filts.
Definition amap := list (name * list name).
(** HandleManager.hpp:28-48 *)
Record hm := mkHM { handles : list info; pubs : list (name * nat); epts : list (name * nat); inps : list (name * nat); filts : list (name * nat);
                    uids : list ((Z * Z) * nat); aliases : amap }.
Definition emptyHM : hm := mkHM [] [] [] [] [] [] [].
Definition tab (t : table) (s : hm) : list (name * nat) := match t with Pubs => pubs s | Epts => epts s | Inps => inps s | Filts => filts s end.
Definition setTab (t : table) (m : list (name * nat)) (s : hm) : hm :=
  match t with
  | Pubs => mkHM (handles s) m (epts s) (inps s) (filts s) (uids s) (aliases s)
  | Epts => mkHM (handles s) (pubs s) m (inps s) (filts s) (uids s) (aliases s)
  | Inps => mkHM (handles s) (pubs s) (epts s) m (filts s) (uids s) (aliases s)
  | Filts => mkHM (handles s) (pubs s) (epts s) (inps s) m (uids s) (aliases s)
  end.
Definition setHandles (l : list info) (s : hm) : hm := mkHM l (pubs s) (epts s) (inps s) (filts s) (uids s) (aliases s).
Definition setUids (u : list ((Z * Z) * nat)) (s : hm) : hm := mkHM (handles s) (pubs s) (epts s) (inps s) (filts s) u (aliases s).
Definition setAliases (a : amap) (s : hm) : hm := mkHM (handles s) (pubs s) (epts s) (inps s) (filts s) (uids s) a.

(** unique_ids: keyed by the 64 bit key of the global handle, which identifies it (C26); [handleEq] is its operator== *)
Fixpoint findUid (h : Z * Z) (u : list ((Z * Z) * nat)) : option nat :=
  match u with [] => None | (k, i) :: r => if handleEq k h then Some i else findUid h r end.
Definition emplaceUid (h : Z * Z) (i : nat) (u : list ((Z * Z) * nat)) := match findUid h u with Some _ => u | None => u ++ [(h, i)] end.
Definition eraseUid (h : Z * Z) (u : list ((Z * Z) * nat)) := filter (fun p => negb (handleEq (fst p) h)) u.

(** HandleManager.cpp:546-566 addFields: true = thrown.  The aliases are passed by value there *)
Fixpoint emplaceAll (l : list name) (i : nat) (m : list (name * nat)) : list (name * nat) * bool :=
  match l with
  | [] => (m, false)
  | a :: r => match find a m with Some _ => (m, true) | None => emplaceAll r i (emplace a i m) end
  end.
Definition addFields (key : name) (i : nat) (al : amap) (m : list (name * nat)) : list (name * nat) * bool :=
  match find key m with
  | Some _ => (m, true)
  | None =>
    let m := emplace key i m in
    match find key al with
    | None => (m, false)
    | Some l => emplaceAll l i m
    end
  end.
(** HandleManager.cpp:570-597: the maps an interface is entered into, in this order *)
Definition tablesOf (k : kind) : list table :=
  match k with
  | ENDPOINT => [Epts] | PUBLICATION => [Pubs] | FILTER => [Filts] | INPUT => [Inps]
  | TRANSLATOR => [Pubs; Epts; Inps] | SINK => [Epts; Inps] | UNKNOWN => []
  end.
Fixpoint addToTables (l : list table) (key : name) (i : nat) (s : hm) : hm * bool :=
  match l with
  | [] => (s, false)
  | t :: r =>
    let '(m, thrown) := addFields key i (aliases s) (tab t s) in
    let s := setTab t m s in
    if thrown then (s, true) else addToTables r key i s
  end.
(** HandleManager.cpp:568-600 addSearchFields *)
Definition addSearchFields (h : info) (i : nat) (s : hm) : hm * bool :=
  let '(s, thrown) := if match h_key h with [] => true | _ => false end then (s, false) else addToTables (tablesOf (h_kind h)) (h_key h) i s in
  if thrown then (s, true) else (setUids (emplaceUid (h_id h) i (uids s)) s, false).
(** HandleManager.cpp:601-630 generateName: base and the number of handles.  The text is left open: [gen] *)
Section Gen.
Variable gen : kind -> nat -> name.
Definition actKey (k : kind) (key : name) (s : hm) : name := match key with [] => gen k (length (handles s)) | _ => key end.
(** HandleManager.cpp:16-27 addHandle of a core: the handle is the index *)
Definition addHandleLocal (fed : Z) (k : kind) (key ty un : name) (s : hm) : hm * bool :=
  let i := length (handles s) in
  let h := mkInfo (fed, Z.of_nat i) k (actKey k key s) ty un in
  addSearchFields h i (setHandles (handles s ++ [h]) s).
(** HandleManager.cpp:29-41 addHandle of a broker *)
Definition addHandle (fed handle : Z) (k : kind) (key ty un : name) (s : hm) : hm * bool :=
  let i := length (handles s) in
  let h := mkInfo (fed, handle) k (actKey k key s) ty un in
  addSearchFields h i (setHandles (handles s ++ [h]) s).
End Gen.
Fixpoint setNth {A} (i : nat) (x : A) (l : list A) : list A :=
  match l, i with
  | [], _ => []
  | _ :: r, O => x :: r
  | y :: r, S i => y :: setNth i x r
  end.
(** HandleManager.cpp:50-88 removeHandle *)
Definition eraseTables (l : list table) (key : name) (s : hm) : hm := fold_left (fun s t => setTab t (erase key (tab t s)) s) l s.
Definition removeTables (k : kind) : list table :=
  match k with
  | ENDPOINT => [Epts] | PUBLICATION => [Pubs] | FILTER => [Filts] | INPUT => [Inps]
  | TRANSLATOR => [Inps; Epts; Pubs] | SINK => [Inps; Epts] | UNKNOWN => []
  end.
Definition removeHandle (h : Z * Z) (s : hm) : hm :=
  match findUid h (uids s) with
  | None => s
  | Some i =>
    let inf := nth i (handles s) blank in
    let s := setUids (eraseUid h (uids s)) s in
    let s := match h_key inf with [] => s | _ => eraseTables (removeTables (h_kind inf)) (h_key inf) s end in
    setHandles (setNth i blank (handles s)) s
  end.
(** HandleManager.cpp:90-97 removeFederateHandles: over every index of the deque *)
Definition removeFederateHandles (fed : Z) (s : hm) : hm :=
  fold_left (fun s i => let h := nth i (handles s) blank in if fst (h_id h) =? fed then removeHandle (h_id h) s else s) (seq 0 (length (handles s))) s.
(** HandleManager.cpp:99-114 addHandleAtIndex; overwriting a live entry also leaves the old search fields *)
Definition addHandleAtIndex (h : info) (index : Z) (s : hm) : hm * bool :=
  if index =? Z.of_nat (length (handles s)) then addSearchFields h (length (handles s)) (setHandles (handles s ++ [h]) s)
  else if (0 <=? index) && (index <? Z.of_nat (length (handles s))) then
    addSearchFields h (Z.to_nat index) (setHandles (setNth (Z.to_nat index) h (handles s)) s)
  else if 0 <? index then
    let l := handles s ++ repeat blank (Z.to_nat index + 1 - length (handles s)) in
    addSearchFields h (Z.to_nat index) (setHandles (setNth (Z.to_nat index) h l) s)
  else (s, false).
(** HandleManager.cpp:115-149 getHandleInfo *)
Definition getHandleInfo (index : Z) (s : hm) : option info :=
  if (0 <=? index) && (index <? Z.of_nat (length (handles s))) then nth_error (handles s) (Z.to_nat index) else None.
(** HandleManager.cpp:151-169 findHandle; [Some None]: index outside the deque *)
Inductive found := Null | Found (i : nat) (h : info) | Outside.
Definition deref (i : nat) (s : hm) : found := match nth_error (handles s) i with Some h => Found i h | None => Outside end.
Definition findHandle (h : Z * Z) (s : hm) : found := match findUid h (uids s) with Some i => deref i s | None => Null end.
(** HandleManager.cpp:264-298 getMap *)
Definition getMap (k : kind) : table := match k with PUBLICATION => Pubs | INPUT => Inps | FILTER => Filts | _ => Epts end.
(** HandleManager.cpp:300-340 getInterfaceHandle by name *)
Definition getInterfaceHandle (n : name) (k : kind) (s : hm) : found :=
  match find n (tab (getMap k) s) with
  | None => Null
  | Some i =>
    match deref i s with
    | Found i h =>
      match k with
      | TRANSLATOR => match h_kind h with TRANSLATOR => Found i h | _ => Null end
      | SINK => match h_kind h with SINK => Found i h | _ => Null end
      | _ => Found i h
      end
    | r => r
    end
  end.
(** HandleManager.cpp:247-262 interfaceTypeMatch; 370-395 getInterfaceHandle by index *)
Definition interfaceTypeMatch (given expected : kind) : bool :=
  kind_eqb given expected ||
  match expected with
  | PUBLICATION => kind_eqb given TRANSLATOR
  | INPUT | ENDPOINT => kind_eqb given TRANSLATOR || kind_eqb given SINK
  | _ => false
  end.
Definition getInterfaceHandleAt (index : Z) (k : kind) (s : hm) : option info :=
  match getHandleInfo index s with
  | Some h => if interfaceTypeMatch (h_kind h) k then Some h else None
  | None => None
  end.

(** HandleManager.cpp:518-545 addAliasName.  std::lower_bound on the sorted vector: the first element not below [a] *)
Fixpoint lowerInsert (a : name) (v : list name) : option (list name) :=   (* None: present *)
  match v with
  | [] => Some [a]
  | x :: r => if nameLt x a then option_map (cons x) (lowerInsert a r) else if beq x a then None else Some (a :: v)
  end.
(** [Broken]: a vector was changed while being iterated over; [Deep]: the recursion of the model ran out of fuel *)
Inductive outcome := Done (al : amap) (cascading : bool) | Broken | Deep.
Fixpoint addAliasName (fuel : nat) (busy : list name) (al : amap) (i a : name) : outcome :=
  match fuel with
  | O => Deep
  | S n =>
    if beq i a then Done al false
    else
      match find i al with
      | None => addAliasName n busy (assign i [a] al) a i
      | Some v =>
        match lowerInsert a v with
        | None => Done al false
        | Some v' =>
          if existsb (beq i) busy then Broken
          else
            let loop := (fix loop (l : list name) (al : amap) : outcome :=
              match l with
              | [] => Done al true
              | o :: r => match addAliasName n (i :: busy) al o a with Done al _ => loop r al | x => x end
              end) in
            match loop v' (assign i v' al) with
            | Done al _ => match addAliasName n busy al a i with Done al _ => Done al true | x => x end
            | x => x
            end
        end
      end
  end.
(** HandleManager.cpp:454-516 addPublicationAlias, addEndpointAlias, addFilterAlias, addInputAlias: one map each, the same body *)
Definition addTableAlias (i a : name) (m : list (name * nat)) : list (name * nat) * bool :=
  match find i m with
  | Some x =>
    match find a m with
    | Some y => (m, negb (Nat.eqb y x))
    | None => (emplace a x m, false)
    end
  | None =>
    match find a m with
    | Some y => (emplace i y m, false)
    | None => (m, false)
    end
  end.
Fixpoint addTableAliases (l : list table) (i a : name) (s : hm) : hm * bool :=
  match l with
  | [] => (s, false)
  | t :: r => let '(m, thrown) := addTableAlias i a (tab t s) in let s := setTab t m s in if thrown then (s, true) else addTableAliases r i a s
  end.
(** HandleManager.cpp:417-420, 427-430, ...: the order of the calls *)
Definition aliasTables : list table := [Pubs; Inps; Epts; Filts].
Fixpoint cascadeAliases (l : list name) (skip i : name) (s : hm) : hm * bool :=
  match l with
  | [] => (s, false)
  | o :: r => if beq o skip then cascadeAliases r skip i s
              else let '(s, thrown) := addTableAliases aliasTables o i s in if thrown then (s, true) else cascadeAliases r skip i s
  end.
(** one half of HandleManager.cpp:403-452 addAlias: lines 412-430 with (i, a), lines 433-447 with (a, i); [skip] is alias both times *)
Inductive aliasResult := AOk (s : hm) (thrown : bool) | ABroken | ADeep.
Definition vecOf (n : name) (al : amap) : list name := match find n al with Some v => v | None => [] end.
Definition fuelFor (al : amap) : nat := (length al + 2) * (length al + 2) + 2.
Definition addAliasHalf (i a skip : name) (s : hm) : aliasResult :=
  match addAliasName (fuelFor (aliases s)) [] (aliases s) i a with
  | Done al cascade =>
    let s := setAliases al s in
    let '(s, thrown) := if cascade then cascadeAliases (vecOf i al) skip i s else (s, false) in
    if thrown then AOk s true else let '(s, thrown) := addTableAliases aliasTables i a s in AOk s thrown
  | Broken => ABroken
  | Deep => ADeep
  end.
(** HandleManager.cpp:403-452 addAlias *)
Definition addAlias (i a : name) (s : hm) : aliasResult :=
  match addAliasHalf i a a s with
  | AOk s false => addAliasHalf a i a s
  | r => r
  end.

(** CommonCore.cpp:1298-1304 checkNewInterface, name part: true = refused *)
Definition nameTaken (key : name) (k : kind) (s : hm) : bool :=
  match key with [] => false | _ => match getInterfaceHandle key k s with Null => false | _ => true end end.
