(** * The root broker: matching of connection requests with interfaces (model)

    src/helics/core/UnknownHandleManager.cpp and the parts of CoreBroker.cpp which use it, for a root broker (isRootc).
    A std::unordered_multimap is a list of pairs in order of insertion; the order in which the code walks through equal keys is
    that of the list here and is not relied on by the theorems (they count).  Messages are reduced to the fields used for
    connections.  mFederates is a total function (the code dereferences the result of mFederates.find unchecked);
    transmit/routeMessage/broadcast only record the message.  Not modelled: the JSON reply of the queries, log lines, the text
    of errors, propagateError's escalation (terminate_on_error), time monitors and time dependencies (see TimeCoord.v). *)
From Coq Require Import ZArith Bool List Lia.
From Verif Require Import HTime Action Interfaces Ids Handles.
Import ListNotations.
Open Scope Z_scope.

(** flagOperations.hpp:43-80 *)
Definition destination_target := 1.
Definition reconnectable_flag := 7.
Definition optional_flag := 8.
Definition clone_flag := 9.

(** UnknownHandleManager.hpp:22 TargetInfo: the requester and the flags of its request *)
Definition target := ((Z * Z) * Z)%type.
(** UnknownHandleManager.cpp:96-124 getTargets (both) *)
Definition getTargets {A} (n : name) (m : list (name * A)) : list A := map snd (filter (fun p => beq (fst p) n) m).
(** the four maps of links: unknown_links, unknown_endpoint_links, unknown_src_filters, unknown_dest_filters (UnknownHandleManager.hpp:33-40) *)
Inductive linkTab := LData | LEpt | LSrc | LDst.
Definition table_eqb (a b : table) : bool := match a, b with Pubs, Pubs | Epts, Epts | Inps, Inps | Filts, Filts => true | _, _ => false end.
Definition linkTab_eqb (a b : linkTab) : bool := match a, b with LData, LData | LEpt, LEpt | LSrc, LSrc | LDst, LDst => true | _, _ => false end.
Definition setAt {A} (t : table) (m : A) (f : table -> A) : table -> A := fun t' => if table_eqb t t' then m else f t'.
Definition setLinkAt {A} (t : linkTab) (m : A) (f : linkTab -> A) : linkTab -> A := fun t' => if linkTab_eqb t t' then m else f t'.
(** UnknownHandleManager.hpp:25-48: unknown_publications, ... ; the links; reconnectable_publications, ... *)
Record unknowns := mkUnk { unk : table -> list (name * target); lnk : linkTab -> list (name * name); recon : table -> list (name * target) }.
Definition noUnknowns : unknowns := mkUnk (fun _ => []) (fun _ => []) (fun _ => []).
(** UnknownHandleManager.cpp:19-45 addUnknown*; 48-73 addReconnectable*; 75-94 addDataLink, addEndpointLink, addSourceFilterLink, addDestinationFilterLink *)
Definition addUnknown (t : table) (n : name) (x : target) (u : unknowns) : unknowns := mkUnk (setAt t (unk u t ++ [(n, x)]) (unk u)) (lnk u) (recon u).
Definition addReconnectable (t : table) (n : name) (x : target) (u : unknowns) : unknowns := mkUnk (unk u) (lnk u) (setAt t (recon u t ++ [(n, x)]) (recon u)).
Definition addLink (l : linkTab) (s d : name) (u : unknowns) : unknowns := mkUnk (unk u) (setLinkAt l (lnk u l ++ [(s, d)]) (lnk u)) (recon u).
(** UnknownHandleManager.cpp:126-190 checkFor* *)
Definition checkFor (t : table) (n : name) (u : unknowns) : list target := getTargets n (unk u t).
Definition checkForLinks (l : linkTab) (n : name) (u : unknowns) : list name := getTargets n (lnk u l).
Definition checkForReconnection (t : table) (n : name) (u : unknowns) : list target := getTargets n (recon u t).
(** UnknownHandleManager.cpp:323-349 clearInput, clearPublication, clearEndpoint, clearFilter *)
Definition eraseUnk (t : table) (n : name) (u : unknowns) : unknowns := mkUnk (setAt t (erase n (unk u t)) (unk u)) (lnk u) (recon u).
Definition eraseLnk (l : linkTab) (n : name) (u : unknowns) : unknowns := mkUnk (unk u) (setLinkAt l (erase n (lnk u l)) (lnk u)) (recon u).
Definition clearInput (n : name) (u : unknowns) : unknowns := eraseUnk Inps n u.
Definition clearPublication (n : name) (u : unknowns) : unknowns := eraseLnk LData n (eraseUnk Pubs n u).
Definition clearEndpoint (n : name) (u : unknowns) : unknowns := eraseLnk LEpt n (eraseUnk Epts n u).
Definition clearFilter (n : name) (u : unknowns) : unknowns := eraseLnk LDst n (eraseLnk LSrc n (eraseUnk Filts n u)).
(** UnknownHandleManager.cpp:351-362 maperase_if; 364-371 clearFederateUnknowns; 373-386 clearUnknownsIf *)
Definition clearUnknownsIf (p : table -> name * target -> bool) (u : unknowns) : unknowns := mkUnk (fun t => filter (fun e => negb (p t e)) (unk u t)) (lnk u) (recon u).
Definition clearFederateUnknowns (fed : Z) (u : unknowns) : unknowns := clearUnknownsIf (fun _ e => fst (fst (snd e)) =? fed) u.
Definition empty {A} (l : list A) : bool := match l with [] => true | _ => false end.
(** UnknownHandleManager.cpp:192-197 hasUnknowns *)
Definition hasUnknowns (u : unknowns) : bool :=
  negb (empty (unk u Pubs) && empty (unk u Epts) && empty (unk u Inps) && empty (unk u Filts) &&
        empty (lnk u LData) && empty (lnk u LEpt) && empty (lnk u LDst) && empty (lnk u LSrc)).
Definition flagged (f : Z) (e : name * target) : bool := checkActionFlag (snd (snd e)) f.
(** UnknownHandleManager.cpp:199-214 hasNonOptionalUnknowns *)
Definition hasNonOptionalUnknowns (u : unknowns) : bool :=
  if negb (empty (lnk u LData) && empty (lnk u LEpt) && empty (lnk u LDst) && empty (lnk u LSrc)) then true
  else negb (forallb (flagged optional_flag) (unk u Pubs) && forallb (flagged optional_flag) (unk u Inps) &&
             forallb (flagged optional_flag) (unk u Epts) && forallb (flagged optional_flag) (unk u Filts)).
(** UnknownHandleManager.cpp:216-226 hasRequiredUnknowns *)
Definition hasRequiredUnknowns (u : unknowns) : bool :=
  existsb (flagged required_flag) (unk u Pubs) || existsb (flagged required_flag) (unk u Inps) ||
  existsb (flagged required_flag) (unk u Epts) || existsb (flagged required_flag) (unk u Filts).
(** UnknownHandleManager.cpp:228-243 processUnknowns; 264-291 processNonOptionalUnknowns; 293-320 processRequiredUnknowns: the calls made *)
Definition allUnknowns (u : unknowns) : list (table * (name * target)) :=
  map (pair Pubs) (unk u Pubs) ++ map (pair Epts) (unk u Epts) ++ map (pair Inps) (unk u Inps) ++ map (pair Filts) (unk u Filts).
Definition nonOptionalUnknowns (u : unknowns) := filter (fun p => negb (flagged optional_flag (snd p))) (allUnknowns u).
Definition requiredUnknowns (u : unknowns) := filter (fun p => flagged required_flag (snd p)) (allUnknowns u).
(** UnknownHandleManager.cpp:245-262 processUnknownLinks: origin and its kind, target and its kind *)
Definition allLinks (u : unknowns) : list ((name * kind) * (name * kind)) :=
  map (fun p => ((fst p, PUBLICATION), (snd p, INPUT))) (lnk u LData) ++ map (fun p => ((fst p, ENDPOINT), (snd p, ENDPOINT))) (lnk u LEpt) ++
  map (fun p => ((fst p, FILTER), (snd p, ENDPOINT))) (lnk u LDst) ++ map (fun p => ((fst p, FILTER), (snd p, ENDPOINT))) (lnk u LSrc).

(** ActionMessage, the fields used here; MISSING_ERROR/MISSING_WARNING: CMD_ERROR, CMD_WARNING with CONNECTION_FAILURE to the requester;
    STOP_ERROR: the broadcast CMD_ERROR (its destination is not used); REFUSED: CMD_LOCAL_ERROR with REGISTRATION_FAILURE; ALIAS_ERROR: CMD_ERROR *)
Inductive verb := ADD_SUBSCRIBER | ADD_PUBLISHER | ADD_ENDPOINT | ADD_FILTER | MISSING_ERROR | MISSING_WARNING | STOP_ERROR | REFUSED | ALIAS_ERROR.
Record notice := mkN { n_verb : verb; n_src : Z * Z; n_dst : Z * Z; n_flags : Z; n_name : name; n_type : name; n_units : name }.
(** the broker: [bad f]: mFederates[f].state >= ERROR_STATE; [fl]: BasicHandleInfo::flags of the handles *)
Record rb := mkRB { hs : hm; fl : list ((Z * Z) * Z); bad : Z -> bool; un : unknowns; operating : bool }.
Definition start : rb := mkRB emptyHM [] (fun _ => false) noUnknowns false.
Definition setUn (u : unknowns) (b : rb) : rb := mkRB (hs b) (fl b) (bad b) u (operating b).
Definition setHs (s : hm) (b : rb) : rb := mkRB s (fl b) (bad b) (un b) (operating b).
Fixpoint flagsIn (h : Z * Z) (l : list ((Z * Z) * Z)) : Z := match l with [] => 0 | (k, v) :: r => if handleEq k h then v else flagsIn h r end.
Definition flagsOf (h : Z * Z) (b : rb) : Z := flagsIn h (fl b).
(** an exception out of the broker's processing, or the dereference of a null pointer *)
Inductive res := Ok (b : rb) (out : list notice) | Crash.
Definition bind (r : res) (f : rb -> res) : res := match r with Ok b o => match f b with Ok b' o' => Ok b' (o ++ o') | Crash => Crash end | Crash => Crash end.

(** CMD_ADD_NAMED_PUBLICATION/INPUT/ENDPOINT/FILTER: [q_ept]: counter == InterfaceType::ENDPOINT; [q_strings]: the string data, if any *)
Record req := mkReq { q_tab : table; q_name : name; q_src : Z * Z; q_flags : Z; q_ept : bool; q_strings : option (name * name) }.
Definition tabKind (t : table) : kind := match t with Pubs => PUBLICATION | Inps => INPUT | Epts => ENDPOINT | Filts => FILTER end.
Definition str1 (s : option (name * name)) : name := match s with Some p => fst p | None => [] end.
Definition str2 (s : option (name * name)) : name := match s with Some p => snd p | None => [] end.
(** BasicHandleInfo.hpp:25-35: a handle without name *)
Definition bare (h : Z * Z) (k : kind) : info := mkInfo h k [] [] [].

Section Broker.
Variable gen : kind -> nat -> name.

(** CoreBroker.cpp:1795-1913: the interface is known.  Messages in the order sent: to the interface, then to the requester *)
Definition connectNow (q : req) (x : info) (b : rb) : list notice :=
  let isBad := bad b (fst (h_id x)) in
  match q_tab q with
  | Pubs =>
    if isBad then [mkN ADD_PUBLISHER (h_id x) (q_src q) (setActionFlag (q_flags q) error_flag) (q_name q) [] []]
    else [mkN ADD_SUBSCRIBER (q_src q) (h_id x) (q_flags q) [] (str1 (q_strings q)) (str2 (q_strings q));
          mkN ADD_PUBLISHER (h_id x) (q_src q) (q_flags q) (h_key x) (h_type x) (h_units x)]
  | Inps =>
    if isBad then [mkN ADD_SUBSCRIBER (h_id x) (q_src q) (setActionFlag (q_flags q) error_flag) (q_name q) [] []]
    else
      let '(ty, un) := match findHandle (q_src q) (hs b) with Found _ p => (h_type p, h_units p) | _ => (str1 (q_strings q), str2 (q_strings q)) end in
      [mkN ADD_PUBLISHER (q_src q) (h_id x) (q_flags q) [] ty un;
       mkN ADD_SUBSCRIBER (h_id x) (q_src q) (q_flags q) (h_key x) [] []]
  | Filts =>
    let '(ty, un) := if empty (h_type x) && empty (h_units x) then (str1 (q_strings q), str2 (q_strings q)) else (h_type x, h_units x) in
    [mkN ADD_ENDPOINT (q_src q) (h_id x) (q_flags q) [] (str1 (q_strings q)) (str2 (q_strings q));
     mkN ADD_FILTER (h_id x) (q_src q) (if checkActionFlag (flagsOf (h_id x) b) clone_flag then setActionFlag (q_flags q) clone_flag else q_flags q) [] ty un]
  | Epts =>
    if isBad then [mkN ADD_ENDPOINT (h_id x) (q_src q) (setActionFlag (q_flags q) error_flag) (q_name q) [] []]
    else if q_ept q then
      [mkN ADD_ENDPOINT (q_src q) (h_id x) (toggleActionFlag (q_flags q) destination_target) (q_name q) (str1 (q_strings q)) (str2 (q_strings q));
       mkN ADD_ENDPOINT (h_id x) (q_src q) (toggleActionFlag (toggleActionFlag (q_flags q) destination_target) destination_target) (h_key x) (h_type x) (str2 (q_strings q))]
    else
      let '(f, ty, un) :=
        match findHandle (q_src q) (hs b) with
        | Found _ p =>
          let '(ty, un) := if empty (h_type p) && empty (h_units p) then (str1 (q_strings q), str2 (q_strings q)) else (h_type p, h_units p) in
          (if checkActionFlag (flagsOf (h_id p) b) clone_flag then setActionFlag (q_flags q) clone_flag else q_flags q, ty, un)
        | _ => (q_flags q, str1 (q_strings q), str2 (q_strings q))
        end in
      [mkN ADD_FILTER (q_src q) (h_id x) f (q_name q) ty un; mkN ADD_ENDPOINT (h_id x) (q_src q) f (q_name q) ty un]
  end.
(** CoreBroker.cpp:2049-2056 addLocalInfo (flags) after HandleManager::addHandle *)
Definition enter (k : kind) (key : name) (id : Z * Z) (ty un : name) (flags : Z) (b : rb) : option rb :=
  let '(s, thrown) := addHandle gen (fst id) (snd id) k key ty un (hs b) in
  if thrown then None else Some (mkRB s ((id, flags) :: fl b) (bad b) (Connect.un b) (operating b)).
(** CoreBroker.cpp:1924-1942, 1943-1961: an anonymous publication or filter is entered when it asks for an unknown target *)
Definition enterAnonymous (q : req) (b : rb) : res :=
  match q_strings q, q_tab q with
  | Some (ty, un), Inps =>
    match findHandle (q_src q) (hs b) with Null => match enter PUBLICATION [] (q_src q) ty un (q_flags q) b with Some b => Ok b [] | None => Crash end | _ => Ok b [] end
  | Some (ty, un), Epts =>
    match findHandle (q_src q) (hs b) with Null => match enter FILTER [] (q_src q) ty un (q_flags q) b with Some b => Ok b [] | None => Crash end | _ => Ok b [] end
  | _, _ => Ok b []
  end.
(** CoreBroker.cpp:1762-1977 checkForNamedInterface.  The root broker's handle search never meets an index outside the deque (C27) *)
Definition checkForNamedInterface (q : req) (b : rb) : res :=
  let b := if checkActionFlag (q_flags q) reconnectable_flag then setUn (addReconnectable (q_tab q) (q_name q) (q_src q, q_flags q) (Connect.un b)) b else b in
  match getInterfaceHandle (q_name q) (tabKind (q_tab q)) (hs b) with
  | Found _ x => Ok b (connectNow q x b)
  | _ => enterAnonymous q (setUn (addUnknown (q_tab q) (q_name q) (q_src q, q_flags q) (Connect.un b)) b)
  end.

(** CoreBroker.cpp:2759-2794 connectInterfaces *)
Definition connectInterfaces (o : info) (oflags : Z) (t : info) (tflags : Z) (v1 v2 : verb) : list notice :=
  [mkN v1 (h_id o) (h_id t) oflags (h_key o) (h_type o) (h_units o); mkN v2 (h_id t) (h_id o) tflags (h_key t) (h_type t) (h_units t)].
(** CoreBroker.cpp:3068-3117 findAndNotifyInputTargets *)
Definition connectInput (x : info) (b : rb) (e : target) : list notice :=
  let p := match findHandle (fst e) (hs b) with Found _ p => p | _ => bare (fst e) PUBLICATION end in
  connectInterfaces x (flagsOf (h_id x) b) p (snd e) ADD_SUBSCRIBER ADD_PUBLISHER.
Definition findAndNotifyInputTargets (x : info) (key : name) (b : rb) : res :=
  let l := checkFor Inps key (un b) in
  let o1 := flat_map (connectInput x b) l in
  let b := if empty l then b else setUn (clearInput key (un b)) b in
  let o2 := if operating b then flat_map (connectInput x b) (checkForReconnection Inps key (un b)) else [] in
  Ok b (o1 ++ o2).
(** a list of checkForNamedInterface calls *)
Fixpoint nameAll (l : list req) (b : rb) : res := match l with [] => Ok b [] | q :: r => bind (checkForNamedInterface q b) (nameAll r) end.
(** CoreBroker.cpp:3119-3155 findAndNotifyPublicationTargets *)
Definition connectPublication (x : info) (b : rb) (e : target) : list notice :=
  connectInterfaces x (snd e) (bare (fst e) INPUT) (flagsOf (h_id x) b) ADD_PUBLISHER ADD_SUBSCRIBER.
Definition findAndNotifyPublicationTargets (x : info) (key : name) (b : rb) : res :=
  let l := checkFor Pubs key (un b) in
  let links := checkForLinks LData key (un b) in
  bind (bind (Ok b (flat_map (connectPublication x b) l)) (nameAll (map (fun t => mkReq Inps t (h_id x) 0 false None) links))) (fun b =>
  let b := if empty l && empty links then b else setUn (clearPublication key (un b)) b in
  Ok b (if operating b then flat_map (connectPublication x b) (checkForReconnection Pubs key (un b)) else [])).
(** CoreBroker.cpp:3157-3212 findAndNotifyEndpointTargets: the pointer is used unchecked *)
Fixpoint connectEndpoints (x : info) (b : rb) (l : list target) : option (list notice) :=
  match l with
  | [] => Some []
  | e :: r =>
    match findHandle (fst e) (hs b), connectEndpoints x b r with
    | Found _ i, Some o =>
      Some (match h_kind i with
            | FILTER => connectInterfaces x (snd e) i (snd e) ADD_ENDPOINT ADD_FILTER
            | _ => connectInterfaces x (snd e) i (toggle_flag (snd e) destination_target) ADD_ENDPOINT ADD_ENDPOINT
            end ++ o)
    | _, _ => None
    end
  end.
Definition orCrash (o : option (list notice)) (b : rb) : res := match o with Some o => Ok b o | None => Crash end.
Definition findAndNotifyEndpointTargets (x : info) (key : name) (b : rb) : res :=
  let l := checkFor Epts key (un b) in
  let links := checkForLinks LEpt key (un b) in
  bind (bind (orCrash (connectEndpoints x b l) b) (nameAll (map (fun t => mkReq Epts t (h_id x) (setActionFlag 0 destination_target) true None) links))) (fun b =>
  let b := if empty l && empty links then b else setUn (clearEndpoint key (un b)) b in
  if operating b then orCrash (connectEndpoints x b (checkForReconnection Epts key (un b))) b else Ok b []).
(** CoreBroker.cpp:3214-3276 findAndNotifyFilterTargets; lines 3259-3275 look in the same map as line 3216 *)
Definition orClone (x : info) (b : rb) (f : Z) : Z := if checkActionFlag (flagsOf (h_id x) b) clone_flag then Z.lor f (make_flags clone_flag) else f.
Definition connectFilter (x : info) (b : rb) (e : target) : list notice :=
  connectInterfaces x (orClone x b (snd e)) (bare (fst e) ENDPOINT) (orClone x b (snd e)) ADD_FILTER ADD_ENDPOINT.
Definition findAndNotifyFilterTargets (x : info) (key : name) (b : rb) : res :=
  let l := checkFor Filts key (un b) in
  let dst := checkForLinks LDst key (un b) in
  let src := checkForLinks LSrc key (un b) in
  let f := flagsOf (h_id x) b in
  bind (bind (bind (Ok b (flat_map (connectFilter x b) l))
    (nameAll (map (fun t => mkReq Epts t (h_id x) (orClone x b (setActionFlag f destination_target)) false None) dst)))
    (nameAll (map (fun t => mkReq Epts t (h_id x) (orClone x b f) false None) src))) (fun b =>
  let b := if empty l && empty dst && empty src then b else setUn (clearFilter key (un b)) b in
  Ok b (if operating b then flat_map (connectFilter x b) (checkFor Filts key (un b)) else [])).
(** the call for one of the search maps *)
Definition findAndNotify (t : table) : info -> name -> rb -> res :=
  match t with Inps => findAndNotifyInputTargets | Pubs => findAndNotifyPublicationTargets | Epts => findAndNotifyEndpointTargets | Filts => findAndNotifyFilterTargets end.

(** CoreBroker.cpp:2079-2130 checkInterfaceCreation; [may]: the answer of lines 2102-2128 (disableDynamicSources) *)
Definition existingName (k : kind) (n : name) (s : hm) : bool :=
  let is (k : kind) := match getInterfaceHandle n k s with Null => false | _ => true end in
  match k with TRANSLATOR => is ENDPOINT || is INPUT || is PUBLICATION | _ => is k end.
(** the findAndNotify calls: CoreBroker.cpp:2149, 2168, 2203, 2222, 2250-2252, 2272-2273 *)
Definition notifies (k : kind) : list table :=
  match k with PUBLICATION => [Pubs] | INPUT => [Inps] | ENDPOINT => [Epts] | FILTER => [Filts] | TRANSLATOR => [Inps; Pubs; Epts] | SINK => [Inps; Epts] | UNKNOWN => [] end.
Fixpoint notifyAll (l : list table) (x : info) (b : rb) : res := match l with [] => Ok b [] | t :: r => bind (findAndNotify t x (h_key x) b) (notifyAll r x) end.
(** CoreBroker.cpp:2133-2151 addPublication, 2152-2170 addInput, 2172-2205 addEndpoint, 2206-2224 addFilter, 2226-2254 addTranslator, 2256-2275 addDataSink *)
Definition registerInterface (k : kind) (n : name) (id : Z * Z) (ty un : name) (flags : Z) (may : bool) (b : rb) : res :=
  if existingName k n (hs b) || negb may then Ok b [mkN REFUSED (invalidId, invalidHandle) id 0 [] [] []]
  else
    let x := mkInfo id k (actKey gen k n (hs b)) ty un in
    match enter k n id ty un flags b with
    | None => Crash
    | Some b => notifyAll (notifies k) x b
    end.

(** CoreBroker.cpp:2278-2370 linkInterfaces: CMD_DATA_LINK, CMD_ENDPOINT_LINK, CMD_FILTER_LINK ([LDst]: with destination_target) *)
Definition link (l : linkTab) (s d : name) (flags : Z) (b : rb) : res :=
  let store := Ok (setUn (addLink l s d (un b)) b) [] in
  match l with
  | LData =>
    match getInterfaceHandle s PUBLICATION (hs b) with
    | Found _ p => checkForNamedInterface (mkReq Inps d (h_id p) flags false (Some (d, []))) b
    | _ => match getInterfaceHandle d INPUT (hs b) with Found _ i => checkForNamedInterface (mkReq Pubs s (h_id i) flags false (Some (d, []))) b | _ => store end
    end
  | LEpt =>
    match getInterfaceHandle s ENDPOINT (hs b) with
    | Found _ p => checkForNamedInterface (mkReq Epts d (h_id p) (setActionFlag flags destination_target) true (Some (d, []))) b
    | _ => match getInterfaceHandle d ENDPOINT (hs b) with Found _ i => checkForNamedInterface (mkReq Epts s (h_id i) flags true (Some (d, []))) b | _ => store end
    end
  | _ =>
    match getInterfaceHandle s FILTER (hs b) with
    | Found _ p => checkForNamedInterface (mkReq Epts d (h_id p) (if checkActionFlag (flagsOf (h_id p) b) clone_flag then setActionFlag flags clone_flag else flags) false (Some (d, []))) b
    | _ => match getInterfaceHandle d ENDPOINT (hs b) with Found _ i => checkForNamedInterface (mkReq Filts s (h_id i) flags false (Some (d, []))) b | _ => store end
    end
  end.

(** CoreBroker.cpp:2796-2838 findRegexMatch with the result of handles.regexSearch; getAction, getMatchAction, getMatchType: 2708-2758 *)
Definition verbsFor (t : table) (k : kind) : verb * verb :=
  match t with
  | Pubs => (ADD_PUBLISHER, ADD_SUBSCRIBER)
  | Inps => (ADD_SUBSCRIBER, ADD_PUBLISHER)
  | Filts => (ADD_FILTER, ADD_ENDPOINT)
  | Epts => (ADD_ENDPOINT, match k with FILTER => ADD_FILTER | _ => ADD_ENDPOINT end)
  end.
Definition matchKind (t : table) : kind := match t with Inps => PUBLICATION | Pubs => INPUT | _ => ENDPOINT end.
Definition regexOne (matches : name -> table -> list (Z * Z)) (b : rb) (e : table * (name * target)) : list notice :=
  let '(t, (n, (q, f))) := e in
  flat_map (fun m =>
    match findHandle m (hs b) with
    | Found _ x =>
      let d := findHandle q (hs b) in
      let di := match d with Found _ i => i | _ => bare q (matchKind t) end in
      let isFilter := match d with Found _ i => kind_eqb (h_kind i) FILTER | _ => false end in
      let f' := if isFilter && checkActionFlag (flagsOf q b) clone_flag then Z.lor f (make_flags clone_flag) else f in
      let df := if table_eqb t Epts && negb isFilter then toggle_flag f' destination_target else f' in
      let '(v1, v2) := verbsFor t (h_kind di) in
      connectInterfaces x f' di df v1 v2
    | _ => []
    end) (matches n t).
(** "REGEX:" *)
Definition regexKey : name := [82; 69; 71; 69; 88; 58].
Definition isRegex (n : name) : bool := beq (firstn 6 n) regexKey.
Definition isFound (n : name) (k : kind) (s : hm) : bool := match getInterfaceHandle n k s with Found _ _ => true | _ => false end.
(** CoreBroker.cpp:2871-2893: links whose two sides are known, which needs aliases *)
Fixpoint linkKnown (l : list ((name * kind) * (name * kind))) (b : rb) : res :=
  match l with
  | [] => Ok b []
  | ((s, ks), (d, kd)) :: r =>
    bind (match getInterfaceHandle s ks (hs b), getInterfaceHandle d kd (hs b) with
          | Found _ x, Found _ y =>
            match ks, kd with
            | PUBLICATION, _ => link LData (h_key x) (h_key y) 0 b
            | ENDPOINT, ENDPOINT => link LEpt (h_key x) (h_key y) 0 b
            | _, _ => Ok b []
            end
          | _, _ => Ok b []
          end) (linkKnown r)
  end.
(** CoreBroker.cpp:2928-2951: the names of one kind which have become known *)
Fixpoint notifyNames (t : table) (l : list name) (b : rb) : res :=
  match l with
  | [] => Ok b []
  | n :: r => bind (match getInterfaceHandle n (tabKind t) (hs b) with Found _ x => findAndNotify t x n b | _ => Crash end) (notifyNames t r)
  end.
Definition foundNames (t : table) (b : rb) (s : hm) : list name := filter (fun n => isFound n (tabKind t) s) (map fst (unk (un b) t)).
(** CoreBroker.cpp:2870-2967 *)
Definition resolve (matches : name -> table -> list (Z * Z)) (b : rb) : res :=
  if hasUnknowns (un b) then
    bind (linkKnown (allLinks (un b)) b) (fun b =>
    let names t := foundNames t b (hs b) in
    let useRegex := existsb (fun e => isRegex (fst (snd e)) && negb (isFound (fst (snd e)) (tabKind (fst e)) (hs b))) (allUnknowns (un b)) in
    let np := names Pubs in let ni := names Inps in let ne := names Epts in let nf := names Filts in
    bind (bind (bind (bind (notifyNames Pubs np b) (notifyNames Inps ni)) (notifyNames Epts ne)) (notifyNames Filts nf)) (fun b =>
    if useRegex then
      Ok (setUn (clearUnknownsIf (fun _ e => isRegex (fst e)) (un b)) b) (flat_map (regexOne matches b) (filter (fun e => isRegex (fst (snd e))) (allUnknowns (un b))))
    else Ok b []))
  else Ok b [].
(** CoreBroker.cpp:2969-3056.  errorOnUnmatchedConnections is an argument; a broker which reports an error is told to stop and does not operate *)
Definition unmatched (b : rb) : nat :=
  length (allUnknowns (un b)) + length (filter (fun e => negb (isFound (fst (fst e)) (snd (fst e)) (hs b) && isFound (fst (snd e)) (snd (snd e)) (hs b))) (allLinks (un b))).
Definition stop : notice := mkN STOP_ERROR (invalidId, invalidHandle) (invalidId, invalidHandle) 0 [] [] [].
Definition report (v : verb) (e : table * (name * target)) : notice := mkN v (invalidId, invalidHandle) (fst (snd (snd e))) 0 (fst (snd e)) [] [].
Definition operate (b : rb) : rb := mkRB (hs b) (fl b) (bad b) (un b) true.
Definition begin (strict : bool) (b : rb) : res :=
  if strict && hasUnknowns (un b) && (0 <? Z.of_nat (unmatched b)) then Ok b [stop]
  else if hasNonOptionalUnknowns (un b) then
    if hasRequiredUnknowns (un b) then Ok b (map (report MISSING_ERROR) (requiredUnknowns (un b)) ++ [stop])
    else Ok (operate b) (map (report MISSING_WARNING) (nonOptionalUnknowns (un b)))
  else Ok (operate b) [].
(** CoreBroker.cpp:2842-3066 executeInitializationOperations(false): the checks sit in the block of line 2870 *)
Definition executeInitializationOperations (strict : bool) (matches : name -> table -> list (Z * Z)) (b : rb) : res :=
  if hasUnknowns (un b) then bind (resolve matches b) (begin strict) else Ok (operate b) [].

(** commands to the root broker.  [ODisconnect]: CMD_DISCONNECT_FED (1309-1326); [OBroker]: disconnectBroker (3546-3565) of [id] with the
    federates [feds] below it; [OClose]: CMD_CLOSE_INTERFACE (1526-1532); [OError]: a federate's state becomes an error *)
Inductive op :=
| ORequest (q : req)
| ORegister (k : kind) (n : name) (id : Z * Z) (ty un : name) (flags : Z) (may : bool)
| OLink (l : linkTab) (s d : name) (flags : Z)
| OAlias (i a : name) (from : Z * Z)
| ODisconnect (fed : Z) (reentrant : bool)
| OBroker (id : Z) (feds : list (Z * bool))
| OClose (h : Z * Z)
| OError (fed : Z)
| OInit (strict : bool) (matches : name -> table -> list (Z * Z)).
Definition setBad (f : Z) (b : rb) : rb := mkRB (hs b) (fl b) (fun g => (g =? f) || bad b g) (un b) (operating b).
Definition dropFed (p : Z * bool) (b : rb) : rb :=
  let b := setBad (fst p) b in if snd p then setHs (removeFederateHandles (fst p) (hs b)) b else b.
Definition forget (fed : Z) (b : rb) : rb := if operating b then b else setUn (clearFederateUnknowns fed (un b)) b.
Definition step (o : op) (b : rb) : res :=
  match o with
  | ORequest q => checkForNamedInterface q b
  | ORegister k n id ty un flags may => registerInterface k n id ty un flags may b
  | OLink l s d flags => link l s d flags b
  | OAlias i a from =>
    match addAlias i a (hs b) with
    | AOk s thrown => Ok (setHs s b) (if thrown then [mkN ALIAS_ERROR (invalidId, invalidHandle) from 0 [] [] []] else [])
    | _ => Crash
    end
  | ODisconnect fed reentrant => Ok (forget fed (dropFed (fed, reentrant) b)) []
  | OBroker id feds => Ok (forget id (fold_left (fun b p => dropFed p b) feds b)) []
  | OClose h => Ok (setHs (removeHandle h (hs b)) b) []
  | OError fed => Ok (setBad fed b) []
  | OInit strict matches => executeInitializationOperations strict matches b
  end.
End Broker.
