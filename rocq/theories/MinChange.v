(** * Minimum change of publications and inputs (model)

    Publication::publish and Input::getValue, isUpdated with change detection (setMinimumChange, enableChangeDetection).
    A finite double is a multiple of 2^-1074 and is given by that integer; the difference of two doubles is taken exactly, so
    without rounding.  delta is finite.  Not modelled: complex vectors, publishDefV, the conversion to the type of the
    publication (C24), units except for the call with a unit name, inputs with several sources (C17) and inputs whose
    source is not a double. *)
From Coq Require Import ZArith Bool List Lia.
Import ListNotations.
Open Scope Z_scope.

(** the number 1.0: IEEE 754 binary64 *)
Definition one : Z := 2 ^ 1074.
(** IEEE 754 binary64: z * 2^-1074, the infinities, no number *)
Inductive dbl := Fin (z : Z) | Inf (neg : bool) | NaN.
(** HelicsPrimaryTypes.hpp:31-37 defV *)
Inductive defV := VD (d : dbl) | VI (z : Z) | VS (s : list Z) | VC (re im : dbl) | VV (l : list dbl) | VN (name : list Z) (d : dbl).
(** std::abs(a - b) > delta *)
Definition far (a b : dbl) (delta : Z) : bool :=
  match a, b with
  | Fin x, Fin y => delta <? Z.abs (x - y)
  | Inf s, Inf s' => negb (Bool.eqb s s')
  | Fin _, Inf _ | Inf _, Fin _ => true
  | _, _ => false
  end.
(** std::isnan *)
Definition isNaN (d : dbl) : bool := match d with NaN => true | _ => false end.
(** std::string operator== *)
Definition same (a b : list Z) : bool := if list_eq_dec Z.eq_dec a b then true else false.
(** helicsPrimaryTypes.cpp:75-80: the elements of two vectors of the same length *)
Fixpoint farAny (a b : list dbl) (delta : Z) : bool :=
  match a, b with x :: a, y :: b => far x y delta || farAny a b delta | _, _ => false end.
(** helicsPrimaryTypes.cpp:20-34, 69-83, 119-140, 153-172 changeDetected *)
Definition changeDetected (prev val : defV) (delta : Z) : bool :=
  match val with
  | VS s => match prev with VS p => negb (same s p) | _ => true end
  | VD d => match prev with VD p => far p d delta | _ => true end
  | VI z => match prev with VI p => Z.quot delta one <? Z.abs (p - z) | _ => true end
  | VC re im => match prev with VC p q => far p re delta || far q im delta | _ => true end
  | VV l => match prev with VV p => if Nat.eqb (length l) (length p) then farAny p l delta else true | _ => true end
  | VN n d => match prev with
              | VD p => if isNaN d then true else far p d delta
              | VN m p => if same m n && negb (isNaN d) then far p d delta else true
              | _ => true
              end
  end.

(** ** Publications *)
(** Publications.hpp:30-40 prevValue, delta, changeDetectionEnabled *)
Record publ : Type := mkPubl {
  u_prev : defV;
  u_delta : Z;
  u_detect : bool
}.
(** field update of [publ] above (C++ member assignment) *)
Definition set_u_prev (v : defV) (r : publ) : publ := mkPubl v (u_delta r) (u_detect r).
(** field update of [publ] above (C++ member assignment) *)
Definition set_u_delta (v : Z) (r : publ) : publ := mkPubl (u_prev r) v (u_detect r).
(** field update of [publ] above (C++ member assignment) *)
Definition set_u_detect (v : bool) (r : publ) : publ := mkPubl (u_prev r) (u_delta r) v.

(** Publications.hpp:30-40: the initial members *)
Definition publ0 : publ := mkPubl (VD (Fin 0)) (- one) false.
(** Publications.hpp:237-247 setMinimumChange *)
Definition pubMinimumChange (d : Z) (p : publ) : publ :=
  let p := if u_delta p <? 0 then set_u_detect true p else p in
  let p := set_u_delta d p in
  if d <? 0 then set_u_detect false p else p.
(** Publications.cpp:70-84, 86-100, 132-166, ...: publish of each type *)
Definition publish (v : defV) (p : publ) : publ * list defV :=
  if u_detect p then if changeDetected (u_prev p) v (u_delta p) then (set_u_prev v p, [v]) else (p, [])
  else (p, [v]).
(** Publications.cpp:300-311 publish with the name of a unit: [own] when it is the unit of the publication; [w] is the value in
    that unit (312-319) *)
Definition publishUnits (own : bool) (v w : defV) (p : publ) : publ * list defV :=
  let '(p, o1) := if own then publish v p else (p, []) in
  let '(p, o2) := publish w p in (p, o1 ++ o2).
(** the calls on a publication *)
Inductive pcall := P_publish (v : defV) | P_units (own : bool) (v w : defV) | P_minimum (d : Z) | P_detect (b : bool).
(** the effect of a call and what is sent: the functions above; enableChangeDetection (Publications.hpp:252) *)
Definition pcallStep (p : publ) (c : pcall) : publ * list defV :=
  match c with
  | P_publish v => publish v p
  | P_units own v w => publishUnits own v w p
  | P_minimum d => (pubMinimumChange d p, [])
  | P_detect b => (set_u_detect b p, [])
  end.
(** a whole history: the publication and all that was sent (not in the code) *)
Definition pcalls (cs : list pcall) : publ * list defV :=
  fold_left (fun (a : publ * list defV) c => let '(p, out) := a in let (p', o) := pcallStep p c in (p', out ++ o)) cs (publ0, []).

(** ** Inputs *)
(** Inputs.hpp:48-57 lastValue, hasUpdate, changeDetectionEnabled, delta; ValueFederateManager.hpp InputData lastData, hasUpdate *)
Record inp : Type := mkInp {
  n_last : defV;
  n_has : bool;
  n_detect : bool;
  n_delta : Z;
  n_data : option dbl;
  n_fedHas : bool
}.
(** field update of [inp] above (C++ member assignment) *)
Definition set_n_last (v : defV) (r : inp) : inp := mkInp v (n_has r) (n_detect r) (n_delta r) (n_data r) (n_fedHas r).
(** field update of [inp] above (C++ member assignment) *)
Definition set_n_has (v : bool) (r : inp) : inp := mkInp (n_last r) v (n_detect r) (n_delta r) (n_data r) (n_fedHas r).
(** field update of [inp] above (C++ member assignment) *)
Definition set_n_detect (v : bool) (r : inp) : inp := mkInp (n_last r) (n_has r) v (n_delta r) (n_data r) (n_fedHas r).
(** field update of [inp] above (C++ member assignment) *)
Definition set_n_delta (v : Z) (r : inp) : inp := mkInp (n_last r) (n_has r) (n_detect r) v (n_data r) (n_fedHas r).
(** field update of [inp] above (C++ member assignment) *)
Definition set_n_data (v : option dbl) (r : inp) : inp := mkInp (n_last r) (n_has r) (n_detect r) (n_delta r) v (n_fedHas r).
(** field update of [inp] above (C++ member assignment) *)
Definition set_n_fedHas (v : bool) (r : inp) : inp := mkInp (n_last r) (n_has r) (n_detect r) (n_delta r) (n_data r) v.

(** helicsTypes.hpp:499 invalidDouble = -1e49 *)
Definition invalidDouble : dbl := Fin (- (10 ^ 49) * one).
(** Inputs.hpp:48-60: the initial members *)
Definition inp0 : inp := mkInp (VD invalidDouble) false false (- one) None false.
(** valueExtract of a double or an integer as an integer or a double (helicsPrimaryTypes.cpp valueExtract) *)
Definition extract (asInt : bool) (v : defV) : defV :=
  match v with
  | VD (Fin z) => if asInt then VI (Z.quot z one) else v
  | VI z => if asInt then v else VD (Fin (z * one))
  | _ => v
  end.
(** the alternative of lastValue which the visitor of checkUpdate gets (Inputs.cpp:553) *)
Definition isInt (v : defV) : bool := match v with VI _ => true | _ => false end.
(** Inputs.cpp:544-577 checkUpdate *)
Definition checkUpdate (assume : bool) (i : inp) : inp :=
  if n_detect i then
    if assume || n_fedHas i then
      let i := set_n_fedHas false i in
      match n_data i with
      | Some d => let v := extract (isInt (n_last i)) (VD d) in
                  if changeDetected (n_last i) v (n_delta i) then set_n_has true (set_n_last v i) else i
      | None => i
      end
    else i
  else set_n_has (n_has i || assume || n_fedHas i) i.
(** ValueFederateManager.cpp:256-268 getUpdateFromCore, when the core has a new value *)
Definition newValue (d : dbl) (i : inp) : inp := checkUpdate true (set_n_fedHas true (set_n_data (Some d) i)).
(** Inputs.cpp:597-603 isUpdated *)
Definition isUpdated (i : inp) : inp * bool := if n_has i then (i, true) else let i := checkUpdate false i in (i, n_has i).
(** Inputs.hpp:436-468 getValue_impl, Inputs.cpp:801-806 checkAndGetFedUpdate *)
Definition getValue (asInt : bool) (i : inp) : inp * defV :=
  let dv := if n_fedHas i || (n_has i && negb (n_detect i)) then n_data i else None in
  let i := if n_fedHas i || (n_has i && negb (n_detect i)) then set_n_fedHas false i else i in
  let '(i, out) :=
    match dv with
    | Some d =>
        let out := extract asInt (VD d) in
        if n_detect i then if changeDetected (n_last i) out (n_delta i) then (set_n_last out i, out) else (i, extract asInt (n_last i))
        else (set_n_last out i, out)
    | None => (i, extract asInt (n_last i))
    end in
  (set_n_has false i, out).
(** Inputs.cpp:660-664 getBytes, ValueFederateManager.cpp:216-225 getValue *)
Definition getBytes (i : inp) : inp := set_n_has false (set_n_fedHas false i).
(** Inputs.cpp:613-617 clearUpdate *)
Definition clearUpdate (i : inp) : inp := set_n_has false (set_n_fedHas false i).
(** Inputs.hpp:272-283 setMinimumChange *)
Definition inpMinimumChange (d : Z) (i : inp) : inp :=
  let i := if n_delta i <? 0 then set_n_detect true i else i in
  let i := set_n_delta d i in
  if d <? 0 then set_n_detect false i else i.
(** the calls on an input, and a grant with a new value *)
Inductive icall := N_new (d : dbl) | N_get (asInt : bool) | N_isUpdated | N_bytes | N_clear | N_minimum (d : Z) | N_detect (b : bool).
(** what a call returns *)
Inductive answer := Value (v : defV) | Flag (b : bool).
(** the effect of a call and what it returns: the functions above; enableChangeDetection (Inputs.hpp:287) *)
Definition icallStep (i : inp) (c : icall) : inp * list answer :=
  match c with
  | N_new d => (newValue d i, [])
  | N_get k => let (i, v) := getValue k i in (i, [Value v])
  | N_isUpdated => let (i, b) := isUpdated i in (i, [Flag b])
  | N_bytes => (getBytes i, [])
  | N_clear => (clearUpdate i, [])
  | N_minimum d => (inpMinimumChange d i, [])
  | N_detect b => (set_n_detect b i, [])
  end.
(** a whole history from a given state: the input and all answers (not in the code) *)
Definition icalls (i : inp) (cs : list icall) : inp * list answer :=
  fold_left (fun (a : inp * list answer) c => let '(i, out) := a in let (i', o) := icallStep i c in (i', out ++ o)) cs (i, []).
