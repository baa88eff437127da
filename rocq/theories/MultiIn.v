(** * Inputs with several sources and a reduction operation (model)

    Input::vectorDataProcess, called from ValueFederateManager::getUpdateFromCore at a grant, for inputs with the option
    MULTI_INPUT_HANDLING_METHOD.  Doubles are rational numbers: sums, differences and the average are taken without rounding.
    Values of sources are doubles, integers, texts and vectors of doubles; what a source published has been decoded (C24).
    Conversions to and from texts, the norm of a vector and the JSON array of texts are given by the arbitrary record [lib],
    the unit conversion of a source by an arbitrary function.  Not modelled: complex numbers and vectors, named points,
    the maximum of texts (left arbitrary in [lib]), input types other than double, integer, text, vector and unknown, sources which publish NaN. *)
From Coq Require Import ZArith QArith Qabs Bool String List Lia.
Import ListNotations.
Open Scope list_scope.

(** HelicsPrimaryTypes.hpp:31-37 defV; V_NaN is the double which is no number *)
Inductive val := V_D (q : Q) | V_NaN | V_I (z : Z) | V_S (s : string) | V_V (l : list Q).
(** the conversion functions used: getDoubleFromString, getIntFromString, helicsGetVector, std::to_string of a double and of an
    integer, helicsVectorString, vectorNorm, generateJsonString of an array, the greatest and the least text *)
Record lib : Type := mkLib {
  textNumber : string -> Q; textInt : string -> Z; textVector : string -> list Q;
  numberText : Q -> string; intText : Z -> string; vectorText : list Q -> string;
  norm : list Q -> Q; jsonText : list string -> string; maxText : string -> string -> string; minText : string -> string -> string }.
(** helicsTypes.hpp (getTypeFromString): the type of the input *)
Inductive ttype := T_unknown | T_double | T_int | T_string | T_vector.
(** helics_enums.h:326-344 HELICS_MULTI_INPUT_... *)
Inductive op := O_vectorize | O_and | O_or | O_sum | O_diff | O_max | O_min | O_average.

(** static_cast<int64_t> of a double *)
Definition trunc (q : Q) : Z := Z.quot (Qnum q) (Zpos (Qden q)).
(** operator< of doubles *)
Definition qlt (a b : Q) : bool := negb (Qle_bool b a).
(** Inputs.cpp:775-800 doubleExtractAndConvert, integerExtractAndConvert: [u] is the conversion when both units are known *)
Definition extractUnit (u : option (Q -> Q)) (v : val) : val :=
  match u with
  | Some f => match v with V_D q => V_D (f q) | V_I z => V_D (f (inject_Z z)) | _ => v end
  | None => v
  end.
(** Inputs.cpp:418-437: the values of those sources which have one *)
Fixpoint extractAll (units : nat -> option (Q -> Q)) (ii : nat) (dataV : list (option val)) : list val :=
  match dataV with
  | [] => []
  | Some v :: r => extractUnit (units ii) v :: extractAll units (S ii) r
  | None :: r => extractAll units (S ii) r
  end.
(** HelicsPrimaryTypes.hpp:172-225 valueExtract as a double *)
Definition asNumber (L : lib) (v : val) : val :=
  match v with
  | V_D _ | V_NaN => v
  | V_I z => V_D (inject_Z z)
  | V_S s => V_D (textNumber L s)
  | V_V [x] => V_D x
  | V_V l => V_D (norm L l)
  end.
(** HelicsPrimaryTypes.hpp:172-225 valueExtract as an integer *)
Definition asInt (L : lib) (v : val) : val :=
  match v with
  | V_I _ => v
  | V_D q => V_I (trunc q)
  | V_NaN => V_I 0
  | V_S s => V_I (textInt L s)
  | V_V [x] => V_I (trunc x)
  | V_V l => V_I (trunc (norm L l))
  end.
(** helicsPrimaryTypes.cpp:174-202 valueExtract as a text *)
Definition asText (L : lib) (v : val) : val :=
  match v with
  | V_S _ => v
  | V_D q => V_S (numberText L q)
  | V_NaN => V_S "nan"
  | V_I z => V_S (intText L z)
  | V_V l => V_S (vectorText L l)
  end.
(** helicsPrimaryTypes.cpp:248-298 valueExtract as a vector *)
Definition asVector (L : lib) (v : val) : val :=
  match v with
  | V_V _ => v
  | V_D q => V_V [q]
  | V_NaN => V_NaN
  | V_I z => V_V [inject_Z z]
  | V_S s => V_V (textVector L s)
  end.
(** Inputs.cpp:438-476: the common type, HELICS_BOOL is converted to a text (helicsPrimaryTypes.cpp:1177-1187) *)
Definition commonType (o : op) (t : ttype) : ttype :=
  match o with
  | O_and | O_or => T_string
  | O_average => T_vector
  | O_sum | O_vectorize => match t with T_string => T_string | _ => T_vector end
  | O_diff | O_max | O_min => match t with T_unknown => T_double | _ => t end
  end.
(** helicsPrimaryTypes.cpp:1144-1225 valueConvert *)
Definition convert (L : lib) (t : ttype) (v : val) : val :=
  match t with T_double => asNumber L v | T_int => asInt L v | T_vector => asVector L v | T_string | T_unknown => asText L v end.
(** std::get<double>, <int64_t>, <string>, <vector>: the values have been converted to that type *)
Definition getD (v : val) : Q := match v with V_D q => q | _ => 0 end.
(** std::get<int64_t> *)
Definition getI (v : val) : Z := match v with V_I z => z | _ => 0 end.
(** std::get<std::string> *)
Definition getS (v : val) : string := match v with V_S s => s | _ => ""%string end.
(** std::get<std::vector<double>> *)
Definition getV (v : val) : list Q := match v with V_V l => l | _ => [] end.
(** Inputs.cpp:128-138, 166-176 varMax, varMin: [better new old] replaces the old one *)
Definition pick {X} (better : X -> X -> bool) (first : X) (l : list X) : X := fold_left (fun m v => if better v m then v else m) l first.
(** std::numeric_limits<double>::max() *)
Definition maxDouble : Q := inject_Z (2 ^ 1024 - 2 ^ 971).
(** Inputs.cpp:149-164, 178-193 varMaxIndex, varMinIndex: the value, the index of the best so far, the current index *)
Definition pickIndex (better : Q -> Q -> bool) (first : Q) (l : list Q) : nat :=
  snd (fst (fold_left (fun (a : Q * nat * nat) v => let '(m, i, k) := a in if better v m then (v, k, S k) else (m, i, S k)) l (first, O, O))).
(** helicsTypes.hpp:499 invalidDouble *)
Definition invalid : Q := inject_Z (- (10 ^ 49)).
(** Inputs.cpp:195-229, 309-343 maxOperation, minOperation; the values are of the type of the first *)
Definition extremum (L : lib) (better : Q -> Q -> bool) (first : Q) (betterI : Z -> Z -> bool) (text : string -> string -> string) (vals : list val) : val :=
  match vals with
  | [] => V_D invalid
  | v :: _ => match v with
              | V_D q => V_D (pick better q (map getD vals))
              | V_I z => V_I (pick betterI z (map getI vals))
              | V_S s => V_S (fold_left text (map getS vals) s)
              | V_V _ => nth (pickIndex better first (map (fun v => norm L (getV v)) vals)) vals (V_D invalid)
              | V_NaN => V_NaN
              end
  end.
(** Inputs.cpp:139-147 varDiff *)
Definition qDiff (l : list Q) : Q := match l with [] => invalid | x :: r => fold_left (fun a b => a - b)%Q r x end.
(** Inputs.cpp:139-147 varDiff *)
Definition zDiff (l : list Z) : Z := match l with [] => 0%Z | x :: r => fold_left (fun a b => a - b)%Z r x end.
(** Inputs.cpp:231-266 diffOperation *)
Definition diffOperation (L : lib) (vals : list val) : val :=
  match vals with
  | [] => V_D invalid
  | v :: r => match v with
              | V_D _ => V_D (qDiff (map getD vals))
              | V_I _ => V_I (zDiff (map getI vals))
              | V_S s => V_S (if forallb (fun w => String.eqb (getS w) s) r then "0" else "1")
              | V_V _ => V_D (qDiff (map (fun v => norm L (getV v)) vals))
              | V_NaN => V_NaN
              end
  end.
(** Inputs.cpp:371-385 vectorDiff: the previous element (invalidDouble before the first) and the differences *)
Definition vectorDiff (vals : list val) : val :=
  V_V (rev (snd (fold_left (fun (a : Q * list Q) el => let (start, X) := a in (el, if Qeq_bool start invalid then X else (start - el)%Q :: X)) (flat_map getV vals) (invalid, [])))).
(** Inputs.cpp:345-355, 387-403 vectorSum, sumOperation *)
Definition sumOperation (vals : list val) : val :=
  match vals with
  | [] => V_S ""
  | V_S _ :: _ => V_S (fold_left (fun a v => String.append a (getS v)) vals ""%string)
  | _ => V_D (fold_left Qplus (flat_map getV vals) 0%Q)
  end.
(** Inputs.cpp:357-369 vectorAvg *)
Definition vectorAvg (vals : list val) : val :=
  let l := flat_map getV vals in
  match l with [] => V_NaN | _ => V_D (fold_left Qplus l 0 / inject_Z (Z.of_nat (length l)))%Q end.
(** Inputs.cpp:268-307 vectorizeOperation *)
Definition vectorizeOperation (L : lib) (vals : list val) : val :=
  match vals with
  | V_S _ :: _ => V_S (jsonText L (map getS vals))
  | _ => V_V (flat_map getV vals)
  end.
(** helicsTypes.cpp:660-698: the texts which mean false *)
Definition falseTexts : list string :=
  let nul := String (Ascii.ascii_of_nat 0) in
  ["0"; "00"; nul ""; "0000"; nul (nul (nul (nul (nul (nul (nul (nul "")))))));  "false"; "off"; "OFF"; "False"; "FALSE"; "f"; "-"; "F"; "n"; "N"; "no"; "No"; "NO"; "disable"; "disabled"; ""]%string.
(** helicsTypes.cpp:658-707 helicsBoolValue, helicsPrimaryTypes.cpp:510-514 *)
Definition truth (s : string) : bool := negb (existsb (String.eqb s) falseTexts).
(** Inputs.cpp:411-527 vectorDataProcess: the combined value *)
Definition combined (L : lib) (units : nat -> option (Q -> Q)) (o : op) (t : ttype) (dataV : list (option val)) : val :=
  let res := map (convert L (commonType o t)) (extractAll units O dataV) in
  match o with
  | O_max => extremum L (fun v m => qlt m v) (- maxDouble)%Q (fun v m => Z.ltb m v) (maxText L) res
  | O_min => extremum L (fun v m => qlt v m) maxDouble (fun v m => Z.ltb v m) (minText L) res
  | O_and => V_S (if forallb (fun v => truth (getS v)) res then "1" else "0")
  | O_or => V_S (if existsb (fun v => truth (getS v)) res then "1" else "0")
  | O_sum => sumOperation res
  | O_average => vectorAvg res
  | O_diff => match commonType o t with T_vector => vectorDiff res | _ => diffOperation L res end
  | O_vectorize => vectorizeOperation L res
  end.

(** ** the input *)
(** Inputs.hpp:44-66 lastValue, hasUpdate, changeDetectionEnabled with delta; the values of the sources in the core
    (InputInfo.hpp current_data) *)
Record minp : Type := mkMinp { i_data : list (option val); i_last : val; i_has : bool; i_delta : option Q }.
(** Inputs.hpp:44-66: the initial members, with [n] sources *)
Definition minp0 (n : nat) (delta : option Q) : minp := mkMinp (repeat None n) (V_D invalid) false delta.
(** InputInfo.cpp updateTimeInclusive, updateData: the newest value of each source (C17) *)
Fixpoint put (k : nat) (v : val) (d : list (option val)) : list (option val) :=
  match d, k with [], _ => [] | _ :: r, O => Some v :: r | x :: r, S k => x :: put k v r end.
(** std::abs(a - b) > delta *)
Definition qfar (a b delta : Q) : bool := qlt delta (Qabs (a - b)).
(** helicsPrimaryTypes.cpp:75-80 *)
Fixpoint qfarAny (a b : list Q) (delta : Q) : bool := match a, b with x :: a, y :: b => qfar x y delta || qfarAny a b delta | _, _ => false end.
(** helicsPrimaryTypes.cpp:20-34, 69-83, 119-140 changeDetected *)
Definition changed (prev v : val) (delta : Q) : bool :=
  match v, prev with
  | V_D y, V_D x => qfar x y delta
  | V_D _, V_NaN | V_NaN, V_D _ | V_NaN, V_NaN => false
  | V_I y, V_I x => Z.ltb (trunc delta) (Z.abs (x - y))
  | V_S y, V_S x => negb (String.eqb y x)
  | V_V y, V_V x => if Nat.eqb (length y) (length x) then qfarAny x y delta else true
  | _, _ => true
  end.
(** Inputs.cpp:530-542 the end of vectorDataProcess *)
Definition store (v : val) (i : minp) : minp :=
  match i_delta i with
  | Some delta => if changed (i_last i) v delta then mkMinp (i_data i) v true (i_delta i) else mkMinp (i_data i) (i_last i) false (i_delta i)
  | None => mkMinp (i_data i) v true (i_delta i)
  end.
(** the calls on such an input, and a grant with the new values of its sources *)
Inductive mcall := G_grant (ups : list (nat * val)) | G_get | G_isUpdated | G_clear.
(** what they return *)
Inductive manswer := A_value (v : val) | A_flag (b : bool).
(** ValueFederateManager.cpp:256-298 getUpdateFromCore, updateTime (only inputs with an update); Inputs.hpp:436-468 getValue_impl
    (checkAndGetFedUpdate gives nothing: the flag of the manager is false and direct updates are not allowed, Inputs.hpp:414-418);
    Inputs.cpp:597-617 isUpdated, clearUpdate.  Reading converts lastValue to the asked type, not modelled. *)
Definition mstep (L : lib) (units : nat -> option (Q -> Q)) (o : op) (t : ttype) (i : minp) (c : mcall) : minp * list manswer :=
  match c with
  | G_grant [] => (i, [])
  | G_grant ups => let d := fold_left (fun d (p : nat * val) => put (fst p) (snd p) d) ups (i_data i) in
                   (store (combined L units o t d) (mkMinp d (i_last i) (i_has i) (i_delta i)), [])
  | G_get => (mkMinp (i_data i) (i_last i) false (i_delta i), [A_value (i_last i)])
  | G_isUpdated => (i, [A_flag (i_has i)])
  | G_clear => (mkMinp (i_data i) (i_last i) false (i_delta i), [])
  end.
(** a whole history from a given state: all answers (not in the code) *)
Fixpoint mcalls (L : lib) (units : nat -> option (Q -> Q)) (o : op) (t : ttype) (i : minp) (cs : list mcall) : list manswer :=
  match cs with [] => [] | c :: r => let (i', a) := mstep L units o t i c in a ++ mcalls L units o t i' r end.
