(** Filter operations and message operators: /repo/src/helics/application_api/FilterOperations.cpp, MessageOperators.cpp, core-data.hpp:82-127. *)
From Coq Require Import ZArith List Lia Bool.
From Verif Require Import HTime Action MsgConv Interfaces Ids Handles.
Import ListNotations.
Local Open Scope Z_scope.

(** core-data.hpp:82-110 FilterOperator: process gives a message or a null pointer, processVector a list (null entries are dropped by every caller).
    The user functions inside an operator are taken to be functions of the message. *)
Record operator := mkOp { op_process : message -> option message; op_vector : message -> list message }.
(** core-data.hpp:91-100: the default processVector *)
Definition vectorOf (p : message -> option message) (g : message) : list message := match p g with Some r => [r] | None => [] end.
Definition plainOp (p : message -> option message) : operator := mkOp p (vectorOf p).
Definition withTime (t : Z) (g : message) : message := mkMessage t (g_flags g) (g_id g) (g_data g) (g_dest g) (g_source g) (g_origSource g) (g_origDest g).
Definition withData (d : list Z) (g : message) : message := mkMessage (g_time g) (g_flags g) (g_id g) d (g_dest g) (g_source g) (g_origSource g) (g_origDest g).
Definition withFlags (f : Z) (g : message) : message := mkMessage (g_time g) f (g_id g) (g_data g) (g_dest g) (g_source g) (g_origSource g) (g_origDest g).
Definition withDest (d : list Z) (g : message) : message := mkMessage (g_time g) (g_flags g) (g_id g) (g_data g) d (g_source g) (g_origSource g) (g_origDest g).
Definition withOrigDest (d : list Z) (g : message) : message := mkMessage (g_time g) (g_flags g) (g_id g) (g_data g) (g_dest g) (g_source g) (g_origSource g) d.
(** MessageOperators.cpp:22-28; the function objects are never empty in the library's own filters, an empty one is [None] *)
Definition timeProcess (f : option (Z -> Z)) (g : message) : option message := match f with Some f => Some (withTime (f (g_time g)) g) | None => Some g end.
(** MessageOperators.cpp:45-51 *)
Definition dataProcess (f : option (list Z -> list Z)) (g : message) : option message := match f with Some f => Some (withData (f (g_data g)) g) | None => Some g end.
(** MessageOperators.cpp:65-74 *)
Definition destProcess (f : option (list Z -> list Z -> list Z)) (g : message) : option message :=
  match f with
  | Some f => let g := match g_origDest g with [] => withOrigDest (g_dest g) g | _ => g end in Some (withDest (f (g_source g) (g_dest g)) g)
  | None => Some g end.
(** MessageOperators.cpp:88-97 *)
Definition condProcess (f : option (message -> bool)) (g : message) : option message := match f with Some f => if f g then Some g else None | None => Some g end.
(** MessageOperators.cpp:111-120; 122-128 *)
Definition cloneProcess (f : option (message -> list message)) (g : message) : option message :=
  match f with Some f => match f g with [r] => Some r | _ => Some g end | None => Some g end.
Definition cloneVector (f : option (message -> list message)) (g : message) : list message := match f with Some f => f g | None => [] end.
(** MessageOperators.hpp:123-130 *)
Inductive fwOp := FwNone | FwDrop | FwPass | FwFlag1 | FwFlag2 | FwFlag3.
(** flagOperations.hpp:122-129 *)
Definition user_flag1 : Z := 10. Definition user_flag2 : Z := 13. Definition user_flag3 : Z := 14.
(** MessageOperators.cpp:140-176 *)
Definition firewallProcess (op : fwOp) (f : option (message -> bool)) (g : message) : option message :=
  match f with
  | None => Some g
  | Some f =>
      let res := f g in
      match op with
      | FwDrop => if res then None else Some g
      | FwPass => if negb res then None else Some g
      | FwFlag1 => Some (if res then withFlags (setActionFlag (g_flags g) user_flag1) g else g)
      | FwFlag2 => Some (if res then withFlags (setActionFlag (g_flags g) user_flag2) g else g)
      | FwFlag3 => Some (if res then withFlags (setActionFlag (g_flags g) user_flag3) g else g)
      | FwNone => Some g
      end
  end.
(** MessageOperators.cpp:189-195 *)
Definition customProcess (f : option (message -> option message)) (g : message) : option message := match f with Some f => f g | None => Some g end.

(** ** Delay (FilterOperations.cpp:38-85); times are exact integers (no overflow of Time) *)
Inductive delayCall := DSet (v : Z) | DSetString (v : option Z).   (* set("delay", v); setString("delay", text): the parsed time, [None]: an exception *)
(** FilterOperations.cpp:38-45 *)
Definition delayInit (d : Z) : Z := if d <? 0 then 0 else d.
(** FilterOperations.cpp:47-54, 56-66 *)
Definition delayStep (d : Z) (c : delayCall) : Z :=
  match c with DSet v => if 0 <=? v then v else d | DSetString (Some v) => v | DSetString None => d end.
Definition delayAfter (d : Z) (cs : list delayCall) : Z := fold_left delayStep cs (delayInit d).
Definition delayOp (d : Z) : operator := plainOp (timeProcess (Some (fun t => t + d))).
(** ** Random delay (FilterOperations.cpp:208-214) and drop (277-283): any number, any decision *)
Definition randomDelayOp (gen : Z) : operator := plainOp (timeProcess (Some (fun t => t + gen))).
Definition randomDropOp (keep : bool) : operator := plainOp (condProcess (Some (fun _ => keep))).

(** ** Reroute (FilterOperations.cpp:319-422) *)
Section Reroute.
(** std::regex_search of a pattern in a string *)
Variable search : list Z -> list Z -> bool.
(** std::regex_replace: the expansion of a replacement text ($1, $& ...) *)
Variable expand : list Z -> list Z.
Definition dollar : Z := 36.
Definition srcPat : list Z := [36; 123; 115; 111; 117; 114; 99; 101; 125].   (* ${source} *)
Definition dstPat : list Z := [36; 123; 100; 101; 115; 116; 125].             (* ${dest} *)
Fixpoint isPrefix (p s : list Z) : bool := match p, s with [], _ => true | x :: p, y :: s => (x =? y) && isPrefix p s | _, [] => false end.
(** std::regex_replace with a pattern that is a plain text: every occurrence, from the left *)
Fixpoint replaceAll (pat rep : list Z) (skip : nat) (s : list Z) : list Z :=
  match s with
  | [] => []
  | c :: r => match skip with
              | S k => replaceAll pat rep k r
              | O => if isPrefix pat s then rep ++ replaceAll pat rep (length pat - 1) r else c :: replaceAll pat rep 0 r end
  end.
(** FilterOperations.cpp:390-400 newDestGeneration *)
Definition newDestGeneration (src dest formula : list Z) : list Z :=
  if negb (existsb (Z.eqb dollar) formula) then formula
  else replaceAll dstPat (expand dest) 0 (replaceAll srcPat (expand src) 0 formula).
(** FilterOperations.hpp:125-127; the conditions are a std::set *)
Record reroute := mkReroute { r_new : list Z; r_conds : list (list Z) }.
(** FilterOperations.cpp:402-417 rerouteOperation *)
Definition rerouteOperation (r : reroute) (src dest : list Z) : list Z :=
  match r_conds r with
  | [] => newDestGeneration src dest (r_new r)
  | cs => if existsb (fun c => search c dest) cs then newDestGeneration src dest (r_new r) else dest
  end.
Definition rerouteOp (r : reroute) : operator := plainOp (destProcess (Some (rerouteOperation r))).
(** FilterOperations.cpp:331-351 setString; [CondBad]: the text is not a regular expression, an exception *)
Inductive rerouteCall := NewDest (v : list Z) | Cond (v : list Z) | CondBad.
Definition rerouteStep (r : reroute) (c : rerouteCall) : reroute :=
  match c with
  | NewDest v => mkReroute v (r_conds r)
  | Cond v => mkReroute (r_new r) (if existsb (beq v) (r_conds r) then r_conds r else r_conds r ++ [v])
  | CondBad => r end.
End Reroute.

(** ** Firewall (FilterOperations.cpp:424-460): the operator's operation is [FwDrop] (MessageOperators.hpp:143) and cannot be changed through the filter *)
Definition firewallAllow (g : message) : bool := true.
Definition firewallOp : operator := plainOp (firewallProcess FwDrop (Some firewallAllow)).

(** ** Clone (FilterOperations.cpp:462-546) *)
Inductive cloneCall := Delivery (v : list Z) | AddDelivery (v : list Z) | RemoveDelivery (v : list Z).
Fixpoint eraseFirst (v : list Z) (l : list (list Z)) : list (list Z) := match l with [] => [] | x :: r => if beq x v then r else x :: eraseFirst v r end.
(** FilterOperations.cpp:475-501 setString *)
Definition cloneStep (l : list (list Z)) (c : cloneCall) : list (list Z) :=
  match c with
  | Delivery v => [v]
  | AddDelivery v => if existsb (beq v) l then l else l ++ [v]
  | RemoveDelivery v => eraseFirst v l
  end.
Definition cloneAfter (cs : list cloneCall) : list (list Z) := fold_left cloneStep cs [].
(** FilterOperations.cpp:535-545 sendMessage *)
Definition cloneSend (addrs : list (list Z)) (g : message) : list message := map (fun a => withDest a (withOrigDest (g_dest g) g)) addrs.
Definition cloneOp (addrs : list (list Z)) : operator := mkOp (cloneProcess (Some (cloneSend addrs))) (cloneVector (Some (cloneSend addrs))).
