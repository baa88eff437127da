(** * Identifiers and flag words (model)

    src/helics/core/GlobalFederateId.hpp, LocalFederateId.hpp, flagOperations.hpp; the assignment of ids by the root
    broker in CoreBroker.cpp.  Ids are int32_t: integers in [-2^31, 2^31); results are reduced to that range as the machine
    does. *)
From Coq Require Import ZArith Bool List Lia.
From Verif Require Import HTime Action.
Import ListNotations.
Open Scope Z_scope.

(** conversion to int32_t, uint16_t, uint64_t *)
Definition toI32 (z : Z) : Z := (z + 2 ^ 31) mod 2 ^ 32 - 2 ^ 31.
Definition toU16 (z : Z) : Z := z mod 2 ^ 16.
Definition toU64 (z : Z) : Z := z mod 2 ^ 64.

(** GlobalFederateId.hpp:22-26 *)
Definition fedShift : Z := 0x20000.
Definition brokerShift : Z := 0x70000000.
Definition priorityBlock : Z := 100000000.
(** GlobalFederateId.hpp:69 *)
Definition rootId : Z := 1.
(** GlobalFederateId.hpp:46-54, 105-115; 61-63, 127 the invalid id; LocalFederateId.hpp:57 *)
Definition isFederate (g : Z) : bool := (fedShift <=? g) && (g <? brokerShift).
Definition isBroker (g : Z) : bool := (brokerShift <=? g) || (g =? 1).
Definition invalidId : Z := -2010000000.
Definition invalidHandle : Z := -1700000000.
Definition isValid (g : Z) : bool := negb (g =? invalidId) && negb (g =? invalidHandle).
(** GlobalFederateId.hpp:134-142 *)
Definition getSpecialFederateId (broker index : Z) : Z :=
  if negb (broker =? rootId) then toI32 (brokerShift - 3 * (broker - brokerShift + 2) + index) else toI32 (brokerShift - index - 1).
(** CoreBroker.cpp:481-482: the root broker's id for the broker in slot [k] of its table *)
Definition newBrokerId (k : Z) : Z := toI32 (k + brokerShift).
(** CoreBroker.cpp:621-629: its id for the federate in slot [k] which asked for priority [counter] (uint16_t) *)
Definition newFederateId (k counter : Z) : Z :=
  if (0 <? counter) && (counter <=? 16) then toI32 (k + fedShift + counter * priorityBlock) else toI32 (k + fedShift).

(** GlobalFederateId.hpp:147-180 GlobalHandle, operator uint64_t, ==, < *)
Definition handleKey (fed handle : Z) : Z := toU64 (toU64 (Z.shiftl (toU64 fed) 32) + Z.land (toU64 handle) 0xFFFFFFFF).
Definition handleEq (a b : Z * Z) : bool := (fst a =? fst b) && (snd a =? snd b).
Definition handleLt (a b : Z * Z) : bool := if fst a <? fst b then true else if negb (fst a =? fst b) then false else snd a <? snd b.

(** GlobalFederateId.hpp:213-221 *)
Definition generateRouteId (code index : Z) : Z := toI32 (code * 256 * 256 * 256 + index).
Definition getRouteTypeCode (rid : Z) : Z := Z.shiftr rid 24.
(** GlobalFederateId.hpp:206, 210-211 *)
Definition invalidRoute : Z := -1295148000.

(** ** flag words: uint16_t *)
(** flagOperations.hpp:155, 163: the mask of a flag *)
Definition mask (f : Z) : Z := toU16 (Z.shiftl 1 f).
(** flagOperations.hpp:153-156 *)
Definition setActionFlag (flags f : Z) : Z := Z.lor flags (mask f).
(** flagOperations.hpp:160-172 *)
Definition checkActionFlag (flags f : Z) : bool := negb (Z.land flags (mask f) =? 0).
(** flagOperations.hpp:176-179 *)
Definition clearActionFlag (flags f : Z) : Z := Z.land flags (toU16 (Z.lnot (Z.shiftl 1 f))).
(** flagOperations.hpp:183-190 *)
Definition toggleActionFlag (flags f : Z) : Z := if checkActionFlag flags f then clearActionFlag flags f else setActionFlag flags f.
(** flagOperations.hpp:193-214 *)
Definition make_flags (f : Z) : Z := mask f.
Definition make_flags2 (f g : Z) : Z := Z.lor (make_flags f) (make_flags g).
Definition make_flags3 (f g h : Z) : Z := Z.lor (make_flags2 f g) (make_flags h).
Definition toggle_flag (base f : Z) : Z := Z.lxor base (make_flags f).
