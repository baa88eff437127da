(** * Simulation time and identifiers (model)

    helics::Time is TimeRepresentation<count_time<9>> (src/helics/core/helicsTime.hpp:24-28): a
    signed 64-bit count of nanoseconds.  The class itself lives in a git submodule that is not in
    /repo; the constants below are the ones its documented interface gives.  We use unbounded [Z];
    where overflow could matter theorems carry explicit range hypotheses. *)
From Coq Require Import ZArith Bool List Lia.
Import ListNotations.
Open Scope Z_scope.

(** Time::maxVal() : the largest int64. *)
Definition maxVal : Z := 9223372036854775807.
(** Time::minVal() : symmetric to maxVal. *)
Definition minVal : Z := -9223372036854775807.
(** helicsTime.hpp:31 timeZero *)
Definition timeZero : Z := 0.
(** helicsTime.hpp:33 timeEpsilon = one tick *)
Definition timeEpsilon : Z := 1.
(** helicsTime.hpp:35 negEpsilon *)
Definition negEpsilon : Z := -1.
(** helicsTime.hpp:39 cTerminationTime = Time{HELICS_TERMINATION_TIME_VALUE}
    (src/helics/shared_api_library/backup/helics/helics.h:465-466: 9223372036.854774 / 2.0 seconds,
    which is this many nanoseconds after the double conversion). *)
Definition cTerminationTime : Z := 4611686018427387392.
(** helicsTime.hpp:43 initializationTime *)
Definition initializationTime : Z := negEpsilon.

(** src/helics/core/GlobalFederateId.hpp:20 gGlobalFederateIdShift *)
Definition gGlobalFederateIdShift : Z := 131072.
(** src/helics/core/GlobalFederateId.hpp:22 gGlobalBrokerIdShift = 0x70000000 *)
Definition gGlobalBrokerIdShift : Z := 1879048192.
(** src/helics/core/GlobalFederateId.hpp:127 invalid_global_fed_id: the default id *)
Definition invalidId : Z := -2010000000.
(** src/helics/core/LocalFederateId.hpp:57 gInvalidInterfaceHandle *)
Definition invalidHandle : Z := -1700000000.
(** src/helics/core/GlobalFederateId.hpp:105-108 isFederate *)
Definition isFederate (g : Z) : bool := (gGlobalFederateIdShift <=? g) && (g <? gGlobalBrokerIdShift).
(** src/helics/core/GlobalFederateId.hpp:110 isBroker *)
Definition isBroker (g : Z) : bool := (gGlobalBrokerIdShift <=? g) || (g =? 1).
(** src/helics/core/GlobalFederateId.hpp:112-115 isValid *)
Definition isValidId (g : Z) : bool := negb (g =? invalidId) && negb (g =? invalidHandle).
(** src/helics/core/GlobalFederateId.hpp:63-70: parent_broker_id (0) and gRootBrokerID (1) *)
Definition parent_broker_id : Z := 0.
Definition gRootBrokerID : Z := 1.

(** static_cast to uint16_t / int8_t / uint8_t, used where the code narrows. *)
Definition u16 (z : Z) : Z := z mod 65536.
Definition u8 (z : Z) : Z := z mod 256.
Definition s8 (z : Z) : Z := (z + 128) mod 256 - 128.
