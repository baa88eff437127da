(** * C42: endpoint messages and commands

    src/helics/core/ActionMessage.cpp:60-69 (constructor from a message), 129-141 (assignment from a message),
    679-745 (createMessageFromCommand, both forms). *)
From Coq Require Import ZArith Bool List Lia.
From Verif Require Import HTime Action Codec CodecProofs PropsCodec Bundle.
Import ListNotations.
Open Scope Z_scope.

(** src/helics/core/core-data.hpp Message (counter and messageValidation are not transferred and not modelled) *)
Record message := mkMessage { g_time : Z; g_flags : Z; g_id : Z; g_data : list Z; g_dest : list Z; g_source : list Z; g_origSource : list Z; g_origDest : list Z }.
(** ActionMessage.cpp:60-69: the other fields have their default values (ActionMessage.hpp:34-48) *)
Definition commandOf (g : message) : amsg :=
  set_m_strings [g_dest g; g_source g; g_origSource g; g_origDest g]
    (set_m_payload (g_data g) (set_m_actionTime (g_time g) (set_m_flags (g_flags g) (set_m_messageID (g_id g) (fresh CMD_SEND_MESSAGE))))).
(** ActionMessage.cpp:129-141: assignment to an existing command *)
Definition assignMessage (g : message) (m : amsg) : amsg :=
  set_m_strings [g_dest g; g_source g; g_origSource g; g_origDest g]
    (set_m_payload (g_data g) (set_m_actionTime (g_time g) (set_m_flags (g_flags g) (set_m_messageID (g_id g) (set_m_action CMD_SEND_MESSAGE m))))).
(** ActionMessage.cpp:679-710 *)
Definition messageOf (m : amsg) : message :=
  let '(d, s, os, od) :=
    match m_strings m with
    | [] => ([], [], [], [])
    | [a] => (a, [], [], [])
    | [a; b] => (a, b, [], [])
    | [a; b; c] => (a, b, c, [])
    | a :: b :: c :: d :: _ => (a, b, c, d)
    end in
  mkMessage (m_actionTime m) (m_flags m) (m_messageID m) (m_payload m) d s os od.

Theorem C42_message_survives g : messageOf (commandOf g) = g.
Proof. destruct g. reflexivity. Qed.
Theorem C42_assigned_message_survives g m : messageOf (assignMessage g m) = g.
Proof. destruct g. reflexivity. Qed.
(** a command's data, time, flags and id are those of the message made from it; its first four strings are the
    addresses, missing ones are empty *)
Theorem C42_command_fields_kept m : g_data (messageOf m) = m_payload m /\ g_time (messageOf m) = m_actionTime m /\ g_flags (messageOf m) = m_flags m /\ g_id (messageOf m) = m_messageID m /\
  g_dest (messageOf m) = nth 0 (m_strings m) [] /\ g_source (messageOf m) = nth 1 (m_strings m) [] /\ g_origSource (messageOf m) = nth 2 (m_strings m) [] /\ g_origDest (messageOf m) = nth 3 (m_strings m) [].
Proof. unfold messageOf. destruct (m_strings m) as [|a [|b [|c [|d l]]]]; cbn; auto 8. Qed.
(** a message sent as a command over the wire arrives as it was *)
Theorem C42_message_survives_wire json h g rest : wire (commandOf g) -> forall m n,
  fromString json h (fresh CMD_IGNORE) (toString h (commandOf g) ++ rest) = Done m n -> messageOf m = g.
Proof.
  intros W m n E. rewrite C20_command_round_trip in E by (exact W || reflexivity). injection E as <- _. rewrite C20_all_fields_kept by (reflexivity || discriminate). apply C42_message_survives.
Qed.
Example C42_nonvacuous : let g := mkMessage 3000000000 4 17 [1; 2; 3] [97; 47; 98] [99] [100] [101] in wire (commandOf g) /\ messageOf (commandOf g) = g.
Proof. split; [|reflexivity]. constructor; match goal with |- Forall _ _ => repeat constructor | _ => vm_compute; intuition congruence end. Qed.
