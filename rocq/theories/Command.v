(** * Commands from one federate to another (model)

    sendCommand, getCommand and waitCommand of federates, and the way of a command through the cores and brokers.  All
    federates are registered: their names are unique and every broker knows those below it (C44), which is stated with the
    variables of the section.  Each pair of neighbours has one first-in first-out connection for the commands of each of the
    two modes (the fast ones are priority commands, C38), and the queue of a core is its connection with itself.  The id
    which a broker fills in when it finds the name leads the same way as the name (C44), so it is left out.  Not modelled:
    commands to cores and brokers ("core", "broker", "root", "federation" and their names) and the answers to the commands
    which FederateState handles itself. *)
From Coq Require Import String Ascii ZArith Bool List Lia.
From Verif Require Import Route.
Import ListNotations.
Open Scope list_scope.

(** CMD_SEND_COMMAND or CMD_SEND_COMMAND_ORDERED: source and target names, mode, text.  c_core, the core it is sent from, and
    c_seq, the number of the command, are not in the code and no function below looks at them *)
Record cmd := mkC { c_seq : nat; c_core : nat; c_src : string; c_target : string; c_fast : bool; c_text : string }.
(** q_links: the connections; q_box: FederateState.hpp commandQueue.  Not in the code, for the record only: q_arrived, what a
    federate has been handed; q_popped, what it has taken from its queue; q_got, what its calls have returned; q_lost, the
    commands for which the root answered that there is no such target; q_sent, all commands *)
Record qsys : Type := mkQ {
  q_links : bool -> nat -> nat -> list cmd;
  q_box : string -> list cmd;
  q_arrived : string -> list cmd;
  q_popped : string -> list cmd;
  q_got : string -> list (string * string);
  q_lost : list cmd;
  q_sent : list cmd
}.
(** field update of [qsys] above (C++ member assignment) *)
Definition set_q_links (v : bool -> nat -> nat -> list cmd) (r : qsys) : qsys := mkQ v (q_box r) (q_arrived r) (q_popped r) (q_got r) (q_lost r) (q_sent r).
(** field update of [qsys] above (C++ member assignment) *)
Definition set_q_box (v : string -> list cmd) (r : qsys) : qsys := mkQ (q_links r) v (q_arrived r) (q_popped r) (q_got r) (q_lost r) (q_sent r).
(** field update of [qsys] above (C++ member assignment) *)
Definition set_q_arrived (v : string -> list cmd) (r : qsys) : qsys := mkQ (q_links r) (q_box r) v (q_popped r) (q_got r) (q_lost r) (q_sent r).
(** field update of [qsys] above (C++ member assignment) *)
Definition set_q_popped (v : string -> list cmd) (r : qsys) : qsys := mkQ (q_links r) (q_box r) (q_arrived r) v (q_got r) (q_lost r) (q_sent r).
(** field update of [qsys] above (C++ member assignment) *)
Definition set_q_got (v : string -> list (string * string)) (r : qsys) : qsys := mkQ (q_links r) (q_box r) (q_arrived r) (q_popped r) v (q_lost r) (q_sent r).
(** field update of [qsys] above (C++ member assignment) *)
Definition set_q_lost (v : list cmd) (r : qsys) : qsys := mkQ (q_links r) (q_box r) (q_arrived r) (q_popped r) (q_got r) v (q_sent r).
(** field update of [qsys] above (C++ member assignment) *)
Definition set_q_sent (v : list cmd) (r : qsys) : qsys := mkQ (q_links r) (q_box r) (q_arrived r) (q_popped r) (q_got r) (q_lost r) v.

(** at the start (initial members of the classes) *)
Definition qsys0 : qsys := mkQ (fun _ _ _ => []) (fun _ => []) (fun _ => []) (fun _ => []) (fun _ => []) [] [].
(** one entry of a table (std::map) changes *)
Definition at_ {A : Type} (n : string) (v : A) (f : string -> A) : string -> A := fun a => if String.eqb a n then v else f a.
(** a connection takes another command: CommsInterface.cpp transmit, BrokerBase.hpp addActionMessage *)
Definition putOn (x y : nat) (c : cmd) (s : qsys) : qsys :=
  set_q_links (fun m a b => if Bool.eqb m (c_fast c) && (Nat.eqb a x && Nat.eqb b y) then q_links s m a b ++ [c] else q_links s m a b) s.
(** CommonCore.cpp:3177-3203 sendCommand; the command "flush" becomes a query (3182-3185) *)
Definition sendCommand (K : nat) (src target : string) (fast : bool) (text : string) (s : qsys) : qsys :=
  if String.eqb text "flush" then s
  else let c := mkC (length (q_sent s)) K src target fast text in set_q_sent (q_sent s ++ [c]) (putOn K K c s).

(** FederateState.cpp:2555-2559: what follows a # is a comment, and the character before it goes with it; substr(0, -1) is
    everything.  trimString (2560) is left out *)
Definition clean (text : string) : string :=
  match index 0 "#" text with Some (S k) => substring 0 k text | _ => text end.
(** gmlc splitlineQuotes at blanks, without empty parts (FederateState.cpp:2561-2565); quotes are not looked at *)
Fixpoint words_aux (w : string) (t : string) : list string :=
  match t with
  | EmptyString => if String.eqb w "" then [] else [w]
  | String a r => if Ascii.eqb a " " then (if String.eqb w "" then words_aux "" r else w :: words_aux "" r) else words_aux (w ++ String a "")%string r
  end.
(** the words of a command, as above *)
Definition words (t : string) : list string := words_aux "" t.
(** the commands which do not get into the queue: FederateState.cpp:2566-2666 sendCommand *)
Definition reserved (text : string) : bool :=
  match words (clean text) with
  | [] => true
  | w :: r =>
      existsb (String.eqb w) ["terminate"; "halt"; "echo"; "command_status"; "logbuffer"; "remotelog"; "timeout_monitor"; "log"]%string
      || (String.eqb w "set" && match r with a :: _ :: _ => String.eqb a "barrier" | _ => false end)
      || (String.eqb w "clear" && match r with a :: _ => String.eqb a "barrier" | _ => false end)
  end.
(** FederateState.cpp:2552-2669 sendCommand *)
Definition hand (n : string) (c : cmd) (s : qsys) : qsys :=
  let s := set_q_arrived (at_ n (q_arrived s n ++ [c]) (q_arrived s)) s in
  if reserved (c_text c) then s else set_q_box (at_ n (q_box s n ++ [c]) (q_box s)) s.
(** the command which is answered at once (FederateState.cpp:2674, 2689) *)
Definition isNotify (c : cmd) : bool := String.eqb (clean (c_text c)) "notify".
(** what a call returns for a command (FederateState.cpp:2683, 2699) *)
Definition result (c : cmd) : string * string := (clean (c_text c), c_src c).
(** the commands before the first one which is not "notify" (the loop FederateState.cpp:2674-2682) *)
Fixpoint span (l : list cmd) : list cmd * list cmd :=
  match l with [] => ([], []) | c :: r => if isNotify c then let (a, b) := span r in (c :: a, b) else ([], l) end.
(** the answers to "notify" (FederateState.cpp:2676-2680, 2691-2695) *)
Definition answers (K : nat) (n : string) (l : list cmd) (s : qsys) : qsys :=
  fold_left (fun s c => sendCommand K n (c_src c) true "notify_response" s) l s.
(** a federate takes commands from its queue (gmlc BlockingQueue try_pop, pop) *)
Definition takeOff (n : string) (l r : list cmd) (s : qsys) : qsys :=
  set_q_box (at_ n r (q_box s)) (set_q_popped (at_ n (q_popped s n ++ l) (q_popped s)) s).
(** what a call has returned, for the record (not in the code) *)
Definition returned (n : string) (x : string * string) (s : qsys) : qsys := set_q_got (at_ n (q_got s n ++ [x]) (q_got s)) s.
(** FederateState.cpp:2671-2684 getCommand of the federate [n] at the core [K] *)
Definition getCommand (K : nat) (n : string) (s : qsys) : qsys :=
  let (ns, rest) := span (q_box s n) in
  match rest with
  | [] => returned n (""%string, ""%string) (answers K n ns (takeOff n ns [] s))
  | c :: r => returned n (result c) (answers K n ns (takeOff n (ns ++ [c]) r s))
  end.
(** FederateState.cpp:2686-2700 waitCommand; it happens when there is enough in the queue for it to return *)
Definition waitCommand (K : nat) (n : string) (s : qsys) : qsys :=
  match q_box s n with
  | [] => s
  | c :: r =>
      if isNotify c then match r with [] => s | c2 :: r2 => returned n (result c2) (answers K n [c] (takeOff n [c; c2] r2 s)) end
      else returned n (result c) (takeOff n [c] r s)
  end.
Section Command.
Variable T : topology.
(** the core of the federate with a name (CommonCore.hpp federates, getFederateCore) *)
Variable owner : string -> option nat.
(** the node below a broker to which it sends what is for the federate of a name (CoreBroker.hpp mFederates) *)
Variable route : nat -> string -> option nat.
(** transmit(parent_route_id, ..) *)
Definition up (x : nat) (c : cmd) (s : qsys) : qsys := match t_parent T x with Some p => putOn x p c s | None => s end.
(** CommonCore.cpp:3345-3370, 3581-3606 *)
Definition coreCmd (K : nat) (c : cmd) (s : qsys) : qsys :=
  match owner (c_target c) with
  | Some K' => if Nat.eqb K' K then hand (c_target c) c s else up K c s
  | None => up K c s
  end.
(** CoreBroker.cpp:4560-4614 processCommandInstruction *)
Definition brokerCmd (x : nat) (c : cmd) (s : qsys) : qsys :=
  match route x (c_target c) with
  | Some k => putOn x k c s
  | None => if Nat.eqb x (t_root T) then set_q_lost (q_lost s ++ [c]) s else up x c s
  end.
(** the two classes of nodes *)
Definition does (x : nat) (c : cmd) (s : qsys) : qsys := if t_core T x then coreCmd x c s else brokerCmd x c s.
(** the next command of a mode on the connection from x to y is processed by y *)
Definition attend (m : bool) (x y : nat) (s : qsys) : qsys :=
  match q_links s m x y with
  | [] => s
  | c :: r => does y c (set_q_links (fun m' a b => if Bool.eqb m' m && (Nat.eqb a x && Nat.eqb b y) then r else q_links s m' a b) s)
  end.
(** what can happen: sendCommand with a source name at a core, getCommand and waitCommand of a federate, and a node which
    processes a command *)
Inductive qevent :=
| Q_send (K : nat) (src target : string) (fast : bool) (text : string)
| Q_get (n : string)
| Q_wait (n : string)
| Q_serve (m : bool) (x y : nat).
(** the effect of one event: the functions above *)
Definition qstep (s : qsys) (e : qevent) : qsys :=
  match e with
  | Q_send K src target fast text => if t_core T K then sendCommand K src target fast text s else s
  | Q_get n => match owner n with Some K => getCommand K n s | None => s end
  | Q_wait n => match owner n with Some K => waitCommand K n s | None => s end
  | Q_serve m x y => attend m x y s
  end.
(** a whole history from the start (not in the code) *)
Definition qrun (es : list qevent) : qsys := fold_left qstep es qsys0.
End Command.
