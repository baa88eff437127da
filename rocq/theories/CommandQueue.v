(** * C52: what the calls of a federate return; examples *)
From Coq Require Import String Ascii ZArith Bool List Lia.
From Verif Require Import Route RouteInv PropsRoute PropsDeliver RouteLive Command PropsCommand.
Import ListNotations.
Open Scope list_scope.

Section Queue.
Variable T : topology.
Variable owner : string -> option nat.
Variable route : nat -> string -> option nat.
Notation qstep := (qstep T owner route).
Notation qrun := (qrun T owner route).
Lemma run_snoc es e : qrun (es ++ [e]) = qstep (qrun es) e.
Proof. unfold Command.qrun. rewrite fold_left_app. reflexivity. Qed.

(** ** what the functions leave alone *)
Lemma send_frame K src target fast text s : let s' := sendCommand K src target fast text s in q_arrived s' = q_arrived s /\ q_box s' = q_box s /\ q_popped s' = q_popped s /\ q_got s' = q_got s.
Proof. unfold sendCommand. destruct (String.eqb text "flush"); repeat split. Qed.
Lemma answers_frame K f ns : forall s, let s' := answers K f ns s in q_arrived s' = q_arrived s /\ q_box s' = q_box s /\ q_popped s' = q_popped s /\ q_got s' = q_got s.
Proof.
  induction ns as [|c ns IH]; intros s; [repeat split|]. cbn [answers fold_left]. destruct (IH (sendCommand K f (c_src c) true "notify_response" s)) as (A & B & C & D). destruct (send_frame K f (c_src c) true "notify_response" s) as (A' & B' & C' & D'). cbv zeta in *. unfold answers in *. rewrite A, B, C, D. auto.
Qed.
Lemma does_popped x c s : q_popped (does T owner route x c s) = q_popped s /\ q_got (does T owner route x c s) = q_got s.
Proof.
  unfold does. destruct (t_core T x).
  - unfold coreCmd, up. destruct (owner (c_target c)) as [K|]; [destruct (Nat.eqb K x); [unfold hand; destruct (reserved (c_text c)); split; reflexivity|]|]; destruct (t_parent T x); split; reflexivity.
  - unfold brokerCmd, up. destruct (route x (c_target c)); [split; reflexivity|]. destruct (Nat.eqb x (t_root T)); [split; reflexivity|]. destruct (t_parent T x); split; reflexivity.
Qed.
Lemma attend_frame m x y s : q_popped (attend T owner route m x y s) = q_popped s /\ q_got (attend T owner route m x y s) = q_got s.
Proof. unfold attend. destruct (q_links s m x y) as [|c r]; [split; reflexivity|]. set (s0 := set_q_links _ s). destruct (does_popped y c s0) as [A B]. rewrite A, B. split; reflexivity. Qed.

(** ** the queue *)
(** a federate's queue holds, in the order in which they came, the commands it has been handed and not yet taken, except those
    HELICS handles itself *)
Definition forUser (c : cmd) : bool := negb (reserved (c_text c)).
Definition queued (s : qsys) : Prop := forall n, q_popped s n ++ q_box s n = filter forUser (q_arrived s n).
Lemma queued_takeOff f a b s : q_box s f = a ++ b -> queued s -> queued (takeOff f a b s).
Proof.
  intros E Q n. cbn. unfold at_. destruct (String.eqb_spec n f) as [->|N]; [|apply Q]. rewrite <- app_assoc, <- E. apply Q.
Qed.
Lemma queued_frame s s' : q_arrived s' = q_arrived s /\ q_box s' = q_box s /\ q_popped s' = q_popped s /\ q_got s' = q_got s -> queued s -> queued s'.
Proof. intros (A & B & C & _) Q n. rewrite A, B, C. apply Q. Qed.
Lemma queued_returned f x s : queued s -> queued (returned f x s). Proof. intros Q. exact Q. Qed.
Lemma span_app l : l = fst (span l) ++ snd (span l).
Proof. induction l as [|c r IH]; [reflexivity|]. cbn. destruct (isNotify c); [|reflexivity]. destruct (span r) as [a b]. cbn in *. congruence. Qed.
Lemma span_notify l : Forall (fun c => isNotify c = true) (fst (span l)).
Proof. induction l as [|c r IH]; [constructor|]. cbn. destruct (isNotify c) eqn:Q; [|constructor]. destruct (span r) as [a b]. constructor; assumption. Qed.
Lemma span_next l : match snd (span l) with [] => True | c :: _ => isNotify c = false end.
Proof. induction l as [|c r IH]; [exact I|]. cbn. destruct (isNotify c) eqn:Q; [|exact Q]. destruct (span r) as [a b]. exact IH. Qed.
Theorem C52_queue_in_order es n : q_popped (qrun es) n ++ q_box (qrun es) n = filter forUser (q_arrived (qrun es) n).
Proof.
  revert n. change (queued (qrun es)). induction es as [|e es IH] using rev_ind; [intros n; reflexivity|]. rewrite run_snoc. set (s := qrun es) in *. clearbody s. destruct e as [K src target fast text|f|f|m x y]; cbn [Command.qstep].
  - destruct (t_core T K); [|exact IH]. apply (queued_frame s); [apply send_frame|exact IH].
  - destruct (owner f) as [K|]; [|exact IH]. unfold getCommand. pose proof (span_app (q_box s f)) as SP. destruct (span (q_box s f)) as [ns [|c r]]; cbn [fst snd] in SP; apply queued_returned.
    + apply (queued_frame (takeOff f ns [] s)); [apply answers_frame|]. apply queued_takeOff; assumption.
    + apply (queued_frame (takeOff f (ns ++ [c]) r s)); [apply answers_frame|]. apply queued_takeOff; [rewrite SP, <- app_assoc; reflexivity|exact IH].
  - destruct (owner f) as [K|]; [|exact IH]. unfold waitCommand. destruct (q_box s f) as [|c r] eqn:B; [exact IH|]. destruct (isNotify c).
    + destruct r as [|c2 r2]; [exact IH|]. apply queued_returned. apply (queued_frame (takeOff f [c; c2] r2 s)); [apply answers_frame|]. apply queued_takeOff; assumption.
    + apply queued_returned, queued_takeOff; assumption.
  - unfold attend. destruct (q_links s m x y) as [|c r]; [exact IH|]. set (s0 := set_q_links _ s). assert (Q0 : queued s0) by exact IH. unfold does. destruct (t_core T y).
    + unfold coreCmd, up. destruct (owner (c_target c)) as [K|]; [destruct (Nat.eqb K y)|]; try (destruct (t_parent T y); exact Q0).
      unfold hand. intros n. specialize (Q0 n). unfold forUser in *. destruct (reserved (c_text c)) eqn:RS; cbn; unfold at_; (destruct (String.eqb_spec n (c_target c)) as [->|N]; [|exact Q0]); rewrite filter_app; cbn; rewrite RS; cbn; cbn in Q0; [rewrite app_nil_r; exact Q0|]. rewrite <- Q0, app_assoc. reflexivity.
    + unfold brokerCmd, up. destruct (route y (c_target c)); [exact Q0|]. destruct (Nat.eqb y (t_root T)); [exact Q0|]. destruct (t_parent T y); exact Q0.
Qed.

(** ** what getCommand returns *)
(** what a call should return for a command: its text without the comment, and who sent it *)
Definition said (c : cmd) : string * string := (clean (c_text c), c_src c).
Definition real (x : string * string) : bool := negb (String.eqb (fst x) "").
Definition noWait (n : string) (e : qevent) : Prop := e <> Q_wait n.
Lemma user_nonempty c : forUser c = true -> real (result c) = true.
Proof.
  unfold forUser, real, result, reserved. cbn [fst]. destruct (String.eqb_spec (clean (c_text c)) "") as [->|N]; [cbn; discriminate|reflexivity].
Qed.
Lemma box_user es n : Forall (fun c => forUser c = true) (q_box (qrun es) n).
Proof. pose proof (C52_queue_in_order es n) as Q. apply Forall_forall. intros c I. assert (IN : In c (filter forUser (q_arrived (qrun es) n))) by (rewrite <- Q; apply in_or_app; auto). apply filter_In in IN. apply IN. Qed.
(** a federate which uses getCommand gets, in order, every command it takes from its queue except "notify"; the answer when there
    is none is empty, and no command looks like that *)
Theorem C52_get_returns_in_order es n : Forall (noWait n) es -> filter real (q_got (qrun es) n) = map said (filter (fun c => negb (isNotify c)) (q_popped (qrun es) n)).
Proof.
  induction es as [|e es IH] using rev_ind; intros F; [reflexivity|]. apply Forall_app in F as [F FE]. inversion FE as [|e0 l0 OE _]. subst e0 l0. specialize (IH F). rewrite run_snoc. pose proof (box_user es) as BU. set (s := qrun es) in *. clearbody s.
  assert (NN : forall l, Forall (fun c => isNotify c = true) l -> filter (fun c => negb (isNotify c)) l = []) by (induction 1 as [|c l H _ IHl]; [reflexivity|]; cbn; rewrite H; exact IHl).
  destruct e as [K src target fast text|f|f|m x y]; cbn [Command.qstep].
  - destruct (t_core T K); [|exact IH]. destruct (send_frame K src target fast text s) as (_ & _ & A & B). rewrite A, B. exact IH.
  - destruct (owner f) as [K|]; [|exact IH]. unfold getCommand. pose proof (span_app (q_box s f)) as SP. pose proof (span_notify (q_box s f)) as SN. pose proof (span_next (q_box s f)) as SX. destruct (span (q_box s f)) as [ns [|c r]]; cbn [fst snd] in *.
    + destruct (answers_frame K f ns (takeOff f ns [] s)) as (_ & _ & A & B). cbv zeta in A, B. cbn [q_got returned set_q_got q_popped]. rewrite A, B. cbn. unfold at_. destruct (String.eqb_spec n f) as [->|N]; [|exact IH]. rewrite !filter_app. cbn. rewrite app_nil_r, (NN ns SN), app_nil_r. exact IH.
    + destruct (answers_frame K f ns (takeOff f (ns ++ [c]) r s)) as (_ & _ & A & B). cbv zeta in A, B. cbn [q_got returned set_q_got q_popped]. rewrite A, B. cbn [takeOff q_popped q_got set_q_box set_q_popped]. unfold at_. destruct (String.eqb_spec n f) as [->|N]; [|exact IH].
      assert (UC : forUser c = true) by (specialize (BU f); rewrite SP in BU; apply Forall_app in BU as [_ BU]; inversion BU; assumption).
      rewrite !filter_app. cbn [filter]. rewrite (user_nonempty c UC), (NN ns SN), SX. cbn [negb app]. rewrite map_app, IH. reflexivity.
  - destruct (owner f) as [K|]; [|exact IH]. assert (N : n <> f) by (intros ->; apply OE; reflexivity). apply String.eqb_neq in N. unfold waitCommand. destruct (q_box s f) as [|c r]; [exact IH|]. destruct (isNotify c); [destruct r as [|c2 r2]; [exact IH|]|].
    + destruct (answers_frame K f [c] (takeOff f [c; c2] r2 s)) as (_ & _ & A & B). cbv zeta in A, B. cbn [q_got returned set_q_got q_popped]. rewrite A, B. cbn. unfold at_. rewrite N. exact IH.
    + cbn. unfold at_. rewrite N. exact IH.
  - destruct (attend_frame m x y s) as (A & B). rewrite A, B. exact IH.
Qed.

(** with waitCommand too, nothing which is taken from the queue is passed over except "notify", and the order is kept *)
Definition proper (x : string * string) : bool := real x && negb (String.eqb (fst x) "notify").
Theorem C52_calls_return_in_order es n : filter proper (q_got (qrun es) n) = map said (filter (fun c => negb (isNotify c)) (q_popped (qrun es) n)).
Proof.
  induction es as [|e es IH] using rev_ind; [reflexivity|]. rewrite run_snoc. pose proof (box_user es) as BU. set (s := qrun es) in *. clearbody s.
  assert (NN : forall l, Forall (fun c => isNotify c = true) l -> filter (fun c => negb (isNotify c)) l = []) by (induction 1 as [|c l H _ IHl]; [reflexivity|]; cbn; rewrite H; exact IHl).
  assert (ONE : forall c, forUser c = true -> filter proper [result c] = map said (filter (fun c => negb (isNotify c)) [c])).
  { intros c U. cbn [filter]. unfold proper. rewrite (user_nonempty c U). unfold isNotify, result at 1. cbn [fst andb]. destruct (String.eqb (clean (c_text c)) "notify"); reflexivity. }
  destruct e as [K src target fast text|f|f|m x y]; cbn [Command.qstep].
  - destruct (t_core T K); [|exact IH]. destruct (send_frame K src target fast text s) as (_ & _ & A & B). rewrite A, B. exact IH.
  - destruct (owner f) as [K|]; [|exact IH]. unfold getCommand. pose proof (span_app (q_box s f)) as SP. pose proof (span_notify (q_box s f)) as SN. destruct (span (q_box s f)) as [ns [|c r]]; cbn [fst snd] in *.
    + destruct (answers_frame K f ns (takeOff f ns [] s)) as (_ & _ & A & B). cbv zeta in A, B. cbn [q_got returned set_q_got q_popped]. rewrite A, B. cbn. unfold at_. destruct (String.eqb_spec n f) as [->|N]; [|exact IH]. rewrite !filter_app. cbn. rewrite app_nil_r, (NN ns SN), app_nil_r. exact IH.
    + destruct (answers_frame K f ns (takeOff f (ns ++ [c]) r s)) as (_ & _ & A & B). cbv zeta in A, B. cbn [q_got returned set_q_got q_popped]. rewrite A, B. cbn [takeOff q_popped q_got set_q_box set_q_popped]. unfold at_. destruct (String.eqb_spec n f) as [->|N]; [|exact IH].
      assert (UC : forUser c = true) by (specialize (BU f); rewrite SP in BU; apply Forall_app in BU as [_ BU]; inversion BU; assumption).
      rewrite !filter_app, (ONE c UC), (NN ns SN), !map_app, IH. reflexivity.
  - destruct (owner f) as [K|]; [|exact IH]. unfold waitCommand. specialize (BU f). destruct (q_box s f) as [|c r]; [exact IH|]. inversion BU as [|c0 l0 UC UR]. subst c0 l0. destruct (isNotify c) eqn:IC; [destruct r as [|c2 r2]; [exact IH|]|].
    + inversion UR as [|c0 l0 UC2 _]. subst c0 l0. destruct (answers_frame K f [c] (takeOff f [c; c2] r2 s)) as (_ & _ & A & B). cbv zeta in A, B. cbn [q_got returned set_q_got q_popped]. rewrite A, B. cbn [takeOff q_popped q_got set_q_box set_q_popped]. unfold at_. destruct (String.eqb_spec n f) as [->|N]; [|exact IH].
      change [c; c2] with ([c] ++ [c2]). rewrite !filter_app, (ONE c2 UC2), (NN [c]) by (constructor; [exact IC|constructor]). rewrite !map_app, IH. reflexivity.
    + cbn [returned takeOff q_popped q_got set_q_box set_q_popped set_q_got]. unfold at_. destruct (String.eqb_spec n f) as [->|N]; [|exact IH]. rewrite !filter_app, (ONE c UC), map_app, IH. reflexivity.
  - destruct (attend_frame m x y s) as (A & B). rewrite A, B. exact IH.
Qed.

(** the commands by which HELICS is controlled never get to the user, and every other command with a word in it does *)
Definition control (t : string) : Prop :=
  (exists w, In w ["terminate"; "halt"; "echo"; "command_status"; "logbuffer"; "remotelog"; "timeout_monitor"; "log"]%string /\ exists r, words t = w :: r)
  \/ (exists x r, words t = "set"%string :: "barrier"%string :: x :: r) \/ (exists r, words t = "clear"%string :: "barrier"%string :: r).
Lemma reserved_control c : forUser c = false <-> words (clean (c_text c)) = [] \/ control (clean (c_text c)).
Proof.
  unfold forUser, reserved, control. destruct (words (clean (c_text c))) as [|w r]; [split; auto|]. rewrite negb_false_iff, !orb_true_iff, !andb_true_iff, existsb_exists. split.
  - intros [[(x & I & E)|[E B]]|[E B]]; right.
    + apply String.eqb_eq in E. subst x. left. exists w. split; [exact I|]. exists r. reflexivity.
    + apply String.eqb_eq in E. subst w. destruct r as [|a [|b r]]; try discriminate. apply String.eqb_eq in B. subst a. right. left. exists b, r. reflexivity.
    + apply String.eqb_eq in E. subst w. destruct r as [|a r]; try discriminate. apply String.eqb_eq in B. subst a. right. right. exists r. reflexivity.
  - intros [E|[(x & I & r' & E)|[(x & r' & E)|(r' & E)]]]; [discriminate| | |]; injection E as -> ->.
    + left. left. exists x. split; [exact I|apply String.eqb_refl].
    + left. right. split; reflexivity.
    + right. split; reflexivity.
Qed.
Theorem C52_control_commands_stay_inside es n c : In c (q_arrived (qrun es) n) -> (In c (q_popped (qrun es) n ++ q_box (qrun es) n) <-> words (clean (c_text c)) <> [] /\ ~ control (clean (c_text c))).
Proof.
  intros I. rewrite C52_queue_in_order, filter_In. pose proof (reserved_control c) as R. destruct (forUser c); split; try tauto.
  - intros _. split; intros H; [destruct R as [_ R]; discriminate R; auto|destruct R as [_ R]; discriminate R; auto].
  - intros [_ E]. discriminate.
Qed.

(** ** what is sent *)
Definition sent1 (e : qevent) : list (nat * string * string * bool * string) :=
  match e with Q_send K src target fast text => if t_core T K && negb (String.eqb text "flush" || String.eqb text "notify_response") then [(K, src, target, fast, text)] else [] | _ => [] end.
Definition content (c : cmd) : nat * string * string * bool * string := (c_core c, c_src c, c_target c, c_fast c, c_text c).
Definition byUser (c : cmd) : bool := negb (String.eqb (c_text c) "notify_response").
Lemma answers_sent K f ns : forall s, exists l, q_sent (answers K f ns s) = q_sent s ++ l /\ filter byUser l = [] /\ map c_target l = map c_src ns /\ Forall (fun c => c_text c = "notify_response"%string /\ c_src c = f /\ c_core c = K /\ c_fast c = true) l.
Proof.
  induction ns as [|c ns IH]; intros s; [exists []; rewrite app_nil_r; repeat split; constructor|]. cbn [answers fold_left]. destruct (IH (sendCommand K f (c_src c) true "notify_response" s)) as (l & A & B & C & D).
  exists (mkC (length (q_sent s)) K f (c_src c) true "notify_response" :: l). unfold answers in A. rewrite A. cbn. rewrite <- app_assoc. repeat split; [exact B|rewrite C; reflexivity|]. constructor; [repeat split|exact D].
Qed.
(** apart from the answers to "notify", the commands under way and handed over are those which were sent, with their source,
    target, mode and text, and they are numbered in the order of sending *)
Theorem C52_what_is_sent es : map content (filter byUser (q_sent (qrun es))) = flat_map sent1 es /\ map c_seq (q_sent (qrun es)) = seq 0 (length (q_sent (qrun es))).
Proof.
  assert (NUM : forall K src target fast text s, map c_seq (q_sent s) = seq 0 (length (q_sent s)) -> map c_seq (q_sent (sendCommand K src target fast text s)) = seq 0 (length (q_sent (sendCommand K src target fast text s)))).
  { intros K src target fast text s H. unfold sendCommand. destruct (String.eqb text "flush"); [exact H|]. cbn. rewrite map_app, H, app_length, seq_app. reflexivity. }
  assert (NUMA : forall K f ns s, map c_seq (q_sent s) = seq 0 (length (q_sent s)) -> map c_seq (q_sent (answers K f ns s)) = seq 0 (length (q_sent (answers K f ns s)))).
  { intros K f ns. unfold answers. induction ns as [|c ns IHn]; intros s H; [exact H|]. cbn [fold_left]. apply IHn, NUM, H. }
  induction es as [|e es [IH1 IH2]] using rev_ind; [split; reflexivity|]. rewrite run_snoc, flat_map_app. cbn [flat_map]. rewrite app_nil_r. set (s := qrun es) in *. clearbody s.
  assert (ANS : forall K f ns s1, q_sent s1 = q_sent s -> map content (filter byUser (q_sent (answers K f ns s1))) = flat_map sent1 es /\ map c_seq (q_sent (answers K f ns s1)) = seq 0 (length (q_sent (answers K f ns s1)))).
  { intros K f ns s1 E. split; [|apply NUMA; rewrite E; exact IH2]. destruct (answers_sent K f ns s1) as (l & A & B & _). rewrite A, E, filter_app, B, app_nil_r. exact IH1. }
  destruct e as [K src target fast text|f|f|m x y]; cbn [Command.qstep sent1]; rewrite ?app_nil_r.
  - destruct (t_core T K); cbn [andb]; [|rewrite app_nil_r; split; assumption]. split; [|apply NUM; exact IH2]. unfold sendCommand. destruct (String.eqb text "flush"); cbn [orb negb]; [rewrite app_nil_r; exact IH1|]. cbn [q_sent set_q_sent]. rewrite filter_app, map_app, IH1. f_equal. cbn. unfold byUser. cbn. destruct (String.eqb text "notify_response"); reflexivity.
  - destruct (owner f) as [K|]; [|split; assumption]. unfold getCommand. destruct (span (q_box s f)) as [ns [|c r]]; apply ANS; reflexivity.
  - destruct (owner f) as [K|]; [|split; assumption]. unfold waitCommand. destruct (q_box s f) as [|c r]; [split; assumption|]. destruct (isNotify c); [|split; assumption]. destruct r as [|c2 r2]; [split; assumption|]. apply (ANS K f [c]). reflexivity.
  - unfold attend. destruct (q_links s m x y) as [|c r]; [split; assumption|]. unfold does, coreCmd, brokerCmd, up. destruct (t_core T y).
    + destruct (owner (c_target c)) as [K|]; [destruct (Nat.eqb K y); [unfold hand; destruct (reserved (c_text c)); split; assumption|]|]; destruct (t_parent T y); split; assumption.
    + destruct (route y (c_target c)); [split; assumption|]. destruct (Nat.eqb y (t_root T)); [split; assumption|]. destruct (t_parent T y); split; assumption.
Qed.
(** every "notify" which a federate's getCommand takes is answered to its sender, from the federate, in fast mode *)
Definition isAnswer (n : string) (c : cmd) : bool := String.eqb (c_text c) "notify_response" && String.eqb (c_src c) n.
Definition noAnswerByHand (e : qevent) : Prop := match e with Q_send _ _ _ _ text => text <> "notify_response"%string | _ => True end.
Theorem C52_notify_is_answered es n : Forall (noWait n) es -> Forall noAnswerByHand es -> map c_target (filter (isAnswer n) (q_sent (qrun es))) = map c_src (filter isNotify (q_popped (qrun es) n)).
Proof.
  induction es as [|e es IH] using rev_ind; intros F G; [reflexivity|]. apply Forall_app in F as [F FE]. inversion FE as [|e0 l0 OE _]. subst e0 l0. apply Forall_app in G as [G GE]. inversion GE as [|e0 l0 AE _]. subst e0 l0. specialize (IH F G). rewrite run_snoc. set (s := qrun es) in *. clearbody s.
  assert (NN : forall l, Forall (fun c => isNotify c = true) l -> filter isNotify l = l) by (induction 1 as [|c l H _ IHl]; [reflexivity|]; cbn; rewrite H, IHl; reflexivity).
  assert (AN : forall K f ns s1, q_sent s1 = q_sent s -> map c_target (filter (isAnswer n) (q_sent (answers K f ns s1))) = map c_src (filter isNotify (q_popped s n)) ++ (if String.eqb n f then map c_src ns else [])).
  { intros K f ns s1 E. destruct (answers_sent K f ns s1) as (l & A & _ & B & C). rewrite A, E, filter_app, map_app, IH. f_equal. destruct (String.eqb_spec n f) as [->|N].
    - rewrite <- B. f_equal. clear -C. induction C as [|c l (H1 & H2 & _) _ IHl]; [reflexivity|]. cbn. unfold isAnswer at 1. rewrite H1, H2. cbn. rewrite String.eqb_refl, IHl. reflexivity.
    - clear -C N. induction C as [|c l (H1 & H2 & _) _ IHl]; [reflexivity|]. cbn. unfold isAnswer at 1. rewrite H1, H2. rewrite (proj2 (String.eqb_neq f n)) by congruence. rewrite andb_false_r. exact IHl. }
  destruct e as [K src target fast text|f|f|m x y]; cbn [Command.qstep].
  - destruct (t_core T K); [|exact IH]. unfold sendCommand. destruct (String.eqb text "flush"); [exact IH|]. cbn. rewrite filter_app, map_app, IH. cbn. unfold isAnswer. cbn. cbn in AE. rewrite (proj2 (String.eqb_neq text "notify_response") AE). cbn. apply app_nil_r.
  - destruct (owner f) as [K|]; [|exact IH]. unfold getCommand. pose proof (span_notify (q_box s f)) as SN. pose proof (span_next (q_box s f)) as SX. destruct (span (q_box s f)) as [ns [|c r]]; cbn [fst snd] in *; cbn [q_sent returned set_q_got q_popped].
    + rewrite AN by reflexivity. destruct (answers_frame K f ns (takeOff f ns [] s)) as (_ & _ & A & _). cbv zeta in A. rewrite A. cbn. unfold at_. destruct (String.eqb_spec n f) as [->|N]; [|apply app_nil_r]. rewrite filter_app, map_app, (NN ns SN). reflexivity.
    + rewrite AN by reflexivity. destruct (answers_frame K f ns (takeOff f (ns ++ [c]) r s)) as (_ & _ & A & _). cbv zeta in A. rewrite A. cbn [takeOff q_popped set_q_box set_q_popped]. unfold at_. destruct (String.eqb_spec n f) as [->|N]; [|apply app_nil_r]. rewrite !filter_app, !map_app, (NN ns SN). cbn. rewrite SX, app_nil_r. reflexivity.
  - destruct (owner f) as [K|]; [|exact IH]. assert (N : n <> f) by (intros ->; apply OE; reflexivity). apply String.eqb_neq in N. unfold waitCommand. destruct (q_box s f) as [|c r]; [exact IH|]. destruct (isNotify c); [destruct r as [|c2 r2]; [exact IH|]|].
    + cbn [q_sent returned set_q_got q_popped]. rewrite AN by reflexivity. destruct (answers_frame K f [c] (takeOff f [c; c2] r2 s)) as (_ & _ & A & _). cbv zeta in A. rewrite A. cbn. unfold at_. rewrite N. apply app_nil_r.
    + cbn. unfold at_. rewrite N. exact IH.
  - unfold attend. destruct (q_links s m x y) as [|c r]; [exact IH|]. unfold does, coreCmd, brokerCmd, up. destruct (t_core T y).
    + destruct (owner (c_target c)) as [K|]; [destruct (Nat.eqb K y); [unfold hand; destruct (reserved (c_text c)); exact IH|]|]; destruct (t_parent T y); exact IH.
    + destruct (route y (c_target c)); [exact IH|]. destruct (Nat.eqb y (t_root T)); [exact IH|]. destruct (t_parent T y); exact IH.
Qed.
End Queue.

(** ** the right receiver *)
Lemma arrived_target T owner route es n : Forall (fun c => c_target c = n) (q_arrived (qrun T owner route es) n).
Proof.
  induction es as [|e es IH] using rev_ind; [constructor|]. rewrite run_snoc. set (s := qrun T owner route es) in *. clearbody s. destruct e as [K src target fast text|f|f|m x y]; cbn [Command.qstep].
  - destruct (t_core T K); [|exact IH]. destruct (send_frame K src target fast text s) as (A & _). rewrite A. exact IH.
  - destruct (owner f) as [K|]; [|exact IH]. unfold getCommand. destruct (span (q_box s f)) as [ns [|c r]]; cbn [q_arrived returned set_q_got].
    + destruct (answers_frame K f ns (takeOff f ns [] s)) as (A & _). rewrite A. exact IH.
    + destruct (answers_frame K f ns (takeOff f (ns ++ [c]) r s)) as (A & _). rewrite A. exact IH.
  - destruct (owner f) as [K|]; [|exact IH]. unfold waitCommand. destruct (q_box s f) as [|c r]; [exact IH|]. destruct (isNotify c); [destruct r as [|c2 r2]; [exact IH|]|exact IH].
    cbn [q_arrived returned set_q_got]. destruct (answers_frame K f [c] (takeOff f [c; c2] r2 s)) as (A & _). rewrite A. exact IH.
  - unfold attend. destruct (q_links s m x y) as [|c r]; [exact IH|]. unfold does, coreCmd, brokerCmd, up. destruct (t_core T y).
    + destruct (owner (c_target c)) as [K|]; [destruct (Nat.eqb K y)|]; try (destruct (t_parent T y); exact IH).
      unfold hand. destruct (reserved (c_text c)); cbn; unfold at_; (destruct (String.eqb_spec n (c_target c)) as [E|E]; [|exact IH]); rewrite <- E; (apply Forall_app; split; [exact IH|constructor; [symmetry; exact E|constructor]]).
    + destruct (route y (c_target c)); [exact IH|]. destruct (Nat.eqb y (t_root T)); [exact IH|]. destruct (t_parent T y); exact IH.
Qed.
(** what a federate is handed is for its name, and somebody sent it: nothing is made up or handed to another one *)
Theorem C52_right_receiver T owner route es n K c : tree T -> (forall n K, owner n = Some K -> t_core T K = true) ->
  (forall x n c, route x n = Some c <-> exists K, owner n = Some K /\ t_parent T c = Some x /\ below T c K) -> owner n = Some K ->
  In c (q_arrived (qrun T owner route es) n) -> c_target c = n /\ In c (q_sent (qrun T owner route es)).
Proof.
  intros HT HO HR O I. pose proof (arrived_target T owner route es n) as A. rewrite Forall_forall in A. specialize (A c I). split; [exact A|].
  destruct (C52_commands_arrive_in_order_once T owner route HT HO HR es (c_core c) n (c_fast c) K O) as [rest E].
  assert (J : In c (sentTo T owner route es (c_core c) n (c_fast c))).
  { rewrite <- E. apply in_or_app. left. apply filter_In. split; [exact I|]. unfold keep. rewrite Nat.eqb_refl, A, String.eqb_refl, eqb_reflx. reflexivity. }
  unfold sentTo in J. apply filter_In in J. apply J.
Qed.

(** ** Examples *)
(** the federate "a" at the core 2 behind the broker 1, and "b" at the core 3 *)
Definition exOwner (n : string) : option nat := if String.eqb n "a" then Some 2%nat else if String.eqb n "b" then Some 3%nat else None.
Definition exRoute (x : nat) (n : string) : option nat :=
  if String.eqb n "a" then match x with 0%nat => Some 1%nat | 1%nat => Some 2%nat | _ => None end
  else if String.eqb n "b" then match x with 0%nat => Some 3%nat | _ => None end else None.
Lemma ex_below2 x : below T0 x 2 -> x = 2%nat \/ x = 1%nat \/ x = 0%nat.
Proof. intros B. inversion B as [|? p P B']; [auto|]. vm_compute in P. injection P as <-. right. inversion B' as [|? q Q B'']; [auto|]. vm_compute in Q. injection Q as <-. right. inversion B'' as [|? q Q _]; [auto|]. vm_compute in Q. discriminate. Qed.
Lemma ex_below3 x : below T0 x 3 -> x = 3%nat \/ x = 0%nat.
Proof. intros B. inversion B as [|? p P B']; [auto|]. vm_compute in P. injection P as <-. right. inversion B' as [|? q Q _]; [auto|]. vm_compute in Q. discriminate. Qed.
Lemma ex_HO n K : exOwner n = Some K -> t_core T0 K = true.
Proof. unfold exOwner. destruct (String.eqb n "a"); [intros E; injection E as <-; reflexivity|]. destruct (String.eqb n "b"); [intros E; injection E as <-; reflexivity|discriminate]. Qed.
Lemma ex_HR x n c : exRoute x n = Some c <-> exists K, exOwner n = Some K /\ t_parent T0 c = Some x /\ below T0 c K.
Proof.
  unfold exRoute, exOwner. destruct (String.eqb n "a"); [|destruct (String.eqb n "b")].
  - split.
    + intros E. exists 2%nat. split; [reflexivity|]. destruct x as [|[|x]]; [| |discriminate]; injection E as <-; (split; [reflexivity|]); [apply (below_up T0 _ 2%nat 1%nat); [reflexivity|constructor]|constructor].
    + intros (K & E & P & B). injection E as <-. destruct (ex_below2 c B) as [->|[->| ->]]; vm_compute in P; [injection P as <-|injection P as <-|discriminate]; reflexivity.
  - split.
    + intros E. exists 3%nat. split; [reflexivity|]. destruct x as [|x]; [|discriminate]. injection E as <-. split; [reflexivity|constructor].
    + intros (K & E & P & B). injection E as <-. destruct (ex_below3 c B) as [->| ->]; vm_compute in P; [injection P as <-|discriminate]; reflexivity.
  - split; [discriminate|]. intros (K & E & _). discriminate.
Qed.
Notation xq := (qrun T0 exOwner exRoute).
Definition exSends : list qevent := [Q_send 2 "a" "b" true "go"; Q_send 2 "a" "b" true "notify"; Q_send 2 "a" "b" true "stop now"; Q_send 2 "a" "b" true "echo"; Q_send 2 "a" "nobody" false "go"; Q_get "b"].
Definition exServe : list qevent := concat (repeat [Q_serve true 2 2; Q_serve true 2 1; Q_serve true 1 0; Q_serve true 0 3; Q_serve false 2 2; Q_serve false 2 1; Q_serve false 1 0] 6).
Definition exGets : list qevent := [Q_get "b"; Q_get "b"; Q_get "b"].
Definition exBack : list qevent := [Q_serve true 3 3; Q_serve true 3 0; Q_serve true 0 1; Q_serve true 1 2; Q_get "a"].
(** the hypotheses of the theorems hold here; four commands are handed over, the queue has three, getCommand gives two of them
    and nothing the third time, the "notify" is answered, and the command for nobody is answered as such *)
Example C52_example : tree T0 /\ (forall n K, exOwner n = Some K -> t_core T0 K = true) /\ (forall x n c, exRoute x n = Some c <-> exists K, exOwner n = Some K /\ t_parent T0 c = Some x /\ below T0 c K)
  /\ length (sentTo T0 exOwner exRoute exSends 2 "b" true) = 4%nat /\ q_arrived (xq exSends) "b" = []
  /\ q_arrived (xq (exSends ++ exServe)) "b" = sentTo T0 exOwner exRoute exSends 2 "b" true
  /\ map result (q_box (xq (exSends ++ exServe)) "b") = [("go", "a"); ("notify", "a"); ("stop now", "a")]%string
  /\ q_got (xq (exSends ++ exServe ++ exGets)) "b" = [("", ""); ("go", "a"); ("stop now", "a"); ("", "")]%string
  /\ map c_target (q_lost (xq (exSends ++ exServe))) = ["nobody"]%string
  /\ q_got (xq (exSends ++ exServe ++ exGets ++ exBack)) "a" = [("notify_response", "b")]%string
  /\ Forall (noWait "b") (exSends ++ exServe ++ exGets) /\ Forall noAnswerByHand (exSends ++ exServe ++ exGets).
Proof.
  split; [apply T0_tree|]. split; [apply ex_HO|]. split; [apply ex_HR|]. repeat (split; [vm_compute; reflexivity|]). split.
  - apply Forall_forall. intros e I. cbv [exSends exServe exGets concat repeat app] in I. unfold noWait. repeat (destruct I as [<-|I]; [discriminate|]). destruct I.
  - apply Forall_forall. intros e I. cbv [exSends exServe exGets concat repeat app] in I. unfold noAnswerByHand. repeat (destruct I as [<-|I]; [try exact Logic.I; discriminate|]). destruct I.
Qed.

(** ** what does not hold *)
(** waitCommand returns a "notify" which follows another one (FederateState.cpp:2689 has an if where getCommand has a while),
    and that one is not answered: with waitCommand the statement of C52_get_returns_in_order is wrong *)
Theorem C52_wait_returns_notify_refuted : ~ (forall T owner route es n, filter real (q_got (qrun T owner route es) n) = map said (filter (fun c => negb (isNotify c)) (q_popped (qrun T owner route es) n))).
Proof.
  intros H. specialize (H T0 exOwner exRoute [Q_send 3 "a" "b" true "notify"; Q_send 3 "a" "b" true "notify"; Q_serve true 3 3; Q_serve true 3 3; Q_wait "b"] "b"%string). vm_compute in H. discriminate.
Qed.
(** a comment takes the character before the # with it, and a command which is only a comment is given to the federate
    (FederateState.cpp:2558) *)
Theorem C52_comment_refuted : ~ (forall a b, index 0 "#" a = None -> clean (a ++ "#" ++ b) = a) /\ clean "go#now" = "g"%string /\ clean "#go" = "#go"%string.
Proof. split; [|split; vm_compute; reflexivity]. intros H. specialize (H "go" "now" eq_refl)%string. vm_compute in H. discriminate. Qed.
