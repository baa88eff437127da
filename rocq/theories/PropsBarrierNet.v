(** * C59: a barrier set at the root broker holds for every federate, those which join later too, until it is changed or cleared *)
From Coq Require Import ZArith Bool List Lia.
From Verif Require Import HTime Action TimeDep TimeDepProofs TimeCoord TimeCoordProofs TimeProc TimeProcProofs TimeInitProofs TimeInv TimeAnswer TimeGrid PropsTime1 TimeTable MinTimeProofs TimeNotice NoticeStep PropsTime2 Examples1 PropsTime3 BarrierNet.
Import ListNotations.
Open Scope Z_scope.

(** ** Specification *)
(** the barrier in force: that of the last call, where maxVal means none *)
Fixpoint last_call (os : list op) (b : option Z) : option Z :=
  match os with
  | [] => b
  | SetBarrier t :: r | CommandSet t _ :: r => last_call r (if t =? maxVal then None else Some t)
  | ClearBarrier :: r | CommandClear _ :: r => last_call r None
  | Join :: r => last_call r b
  end.
(** the calls of the API: barriers without an id of their own, at times of the simulation *)
Definition plain (o : op) : Prop :=
  match o with SetBarrier t => t <= maxVal | ClearBarrier | Join => True | CommandSet t id => id = 0 /\ t < maxVal | CommandClear id => id = 0 end.
(** the barrier messages of the root broker in the history of a federate *)
Definition from_root (e : event) : list amsg :=
  match e with
  | Ev_msg m => if (m_messageID m =? gRootBrokerID) && (setsBarrier (m_action m) || clearsBarrier (m_action m)) then [m] else []
  | _ => []
  end.

(** ** Proofs *)
Definition opt (t : Z) : option Z := if t =? maxVal then None else Some t.
Definition Inv (n : net) : Prop := n_next n <= maxVal /\ forall f, In f (n_feds n) -> barrier (map Ev_msg f) gRootBrokerID = opt (n_next n).

Lemma barrier_snoc es e i : barrier (es ++ [e]) i = barrierStep i (barrier es i) e.
Proof. unfold barrier. rewrite fold_left_app. reflexivity. Qed.
Lemma set_inv t n : t < maxVal -> Inv (generateTimeBarrier false 0 t n).
Proof.
  intros L. split; [cbn [generateTimeBarrier n_next]; lia|]. intros f H. cbn [generateTimeBarrier n_feds n_next] in *. unfold broadcast in H.
  apply in_map_iff in H as (f0 & <- & _). rewrite map_app. cbn [map]. rewrite barrier_snoc. unfold opt. destruct (Z.eqb_spec t maxVal); [lia|]. reflexivity.
Qed.
Lemma clear_inv id t n : Inv (generateTimeBarrier true id t n).
Proof.
  split; [cbn [generateTimeBarrier n_next]; lia|]. intros f H. cbn [generateTimeBarrier n_feds n_next] in *. unfold broadcast in H.
  apply in_map_iff in H as (f0 & <- & _). rewrite map_app. cbn [map]. rewrite barrier_snoc. unfold opt. rewrite Z.eqb_refl. reflexivity.
Qed.
Lemma step_inv n o : plain o -> Inv n -> Inv (stepNet n o).
Proof.
  intros P I. destruct o as [t| |t id|id|]; cbn [stepNet plain] in *.
  - destruct (Z.eqb_spec t maxVal); [apply clear_inv|apply set_inv; lia].
  - apply clear_inv.
  - destruct P as (-> & P). now apply set_inv.
  - apply clear_inv.
  - destruct I as (L & I). split; [exact L|]. intros f H. cbn [join n_feds n_next] in *. apply in_app_or in H as [H|[<-|[]]]; [now apply I|].
    unfold opt. destruct (Z.ltb_spec (n_next n) maxVal); destruct (Z.eqb_spec (n_next n) maxVal); try lia; reflexivity.
Qed.
Lemma run_from os : forall n, Forall plain os -> Inv n -> Inv (fold_left stepNet os n) /\ opt (n_next (fold_left stepNet os n)) = last_call os (opt (n_next n)).
Proof.
  induction os as [|o os IH]; intros n P I; cbn [fold_left last_call]; [auto|].
  inversion P as [|? ? P1 P2]; subst. destruct (IH (stepNet n o) P2 (step_inv n o P1 I)) as (A & B). split; [exact A|]. rewrite B.
  destruct o as [t| |t id|id|]; cbn [stepNet plain join generateTimeBarrier n_next] in *; try reflexivity.
  destruct (Z.eqb_spec t maxVal) as [->|N]; cbn [generateTimeBarrier n_next]; [reflexivity|]. f_equal. unfold opt. destruct (Z.eqb_spec t maxVal); [contradiction|reflexivity].
Qed.

(** after any calls and joins the messages sent to any federate, joined before or after, leave it with the barrier of the last call *)
Theorem C59_same_barrier_everywhere os f : Forall plain os -> In f (n_feds (runNet os)) -> barrier (map Ev_msg f) gRootBrokerID = last_call os None.
Proof.
  intros P H. destruct (run_from os (mkNet maxVal []) P) as ((_ & I) & B).
  - split; [cbn [n_next]; lia|]. intros f0 [].
  - unfold runNet in H. rewrite (I f H), B. unfold opt. cbn [n_next]. now rewrite Z.eqb_refl.
Qed.

Lemma barrier_from_root es : barrier es gRootBrokerID = barrier (map Ev_msg (flat_map from_root es)) gRootBrokerID.
Proof.
  unfold barrier. generalize (@None Z). induction es as [|e es IH]; intros b; cbn [fold_left flat_map]; [reflexivity|].
  rewrite map_app, fold_left_app, IH. f_equal. unfold from_root. destruct e as [m| | | | | | | | |]; try reflexivity. unfold barrierStep.
  destruct (Z.eqb_spec (m_messageID m) gRootBrokerID) as [E|]; [|reflexivity]. cbn [andb].
  destruct (setsBarrier (m_action m)) eqn:S; cbn [orb map fold_left]; [now rewrite E, Z.eqb_refl, S|].
  destruct (clearsBarrier (m_action m)) eqn:C; cbn [map fold_left]; [|reflexivity]. now rewrite E, Z.eqb_refl, S, C.
Qed.

(** with C05: a federate which has got what was sent to it is granted no time at or beyond the barrier of the last call *)
Theorem C59_no_grant_beyond os f id o maxIter es e r t b :
  let f0 := fed_init id o maxIter in
  Forall plain os -> In f (n_feds (runNet os)) -> flat_map from_root (es ++ [e]) = f -> last_call os None = Some b -> b < cTerminationTime ->
  opts_ok o -> Forall wf_event (es ++ [e]) -> f_st (after f0 es) = EXECUTING ->
  returnAt f0 es e = Some (r, t) -> isGrant r -> (forall m, e = Ev_msg m -> m_action m <> CMD_FORCE_TIME_GRANT) ->
  t < b.
Proof.
  intros f0 P H E LC BT O W ST R IG NF. apply (C05_no_grant_at_or_beyond_barrier id o maxIter es e r t gRootBrokerID b); auto.
  rewrite barrier_from_root, E, (C59_same_barrier_everywhere os f P H). exact LC.
Qed.

(** the "clear barrier" command ignores its id: a barrier set with an id is never cleared for those who got it *)
Theorem C59_clear_with_id_refuted : ~ forall t id os, t < maxVal -> id <> 0 -> forall f, In f (n_feds (runNet (os ++ [CommandSet t id; CommandClear id]))) ->
  barrier (map Ev_msg f) id = None.
Proof.
  intros H. specialize (H 5 7 [Join] ltac:(unfold maxVal; lia) ltac:(lia) _ (or_introl eq_refl)). vm_compute in H. discriminate H.
Qed.
(** with ids of their own a federate which joins later gets the last barrier only, under another id *)
Theorem C59_join_with_ids_refuted : ~ forall os, forall f g, In f (n_feds (runNet os)) -> In g (n_feds (runNet os)) ->
  forall id, barrier (map Ev_msg f) id = barrier (map Ev_msg g) id.
Proof.
  intros H. specialize (H [Join; CommandSet 5 7; CommandSet 9 8; Join] _ _ (or_introl eq_refl) (or_intror (or_introl eq_refl)) 7). vm_compute in H. discriminate H.
Qed.

(** a case: one federate joins before the barrier is set and moved, one after *)
Example ex_barrier : Forall plain [Join; SetBarrier 20; Join; SetBarrier 5; Join] /\ last_call [Join; SetBarrier 20; Join; SetBarrier 5; Join] None = Some 5 /\
  map (@length amsg) (n_feds (runNet [Join; SetBarrier 20; Join; SetBarrier 5; Join])) = [2; 2; 1]%nat.
Proof. split; [repeat constructor; cbn [plain]; unfold maxVal; lia|]. split; vm_compute; reflexivity. Qed.
(** the hypotheses of C59_no_grant_beyond are met: a federate gets the barrier at 14 first, executes, asks, and is granted 13 *)
Example ex_no_grant_beyond :
  let os := [SetBarrier 20; SetBarrier 14; Join] in
  let f := [message CMD_TIME_BARRIER gRootBrokerID 14] in
  let f0 := fed_init me (cfgPOD 10 3 1) 50 in
  let es := Ev_msg (message CMD_TIME_BARRIER gRootBrokerID 14) :: history1 ++ [Ev_request 4 NO_ITERATIONS 1000 1000; otherSays CMD_EXEC_GRANT 0 0 0] in
  let e := otherSays CMD_TIME_REQUEST 20 20 1 in
  n_feds (runNet os) = [f] /\ flat_map from_root (es ++ [e]) = f /\ last_call os None = Some 14 /\
  f_st (after f0 es) = EXECUTING /\ returnAt f0 es e = Some (PR_NEXT, 13).
Proof. vm_compute. repeat split. Qed.
