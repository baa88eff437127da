(** * The answer to a time request *)
From Coq Require Import ZArith Bool List Lia ZifyBool.
From Verif Require Import HTime Action TimeDep TimeDepProofs TimeCoord TimeCoordProofs TimeProc TimeProcProofs TimeInitProofs MinTimeProofs TimeInv.
Import ListNotations.
Open Scope Z_scope.

(** the first thing returned to the application during a history *)
Fixpoint firstRet (xs : list eff) : option (pres * Z) :=
  match xs with
  | [] => None
  | x :: r => match e_ret x with Some y => Some y | None => firstRet r end
  end.
Definition answer (f : fed) (es : list event) : option (pres * Z) := firstRet (snd (run f es)).

(** events which can happen while a request is waiting: anything but another request of the same
    federate and a forced grant *)
Definition waiting (e : event) : Prop :=
  match e with
  | Ev_request _ _ _ _ => False
  | Ev_msg cmd => m_action cmd <> CMD_FORCE_TIME_GRANT
  | _ => True
  end.

(** coordinator operations by events satisfying [Q] *)
Inductive psteps (Q : event -> Prop) : tc -> tc -> Prop :=
| pq_refl c : psteps Q c c
| pq_step c c1 c2 e : psteps Q c c1 -> Q e -> prim e c1 c2 -> psteps Q c c2
| pq_refused c c1 c2 t out : psteps Q c c1 -> checkTimeGrant c1 t = (c2, out, CONTINUE_PROCESSING) -> psteps Q c c2.
Lemma psteps_inv (Q : event -> Prop) (P : tc -> Prop) :
  (forall e c c', Q e -> prim e c c' -> P c -> P c') ->
  (forall c t c' out, checkTimeGrant c t = (c', out, CONTINUE_PROCESSING) -> P c -> P c') ->
  forall c c', psteps Q c c' -> P c -> P c'.
Proof. intros H H' c c' HP; induction HP; eauto. Qed.
Lemma psteps_trans (Q : event -> Prop) a b c : psteps Q a b -> psteps Q b c -> psteps Q a c.
Proof. intros H1 H2; revert H1; induction H2; intros; eauto using pq_step, pq_refused. Qed.
Lemma prims_psteps (Q : event -> Prop) e c c' : Q e -> prims e c c' -> psteps Q c c'.
Proof. intros HQ H; induction H; eauto using pq_refl, pq_step. Qed.

Lemma answer_cons f e es : answer f (e :: es) =
  match e_ret (snd (step f e)) with Some y => Some y | None => answer (fst (step f e)) es end.
Proof. unfold answer. rewrite run_cons. reflexivity. Qed.

(** a federate which is past executing mode is never granted again *)
Lemma no_grant_after f es : started (f_st f) = true -> f_st f <> EXECUTING -> Forall waiting es ->
  forall r t, answer f es = Some (r, t) -> r <> PR_NEXT /\ r <> PR_ITER.
Proof.
  intros HS HE H; revert f HS HE; induction H as [|e es W H IH]; intros f HS HE r t A; [discriminate A|].
  rewrite answer_cons in A. pose proof (step_started f e HS ltac:(intros; contradiction)) as [S _].
  remember (e_ret (snd (step f e))) as ret. destruct S as [A1 A2 A3 A4 A5|A1 A2 A3|tt A1 A2 A3|cmd A1 A2 A3 A4 A5 A6 A7|c0 trig out r0 A1 A2 A3 A4 A5 A6 A7].
  - eapply IH; [exact A2| |exact A]. intros E; apply HE, A3, E.
  - injection A as <- <-. split; discriminate.
  - injection A as <- <-. split; discriminate.
  - subst e. cbn in W. contradiction.
  - contradiction.
Qed.

(** the answer to a pending request is a grant decision after some coordinator operations *)
Lemma pending_answer (Q : event -> Prop) es : Forall waiting es -> Forall Q es ->
  forall f r t, f_st f = EXECUTING -> f_gm f = false -> answer f es = Some (r, t) -> r = PR_NEXT \/ r = PR_ITER ->
  exists c0 trig c' out mr, psteps Q (f_tc f) c0 /\ checkTimeGrant c0 trig = (c', out, mr) /\ r = of_mpr mr /\ t = c_granted c'.
Proof.
  intros H HQ; induction H as [|e es W H IH]; intros f r t ST GM A R; [discriminate A|].
  inversion HQ as [|e' es' Q1 Q2]; subst.
  rewrite answer_cons in A.
  pose proof (step_started f e ltac:(rewrite ST; reflexivity) ltac:(intros _ ? ? ? ? ->; exact W)) as [S _].
  remember (e_ret (snd (step f e))) as ret. destruct S as [A1 A2 A3 A4 A5|A1 A2 A3|tt A1 A2 A3|cmd A1 A2 A3 A4 A5 A6 A7|c0 trig out r0 A1 A2 A3 A4 A5 A6 A7].
  - set (f' := fst (step f e)) in *.
    assert (D : f_st f' = EXECUTING \/ f_st f' <> EXECUTING) by (destruct (f_st f'); auto; right; discriminate).
    destruct D as [D|D].
    + destruct (IH Q2 f' r t D ltac:(congruence) A R) as (c0&trig&c'&out&mr&B1&B2).
      exists c0, trig, c', out, mr. split; [|exact B2]. eapply psteps_trans; [|exact B1]. eapply prims_psteps; eassumption.
    + destruct (no_grant_after f' es A2 D H r t A) as [N1 N2]. destruct R; contradiction.
  - injection A as <- <-. destruct R; discriminate.
  - injection A as <- <-. destruct R; discriminate.
  - subst e. cbn in W. contradiction.
  - injection A as <- <-. exists c0, trig, (f_tc (fst (step f e))), out, r0.
    split; [eapply prims_psteps; eassumption|]. split; [exact A5|]. split; [reflexivity|].
    destruct r0; try reflexivity. destruct R; discriminate.
Qed.

Theorem request_answer (Q : event -> Prop) f tq it nv nm es r t :
  f_st f = EXECUTING -> Forall waiting es -> Forall Q es ->
  answer f (Ev_request tq it nv nm :: es) = Some (r, t) -> r = PR_NEXT \/ r = PR_ITER ->
  exists c0 trig c' out mr, psteps Q (fst (timeRequest (f_tc f) tq (effIter f it) nv nm)) c0
    /\ checkTimeGrant c0 trig = (c', out, mr) /\ r = of_mpr mr /\ t = c_granted c'.
Proof.
  intros ST W HQ A R. rewrite answer_cons in A.
  pose proof (step_request f tq it nv nm ST) as K. cbn zeta in K. destruct K as (out&mr&K1&K2&_&K4&K5).
  rewrite K5 in A. set (f' := fst (step f _)) in *.
  destruct mr.
  - destruct (pending_answer Q es W HQ f' r t K2 K4 A R) as (c0&trig&c'&out'&mr&B1&B2).
    exists c0, trig, c', out', mr. split; [|exact B2].
    eapply psteps_trans; [|exact B1]. eapply pq_refused; [apply pq_refl|exact K1].
  - injection A as <- <-. exists (fst (timeRequest (f_tc f) tq (effIter f it) nv nm)), invalidId, (f_tc f'), out, NEXT_STEP.
    split; [apply pq_refl|]. split; [exact K1|]. split; reflexivity.
  - injection A as <- <-. exists (fst (timeRequest (f_tc f) tq (effIter f it) nv nm)), invalidId, (f_tc f'), out, ITERATING.
    split; [apply pq_refl|]. split; [exact K1|]. split; reflexivity.
  - injection A as <- <-. destruct R; discriminate.
Qed.
