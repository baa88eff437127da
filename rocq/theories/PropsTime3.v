(** * Property C05: a time barrier blocks every grant at or beyond it *)
From Coq Require Import ZArith Bool List Lia ZifyBool.
From Verif Require Import HTime Action TimeDep TimeDepProofs TimeCoord TimeCoordProofs TimeProc TimeProcProofs TimeInitProofs TimeInv TimeAnswer TimeGrid PropsTime1 TimeTable MinTimeProofs TimeNotice NoticeStep PropsTime2 Examples1.
Import ListNotations.
Open Scope Z_scope.

(** ** Specification: the barriers in force after a history
    A barrier (or block) command sets the barrier with its identifier, a clear (or unblock) removes it. *)
Definition setsBarrier (a : Z) : bool := (a =? CMD_TIME_BLOCK) || (a =? CMD_TIME_BARRIER).
Definition clearsBarrier (a : Z) : bool := (a =? CMD_TIME_UNBLOCK) || (a =? CMD_TIME_BARRIER_CLEAR).
Definition barrierStep (i : Z) (b : option Z) (e : event) : option Z :=
  match e with
  | Ev_msg cmd =>
      if m_messageID cmd =? i then
        if setsBarrier (m_action cmd) then Some (m_actionTime cmd)
        else if clearsBarrier (m_action cmd) then None else b
      else b
  | _ => b
  end.
Definition barrier (es : list event) (i : Z) : option Z := fold_left (barrierStep i) es None.

(** ** The list of blocks *)
Fixpoint blockOf (l : list (Z * Z)) (i : Z) : option Z :=
  match l with [] => None | (t, j) :: r => if j =? i then Some t else blockOf r i end.
Lemma setBlock_of l i t j : blockOf (setBlock l i t) j = if j =? i then Some t else blockOf l j.
Proof.
  induction l as [|[t0 k] r IH]; cbn.
  - rewrite (Z.eqb_sym i j). destruct (j =? i); reflexivity.
  - destruct (Z.eqb_spec k i) as [->|N]; cbn.
    + rewrite (Z.eqb_sym i j). destruct (j =? i); reflexivity.
    + destruct (Z.eqb_spec k j) as [->|N2]; [rewrite (proj2 (Z.eqb_neq j i)) by congruence; reflexivity|exact IH].
Qed.
Lemma minBlock_le l i t : blockOf l i = Some t -> minBlock l <= t.
Proof.
  assert (G : forall (r : list (Z * Z)) a, (fold_left (fun a (b : Z * Z) => if fst b <? a then fst b else a) r a <= a) /\
     forall i t, blockOf r i = Some t -> fold_left (fun a (b : Z * Z) => if fst b <? a then fst b else a) r a <= t).
  { clear. induction r as [|[t0 k] r IH]; intros a; cbn [fold_left fst]; [split; [lia|discriminate]|].
    destruct (IH (if t0 <? a then t0 else a)) as [A B]. split.
    - destruct (Z.ltb_spec t0 a); lia.
    - intros i t E. cbn in E. destruct (k =? i); [injection E as <-|eapply B; exact E]. destruct (Z.ltb_spec t0 a); lia. }
  destruct l as [|[t0 k] r]; cbn; [discriminate|]. destruct (G r t0) as [A B].
  destruct (k =? i); [intros E; injection E as <-; exact A|apply B].
Qed.
(** the minimum is one of the blocks *)
Lemma minBlock_in l : minBlock l < maxVal -> exists t i, In (t, i) l /\ minBlock l = t.
Proof.
  destruct l as [|[t0 k] r]; cbn; [lia|]. intros _.
  assert (G : forall (r : list (Z * Z)) a, fold_left (fun a (b : Z * Z) => if fst b <? a then fst b else a) r a = a \/
     exists t i, In (t, i) r /\ fold_left (fun a (b : Z * Z) => if fst b <? a then fst b else a) r a = t).
  { clear. induction r as [|[t0 k] r IH]; intros a; cbn [fold_left fst]; [left; reflexivity|].
    destruct (IH (if t0 <? a then t0 else a)) as [A|(t&i&A&B)].
    - destruct (t0 <? a); [right; exists t0, k; split; [left; reflexivity|exact A]|left; exact A].
    - right. exists t, i. split; [right; exact A|exact B]. }
  destruct (G r t0) as [A|(t&i&A&B)]; [exists t0, k; auto|exists t, i; auto].
Qed.

(** ** The state of the blocks after a history *)
Definition blocksOk (es : list event) (b : Z * list (Z * Z)) : Prop :=
  fst b = minBlock (snd b) /\ NoDup (map snd (snd b)) /\
  forall i, match barrier es i with Some t => blockOf (snd b) i = Some t | None => blockOf (snd b) i = None \/ blockOf (snd b) i = Some maxVal end.
Lemma setBlock_nodup l i t : NoDup (map snd l) -> NoDup (map snd (setBlock l i t)) /\ forall j, In j (map snd (setBlock l i t)) -> j = i \/ In j (map snd l).
Proof.
  induction l as [|[t0 k] r IH]; intros N; cbn.
  - split; [repeat constructor; auto|]. intros j [E|[]]; auto.
  - inversion N as [|? ? N1 N2]; subst. destruct (Z.eqb_spec k i) as [->|NE]; cbn; [split; auto|].
    destruct (IH N2) as [A B]. split; [|intros j [E|E]; [auto|destruct (B j E); auto]].
    constructor; [|exact A]. intros H. destruct (B _ H); auto.
Qed.
Lemma barrier_snoc es e i : barrier (es ++ [e]) i = barrierStep i (barrier es i) e.
Proof. unfold barrier. rewrite fold_left_app. reflexivity. Qed.
Lemma blockMsg_ok es c cmd : isBlockCmd (m_action cmd) = true -> blocksOk es (blks c) -> blocksOk (es ++ [Ev_msg cmd]) (blks (fst (processTimeBlockMessage c cmd))).
Proof.
  intros B (M&ND&H). unfold blks in *. cbn [fst snd] in *.
  assert (KIND : setsBarrier (m_action cmd) = true \/ (setsBarrier (m_action cmd) = false /\ clearsBarrier (m_action cmd) = true)).
  { unfold isBlockCmd, setsBarrier, clearsBarrier in *. lia. }
  assert (ALL : (m_action cmd =? CMD_TIME_BLOCK) || (m_action cmd =? CMD_TIME_BARRIER) || (m_action cmd =? CMD_TIME_UNBLOCK) || (m_action cmd =? CMD_TIME_BARRIER_CLEAR) = true).
  { unfold isBlockCmd in B. lia. }
  unfold processTimeBlockMessage. rewrite ALL. fold (setsBarrier (m_action cmd)). fold (clearsBarrier (m_action cmd)).
  cbn [fst c_block c_blocks set_c_block set_c_blocks].
  destruct KIND as [K|[K1 K2]].
  - rewrite K. cbn [c_blocks set_c_blocks c_block set_c_block]. split; [reflexivity|]. split; [apply setBlock_nodup; exact ND|].
    intros i. rewrite barrier_snoc. cbn [barrierStep snd]. rewrite K, setBlock_of, (Z.eqb_sym i).
    destruct (m_messageID cmd =? i); [reflexivity|]. exact (H i).
  - rewrite K1, K2. destruct (c_blocks c) as [|x r] eqn:E.
    + cbn [c_blocks set_c_blocks c_block set_c_block]. rewrite E. split; [reflexivity|]. split; [constructor|].
      intros i. rewrite barrier_snoc. cbn [barrierStep]. rewrite K1, K2. destruct (m_messageID cmd =? i); [left; reflexivity|]. exact (H i).
    + cbn [c_blocks set_c_blocks c_block set_c_block]. split; [reflexivity|]. split; [apply setBlock_nodup; exact ND|].
      intros i. rewrite barrier_snoc. cbn [barrierStep snd]. rewrite K1, K2, setBlock_of, (Z.eqb_sym i).
      destruct (m_messageID cmd =? i); [right; reflexivity|]. exact (H i).
Qed.

(** ** Which events change the blocks *)
Lemma execCheck_blks cmd c st gm : let '(c', _, _, _, _) := execCheck cmd c st gm in blks c' = blks c.
Proof.
  pose proof (execCheck_via cmd c st gm) as V. destruct (execCheck cmd c st gm) as [[[[c' o] s] p] g]. destruct V as [->|[t ->]]; [reflexivity|].
  exact (proj2 (execEntry_table c t)).
Qed.
Lemma grantCheck_blks c st gm t : let '(c', _, _, _, _) := grantCheck c st gm t in blks c' = blks c.
Proof.
  unfold grantCheck. destruct (_ && _); [|reflexivity]. pose proof (grant_table c t) as [_ H]. destruct (checkTimeGrant c t) as [[c' o] r]. exact H.
Qed.
Lemma cpr_blks f r : let '(c, _, _, _, _) := r in blks (f_tc (fst (fst (checkProcResult f r)))) = blks c.
Proof.
  pose proof (cpr_tc f r) as V. destruct r as [[[[c o] s] p] g]. destruct V as [->| ->]; [reflexivity|]. exact (proj2 (factors_frame c)).
Qed.
Lemma check_blks n f cmd : m_action cmd = CMD_EXEC_CHECK \/ m_action cmd = CMD_TIME_CHECK -> blks (f_tc (fst (fst (procMsg n f cmd)))) = blks (f_tc f).
Proof.
  revert f cmd. induction n as [|n IH]; intros f cmd A; [reflexivity|].
  change (procMsg (S n) f cmd) with
     (let '(f1, out, p) := checkProcResult f (coordStep cmd (f_tc f) (f_st f) (f_gm f)) in
      match p with
      | PR_REPROCESS cmd' =>
          if m_dest_id cmd' =? c_id (f_tc f1)
          then let '(f1, out', p) := procMsg n f1 cmd' in (f1, out ++ out', p)
          else (f1, out ++ [cmd'], PR_CONTINUE)
      | _ => (f1, out, p)
      end).
  assert (K : let '(c, _, _, p, _) := coordStep cmd (f_tc f) (f_st f) (f_gm f) in blks c = blks (f_tc f) /\
     match p with PR_REPROCESS m => m_action m = CMD_EXEC_CHECK | _ => True end).
  { assert (CS : coordStep cmd (f_tc f) (f_st f) (f_gm f) = if m_action cmd =? CMD_EXEC_CHECK then execCheck cmd (f_tc f) (f_st f) (f_gm f) else timeCheck cmd (f_tc f) (f_st f) (f_gm f)).
    { destruct A as [A|A]; unfold coordStep; rewrite A; reflexivity. }
    rewrite CS. destruct (m_action cmd =? CMD_EXEC_CHECK).
    - pose proof (execCheck_blks cmd (f_tc f) (f_st f) (f_gm f)) as B.
      assert (NR : forall m, snd (fst (execCheck cmd (f_tc f) (f_st f) (f_gm f))) <> PR_REPROCESS m).
      { intros m. unfold execCheck. destruct (_ && _); [|discriminate]. destruct (checkExecEntry _ _) as [[? ?] []]; discriminate. }
      destruct (execCheck _ _ _ _) as [[[[c o] s] p] g]. split; [exact B|]. destruct p; auto. destruct (NR m); reflexivity.
    - unfold timeCheck. destruct (fst_eqb (f_st f) INITIALIZING); [split; reflexivity|].
      pose proof (grantCheck_blks (f_tc f) (f_st f) (f_gm f) (if m_action cmd =? CMD_TIME_REQUEST then m_source_id cmd else invalidId)) as B.
      assert (NR : forall m, snd (fst (grantCheck (f_tc f) (f_st f) (f_gm f) (if m_action cmd =? CMD_TIME_REQUEST then m_source_id cmd else invalidId))) <> PR_REPROCESS m).
      { intros m. unfold grantCheck. destruct (_ && _); [|discriminate]. destruct (checkTimeGrant _ _) as [[? ?] []]; discriminate. }
      destruct (grantCheck _ _ _ _) as [[[[c o] s] p] g]. split; [exact B|]. destruct p; auto. destruct (NR m); reflexivity. }
  destruct (coordStep cmd (f_tc f) (f_st f) (f_gm f)) as [[[[c o] s] p] g]. destruct K as [K1 K2].
  pose proof (cpr_blks f (c, o, s, p, g)) as B. cbn iota in B. pose proof (cpr_pres f c o s p g) as PP.
  destruct (checkProcResult f _) as [[f1 o1] p1]. cbn [fst snd] in *. subst p1. rewrite K1 in B.
  destruct p; try exact B. destruct (_ =? _); [|exact B]. specialize (IH f1 m (or_introl K2)).
  destruct (procMsg n f1 m) as [[f2 o2] p2]. cbn [fst] in *. congruence.
Qed.
Lemma blockCmd_flags cmd : isBlockCmd (m_action cmd) = true -> isDataCmd (m_action cmd) = false /\ 
  ((m_action cmd =? CMD_TIME_REQUEST) || (m_action cmd =? CMD_EXEC_REQUEST)) = false
   /\ ((m_action cmd =? CMD_GLOBAL_DISCONNECT) || (m_action cmd =? CMD_USER_DISCONNECT)) = false
   /\ ((m_action cmd =? CMD_DISCONNECT_FED) || (m_action cmd =? CMD_DISCONNECT)) = false.
Proof.
  unfold isBlockCmd. intros H. assert (K : m_action cmd = CMD_TIME_BLOCK \/ m_action cmd = CMD_TIME_UNBLOCK \/ m_action cmd = CMD_TIME_BARRIER \/ m_action cmd = CMD_TIME_BARRIER_CLEAR) by lia.
  destruct K as [->|[->|[->| ->]]]; repeat split.
Qed.
Lemma block_step f cmd : isBlockCmd (m_action cmd) = true -> f_st f <> FINISHED ->
  blks (f_tc (fst (step f (Ev_msg cmd)))) = blks (fst (processTimeBlockMessage (f_tc f) cmd)).
Proof.
  intros B NF. cbn [step]. destruct (blockCmd_flags cmd B) as (D&OW&U1&U2). unfold isOwnRequest. rewrite D, OW. cbn [andb orb].
  assert (FF : fst_eqb (f_st f) FINISHED = false) by (destruct (f_st f); try reflexivity; contradiction). rewrite FF.
  assert (E : f_tc (fst (maskError (fst_eqb (f_st f) ERRORED) (deliver f cmd))) = f_tc (fst (fst (procMsg 3 f cmd)))).
  { transitivity (f_tc (fst (deliver f cmd))); [unfold maskError; destruct (fst_eqb (f_st f) ERRORED); reflexivity|].
    unfold deliver. change procDepth with 3%nat. destruct (procMsg 3 f cmd) as [[f1 out] p]. cbn [fst].
    destruct (returnable p); [apply finish_tc|]. rewrite U1, U2. reflexivity. }
  rewrite E. clear E.
  change (procMsg 3 f cmd) with
     (let '(f1, out, p) := checkProcResult f (coordStep cmd (f_tc f) (f_st f) (f_gm f)) in
      match p with
      | PR_REPROCESS cmd' =>
          if m_dest_id cmd' =? c_id (f_tc f1)
          then let '(f1, out', p) := procMsg 2 f1 cmd' in (f1, out ++ out', p)
          else (f1, out ++ [cmd'], PR_CONTINUE)
      | _ => (f1, out, p)
      end).
  assert (K : let '(c, _, _, p, _) := coordStep cmd (f_tc f) (f_st f) (f_gm f) in blks c = blks (fst (processTimeBlockMessage (f_tc f) cmd)) /\
     match p with PR_REPROCESS m => m_action m = CMD_EXEC_CHECK \/ m_action m = CMD_TIME_CHECK | _ => True end).
  { unfold coordStep. rewrite B. unfold processTimeMessage. rewrite B. destruct (processTimeBlockMessage (f_tc f) cmd) as [c r].
    destruct (_ && _); [destruct (f_st f)|]; split; auto; reflexivity. }
  destruct (coordStep cmd (f_tc f) (f_st f) (f_gm f)) as [[[[c o] s] p] g]. destruct K as [K1 K2].
  pose proof (cpr_blks f (c, o, s, p, g)) as BB. cbn iota in BB. pose proof (cpr_pres f c o s p g) as PP.
  destruct (checkProcResult f _) as [[f1 o1] p1]. cbn [fst snd] in *. subst p1. rewrite K1 in BB.
  destruct p; try exact BB. destruct (m_dest_id m =? c_id (f_tc f1)); [|exact BB]. pose proof (check_blks 2 f1 m K2) as CB.
  destruct (procMsg 2 f1 m) as [[f2 o2] p2]. cbn [fst] in *. congruence.
Qed.
Lemma other_step f e : (forall cmd, e = Ev_msg cmd -> isBlockCmd (m_action cmd) = false) -> blks (f_tc (fst (step f e))) = blks (f_tc f).
Proof.
  intros NB. refine (aprims_inv e (fun c => blks c = blks (f_tc f)) _ _ _ (step_any f e) eq_refl).
  intros c c' A H. destruct (aprim_tabOf e c c' A) as (_&[B|(cmd&E&B&_)]&_); [congruence|]. rewrite (NB cmd E) in B. discriminate.
Qed.
Lemma blocks_after f0 es : blocksOk [] (blks (f_tc f0)) -> f_st (after f0 es) <> FINISHED -> blocksOk es (blks (f_tc (after f0 es))).
Proof.
  intros H0. induction es as [|e es IH] using rev_ind; intros NF; [exact H0|].
  assert (NF0 : f_st (after f0 es) <> FINISHED).
  { intros F. apply NF. rewrite after_app. apply finished_stays. exact F. }
  specialize (IH NF0). rewrite after_snoc.
  assert (CASE : (exists cmd, e = Ev_msg cmd /\ isBlockCmd (m_action cmd) = true) \/ (forall cmd, e = Ev_msg cmd -> isBlockCmd (m_action cmd) = false)).
  { destruct e as [cmd| | | | | | | | |]; try (right; discriminate). destruct (isBlockCmd (m_action cmd)) eqn:B; [left; eauto|right; congruence]. }
  destruct CASE as [(cmd&->&B)|NB].
  - rewrite block_step by assumption. apply blockMsg_ok; assumption.
  - rewrite other_step by exact NB. destruct IH as (A&ND&C). split; [exact A|]. split; [exact ND|]. intros i. specialize (C i).
    rewrite barrier_snoc. assert (ES : barrierStep i (barrier es i) e = barrier es i).
    { destruct e as [cmd| | | | | | | | |]; try reflexivity. cbn [barrierStep]. specialize (NB cmd eq_refl).
      assert (S1 : setsBarrier (m_action cmd) = false) by (unfold isBlockCmd, setsBarrier in *; lia).
      assert (S2 : clearsBarrier (m_action cmd) = false) by (unfold isBlockCmd, clearsBarrier in *; lia).
      rewrite S1, S2. destruct (_ =? i); reflexivity. }
    rewrite ES. exact C.
Qed.

(** ** Grants *)
Lemma init_blocks id o n : blocksOk [] (blks (f_tc (fed_init id o n))).
Proof. repeat split; [constructor|]. intros i. left. reflexivity. Qed.
(** every grant to an executing federate which is not forced is a decision of its coordinator *)
Lemma grant_via f e r t : f_st f = EXECUTING -> wf_event e -> inv f -> e_ret (snd (step f e)) = Some (r, t) -> isGrant r ->
  (forall m, e = Ev_msg m -> m_action m <> CMD_FORCE_TIME_GRANT) ->
  exists c0 trig out m, bounded c0 /\ c_granted c0 <= c_requested c0 /\ checkTimeGrant c0 trig = (f_tc (fst (step f e)), out, m)
    /\ of_mpr m = r /\ t = c_granted (f_tc (fst (step f e))) /\ f_st (fst (step f e)) = EXECUTING.
Proof.
  intros ST W [BD GR] ER IG NF.
  assert (CASE : (exists t it nv nm, e = Ev_request t it nv nm) \/ (forall t it nv nm, e <> Ev_request t it nv nm)).
  { destruct e; try (right; intros; discriminate). left. repeat eexists. }
  destruct CASE as [(tq&it&nv&nm&->)|NR].
  - pose proof (step_request f tq it nv nm ST) as K. cbn zeta in K. destruct K as (out&m&K1&K2&_&K4&K5).
    destruct W as (W1&W2&W3). pose proof (timeRequest_ok (f_tc f) tq (effIter f it) nv nm BD W1 W2 W3) as T. cbn zeta in T.
    destruct T as (T1&T2&T3&_). exists (fst (timeRequest (f_tc f) tq (effIter f it) nv nm)), invalidId, out, m.
    rewrite ER in K5. destruct IG as [-> | ->]; destruct m; try discriminate K5; injection K5 as ->; (split; [exact T1|split; [exact T3|split; [exact K1|split; [reflexivity|split; [reflexivity|exact K2]]]]]).
  - pose proof (step_started f e ltac:(rewrite ST; reflexivity) (fun _ => NR)) as [S _]. rewrite ER in S.
    remember (fst (step f e)) as f' eqn:EF. remember (Some (r, t)) as x eqn:EX.
    destruct S as [A1 A2 A3 A4 A5|A1 A2 A3|tt A1 A2 A3|cmd A1 A2 A3 A4 A5 A6 A7|c0 trig out m A1 A2 A3 A4 A5 A6 A7]; try discriminate EX.
    + injection EX as <- <-. destruct IG; discriminate.
    + injection EX as <- <-. destruct IG; discriminate.
    + destruct (NF cmd A1 A2).
    + injection EX as <- <-. destruct (prims_ok e _ _ W A1) as [SM K]. specialize (K BD). destruct SM as (_&S1&_&S2&_).
      exists c0, trig, out, m. split; [exact K|]. split; [rewrite S1, S2; apply GR; assumption|]. split; [exact A5|].
      split; [reflexivity|]. split; [|exact A3]. destruct m; try reflexivity. destruct IG; discriminate.
Qed.
Lemma grant_below_block c t c' out m : bounded c -> c_granted c <= c_requested c -> checkTimeGrant c t = (c', out, m) -> isGrant (of_mpr m) ->
  (c_granted c' < c_block c \/ cTerminationTime <= c_block c) /\ (m = NEXT_STEP -> c_granted c' < cTerminationTime).
Proof.
  intros BD GR E G. pose proof (checkTimeGrant_spec c t) as S. cbn zeta in S. rewrite E in S. destruct S as [S1 S2].
  assert (GM : grants m = true) by (destruct m; try reflexivity; destruct G; discriminate).
  specialize (S2 GM). destruct S2 as (C1&C2&C3&_). rewrite updateTimeFactors_exec in *. rewrite updateTimeFactors_block in C2.
  pose proof (nextExec_mono c BD GR) as NM. pose proof (updateTimeFactors_core c) as U. pose proof (updateTimeFactors_exec c) as X.
  set (c1 := fst (updateTimeFactors c)) in *. clearbody c1. core_inv U.
  destruct m; cbn [grantedFrom grants] in *; try discriminate GM.
  - destruct S1 as [_ S1]. core_inv S1. split; [lia|intros _; lia].
  - destruct S1 as [_ S1]. cbn zeta in S1. core_inv S1. split; [|discriminate]. destruct (is_force_iter (c_iterating c1)); lia.
Qed.

(** C05: while a barrier (or block) set at time [b] is in force, no request is granted a time at or after [b],
    with or without iteration, whatever the dependencies do: only an explicit forced grant gets past it.
    [b] at or after the end of time (cTerminationTime) is no restriction (such a barrier can not be set). *)
Theorem C05_no_grant_at_or_beyond_barrier :
  forall id o maxIter es e r t i b,
  let f0 := fed_init id o maxIter in
  opts_ok o -> Forall wf_event (es ++ [e]) -> f_st (after f0 es) = EXECUTING ->
  returnAt f0 es e = Some (r, t) -> isGrant r ->
  (forall m, e = Ev_msg m -> m_action m <> CMD_FORCE_TIME_GRANT) ->
  barrier (es ++ [e]) i = Some b -> b < cTerminationTime ->
  t < b.
Proof.
  intros id o maxIter es e r t i b f0 O W ST R IG NF BA LT.
  pose proof W as W0. apply Forall_app in W0 as [W1 W2]. inversion W2 as [|? ? W3 _]; subst.
  assert (IV : inv (after f0 es)) by (apply run_inv; [assumption|apply init_inv; assumption]).
  destruct (grant_via _ e r t ST W3 IV R IG NF) as (c0&trig&out&m&BD&GR&E&EM&ET&SX).
  rewrite <- after_snoc in *. subst r.
  destruct (grant_below_block c0 trig _ out m BD GR E IG) as [GB _].
  pose proof (grant_table c0 trig) as [_ BK]. rewrite E in BK. cbn [fst] in BK.
  pose proof (blocks_after f0 (es ++ [e]) (init_blocks id o maxIter) ltac:(rewrite SX; discriminate)) as (M&_&H).
  specialize (H i). rewrite BA in H. rewrite BK in M, H. unfold blks in M, H. cbn [fst snd] in M, H.
  apply minBlock_le in H. lia.
Qed.

(** several barriers act as their minimum: the coordinator's limit is the earliest barrier in force,
    and there is no limit when none is *)
Theorem C05_barriers_act_as_minimum :
  forall id o maxIter es,
  let f := after (fed_init id o maxIter) es in
  f_st f <> FINISHED ->
  (forall i b, barrier es i = Some b -> c_block (f_tc f) <= b) /\
  (c_block (f_tc f) < maxVal -> exists i, barrier es i = Some (c_block (f_tc f))) /\
  ((forall i, barrier es i = None) -> c_block (f_tc f) = maxVal).
Proof.
  intros id o maxIter es f NF. destruct (blocks_after _ es (init_blocks id o maxIter) NF) as (M&ND&H). fold f in M, ND, H.
  unfold blks in M, ND, H. cbn [fst snd] in M, ND, H. rewrite M.
  assert (IN : forall t i (l : list (Z * Z)), NoDup (map snd l) -> In (t, i) l -> blockOf l i = Some t).
  { intros t i l. induction l as [|[t0 k] r IH]; intros N I; [destruct I|]. inversion N as [|? ? N1 N2]; subst. cbn [blockOf].
    destruct I as [I|I]; [injection I as -> ->; rewrite Z.eqb_refl; reflexivity|].
    destruct (Z.eqb_spec k i) as [->|_]; [|auto]. destruct N1. cbn [snd]. apply (in_map snd) in I. exact I. }
  split; [|split].
  - intros i b E. specialize (H i). rewrite E in H. apply minBlock_le in H. exact H.
  - intros L. destruct (minBlock_in _ L) as (t&i&I&E). exists i. apply IN in I; [|exact ND]. specialize (H i). rewrite I in H.
    destruct (barrier es i) as [b|]; [congruence|]. destruct H as [H|H]; [discriminate|]. injection H as H. lia.
  - intros N. destruct (c_blocks (f_tc f)) as [|[t0 k] r] eqn:EB; [reflexivity|].
    assert (ALL : forall t i, In (t, i) ((t0, k) :: r) -> t = maxVal).
    { intros t i I. apply IN in I; [|exact ND]. specialize (H i). rewrite N, I in H. destruct H as [H|H]; [discriminate|]. injection H as H. exact H. }
    assert (G : forall (r : list (Z * Z)) a, a = maxVal -> (forall t i, In (t, i) r -> t = maxVal) ->
       fold_left (fun a (b : Z * Z) => if fst b <? a then fst b else a) r a = maxVal).
    { clear. induction r as [|[t0 k] r IH]; intros a -> A; [reflexivity|]. cbn [fold_left fst]. rewrite (A t0 k) by (left; reflexivity).
      rewrite Z.ltb_irrefl. apply IH; [reflexivity|]. intros t i I. apply (A t i). right. exact I. }
    cbn [minBlock]. apply G; [apply (ALL t0 k); left; reflexivity|]. intros t i I. apply (ALL t i). right. exact I.
Qed.

(** no federate enters execution (is granted time zero) while a barrier at or before time zero is in force *)
Theorem C05_no_entry_beyond_barrier :
  forall id o maxIter es e i b,
  let f0 := fed_init id o maxIter in
  f_st (after f0 es) <> EXECUTING -> f_st (after f0 (es ++ [e])) = EXECUTING ->
  barrier (es ++ [e]) i = Some b -> timeZero < b.
Proof.
  intros id o maxIter es e i b f0 N ST BA.
  pose proof (blocks_after f0 (es ++ [e]) (init_blocks id o maxIter) ltac:(rewrite ST; discriminate)) as (M&_&H).
  specialize (H i). rewrite BA in H. apply minBlock_le in H. rewrite after_snoc in *.
  set (f := after f0 es) in *. clearbody f.
  destruct (started (f_st f)) eqn:SF.
  - exfalso. pose proof (step_started f e SF ltac:(intros Q; contradiction)) as [S _]. remember (fst (step f e)) as f' eqn:EF.
    destruct S as [A1 A2 A3 A4 A5|A1 A2 A3|tt A1 A2 A3|cmd A1 A2 A3 A4 A5 A6 A7|c0 trig out m A1 A2 A3 A4 A5 A6 A7]; try congruence; [auto|].
    destruct A3; congruence.
  - pose proof (step_init f e SF) as [S _]. remember (fst (step f e)) as f' eqn:EF.
    assert (SN : f_st f <> EXECUTING) by (intros Q; rewrite Q in SF; discriminate).
    destruct S as [A1 [A2|A2]|c0 t c' out A1 A2 A3 A4 A5 A6|r t A1 A2 [A3|A3]|c0 t out A1 A2 A3 A4 A5|t cmd A1 A2 A3 A4|A1 A2|t A1 A2]; try congruence.
    pose proof (execEntry_table c0 t) as [_ BK]. rewrite A3 in BK. cbn [fst] in BK.
    assert (BB : blks (f_tc f') = blks c0) by (rewrite A4, (proj2 (factors_frame c')); exact BK).
    rewrite BB in M, H. unfold blks in M, H. cbn [fst snd] in M, H.
    unfold checkExecEntry in A3. destruct (Z.leb_spec (c_block c0) timeZero); [discriminate A3|]. lia.
Qed.

(** clearing restores normal granting: when a command addressed to the federate raises the earliest barrier
    in force while a request is pending, the grant is decided again at once, with the new limit *)
Theorem C05_clearing_decides_again :
  forall id o maxIter es cmd,
  let f0 := fed_init id o maxIter in
  let f := after f0 es in
  let f' := after f0 (es ++ [Ev_msg cmd]) in
  f_st f = EXECUTING -> f_gm f = false -> isBlockCmd (m_action cmd) = true -> m_dest_id cmd = id ->
  c_block (f_tc f) < c_block (f_tc f') ->
  exists blocks out r,
    checkTimeGrant (set_c_block (c_block (f_tc f')) (set_c_blocks blocks (f_tc f))) invalidId = (f_tc f', out, r) /\
    returnAt f0 es (Ev_msg cmd) =
      match r with
      | CONTINUE_PROCESSING => None
      | HALTED => Some (PR_HALT, maxVal)
      | _ => Some (of_mpr r, c_granted (f_tc f'))
      end.
Proof.
  intros id o maxIter es cmd f0 f f' ST GM B DI LT.
  assert (TI : c_id (f_tc f) = id) by (apply (proj1 (after_tabOk id f0 es (init_tabOk id o maxIter)))).
  unfold f' in *. clear f'. unfold returnAt. fold f. rewrite after_snoc in *. fold f in LT |- *. clearbody f. clear f0.
  pose proof (block_step f cmd B ltac:(rewrite ST; discriminate)) as BS.
  assert (FR : exists blocks, fst (processTimeBlockMessage (f_tc f) cmd) = set_c_block (fst (blks (fst (processTimeBlockMessage (f_tc f) cmd)))) (set_c_blocks blocks (f_tc f))).
  { assert (X : forall b bl, set_c_block b (set_c_blocks bl (f_tc f)) = set_c_block b (set_c_blocks bl (f_tc f))) by reflexivity.
    assert (Y : forall b, set_c_block b (f_tc f) = set_c_block b (set_c_blocks (c_blocks (f_tc f)) (f_tc f))) by (intros; destruct (f_tc f); reflexivity).
    unfold processTimeBlockMessage. cbn [fst]. destruct ((m_action cmd =? CMD_TIME_BLOCK) || (m_action cmd =? CMD_TIME_BARRIER)); [eexists; apply X|].
    destruct ((m_action cmd =? CMD_TIME_UNBLOCK) || (m_action cmd =? CMD_TIME_BARRIER_CLEAR)); [|eexists; apply Y].
    destruct (c_blocks (f_tc f)); [eexists; apply Y|eexists; apply X]. }
  assert (BC : c_block (f_tc (fst (step f (Ev_msg cmd)))) = fst (blks (fst (processTimeBlockMessage (f_tc f) cmd)))) by (rewrite <- BS; reflexivity).
  assert (PR : snd (processTimeBlockMessage (f_tc f) cmd) = PROCESSED).
  { rewrite BC in LT. unfold processTimeBlockMessage, blks in *. cbn [fst snd c_block set_c_block] in *.
    match goal with |- context [?a <? ?b] => assert (LL : a < b) by exact LT; apply Z.ltb_lt in LL; rewrite LL end. reflexivity. }
  rewrite BC. clear LT BS BC.
  destruct FR as [blocks FR]. exists blocks. rewrite <- FR. clear FR.
  destruct (blockCmd_flags cmd B) as (D&OW&U1&U2). cbn [step]. unfold isOwnRequest. rewrite D, OW, ST. cbn [andb orb fst_eqb]. unfold maskError, deliver.
  change procDepth with 3%nat.
  assert (CS : coordStep cmd (f_tc f) (f_st f) (f_gm f) = (fst (processTimeBlockMessage (f_tc f) cmd), [], EXECUTING, PR_REPROCESS (set_m_action CMD_TIME_CHECK cmd), false)).
  { unfold coordStep. rewrite B. unfold processTimeMessage. rewrite B, ST, GM. destruct (processTimeBlockMessage (f_tc f) cmd) as [c r]. cbn [snd] in PR. subst r. reflexivity. }
  set (cb := fst (processTimeBlockMessage (f_tc f) cmd)) in *.
  assert (CI : c_id cb = id) by (unfold cb, processTimeBlockMessage; cbn [fst]; destruct ((m_action cmd =? CMD_TIME_BLOCK) || (m_action cmd =? CMD_TIME_BARRIER)); [exact TI|]; destruct ((m_action cmd =? CMD_TIME_UNBLOCK) || (m_action cmd =? CMD_TIME_BARRIER_CLEAR)); [destruct (c_blocks (f_tc f))|]; exact TI).
  clearbody cb. set (f1 := set_f_tc cb (set_f_st EXECUTING (set_f_gm false f))).
  destruct (checkTimeGrant cb invalidId) as [[c2 out] r] eqn:CG. exists out, r.
  assert (PM : procMsg 3 f cmd = (let f2 := set_f_tc c2 (set_f_st EXECUTING (set_f_gm (match r with CONTINUE_PROCESSING => false | _ => true end) f1)) in
     match r with CONTINUE_PROCESSING => f2 | _ => refreshTimes f2 end, out, of_mpr r)).
  { change (procMsg 3 f cmd) with
     (let '(f1, out, p) := checkProcResult f (coordStep cmd (f_tc f) (f_st f) (f_gm f)) in
      match p with
      | PR_REPROCESS cmd' =>
          if m_dest_id cmd' =? c_id (f_tc f1)
          then let '(f1, out', p) := procMsg 2 f1 cmd' in (f1, out ++ out', p)
          else (f1, out ++ [cmd'], PR_CONTINUE)
      | _ => (f1, out, p)
      end).
    rewrite CS. unfold checkProcResult at 1. rewrite ST. cbn [fst_eqb m_dest_id set_m_action c_id f_tc set_f_tc set_f_st set_f_gm]. rewrite CI, DI, Z.eqb_refl.
    change (procMsg 2 (set_f_tc cb (set_f_st EXECUTING (set_f_gm false f))) (set_m_action CMD_TIME_CHECK cmd)) with
     (let '(f1, out, p) := checkProcResult f1 (grantCheck cb EXECUTING false invalidId) in
      match p with
      | PR_REPROCESS cmd' =>
          if m_dest_id cmd' =? c_id (f_tc f1)
          then let '(f1, out', p) := procMsg 1 f1 cmd' in (f1, out ++ out', p)
          else (f1, out ++ [cmd'], PR_CONTINUE)
      | _ => (f1, out, p)
      end).
    unfold grantCheck. cbn [fst_eqb andb negb]. rewrite CG.
    unfold checkProcResult. change (f_st f1) with EXECUTING. cbn [fst_eqb]. destruct r; reflexivity. }
  rewrite PM. destruct r; cbn [of_mpr returnable]; [rewrite U1, U2; split; reflexivity|split; reflexivity..].
Qed.

(** *** A concrete run: a barrier holds back a request the dependency has long released; clearing it grants the request *)

Definition barrierAt (t : Z) : event := Ev_msg (set_m_dest_id me (set_m_messageID 7 (set_m_actionTime t (newMsg CMD_TIME_BARRIER parent_broker_id)))).
Definition barrierClear : event := Ev_msg (set_m_dest_id me (set_m_messageID 7 (newMsg CMD_TIME_BARRIER_CLEAR parent_broker_id))).
Example C05_not_vacuous :
  let o := cfgPOD 10 3 1 in
  let f0 := fed_init me o 50 in
  let es := history1 ++ [Ev_request 4 NO_ITERATIONS 1000 1000; otherSays CMD_EXEC_GRANT 0 0 0] in
  let e := otherSays CMD_TIME_REQUEST 20 20 1 in
  returnAt f0 es e = Some (PR_NEXT, 13)
  /\ returnAt f0 (barrierAt 14 :: es) e = Some (PR_NEXT, 13) /\ barrier ((barrierAt 14 :: es) ++ [e]) 7 = Some 14
  /\ returnAt f0 (barrierAt 13 :: es) e = None /\ barrier ((barrierAt 13 :: es) ++ [e]) 7 = Some 13
  /\ returnAt f0 ((barrierAt 13 :: es) ++ [e]) barrierClear = Some (PR_NEXT, 13)
  /\ barrier ((barrierAt 13 :: es) ++ [e; barrierClear]) 7 = None
  /\ returnAt f0 (barrierAt 0 :: firstn 4 history1) (otherSays CMD_EXEC_REQUEST 0 0 0) = None.
Proof. vm_compute. repeat split. Qed.
