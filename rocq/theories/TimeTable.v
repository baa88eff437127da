(** * What every event does to the table of dependencies and to the time blocks *)
From Coq Require Import ZArith Bool List Lia ZifyBool.
From Verif Require Import HTime Action TimeDep TimeDepProofs TimeCoord TimeCoordProofs TimeProc TimeProcProofs TimeInitProofs TimeInv TimeAnswer TimeGrid PropsTime1.
Import ListNotations.
Open Scope Z_scope.

(** any coordinator operation an event can cause *)
Inductive aprim (e : event) : tc -> tc -> Prop :=
| ap_prim c c' : prim e c c' -> aprim e c c'
| ap_iprim c c' : iprim e c c' -> aprim e c c'
| ap_grant c t : aprim e c (fst (fst (checkTimeGrant c t)))
| ap_request c t it it' nv nm : e = Ev_request t it nv nm -> aprim e c (fst (timeRequest c t it' nv nm))
| ap_error c : aprim e c (fst (localError c))
| ap_force c cmd : e = Ev_msg cmd -> c_granted c < m_actionTime cmd -> aprim e c (fst (grantTo (m_actionTime cmd) c))
| ap_exec c t : aprim e c (fst (fst (checkExecEntry c t)))
| ap_factors c : aprim e c (fst (updateTimeFactors c)).
Inductive aprims (e : event) : tc -> tc -> Prop :=
| as_refl c : aprims e c c
| as_step c c1 c2 : aprims e c c1 -> aprim e c1 c2 -> aprims e c c2.
Lemma as_one e c c' : aprim e c c' -> aprims e c c'.
Proof. intros H. eapply as_step; [apply as_refl|exact H]. Qed.
Lemma prims_aprims e c c' : prims e c c' -> aprims e c c'.
Proof. induction 1; [apply as_refl|]. eapply as_step; [eassumption|]. apply ap_prim; assumption. Qed.
Lemma iprims_aprims e c c' : iprims e c c' -> aprims e c c'.
Proof. induction 1; [apply as_refl|]. eapply as_step; [eassumption|]. apply ap_iprim; assumption. Qed.
Lemma aprims_inv e (P : tc -> Prop) : (forall c c', aprim e c c' -> P c -> P c') ->
  forall c c', aprims e c c' -> P c -> P c'.
Proof. intros H c c' HP; induction HP; eauto. Qed.

(** every event is a sequence of these operations *)
Theorem step_any f e : aprims e (f_tc f) (f_tc (fst (step f e))).
Proof.
  destruct (started (f_st f)) eqn:S.
  2: { destruct (step_init f e S) as [A _].
       destruct A as [A _|c0 t c' out A _ B -> _ _|r t A _ _|c0 t out A _ B _ _|t cmd A _ _ _|A _|t A _];
       try (apply iprims_aprims; exact A).
       - eapply as_step; [eapply as_step; [apply iprims_aprims, A|]|apply ap_factors].
         replace c' with (fst (fst (checkExecEntry c0 t))) by (rewrite B; reflexivity). apply ap_exec.
       - eapply as_step; [apply iprims_aprims, A|].
         replace (f_tc (fst (step f e))) with (fst (fst (checkExecEntry c0 t))) by (rewrite B; reflexivity). apply ap_exec. }
  assert (CASE : (f_st f = EXECUTING /\ exists t it nv nm, e = Ev_request t it nv nm) \/
     (f_st f = EXECUTING -> forall t it nv nm, e <> Ev_request t it nv nm)).
  { destruct e; try (right; intros; discriminate). destruct (f_st f) eqn:ST; try (right; intros; discriminate).
    left. split; [reflexivity|]. repeat eexists. }
  destruct CASE as [(ST&t&it&nv&nm&->)|NR].
  - destruct (step_request f t it nv nm ST) as (out&r&E&_).
    eapply as_step; [eapply as_one, ap_request; reflexivity|].
    replace (f_tc (fst (step f (Ev_request t it nv nm)))) with (fst (fst (checkTimeGrant (fst (timeRequest (f_tc f) t (effIter f it) nv nm)) invalidId)))
      by (rewrite E; reflexivity). apply ap_grant.
  - destruct (step_started f e S NR) as [A _]. destruct A as [A _ _ _ _|A _ _|t A _ _|cmd E1 E2 E3 _ E4 _ _|c0 trig out r A _ _ _ B _ _].
    + apply prims_aprims, A.
    + apply prims_aprims, A.
    + destruct A as [c' A|c' cmd A E|cmd E L].
      * apply prims_aprims, A.
      * eapply as_step; [apply prims_aprims, A|]. apply ap_error.
      * apply as_one. eapply ap_force; eassumption.
    + rewrite E4. destruct (c_granted (f_tc f) <? m_actionTime cmd) eqn:L; [|apply as_refl].
      apply as_one. eapply ap_force; [eassumption|lia].
    + eapply as_step; [apply prims_aprims, A|].
      replace (f_tc (fst (step f e))) with (fst (fst (checkTimeGrant c0 trig))) by (rewrite B; reflexivity). apply ap_grant.
Qed.

(** the table after a command from a federate *)
Definition msgTable (l : table) (cmd : amsg) : table :=
  fst (updateTime (if removesDependent (m_action cmd) then removeDependent l (m_source_id cmd) else l) cmd).

(** one change of the table; [id] is the federate itself, [g] its granted time *)
Inductive tabStep (e : event) (id g : Z) (l l' : table) : Prop :=
| tb_same : l' = l -> tabStep e id g l l'
| tb_msg cmd : e = Ev_msg cmd \/ (isDataCmd (m_action cmd) = true /\ exists k, e = Ev_data cmd k) -> isBlockCmd (m_action cmd) = false ->
    m_action cmd <> CMD_FORCE_TIME_GRANT -> l' = msgTable l cmd -> tabStep e id g l l'
| tb_self a : a = CMD_DISCONNECT \/ a = CMD_LOCAL_ERROR -> l' = msgTable l (set_m_dest_id id (newMsg a id)) -> tabStep e id g l l'
| tb_update cmd c : e = Ev_msg cmd -> c_deps c = l -> c_id c = id -> l' = c_deps (processDependencyUpdateMessage c cmd) -> tabStep e id g l l'
| tb_addDependency x c : e = Ev_addDependency x -> c_deps c = l -> c_id c = id -> l' = c_deps (fst (tcAddDependency c x)) -> tabStep e id g l l'
| tb_addDependent x : e = Ev_addDependent x -> l' = fst (addDependent l x) -> tabStep e id g l l'
| tb_reset x : e = Ev_resetDependency x -> l' = resetDependency l x -> tabStep e id g l l'
| tb_events t it nv nm : e = Ev_request t it nv nm -> l' = resetDependentEvents g l -> tabStep e id g l l'
| tb_iterTime t : l' = resetIteratingTimeRequests t l -> tabStep e id g l l'
| tb_iterExec : l' = resetIteratingExecRequests l -> tabStep e id g l l'.

(** blocks: TIME_BLOCK and similar commands only *)
Definition blks (c : tc) := (c_block c, c_blocks c).
Definition blkStep (e : event) (c c' : tc) : Prop :=
  blks c' = blks c \/ exists cmd, e = Ev_msg cmd /\ isBlockCmd (m_action cmd) = true /\ blks c' = blks (fst (processTimeBlockMessage c cmd)).

Definition frame (c c' : tc) : Prop := c_deps c' = c_deps c /\ blks c' = blks c.
Lemma frame_refl c : frame c c. Proof. split; reflexivity. Qed.
Lemma frame_trans a b c : frame a b -> frame b c -> frame a c.
Proof. intros [A1 A2] [B1 B2]. split; congruence. Qed.

Lemma nextExec_frame c : frame c (fst (updateNextExecutionTime c)). Proof. split; reflexivity. Qed.
Lemma factors_frame c : frame c (fst (updateTimeFactors c)).
Proof. split; [apply updateTimeFactors_deps|reflexivity]. Qed.
Lemma checkAndSend_frame c m s : frame c (fst (fst (checkAndSendTimeRequest c m s))).
Proof.
  unfold checkAndSendTimeRequest. match goal with |- context [if ?b then _ else _] => destruct b end; [|apply frame_refl].
  destruct (transmit c m s). split; reflexivity.
Qed.
Lemma send_frame c t : frame c (fst (sendTimeRequest c t)).
Proof.
  unfold sendTimeRequest. pose proof (checkAndSend_frame c (timeRequestMessage c) (minFed (c_upstream c))) as F.
  destruct (checkAndSendTimeRequest _ _ _) as [[c1 out] [s k]]. cbn [fst] in F.
  destruct s.
  - destruct (k && isValidId (minFed (c_upstream c))); exact F.
  - destruct (isValidId t); [|exact F]. destruct (getDep (c_deps c) t) as [d|]; [destruct (dependent d); exact F|]. destruct F; split; assumption.
Qed.
Lemma ptm_table c cmd : (m_action cmd <> CMD_FORCE_TIME_GRANT ->
   c_deps (fst (fst (processTimeMessage c cmd))) = if isBlockCmd (m_action cmd) then c_deps c else
     if (m_action cmd =? CMD_REQUEST_CURRENT_TIME) && (c_disconnected c || ts_eqb (tst (c_lastSend c)) ts_error) then c_deps c
     else msgTable (c_deps c) cmd)
  /\ blks (fst (fst (processTimeMessage c cmd))) = if isBlockCmd (m_action cmd) then blks (fst (processTimeBlockMessage c cmd)) else blks c.
Proof.
  unfold processTimeMessage. destruct (isBlockCmd (m_action cmd)) eqn:B.
  { pose proof (block_core c cmd) as [_ D]. destruct (processTimeBlockMessage c cmd) as [c' r]. split; [intros _; exact D|reflexivity]. }
  destruct (Z.eqb_spec (m_action cmd) CMD_FORCE_TIME_GRANT) as [E|E].
  { split; [congruence|]. destruct (c_granted c <? m_actionTime cmd); [|reflexivity]. unfold grantTo. reflexivity. }
  destruct (Z.eqb_spec (m_action cmd) CMD_REQUEST_CURRENT_TIME) as [E2|E2].
  { assert (R : removesDependent (m_action cmd) = false) by (rewrite E2; reflexivity).
    unfold msgTable. rewrite R.
    destruct (c_disconnected c || ts_eqb (tst (c_lastSend c)) ts_error); [split; reflexivity|].
    cbn [andb]. destruct (c_trig c && (m_source_id cmd =? gRootBrokerID)); split; reflexivity. }
  cbn [andb]. unfold msgTable. destruct (removesDependent (m_action cmd)).
  - cbn [c_deps set_c_deps]. destruct (updateTime (removeDependent (c_deps c) (m_source_id cmd)) cmd) as [deps r]; destruct r; split; reflexivity.
  - destruct (updateTime (c_deps c) cmd) as [deps r]; destruct r; split; reflexivity.
Qed.
Definition selfStep (id : Z) (l l' : table) : Prop :=
  l' = l \/ exists a, (a = CMD_DISCONNECT \/ a = CMD_LOCAL_ERROR) /\ l' = msgTable l (set_m_dest_id id (newMsg a id)).
Lemma disconnect_table c : selfStep (c_id c) (c_deps c) (c_deps (fst (disconnect c))) /\ blks (fst (disconnect c)) = blks c.
Proof.
  unfold disconnect. destruct (c_disconnected c); [split; [left; reflexivity|reflexivity]|].
  destruct (existsb _ _); [|split; [left; reflexivity|reflexivity]].
  pose proof (ptm_table c (set_m_dest_id (c_id c) (newMsg CMD_DISCONNECT (c_id c)))) as [H1 H2].
  specialize (H1 ltac:(discriminate)). change (isBlockCmd (m_action (set_m_dest_id (c_id c) (newMsg CMD_DISCONNECT (c_id c))))) with false in *.
  change (m_action (set_m_dest_id (c_id c) (newMsg CMD_DISCONNECT (c_id c))) =? CMD_REQUEST_CURRENT_TIME) with false in *. cbn [andb] in H1.
  destruct (processTimeMessage c _) as [[c1 out1] r]. cbn [fst] in *. split; [|exact H2]. right. exists CMD_DISCONNECT. split; [left; reflexivity|exact H1].
Qed.
Lemma localError_table c : selfStep (c_id c) (c_deps c) (c_deps (fst (localError c))) /\ blks (fst (localError c)) = blks c.
Proof.
  unfold localError. destruct (c_disconnected c); [split; [left; reflexivity|reflexivity]|].
  set (c1 := set_c_granted maxVal (set_c_grantBase maxVal c)).
  change (c_deps c1) with (c_deps c). destruct (c_deps c) as [|d0 l0] eqn:D.
  { split; [left; exact D|reflexivity]. }
  rewrite <- D. destruct (existsb _ _).
  2: { split; [left; reflexivity|reflexivity]. }
  change (c_id c1) with (c_id c).
  pose proof (ptm_table c1 (set_m_dest_id (c_id c) (newMsg CMD_LOCAL_ERROR (c_id c)))) as [H1 H2].
  specialize (H1 ltac:(discriminate)). change (isBlockCmd (m_action (set_m_dest_id (c_id c) (newMsg CMD_LOCAL_ERROR (c_id c))))) with false in *.
  change (m_action (set_m_dest_id (c_id c) (newMsg CMD_LOCAL_ERROR (c_id c))) =? CMD_REQUEST_CURRENT_TIME) with false in *. cbn [andb] in H1.
  destruct (processTimeMessage c1 _) as [[c2 out1] r]. cbn [fst] in *. split; [|exact H2]. right. exists CMD_LOCAL_ERROR. split; [right; reflexivity|exact H1].
Qed.
Lemma updateTimeGrant_table c : (c_deps (fst (updateTimeGrant c)) = c_deps c \/
    c_deps (fst (updateTimeGrant c)) = resetIteratingTimeRequests (c_exec c) (c_deps c)) /\ blks (fst (updateTimeGrant c)) = blks c.
Proof.
  unfold updateTimeGrant. destruct (c_iterating c) eqn:E; cbn; rewrite ?E; cbn; (split; [|reflexivity]); auto.
Qed.
Lemma refuse_frame c t : frame c (fst (fst (refuse c t))).
Proof.
  unfold refuse. match goal with |- context [if ?b then _ else _] => destruct b end; [|apply frame_refl].
  pose proof (send_frame c t) as F. destruct (sendTimeRequest c t). exact F.
Qed.
Lemma applyRestriction_frame k rs c sa al : frame c (fst (fst (applyRestriction k rs c sa al))).
Proof.
  unfold applyRestriction. destruct (r_allowed k); [destruct (negb rs || (1 <=? r_level k)); [|destruct (negb _)]|destruct (r_advance k)];
  split; reflexivity.
Qed.
Lemma iterDecision_frame c sa : frame c (fst (fst (iterDecision c sa))) /\ c_exec (fst (fst (iterDecision c sa))) = c_exec c.
Proof.
  split.
  - unfold iterDecision. destruct (c_allow c =? c_requested c); [destruct (_ && _); apply frame_refl|].
    destruct (checkIfReadyForTimeGrant _ _ _ _); [|apply frame_refl].
    destruct (c_hasIter c); [apply frame_refl|]. destruct (c_granted c <? c_exec c); [apply frame_refl|]. apply applyRestriction_frame.
  - pose proof (iterDecision_core c sa) as D. destruct (iterDecision c sa) as [[c' sa'] r]. apply D.
Qed.

(** a grant decision only resets iterating requests, or takes its own entry out when halting *)
Definition grantTab (id : Z) (l l' : table) : Prop := selfStep id l l' \/ exists t, l' = resetIteratingTimeRequests t l.
Lemma gt_frame c c' c1 : frame c1 c' -> frame c c1 -> grantTab (c_id c) (c_deps c) (c_deps c') /\ blks c' = blks c.
Proof. intros [A B] [C D]. split; [left; left; congruence|congruence]. Qed.
Lemma gt_upd c c2 : frame c c2 -> grantTab (c_id c) (c_deps c) (c_deps (fst (updateTimeGrant c2))) /\ blks (fst (updateTimeGrant c2)) = blks c.
Proof.
  intros [A B]. destruct (updateTimeGrant_table c2) as [[U|U] V]; (split; [|congruence]).
  - left; left; congruence.
  - right. eexists. rewrite U, A. reflexivity.
Qed.
Lemma actOn_table c sa r t c0 : frame c0 c ->
  grantTab (c_id c0) (c_deps c0) (c_deps (fst (fst (actOn c sa r t)))) /\ blks (fst (fst (actOn c sa r t))) = blks c0.
Proof.
  intros F. unfold actOn. destruct r.
  - destruct sa.
    + pose proof (send_frame c invalidId) as S. destruct (sendTimeRequest c invalidId). eapply gt_frame; eassumption.
    + match goal with |- context [if ?b then _ else _] => destruct b end.
      * pose proof (send_frame c t) as S. destruct (sendTimeRequest c t). eapply gt_frame; eassumption.
      * eapply gt_frame; [apply frame_refl|exact F].
  - destruct (is_force_iter (c_iterating c)).
    + pose proof (gt_upd c0 (set_c_exec (c_granted c) (set_c_hasIter false (set_c_iteration (c_iteration c + 1) c))) F) as S.
      destruct (updateTimeGrant _). exact S.
    + unfold grantStep. pose proof (gt_upd c0 (set_c_hasIter false (set_c_seq 0 (set_c_iteration 0 c))) F) as S.
      destruct (updateTimeGrant _). exact S.
  - pose proof (gt_upd c0 (set_c_hasIter false (set_c_iteration (c_iteration c + 1) c)) F) as S. destruct (updateTimeGrant _). exact S.
  - eapply gt_frame; [apply frame_refl|exact F].
Qed.
Lemma grantStep_table c0 c : frame c0 c -> grantTab (c_id c0) (c_deps c0) (c_deps (fst (fst (grantStep c)))) /\ blks (fst (fst (grantStep c))) = blks c0.
Proof.
  intros F. unfold grantStep. pose proof (gt_upd c0 (set_c_hasIter false (set_c_seq 0 (set_c_iteration 0 c))) F) as S.
  destruct (updateTimeGrant _). exact S.
Qed.
Lemma halt_table c c1 : frame c c1 -> c_id c1 = c_id c ->
  let r := let '(c', out) := disconnect (set_c_granted maxVal (set_c_grantBase maxVal c1)) in (c', out, HALTED) in
  grantTab (c_id c) (c_deps c) (c_deps (fst (fst r))) /\ blks (fst (fst r)) = blks c.
Proof.
  intros F ID. pose proof (disconnect_table (set_c_granted maxVal (set_c_grantBase maxVal c1))) as [D1 D2].
  destruct (disconnect _) as [c' out]. cbn [fst] in *.
  change (c_id (set_c_granted maxVal (set_c_grantBase maxVal c1))) with (c_id c1) in D1.
  change (c_deps (set_c_granted maxVal (set_c_grantBase maxVal c1))) with (c_deps c1) in D1.
  rewrite ID in D1. rewrite (proj1 F) in D1. split; [left; exact D1|]. rewrite D2. exact (proj2 F).
Qed.
Lemma upd_table3 c c2 (r : mpr) : frame c c2 ->
  let x := let '(c', out) := updateTimeGrant c2 in (c', out, r) in
  grantTab (c_id c) (c_deps c) (c_deps (fst (fst x))) /\ blks (fst (fst x)) = blks c.
Proof. intros F. pose proof (gt_upd c c2 F) as S. destruct (updateTimeGrant c2). exact S. Qed.
(** the decision after the time factors were brought up to date (TimeCoordinator.cpp:609-819) *)
Lemma grantFrom_eq c t : checkTimeGrant c t = grantFrom (fst (updateTimeFactors c)) t.
Proof. reflexivity. Qed.
Lemma grantFrom_table c c1 t : frame c c1 -> c_id c1 = c_id c ->
  grantTab (c_id c) (c_deps c) (c_deps (fst (fst (grantFrom c1 t)))) /\ blks (fst (fst (grantFrom c1 t))) = blks c.
Proof.
  intros F ID. unfold grantFrom. 
  match goal with |- context [if ?b then _ else _] => destruct b end; [exact (halt_table c c1 F ID)|].
  match goal with |- context [if ?b then _ else _] => destruct b end; [exact (gt_frame c _ c1 (refuse_frame c1 t) F)|].
  match goal with |- context [if ?b then _ else _] => destruct b end; [exact (gt_frame c _ c1 (refuse_frame c1 t) F)|].
  generalize (c_needSendAll c1). generalize (c_opts c1). intros o sa.
  assert (F2 : frame c (set_c_needSendAll false c1)) by exact F. revert F2.
  generalize (set_c_needSendAll false c1). intros c2 F2. clear F ID c1. cbv zeta.
  assert (A : forall r s, grantTab (c_id c) (c_deps c) (c_deps (fst (fst (actOn c2 s r t)))) /\ blks (fst (fst (actOn c2 s r t))) = blks c)
    by (intros; apply actOn_table; exact F2).
  assert (G : grantTab (c_id c) (c_deps c) (c_deps (fst (fst (grantStep c2)))) /\ blks (fst (fst (grantStep c2))) = blks c)
    by (apply grantStep_table; exact F2).
  assert (ITER : forall s, let x := (let '(c, sendAll, r) := iterDecision c2 s in actOn c sendAll r t) in
       grantTab (c_id c) (c_deps c) (c_deps (fst (fst x))) /\ blks (fst (fst x)) = blks c).
  { intros s. pose proof (iterDecision_frame c2 s) as [D _]. destruct (iterDecision c2 _) as [[c3 s3] r3].
    apply actOn_table. exact (frame_trans _ _ _ F2 D). }
  assert (U1 := upd_table3 c (set_c_hasIter false (set_c_iteration (c_iteration c2 + 1) c2)) ITERATING F2).
  assert (U2 := upd_table3 c (set_c_iteration (c_iteration c2 + 1) c2) ITERATING F2).
  assert (U3 := upd_table3 c (set_c_iteration 0 (set_c_seq 0 c2)) NEXT_STEP F2).
  destruct (c_iterating c2); try apply A.
  - match goal with |- context [if ?b then _ else _] => destruct b end; [exact G|].
    match goal with |- context [if ?b then _ else _] => destruct b end; [|apply A].
    match goal with |- context [if ?b then _ else _] => destruct b end; [exact G|].
    match goal with |- context [if ?b then _ else _] => destruct b end; [exact G|apply A].
  - match goal with |- context [if ?b then _ else _] => destruct b end.
    + match goal with |- context [if ?b then _ else _] => destruct b end; [exact U1|exact U2].
    + match goal with |- context [if ?b then _ else _] => destruct b end; [apply ITER|apply A].
  - match goal with |- context [if ?b then _ else _] => destruct b end.
    + match goal with |- context [if ?b then _ else _] => destruct b end; [exact U1|exact U3].
    + match goal with |- context [if ?b then _ else _] => destruct b end; [apply ITER|apply A].
Qed.
Lemma grant_table c t : grantTab (c_id c) (c_deps c) (c_deps (fst (fst (checkTimeGrant c t)))) /\ blks (fst (fst (checkTimeGrant c t))) = blks c.
Proof.
  rewrite grantFrom_eq. apply grantFrom_table; [apply factors_frame|]. apply core_id. apply updateTimeFactors_core.
Qed.

(** the tail of timeRequest *)
Lemma requestTail c2 : let r := match c_deps (fst (updateTimeFactors c2)) with [] => (fst (updateTimeFactors c2), []) | _ => sendTimeRequest (fst (updateTimeFactors c2)) invalidId end in
  frame c2 (fst r).
Proof.
  cbn zeta. pose proof (factors_frame c2) as F. revert F. generalize (fst (updateTimeFactors c2)). intros c3 F.
  destruct (c_deps c3); [exact F|]. exact (frame_trans _ _ _ F (send_frame c3 invalidId)).
Qed.
Lemma timeRequest_table c t it nv nm : c_deps (fst (timeRequest c t it nv nm)) = resetDependentEvents (c_granted c) (c_deps c)
  /\ blks (fst (timeRequest c t it nv nm)) = blks c.
Proof.
  unfold timeRequest. destruct (is_no_iter it); cbn [negb].
  - set (c2 := set_c_seq _ _). exact (requestTail c2).
  - set (c2 := set_c_seq _ _). exact (requestTail c2).
Qed.

(** entering execution, or iterating before it, at most resets the iterating execution requests *)
Lemma execDecision_blocks c sa : c_blocks (fst (fst (execDecision c sa))) = c_blocks c.
Proof.
  unfold execDecision.
  assert (AR : forall al, c_blocks (fst (fst (applyRestriction (checkExecEntryRestriction (c_deps c) (c_id c) (c_seq c) (o_wait (c_opts c)) (o_restrictive (c_opts c)))
      (o_restrictive (c_opts c)) c sa al))) = c_blocks c).
  { intros al. pose proof (applyRestriction_frame (checkExecEntryRestriction (c_deps c) (c_id c) (c_seq c) (o_wait (c_opts c)) (o_restrictive (c_opts c)))
      (o_restrictive (c_opts c)) c sa al) as [_ H]. unfold blks in H. congruence. }
  destruct (c_iterating c); cbn [is_force_iter]; try reflexivity.
  - destruct (negb (o_wait (c_opts c))); reflexivity.
  - destruct (_ <=? _); [reflexivity|]. destruct (c_hasInit c); [reflexivity|].
    match goal with |- context [if ?b then _ else _] => destruct b end; [reflexivity|]. apply AR.
  - destruct (_ <=? _); [reflexivity|]. destruct (c_hasInit c); [reflexivity|].
    match goal with |- context [if ?b then _ else _] => destruct b end; [reflexivity|]. apply AR.
Qed.
Lemma execAct_table c r : (c_deps (fst (execAct c r)) = c_deps c \/ c_deps (fst (execAct c r)) = resetIteratingExecRequests (c_deps c))
  /\ blks (fst (execAct c r)) = blks c.
Proof.
  unfold execAct. destruct (c_dynamic c); cbn [negb]; destruct r; try (split; [left; reflexivity|reflexivity]).
  split; [right; reflexivity|reflexivity].
Qed.
Lemma execFollowUp_frame c sa r t : frame c (fst (execFollowUp c sa r t)).
Proof.
  unfold execFollowUp. destruct r; try apply frame_refl.
  destruct (_ && _); [|apply frame_refl]. destruct sa; [apply frame_refl|]. destruct (_ =? _); [apply frame_refl|].
  destruct (_ && _); [apply frame_refl|]. destruct (getDep _ _); split; reflexivity.
Qed.
Lemma execEntry_table c t :
  let c' := fst (fst (checkExecEntry c t)) in
  (c_deps c' = c_deps c \/ c_deps c' = resetIteratingExecRequests (c_deps c)) /\ blks c' = blks c.
Proof.
  cbn zeta. unfold checkExecEntry. destruct (c_block c <=? timeZero); [split; [left|]; reflexivity|].
  match goal with |- context [if ?b then _ else _] => destruct b end.
  - match goal with |- context [if ?b then _ else _] => destruct b end; [|split; [left|]; reflexivity].
    match goal with |- context [if ?b then _ else _] => destruct b end; [|split; [left|]; reflexivity].
    match goal with |- context [if ?b then _ else _] => destruct b end; [split; [left|]; reflexivity|].
    destruct (getDep _ _); (split; [left|]; reflexivity).
  - pose proof (execDecision_core (set_c_needSendAll false c) (c_needSendAll c)) as D.
    pose proof (execDecision_blocks (set_c_needSendAll false c) (c_needSendAll c)) as D0.
    destruct (execDecision _ _) as [[c1 sa] r]. destruct D as (D1&D2&D3&D4&D5). cbn [fst] in D0.
    change (c_deps (set_c_needSendAll false c)) with (c_deps c) in D2.
    change (c_block (set_c_needSendAll false c)) with (c_block c) in D3.
    change (c_blocks (set_c_needSendAll false c)) with (c_blocks c) in D0.
    pose proof (execAct_table c1 r) as A. destruct (execAct c1 r) as [c2 o2]. cbn [fst] in A. destruct A as [A AB].
    pose proof (execFollowUp_frame c2 sa r t) as F. destruct (execFollowUp c2 sa r t) as [c3 o3]. cbn [fst] in *. destruct F as (F1&F2).
    assert (B1 : blks c1 = blks c) by (unfold blks; congruence).
    split; [|congruence]. rewrite F1. rewrite D2 in A. exact A.
Qed.

Lemma valueTime_frame c t b : frame c (fst (updateValueTime c t b)).
Proof.
  unfold updateValueTime. destruct (negb (c_execMode c)); [destruct (t <? timeZero); split; reflexivity|].
  set (c1 := if t <=? c_granted c then set_c_hasIter true c else c).
  assert (F : frame c c1) by (unfold c1; destruct (t <=? c_granted c); split; reflexivity). clearbody c1.
  destruct (t <? c_value c1); [|exact F]. 
  match goal with |- context [if ?b then _ else _] => destruct b end; [|exact F].
  pose proof (nextExec_frame (set_c_value (clampData c1 t) c1)) as N.
  destruct (updateNextExecutionTime _) as [c2 ch]. cbn [fst] in N.
  assert (F2 : frame c c2) by (eapply frame_trans; [exact F|exact N]).
  destruct (ch && b); [|exact F2]. exact (frame_trans _ _ _ F2 (send_frame c2 invalidId)).
Qed.
Lemma messageTime_frame c t b : frame c (fst (updateMessageTime c t b)).
Proof.
  unfold updateMessageTime. destruct (negb (c_execMode c)); [destruct (t <? timeZero); split; reflexivity|].
  set (c1 := if t <=? c_granted c then set_c_hasIter true c else c).
  assert (F : frame c c1) by (unfold c1; destruct (t <=? c_granted c); split; reflexivity). clearbody c1.
  destruct (t <? c_message c1); [|exact F]. 
  match goal with |- context [if ?b then _ else _] => destruct b end; [|exact F].
  pose proof (nextExec_frame (set_c_message (clampData c1 t) c1)) as N.
  destruct (updateNextExecutionTime _) as [c2 ch]. cbn [fst] in N.
  assert (F2 : frame c c2) by (eapply frame_trans; [exact F|exact N]).
  destruct (ch && b); [|exact F2]. exact (frame_trans _ _ _ F2 (send_frame c2 invalidId)).
Qed.

Lemma selfStep_tab e g id l l' : selfStep id l l' -> tabStep e id g l l'.
Proof. intros [->|(a&A&->)]; [apply tb_same; reflexivity|]. eapply tb_self; [exact A|reflexivity]. Qed.
Lemma grantTab_tab e g id l l' : grantTab id l l' -> tabStep e id g l l'.
Proof. intros [S|(t&->)]; [apply selfStep_tab, S|]. eapply tb_iterTime; reflexivity. Qed.

Definition tabOf (e : event) (c c' : tc) : Prop := tabStep e (c_id c) (c_granted c) (c_deps c) (c_deps c') /\ blkStep e c c' /\ c_id c' = c_id c.
Lemma frame_tabOf e c c' : frame c c' -> c_id c' = c_id c -> tabOf e c c'.
Proof. intros [F1 F2] ID. split; [apply tb_same; exact F1|]. split; [left; exact F2|exact ID]. Qed.
Lemma ptm_tabOf e c cmd : e = Ev_msg cmd \/ (isDataCmd (m_action cmd) = true /\ exists k, e = Ev_data cmd k) -> m_action cmd <> CMD_FORCE_TIME_GRANT -> 
  tabOf e c (fst (fst (processTimeMessage c cmd))).
Proof.
  intros E NF. destruct (ptm_table c cmd) as [T B]. specialize (T NF).
  split; [|split].
  - destruct (isBlockCmd (m_action cmd)) eqn:BC; [apply tb_same; exact T|].
    destruct ((m_action cmd =? CMD_REQUEST_CURRENT_TIME) && _); [apply tb_same; exact T|].
    eapply tb_msg; eassumption.
  - destruct (isBlockCmd (m_action cmd)) eqn:BC; [|left; exact B].
    destruct E as [E|[D _]]; [|exfalso; unfold isBlockCmd, isDataCmd, CMD_TIME_BLOCK, CMD_TIME_UNBLOCK, CMD_TIME_BARRIER, CMD_TIME_BARRIER_CLEAR, CMD_PUB, CMD_SEND_MESSAGE, cmd_info_basis in *; lia].
    right. exists cmd. auto.
  - apply core_id. apply processTimeMessage_core. exact NF.
Qed.
Lemma prim_tabOf e c c' : prim e c c' -> tabOf e c c'.
Proof.
  intros H. assert (ID := prim_id _ _ _ H).
  destruct H as [c cmd E NF|c cmd k E D|c t c' out E _|c cmd t b E|c cmd t b E|c p v E|c g v E|c v E|c g E|c g E|c g E|c cmd E|c E].
  - apply ptm_tabOf; auto.
  - apply ptm_tabOf; [right; split; [exact D|exists k; exact E]|]. intros Q; rewrite Q in D; discriminate.
  - destruct (grant_table c t) as [G1 G2]. rewrite E in G1, G2. cbn [fst] in *. split; [apply grantTab_tab; exact G1|]. split; [left; exact G2|exact ID].
  - apply frame_tabOf; [apply valueTime_frame|exact ID].
  - apply frame_tabOf; [apply messageTime_frame|exact ID].
  - apply frame_tabOf; [split; reflexivity|exact ID].
  - apply frame_tabOf; [split; reflexivity|exact ID].
  - apply frame_tabOf; [split; reflexivity|exact ID].
  - split; [|split; [left|exact ID]].
    + eapply tb_addDependency; [exact E|reflexivity|reflexivity|reflexivity].
    + unfold tcAddDependency. destruct (addDependency _ _); reflexivity.
  - split; [|split; [left; reflexivity|exact ID]]. eapply tb_addDependent; [exact E|reflexivity].
  - split; [|split; [left; reflexivity|exact ID]]. eapply tb_reset; [exact E|reflexivity].
  - split; [|split; [left|exact ID]].
    + eapply tb_update; [exact E|reflexivity|reflexivity|reflexivity].
    + unfold blks. destruct (depUpdate_core c cmd) as (_&->& ->). reflexivity.
  - destruct (disconnect_table c) as [D1 D2]. split; [apply selfStep_tab; exact D1|]. split; [left; exact D2|exact ID].
Qed.
Lemma execEntry_tabOf e c t : tabOf e c (fst (fst (checkExecEntry c t))).
Proof.
  destruct (execEntry_table c t) as [T B]. split; [|split; [left; exact B|]].
  - destruct T as [T|T]; [apply tb_same; exact T|apply tb_iterExec; exact T].
  - pose proof (checkExecEntry_core c t) as K. destruct (checkExecEntry c t) as [[c' out] r]. cbn [fst]. destruct K as [K _].
    destruct r; try (apply core_id; exact K). destruct K as (g&_&K&_). unfold core in K. congruence.
Qed.
Lemma error_tabOf e c : tabOf e c (fst (localError c)).
Proof.
  destruct (localError_table c) as [T B]. split; [apply selfStep_tab, T|]. split; [left; exact B|].
  destruct (localError_core c) as [->|E]; [reflexivity|]. unfold core in E. congruence.
Qed.
Lemma iprim_tabOf e c c' : iprim e c c' -> tabOf e c c'.
Proof.
  intros H. assert (ID := iprim_id _ _ _ H). destruct H as [c c' H|c t c' out r H HR|c it H|c|c|c cmd H1 H2].
  - apply prim_tabOf; exact H.
  - replace c' with (fst (fst (checkExecEntry c t))) by (rewrite H; reflexivity). apply execEntry_tabOf.
  - pose proof (enteringExecMode_core c (execIter it)) as K. cbn zeta in K. destruct K as (_&_&_&_&_&_&_&_&K1&K2&K3).
    apply frame_tabOf; [split; [exact K1|unfold blks; congruence]|exact ID].
  - apply frame_tabOf; [split; reflexivity|exact ID].
  - apply error_tabOf.
  - apply frame_tabOf; [split; reflexivity|exact ID].
Qed.
Theorem aprim_tabOf e c c' : aprim e c c' -> tabOf e c c'.
Proof.
  intros H. destruct H as [c c' H|c c' H|c t|c t it it' nv nm H|c|c cmd H1 H2|c t|c].
  - apply prim_tabOf; exact H.
  - apply iprim_tabOf; exact H.
  - destruct (grant_table c t) as [G1 G2]. split; [apply grantTab_tab; exact G1|]. split; [left; exact G2|apply checkTimeGrant_id].
  - destruct (timeRequest_table c t it' nv nm) as [T1 T2]. split; [eapply tb_events; [exact H|exact T1]|]. split; [left; exact T2|apply timeRequest_id].
  - apply error_tabOf.
  - apply frame_tabOf; [split; reflexivity|]. reflexivity.
  - apply execEntry_tabOf.
  - apply frame_tabOf; [apply factors_frame|]. apply core_id, updateTimeFactors_core.
Qed.

(** ** The table stays sorted, and an entry changes only by operations about it *)
Lemma map_ids (f : dinfo -> dinfo) l : (forall d, fedID (f d) = fedID d) -> ids (map f l) = ids l.
Proof. intros H. unfold ids. rewrite map_map. apply map_ext. exact H. Qed.
Lemma map_sorted (f : dinfo -> dinfo) l : (forall d, fedID (f d) = fedID d) -> tsorted l -> tsorted (map f l).
Proof. intros H S. unfold tsorted. rewrite map_ids; assumption. Qed.
Lemma map_lookup (f : dinfo -> dinfo) l g : (forall d, fedID (f d) = fedID d) -> lookup (map f l) g = option_map f (lookup l g).
Proof.
  intros H. unfold lookup. induction l as [|d r IH]; [reflexivity|]. cbn [map find]. rewrite H. destruct (fedID d =? g); [reflexivity|exact IH].
Qed.
Lemma map_getDep (f : dinfo -> dinfo) l g : (forall d, fedID (f d) = fedID d) -> tsorted l -> getDep (map f l) g = option_map f (getDep l g).
Proof. intros H S. rewrite !getDep_lookup; [apply map_lookup; exact H|exact S|apply map_sorted; assumption]. Qed.
Definition f_events (g : Z) (dep : dinfo) : dinfo :=
  if dependency dep then updTD (fun d => set_Te (Z.max (next d) g) (set_minDe (Z.max (next d) g) d)) dep else dep.
Definition f_iterTime (t : Z) (dep : dinfo) : dinfo :=
  if dependency dep && ts_eqb (tst dep) ts_time_requested_iterative && (next dep =? t) then
      updTD (fun d => set_tst ts_time_granted (set_Te t (set_minDe t d))) dep else dep.
Definition f_iterExec (dep : dinfo) : dinfo :=
  if dependency dep && ts_leb (tst dep) ts_exec_requested_iterative then
      updTD (fun t => set_tst ts_initialized (set_grantedIteration (sequenceCounter t)
         (set_sequenceCounter 0 (set_responseSequenceCounter 0 (set_restrictionLevel 0
         (set_minFed invalidId t)))))) dep
    else dep.
Lemma f_events_id g d : fedID (f_events g d) = fedID d. Proof. unfold f_events. destruct (dependency d); reflexivity. Qed.
Lemma f_iterTime_id t d : fedID (f_iterTime t d) = fedID d. Proof. unfold f_iterTime. destruct (_ && _); reflexivity. Qed.
Lemma f_iterExec_id d : fedID (f_iterExec d) = fedID d. Proof. unfold f_iterExec. destruct (_ && _); reflexivity. Qed.

(** what a command from [m_source_id cmd] does to its entry *)
Definition f_msg (cmd : amsg) (o : option dinfo) : option dinfo :=
  f_upd (fun d => if dependency d then fst (processMessage cmd d) else d)
        (if removesDependent (m_action cmd) then f_removeDependent o else o).
Lemma msgTable_sorted l cmd : tsorted l -> tsorted (msgTable l cmd).
Proof.
  intros S. unfold msgTable. destruct (removesDependent (m_action cmd)).
  - apply (applyOp_sorted _ (OpMessage cmd)). apply (applyOp_sorted _ (OpRemoveDependent (m_source_id cmd))). exact S.
  - apply (applyOp_sorted _ (OpMessage cmd)). exact S.
Qed.
Lemma msgTable_getDep l cmd g : tsorted l ->
  getDep (msgTable l cmd) g = if g =? m_source_id cmd then f_msg cmd (getDep l g) else getDep l g.
Proof.
  intros S. unfold msgTable, f_msg. destruct (removesDependent (m_action cmd)).
  - pose proof (applyOp_sorted _ (OpRemoveDependent (m_source_id cmd)) S) as S2.
    pose proof (applyOp_lookup _ (OpMessage cmd) g S2) as L. cbn [applyOp opTarget opFun] in L. rewrite L.
    pose proof (applyOp_lookup _ (OpRemoveDependent (m_source_id cmd)) g S) as L2. cbn [applyOp opTarget opFun] in L2. rewrite L2.
    destruct (g =? m_source_id cmd); reflexivity.
  - exact (applyOp_lookup _ (OpMessage cmd) g S).
Qed.
