(** * Every promise a federate sends is sent in its own name *)
From Coq Require Import ZArith Bool List Lia ZifyBool.
From Verif Require Import HTime Action TimeDep TimeDepProofs TimeCoord TimeCoordProofs TimeProc TimeProcProofs
  TimeInitProofs MinTimeProofs TimeInv TimeAnswer TimeGrid Promise.
Import ListNotations.
Open Scope Z_scope.

Definition mine (id : Z) (out : list amsg) : Prop := forall m, In m out -> claim m = None \/ m_source_id m = id.
Lemma mine_nil id : mine id []. Proof. intros m []. Qed.
Lemma mine_app id a b : mine id a -> mine id b -> mine id (a ++ b).
Proof. intros A B m I. apply in_app_or in I as [I|I]; auto. Qed.
Lemma mine_src id out : (forall m, In m out -> m_source_id m = id) -> mine id out.
Proof. intros H m I. right. auto. Qed.
Lemma mine_none id out : (forall m, In m out -> claim m = None) -> mine id out.
Proof. intros H m I. left. auto. Qed.
Lemma setFlagIf_src b k m : m_source_id (setFlagIf b k m) = m_source_id m.
Proof. destruct b; reflexivity. Qed.
Lemma iterFlags_src it m : m_source_id (setIterationFlags it m) = m_source_id m.
Proof. destruct it; reflexivity. Qed.

Definition own (c c' : tc) (out : list amsg) : Prop := c_id c' = c_id c /\ mine (c_id c) out.
Lemma own_refl c : own c c []. Proof. split; [reflexivity|apply mine_nil]. Qed.
Lemma own_trans a b c o1 o2 : own a b o1 -> own b c o2 -> own a c (o1 ++ o2).
Proof. intros [A1 A2] [B1 B2]. split; [congruence|]. rewrite A1 in B2. apply mine_app; assumption. Qed.
Lemma own_from a b c o : c_id b = c_id a -> own b c o -> own a c o.
Proof. intros E [B1 B2]. rewrite E in *. split; assumption. Qed.
Lemma core_cid c c' : core c' = core c -> c_id c' = c_id c.
Proof. unfold core. congruence. Qed.

Lemma transmit_src c m skip m' : In m' (fst (transmit c m skip)) -> m_source_id m' = m_source_id m.
Proof.
  unfold transmit. cbn [fst]. intros I. apply in_map_iff in I as (d&E&_). subst m'. destruct (_ || _); reflexivity.
Qed.
Lemma generate_src c d fed rc : m_source_id (generateTimeRequest c d fed rc) = c_id c.
Proof.
  unfold generateTimeRequest. set (m0 := setFlagIf _ _ _).
  assert (A : m_source_id m0 = c_id c) by (unfold m0; rewrite setFlagIf_src; reflexivity). clearbody m0.
  destruct (tst d); cbn zeta; try exact A.
  destruct (responseSequenceCounter d =? 0); exact A.
Qed.
Lemma own_ptm c m : m_action m <> CMD_FORCE_TIME_GRANT -> own c (fst (fst (processTimeMessage c m))) (snd (fst (processTimeMessage c m))).
Proof.
  intros NF. split; [apply core_cid, processTimeMessage_core; exact NF|].
  apply mine_src. intros m'. unfold processTimeMessage.
  destruct (isBlockCmd (m_action m)); [destruct (processTimeBlockMessage c m); intros []|].
  destruct (Z.eqb_spec (m_action m) CMD_FORCE_TIME_GRANT) as [E|E]; [contradiction|].
  destruct (m_action m =? CMD_REQUEST_CURRENT_TIME).
  { destruct (c_disconnected c || ts_eqb (tst (c_lastSend c)) ts_error); cbn [fst snd].
    - intros [<-|[]]. reflexivity.
    - intros [<-|[]]. rewrite setFlagIf_src. apply generate_src. }
  destruct (removesDependent (m_action m)); destruct (updateTime _ m) as [deps r]; destruct r; cbn [fst snd]; try (intros []);
  destruct (checkForIssues _ _); intros []; subst; try reflexivity; try contradiction.
Qed.
Lemma trm_src c : m_source_id (timeRequestMessage c) = c_id c.
Proof.
  unfold timeRequestMessage. rewrite setFlagIf_src.
  destruct (is_no_iter (c_iterating c)); rewrite ?iterFlags_src; cbn;
  (destruct (o_wait (c_opts c)); [|rewrite setFlagIf_src]; destruct (c_nonGranting c); reflexivity).
Qed.
Lemma own_send c t : own c (fst (sendTimeRequest c t)) (snd (sendTimeRequest c t)).
Proof.
  split; [apply core_cid, sendTimeRequest_core|]. apply mine_src. unfold sendTimeRequest. pose proof (trm_src c) as U.
  set (trig := negb (c_globalTime c) && _). clearbody trig. revert U. generalize (timeRequestMessage c). intros u U.
  unfold checkAndSendTimeRequest. match goal with |- context [if ?b then _ else _] => destruct b end.
  - pose proof (transmit_src c u (minFed (c_upstream c))) as T. destruct (transmit c u (minFed (c_upstream c))) as [out sk]. cbn [fst] in T.
    rewrite U in T. destruct (sk && isValidId (minFed (c_upstream c))); cbn [fst snd]; [|exact T].
    intros m I. apply in_app_or in I as [I|[<-|[]]]; [auto|]. exact U.
  - destruct (isValidId t); cbn [fst snd]; [|intros m []].
    destruct (getDep (c_deps c) t) as [d|]; [destruct (dependent d)|]; cbn [fst snd app]; try (intros m [<-|[]]; exact U); intros m [].
Qed.
Lemma own_utf c : own c (fst (updateTimeFactors c)) [].
Proof. split; [apply core_cid, updateTimeFactors_core|apply mine_nil]. Qed.
Lemma own_grant c : own c (fst (updateTimeGrant c)) (snd (updateTimeGrant c)).
Proof.
  split.
  - unfold updateTimeGrant. destruct (is_force_iter (c_iterating c)) eqn:F; cbn [fst]; destruct (is_no_iter _); reflexivity.
  - apply mine_src. unfold updateTimeGrant. intros m I. apply transmit_src in I. rewrite I. clear I.
    destruct (is_force_iter (c_iterating c)); reflexivity.
Qed.
Lemma own_disconnect c : own c (fst (disconnect c)) (snd (disconnect c)).
Proof.
  unfold disconnect. destruct (c_disconnected c); [apply own_refl|].
  set (others := filter _ (filter toldBye (c_deps c))). clearbody others.
  assert (B : mine (c_id c) (if Nat.eqb (length (c_deps c)) 1 then map (fun d => set_m_dest_id (fedID d) (newMsg CMD_DISCONNECT (c_id c))) others
     else firstn 255 (map (fun d => set_m_dest_id (fedID d) (newMsg CMD_DISCONNECT (c_id c))) others))).
  { apply mine_src. intros m I. assert (I2 : In m (map (fun d => set_m_dest_id (fedID d) (newMsg CMD_DISCONNECT (c_id c))) others)).
    { destruct (Nat.eqb _ _); [exact I|]. eapply firstn_in, I. }
    apply in_map_iff in I2 as (d&<-&_). reflexivity. }
  destruct (existsb _ _).
  - pose proof (own_ptm c (set_m_dest_id (c_id c) (newMsg CMD_DISCONNECT (c_id c))) ltac:(discriminate)) as [P1 P2].
    destruct (processTimeMessage c _) as [[c1 o1] r]. cbn [fst snd] in *. split; [exact P1|]. apply mine_app; assumption.
  - cbn [fst snd app]. split; [reflexivity|exact B].
Qed.
Lemma own_localError c : own c (fst (localError c)) (snd (localError c)).
Proof.
  split.
  - destruct (localError_core c) as [->|E]; [reflexivity|]. unfold core in E. congruence.
  - unfold localError. destruct (c_disconnected c); [apply mine_nil|]. cbv zeta.
    destruct (c_deps (set_c_granted maxVal (set_c_grantBase maxVal c))) as [|d0 l0]; [apply mine_nil|].
    set (others := filter (fun d : dinfo => negb (fedID d =? _)) _). clearbody others.
    assert (B : forall l, mine (c_id c) (firstn 255 (map (fun d => set_m_dest_id (fedID d) (newMsg CMD_LOCAL_ERROR (c_id c))) l))).
    { intros l. apply mine_src. intros m I. apply firstn_in in I. apply in_map_iff in I as (d&<-&_). reflexivity. }
    destruct (existsb _ _).
    + pose proof (own_ptm (set_c_granted maxVal (set_c_grantBase maxVal c)) (set_m_dest_id (c_id c) (newMsg CMD_LOCAL_ERROR (c_id c))) ltac:(discriminate)) as [P1 P2].
      cbn [c_id set_c_granted set_c_grantBase] in *.
      destruct (processTimeMessage _ _) as [[c1 o1] r]. cbn [fst snd] in *. apply mine_app; [exact P2|].
      try (destruct (Nat.eqb _ _)); try apply B; apply mine_src; intros m I; apply in_map_iff in I as (d&<-&_); reflexivity.
    + cbn [fst snd app]. try (destruct (Nat.eqb _ _)); try apply B; apply mine_src; intros m I; apply in_map_iff in I as (d&<-&_); reflexivity.
Qed.

(** ** The grant decision *)
Definition own3 (c : tc) (res : tc * list amsg * mpr) : Prop := own c (fst (fst res)) (snd (fst res)).
Lemma own3_upd c c1 (r : mpr) : c_id c1 = c_id c -> own3 c (let '(c', out) := updateTimeGrant c1 in (c', out, r)).
Proof. intros E. pose proof (own_grant c1) as H. destruct (updateTimeGrant c1). apply (own_from _ _ _ _ E H). Qed.
Lemma own3_send c c1 t (r : mpr) : c_id c1 = c_id c -> own3 c (let '(c', out) := sendTimeRequest c1 t in (c', out, r)).
Proof. intros E. pose proof (own_send c1 t) as H. destruct (sendTimeRequest c1 t). apply (own_from _ _ _ _ E H). Qed.
Lemma own3_none c c1 (r : mpr) : c_id c1 = c_id c -> own3 c (c1, [], r).
Proof. intros E. split; [exact E|apply mine_nil]. Qed.
Lemma own3_grantStep c c1 : c_id c1 = c_id c -> own3 c (grantStep c1).
Proof. intros E. unfold grantStep. apply own3_upd. exact E. Qed.
Lemma own3_actOn c c1 sa r t : c_id c1 = c_id c -> own3 c (actOn c1 sa r t).
Proof.
  intros E. unfold actOn. destruct r.
  - destruct sa; [apply own3_send; exact E|]. destruct (_ && _); [apply own3_send; exact E|apply own3_none; exact E].
  - destruct (is_force_iter _); [apply own3_upd; exact E|apply own3_grantStep; exact E].
  - apply own3_upd; exact E.
  - apply own3_none; exact E.
Qed.
Lemma own3_refuse c t : own3 c (refuse c t).
Proof. unfold refuse. destruct (_ && _); [apply own3_send; reflexivity|apply own3_none; reflexivity]. Qed.
Lemma own3_grantFrom c t : own3 c (grantFrom c t).
Proof.
  unfold grantFrom.
  match goal with |- context [if ?b then _ else _] => destruct b end.
  { pose proof (own_disconnect (set_c_granted maxVal (set_c_grantBase maxVal c))) as H. destruct (disconnect _). exact H. }
  match goal with |- context [if ?b then _ else _] => destruct b end; [apply own3_refuse|].
  match goal with |- context [if ?b then _ else _] => destruct b end; [apply own3_refuse|].
  generalize (c_needSendAll c). generalize (c_opts c). intros o sa.
  assert (E : c_id (set_c_needSendAll false c) = c_id c) by reflexivity. revert E.
  generalize (set_c_needSendAll false c). intros c2 E. cbv zeta.
  assert (ITER : own3 c (let '(c, sendAll, r) := iterDecision c2 sa in actOn c sendAll r t)).
  { pose proof (iterDecision_same c2 sa) as D. destruct (iterDecision c2 sa) as [[c3 s3] r3]. destruct D as [D _]. cbn [fst] in D.
    apply own3_actOn. destruct (kp_parts _ _ D) as (D1&_). apply core_cid in D1. congruence. }
  destruct (c_iterating c2); try (apply own3_actOn; exact E).
  - match goal with |- context [if ?b then _ else _] => destruct b end; [apply own3_grantStep; exact E|].
    match goal with |- context [if ?b then _ else _] => destruct b end; [|apply own3_actOn; exact E].
    match goal with |- context [if ?b then _ else _] => destruct b end; [apply own3_grantStep; exact E|].
    match goal with |- context [if ?b then _ else _] => destruct b end; [apply own3_grantStep; exact E|apply own3_actOn; exact E].
  - match goal with |- context [if ?b then _ else _] => destruct b end.
    + match goal with |- context [if ?b then _ else _] => destruct b end; [apply own3_upd; exact E|]. apply own3_upd; exact E.
    + match goal with |- context [if ?b then _ else _] => destruct b end; [exact ITER|apply own3_actOn; exact E].
  - match goal with |- context [if ?b then _ else _] => destruct b end.
    + match goal with |- context [if ?b then _ else _] => destruct b end; [apply own3_upd; exact E|]. apply own3_upd; exact E.
    + match goal with |- context [if ?b then _ else _] => destruct b end; [exact ITER|apply own3_actOn; exact E].
Qed.
Lemma own3_checkTimeGrant c t : own3 c (checkTimeGrant c t).
Proof.
  unfold checkTimeGrant. pose proof (own_utf c) as [U _]. revert U. generalize (fst (updateTimeFactors c)). intros c1 U.
  apply (own_from _ _ _ _ U). apply own3_grantFrom.
Qed.
Lemma own3_checkExecEntry c t : own3 c (checkExecEntry c t).
Proof.
  unfold own3. split.
  { pose proof (checkExecEntry_core c t) as K. destruct (checkExecEntry c t) as [[c' out] r]. cbn [fst]. destruct K as [K _].
    destruct r; try (apply core_cid; exact K). destruct K as (g&_&K&_). unfold core in K. congruence. }
  unfold checkExecEntry. destruct (c_block c <=? timeZero); [apply mine_nil|].
  match goal with |- context [if ?b then _ else _] => destruct b end.
  { match goal with |- context [if ?b then _ else _] => destruct b end; [|apply mine_nil].
    match goal with |- context [if ?b then _ else _] => destruct b end; [|apply mine_nil].
    match goal with |- context [if ?b then _ else _] => destruct b end; [apply mine_none; intros m; apply updatedExec_claim|].
    destruct (getDep _ _) as [d|]; [|apply mine_nil]. destruct (dependent d); [apply mine_none; intros m; apply updatedExec_claim|apply mine_nil]. }
  pose proof (execDecision_core (set_c_needSendAll false c) (c_needSendAll c)) as D.
  destruct (execDecision _ _) as [[c1 sa] r]. destruct D as (D1&_). apply core_cid in D1. change (c_id c1 = c_id c) in D1.
  assert (A : c_id (fst (execAct c1 r)) = c_id c1 /\ mine (c_id c1) (snd (execAct c1 r))).
  { unfold execAct. destruct (c_dynamic c1); cbn [negb]; destruct r; try (split; [reflexivity|apply mine_nil]).
    - pose proof (own_utf c1) as [U _]. cbv zeta. revert U. generalize (fst (updateTimeFactors c1)) as cu. intros cu U. cbn [fst snd]. split; [exact U|]. apply mine_src. intros m I. apply transmit_src in I. rewrite I.
      destruct (timeZero <? _); exact U.
    - split; [reflexivity|]. apply mine_src. intros m I. apply transmit_src in I. rewrite I. reflexivity.
    - split; [reflexivity|]. apply mine_src. intros m I. apply transmit_src in I. rewrite I. reflexivity. }
  destruct (execAct c1 r) as [c2 o2]. cbn [fst snd] in A. destruct A as [A1 A2].
  pose proof (execFollowUp_parts c2 sa r t) as F. destruct (execFollowUp c2 sa r t) as [c3 o3]. cbn [fst snd] in *. destruct F as [_ F].
  apply mine_app; [rewrite <- D1; exact A2|apply mine_none; exact F].
Qed.

(** ** Commands *)
Definition ownC (c : tc) (res : cres) : Prop :=
  let '(c', out, st', p, gm') := res in own c c' out /\ forall m, p = PR_REPROCESS m -> claim m = None \/ m_source_id m = c_id c.
Lemma ownC_cont c c' out st gm p : own c c' out -> (forall m, p <> PR_REPROCESS m) -> ownC c (c', out, st, p, gm).
Proof. intros H N. split; [exact H|]. intros m E. destruct (N m E). Qed.
Lemma ownC_pre c c1 o1 res : own c c1 o1 -> ownC c1 res -> ownC c (cpre o1 res).
Proof.
  destruct res as [[[[c' out] st'] p] gm']. intros A [B C]. cbn [cpre]. split; [eapply own_trans; eassumption|].
  destruct A as [A _]. rewrite A in C. exact C.
Qed.
Lemma of_mpr_no r m : of_mpr r <> PR_REPROCESS m. Proof. destruct r; discriminate. Qed.
Lemma ownC_grantCheck c st gm t : ownC c (grantCheck c st gm t).
Proof.
  unfold grantCheck. destruct (_ && _); [|apply ownC_cont; [apply own_refl|discriminate]].
  pose proof (own3_checkTimeGrant c t) as H. destruct (checkTimeGrant c t) as [[c' out] r]. apply ownC_cont; [exact H|]. intros m. apply of_mpr_no.
Qed.
Lemma ownC_execCheck cmd c st gm : ownC c (execCheck cmd c st gm).
Proof.
  unfold execCheck. destruct (fst_eqb st INITIALIZING && negb gm); [|apply ownC_cont; [apply own_refl|discriminate]].
  set (t := if m_action cmd =? CMD_EXEC_REQUEST then m_source_id cmd else invalidId). clearbody t.
  pose proof (own3_checkExecEntry c t) as H. destruct (checkExecEntry c t) as [[c' out] r]. unfold own3 in H. cbn [fst snd] in H.
  destruct r; apply ownC_cont; try exact H; try discriminate.
  destruct H as [H1 H2]. split; [exact H1|]. apply mine_app; [exact H2|]. destruct (_ && _); [|apply mine_nil]. apply mine_none. intros m; apply updatedExec_claim.
Qed.
Lemma ownC_timeCheck cmd c st gm : ownC c (timeCheck cmd c st gm).
Proof.
  unfold timeCheck. destruct (fst_eqb st INITIALIZING); [|apply ownC_grantCheck].
  split; [apply own_refl|]. intros m E. injection E as <-. left. reflexivity.
Qed.
Lemma ptm_ownC c cmd (k : tc -> list amsg -> tpr -> cres) : m_action cmd <> CMD_FORCE_TIME_GRANT ->
  (forall c1 out r, own c c1 out -> ownC c (k c1 out r)) ->
  ownC c (let '(c1, out, r) := processTimeMessage c cmd in k c1 out r).
Proof.
  intros NF H. pose proof (own_ptm c cmd NF) as P. destruct (processTimeMessage c cmd) as [[c1 out] r]. apply H; exact P.
Qed.
Theorem ownC_coordStep cmd c st gm : m_action cmd <> CMD_FORCE_TIME_GRANT -> ownC c (coordStep cmd c st gm).
Proof.
  intros NF. unfold coordStep.
  assert (SAME : ownC c (c, [], st, PR_CONTINUE, gm)) by (apply ownC_cont; [apply own_refl|discriminate]).
  destruct (isBlockCmd (m_action cmd)).
  { apply ptm_ownC; [exact NF|]. intros c1 out r H. destruct (_ && _); [|apply ownC_cont; [exact H|discriminate]].
    destruct st; try (apply ownC_cont; [exact H|discriminate]); (split; [exact H|]; intros m E; injection E as <-; left; reflexivity). }
  destruct (m_action cmd =? CMD_INIT_GRANT).
  { destruct (fst_eqb st CREATED); [|exact SAME]. cbv zeta.
    set (c1 := if checkFlag observer_flag cmd || checkFlag dynamic_join_flag cmd then set_c_dynamic true c else c).
    assert (H : own c c1 []) by (unfold c1; destruct (_ || _); apply own_refl || (split; [reflexivity|apply mine_nil])). clearbody c1.
    destruct (checkFlag iteration_requested_flag cmd); apply ownC_cont; try exact H; discriminate. }
  destruct ((m_action cmd =? CMD_EXEC_REQUEST) && (m_source_id cmd =? c_id c) && checkFlag indicator_flag cmd).
  { assert (H : own c (fst (enteringExecMode c (iterOf cmd))) (snd (enteringExecMode c (iterOf cmd)))).
    { split.
      - unfold enteringExecMode. destruct (c_execMode c); [reflexivity|].
        destruct (checkForIssues _ _); [reflexivity|]. destruct (is_no_iter (iterOf cmd)); [reflexivity|]. cbn. reflexivity.
      - apply mine_none. intros m I. destruct (entering_parts c (iterOf cmd)) as (_&_&E). apply E. exact I. }
    destruct (enteringExecMode c (iterOf cmd)) as [c1 o1]. apply ownC_cont; [exact H|discriminate]. }
  destruct ((m_action cmd =? CMD_EXEC_REQUEST) || (m_action cmd =? CMD_EXEC_GRANT)).
  { apply ptm_ownC; [exact NF|]. intros c1 out r H. destruct (tpr_notProcessed r); [apply ownC_cont; [exact H|discriminate]|].
    eapply ownC_pre; [exact H|apply ownC_execCheck]. }
  destruct (m_action cmd =? CMD_EXEC_CHECK); [apply ownC_execCheck|].
  destruct (m_action cmd =? CMD_TERMINATE_IMMEDIATELY); [apply ownC_cont; [apply own_refl|discriminate]|].
  pose proof (own_disconnect c) as D.
  destruct (m_action cmd =? CMD_STOP); [destruct (disconnect c); apply ownC_cont; [exact D|discriminate]|].
  destruct (m_action cmd =? CMD_DISCONNECT_FED_ACK).
  { destruct ((m_dest_id cmd =? c_id c) && (m_source_id cmd =? parent_broker_id)); [|exact SAME].
    destruct (_ && _); [destruct (disconnect c); apply ownC_cont; [exact D|discriminate]|apply ownC_cont; [apply own_refl|discriminate]]. }
  destruct (_ || _).
  { apply ptm_ownC; [exact NF|]. intros c1 out r H. apply ownC_cont; [exact H|discriminate]. }
  destruct (_ || _).
  { destruct (Z.eqb_spec (m_source_id cmd) (c_id c)) as [S|S].
    - destruct (negb (fst_eqb st FINISHED) && negb (fst_eqb st TERMINATING)); [|exact SAME].
      destruct (disconnect c). split; [exact D|]. intros m E. injection E as <-. right. exact S.
    - apply ptm_ownC; [exact NF|]. intros c1 out r H. eapply ownC_pre; [exact H|apply ownC_grantCheck]. }
  destruct (_ || _).
  { apply ptm_ownC; [exact NF|]. intros c1 out r H. destruct (tpr_notProcessed r); [apply ownC_cont; [exact H|discriminate]|].
    eapply ownC_pre; [exact H|apply ownC_grantCheck]. }
  destruct (_ || _).
  { apply ptm_ownC; [exact NF|]. intros c1 out r H. destruct (tpr_notProcessed r); [apply ownC_cont; [exact H|discriminate]|].
    eapply ownC_pre; [exact H|apply ownC_timeCheck]. }
  destruct (m_action cmd =? CMD_TIME_CHECK); [apply ownC_timeCheck|].
  destruct (Z.eqb_spec (m_action cmd) CMD_FORCE_TIME_GRANT) as [E|_]; [contradiction|].
  destruct ((m_action cmd =? CMD_ERROR) || (m_action cmd =? CMD_LOCAL_ERROR) || (m_action cmd =? CMD_GLOBAL_ERROR)).
  { match goal with |- context [if ?b then _ else _] => destruct b end.
    - destruct (negb (fst_eqb st FINISHED) && negb (fst_eqb st TERMINATING)); [|exact SAME].
      destruct (m_action cmd =? CMD_GLOBAL_ERROR); [apply ownC_cont; [apply own_refl|discriminate]|].
      pose proof (own_localError c) as L. destruct (localError c). apply ownC_cont; [exact L|discriminate].
    - apply ptm_ownC; [exact NF|]. intros c1 out r H. destruct (tpr_notProcessed r); [apply ownC_cont; [exact H|discriminate]|].
      eapply ownC_pre; [exact H|apply ownC_grantCheck]. }
  destruct (_ || _ || _ || _ || _ || _); [|exact SAME].
  destruct (m_dest_id cmd =? c_id c); [|exact SAME]. apply ownC_cont; [|discriminate].
  split; [|apply mine_nil]. destruct (kp_parts _ _ (depUpdate_kpart c cmd)) as (K&_). apply core_cid. exact K.
Qed.

Lemma own_procMsg n : forall f cmd, m_action cmd <> CMD_FORCE_TIME_GRANT -> (adm cmd (c_id (f_tc f)) (f_st f)) ->
  own (f_tc f) (f_tc (fst (fst (procMsg n f cmd)))) (snd (fst (procMsg n f cmd))).
Proof.
  induction n as [|n IH]; intros f cmd NF AD; cbn [procMsg]. { split; [reflexivity|apply mine_nil]. }
  pose proof (ownC_coordStep cmd (f_tc f) (f_st f) (f_gm f) NF) as H.
  pose proof (ok_coordStep cmd (f_tc f) (f_st f) (f_gm f) AD) as OK.
  destruct (coordStep cmd (f_tc f) (f_st f) (f_gm f)) as [[[[c out] st] p] gm]. destruct H as [H HP]. destruct OK as (_&_&OK&_).
  unfold checkProcResult.
  set (q := if fst_eqb (f_st f) st then (c, out) else match st with INITIALIZING => (c, out ++ enterInitialization c) | EXECUTING => (fst (updateTimeFactors c), out) | _ => (c, out) end).
  assert (Q : own (f_tc f) (fst q) (snd q)).
  { unfold q. destruct (fst_eqb (f_st f) st); [exact H|]. destruct st; try exact H; cbn [fst snd].
    destruct H as [H1 H2]. split; [exact H1|]. apply mine_app; [exact H2|]. apply mine_none. intros m I. unfold enterInitialization in I.
      destruct (c_dynamic c); [|destruct I]. apply in_map_iff in I as (d&<-&_). reflexivity.
    }
  clearbody q. destruct q as [c1 o1]. cbn [fst snd] in Q.
  assert (SIMPLE : own (f_tc f) (f_tc (if gm then refreshTimes (set_f_tc c1 (set_f_st st (set_f_gm gm f))) else set_f_tc c1 (set_f_st st (set_f_gm gm f)))) o1)
    by (destruct gm; exact Q).
  destruct p as [| | | | |cmd']; cbn [fst snd]; try exact Q; try exact SIMPLE.
  destruct (OK cmd' eq_refl) as [AD' _].
  destruct (m_dest_id cmd' =? _).
  - pose proof (IH (set_f_tc c1 (set_f_st st (set_f_gm gm f))) cmd' (proj1 (AD' 0 CREATED)) (AD' _ _)) as R.
    destruct (procMsg n _ cmd') as [[f2 o2] p2]. cbn [fst snd] in *. eapply own_trans; [exact Q|exact R].
  - cbn [fst snd]. destruct Q as [Q1 Q2]. split; [exact Q1|]. apply mine_app; [exact Q2|]. intros m [<-|[]]. apply HP. reflexivity.
Qed.

Lemma own_finish f out disc p c : own c (f_tc f) out -> own c (f_tc (fst (finish f out disc p))) (e_msgs (snd (finish f out disc p))).
Proof.
  intros H. unfold finish. destruct (returnable p); [|exact H]. pose proof (returnTo_parts f p) as (A&_). destruct (returnTo f p) as [f1 r].
  cbn [fst snd e_msgs] in *. rewrite A. exact H.
Qed.
Lemma own_deliver f cmd : adm cmd (c_id (f_tc f)) (f_st f) -> own (f_tc f) (f_tc (fst (deliver f cmd))) (e_msgs (snd (deliver f cmd))).
Proof.
  intros A. unfold deliver. pose proof (own_procMsg procDepth f cmd (proj1 A) A) as P.
  destruct (procMsg procDepth f cmd) as [[f1 o1] p1]. cbn [fst snd] in P.
  destruct (returnable p1); [apply own_finish; exact P|].
  destruct ((m_action cmd =? CMD_GLOBAL_DISCONNECT) || (m_action cmd =? CMD_USER_DISCONNECT)) eqn:UD.
  { assert (CN : claim (set_m_dest_id parent_broker_id cmd) = None).
    { unfold claim. cbn [m_action set_m_dest_id]. apply orb_prop in UD as [UD|UD]; apply Z.eqb_eq in UD; rewrite UD; reflexivity. }
    pose proof (own_disconnect (f_tc f1)) as D.
    unfold userDisconnect. destruct (f_st f1); try (destruct (disconnect (f_tc f1)) as [c2 o2]);
    cbn [fst snd effMsgs e_msgs f_tc set_f_tc] in *; rewrite ?app_nil_r; try exact P;
    rewrite app_assoc; pose proof (own_trans _ _ _ _ _ P D) as [T1 T2]; (split; [exact T1|]; apply mine_app; [exact T2|];
    intros m [<-|[]]; left; exact CN). }
  destruct (_ && _); [|exact P].
  assert (PH : own (f_tc f1) (f_tc (fst (fst (fst (disconnectPhase2 f1 cmd))))) (snd (fst (fst (disconnectPhase2 f1 cmd))))).
  { unfold disconnectPhase2. pose proof (own_ptm (f_tc f1) cmd (proj1 A)) as Q. destruct (processTimeMessage (f_tc f1) cmd) as [[c1 oo] r1]. cbn [fst snd] in Q.
    destruct (tpr_notProcessed r1); [exact Q|]. destruct (negb (fst_eqb _ _)); [exact Q|]. destruct (negb _); [|exact Q].
    pose proof (own3_checkTimeGrant c1 invalidId) as G. destruct (checkTimeGrant c1 invalidId) as [[c2 o2] r2]. unfold own3 in G. cbn [fst snd] in G.
    pose proof (own_trans _ _ _ _ _ Q G) as T. destruct r2; exact T. }
  destruct (disconnectPhase2 f1 cmd) as [[[f2 o2] d2] p2]. cbn [fst snd] in PH. apply own_finish. eapply own_trans; eassumption.
Qed.

Theorem step_own f e : plain f e -> own (f_tc f) (f_tc (fst (step f e))) (e_msgs (snd (step f e))).
Proof.
  intros [W PL]. destruct e as [cmd|it|t it nv nm|cmd k|p v|g v|v|g|g|g]; cbn [step]; try destruct PL.
  - destruct (isDataCmd (m_action cmd) || isOwnRequest (c_id (f_tc f)) cmd || fst_eqb (f_st f) FINISHED) eqn:X; [apply own_refl|].
    assert (A : adm cmd (c_id (f_tc f)) (f_st f)).
    { split; [assumption|]. split; [assumption|]. intros E1 E2 E3. exfalso.
      apply orb_false_elim in X as [X _]. apply orb_false_elim in X as [_ X]. unfold isOwnRequest in X.
      rewrite E1, E2, E3, !Z.eqb_refl in X. discriminate X. }
    pose proof (own_deliver f cmd A) as D. unfold maskError. destruct (fst_eqb (f_st f) ERRORED); exact D.
  - unfold enterExecuting. destruct (f_st f) eqn:ST; try apply own_refl.
    set (m := setFlag indicator_flag _).
    assert (MA : m_action m = CMD_EXEC_REQUEST) by (unfold m; cbn; rewrite (proj1 (iterFlags_action _ _)); reflexivity).
    assert (A : adm m (c_id (f_tc f)) (f_st f)).
    { split; [rewrite MA; discriminate|]. split; [rewrite MA; discriminate|]. auto. }
    pose proof (own_procMsg procDepth f m (proj1 A) A) as P. destruct (procMsg procDepth f m) as [[f1 o1] p1]. cbn [fst snd] in P.
    destruct (returnable p1); [apply own_finish; exact P|].
    assert (A2 : adm (set_m_action CMD_EXEC_CHECK m) (c_id (f_tc f1)) (f_st f1)) by (apply adm_other; discriminate).
    pose proof (own_procMsg procDepth f1 _ (proj1 A2) A2) as Q. destruct (procMsg procDepth f1 _) as [[f2 o2] p2]. cbn [fst snd] in Q.
    apply own_finish. eapply own_trans; eassumption.
  - unfold requestTime. destruct (f_st f) eqn:ST; try apply own_refl.
    set (it' := match it with ITERATE_IF_NEEDED => _ | _ => it end). clearbody it'.
    assert (P : own (f_tc f) (fst (timeRequest (f_tc f) t it' nv nm)) (snd (timeRequest (f_tc f) t it' nv nm))).
    { destruct (timeRequest_shape (f_tc f) t it' nv nm) as (c2&E2&_). split; [apply timeRequest_id|]. 
      pose proof (timeRequest_id (f_tc f) t it' nv nm) as TI. revert TI. rewrite E2.
      pose proof (own_utf c2) as [U _]. revert U. generalize (fst (updateTimeFactors c2)). intros c3 U.
      destruct (c_deps c3); [intros _; apply mine_nil|]. pose proof (own_send c3 invalidId) as [S1 S2]. intros TI. rewrite <- TI, S1. exact S2. }
    destruct (timeRequest (f_tc f) t it' nv nm) as [c1 o1]. cbn [fst snd] in P.
    set (f1 := set_f_gm false (set_f_tc c1 f)).
    assert (A2 : adm (set_m_dest_id (c_id c1) (newMsg CMD_TIME_CHECK (c_id c1))) (c_id (f_tc f1)) (f_st f1)).
    { split; [discriminate|]. split; intros X; discriminate X. }
    pose proof (own_procMsg procDepth f1 _ (proj1 A2) A2) as Q. destruct (procMsg procDepth f1 _) as [[f2 o2] p2]. cbn [fst snd] in Q.
    apply own_finish. eapply own_trans; eassumption.
  - destruct (isDataCmd (m_action cmd) && negb (fst_eqb (f_st f) FINISHED)) eqn:X; [|apply own_refl].
    apply andb_prop in X as [X _].
    assert (NF : m_action cmd <> CMD_FORCE_TIME_GRANT) by (intros Y; rewrite Y in X; discriminate X).
    unfold deliverData.
    set (u := match k with DK_value t => updateValueTime (f_tc f) t (negb (f_gm f)) | DK_message t => updateMessageTime (f_tc f) t (negb (f_gm f)) | DK_none => (f_tc f, []) end).
    assert (U : own (f_tc f) (fst u) (snd u)).
    { unfold u. destruct k as [t|t|]; [| |apply own_refl].
      - unfold updateValueTime. destruct (negb (c_execMode (f_tc f))); [destruct (t <? timeZero); (split; [reflexivity|apply mine_nil])|].
        set (c1 := if t <=? c_granted (f_tc f) then set_c_hasIter true (f_tc f) else f_tc f).
        assert (F : c_id c1 = c_id (f_tc f)) by (unfold c1; destruct (t <=? _); reflexivity). clearbody c1.
        destruct (t <? c_value c1); [|split; [exact F|apply mine_nil]].
        match goal with |- context [if ?b then _ else _] => destruct b end; [|split; [exact F|apply mine_nil]].
        match goal with |- context [updateNextExecutionTime ?x] => set (y := x) end.
        assert (N : c_id (fst (updateNextExecutionTime y)) = c_id (f_tc f)) by exact F.
        destruct (updateNextExecutionTime y) as [c2 ch]. cbn [fst] in N.
        destruct (ch && negb (f_gm f)); [|split; [exact N|apply mine_nil]]. apply (own_from _ _ _ _ N). apply own_send.
      - unfold updateMessageTime. destruct (negb (c_execMode (f_tc f))); [destruct (t <? timeZero); (split; [reflexivity|apply mine_nil])|].
        set (c1 := if t <=? c_granted (f_tc f) then set_c_hasIter true (f_tc f) else f_tc f).
        assert (F : c_id c1 = c_id (f_tc f)) by (unfold c1; destruct (t <=? _); reflexivity). clearbody c1.
        destruct (t <? c_message c1); [|split; [exact F|apply mine_nil]].
        match goal with |- context [if ?b then _ else _] => destruct b end; [|split; [exact F|apply mine_nil]].
        match goal with |- context [updateNextExecutionTime ?x] => set (y := x) end.
        assert (N : c_id (fst (updateNextExecutionTime y)) = c_id (f_tc f)) by exact F.
        destruct (updateNextExecutionTime y) as [c2 ch]. cbn [fst] in N.
        destruct (ch && negb (f_gm f)); [|split; [exact N|apply mine_nil]]. apply (own_from _ _ _ _ N). apply own_send. }
    clearbody u. destruct u as [c1 o1]. cbn [fst snd] in U.
    pose proof (own_ptm c1 cmd NF) as P. destruct (processTimeMessage c1 cmd) as [[c2 o2] r2]. cbn [fst snd] in *.
    pose proof (own_trans _ _ _ _ _ U P) as T.
    destruct (f_st f); cbn [fst snd effMsgs e_msgs f_tc set_f_tc]; assumption.
  - split; [reflexivity|apply mine_nil].
  - split; [|apply mine_nil]. unfold tcAddDependency. destruct (addDependency (c_deps (f_tc f)) g). reflexivity.
  - split; [reflexivity|apply mine_nil].
  - split; [reflexivity|apply mine_nil].
Qed.
