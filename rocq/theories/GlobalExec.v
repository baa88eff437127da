(** * C48: how the execution begins with a global time coordinator *)
From Coq Require Import ZArith Bool List Lia.
From Verif Require Import HTime Action TimeDep TimeDepProofs TimeCoord Forward GlobalTime GlobalInv PropsGlobal GlobalLive GlobalExamples.
Import ListNotations.
Open Scope Z_scope.

(** the federate has asked for the execution (or is past it, or gone) *)
Definition hasAsked (d : dinfo) : Prop := ts_leb ts_exec_requested (tst d) = true.
Definition everyoneAsked (l : table) : Prop := forall d, In d l -> dependency d = true -> connection d <> c_SELF -> hasAsked d.
(** what a part of a step may do about the exec grant *)
Definition execOk (g' : gco) (out : list amsg) : Prop :=
  forall m, In m out -> m_action m = CMD_EXEC_GRANT ->
    (forall d, In d (g_deps g') -> dependency d = true -> connection d <> c_SELF -> hasAsked d \/ minFed d = g_id g')
    /\ g_entered g' = true
    /\ forall d, In d (g_deps g') -> dependent d = true -> exists q, In q out /\ m_action q = CMD_EXEC_GRANT /\ m_dest_id q = fedID d.
Definition noExec (out : list amsg) : Prop := forall m, In m out -> m_action m <> CMD_EXEC_GRANT.
Lemma allowed_spec g : gExecAllowed g = true -> forall d, In d (g_deps g) -> dependency d = true -> connection d <> c_SELF -> hasAsked d \/ minFed d = g_id g.
Proof.
  unfold gExecAllowed. intros H d IN D NS. apply orb_true_iff in H as [H|H].
  - left. unfold checkIfReadyForExecEntry in H. apply negb_true_iff in H. unfold hasAsked.
    destruct (ts_leb ts_exec_requested (tst d)) eqn:A; [reflexivity|]. exfalso.
    assert (X : existsb (fun dep => dependency dep && negb (ts_leb ts_exec_requested (tst dep) || (conn_eqb (connection dep) c_SELF && ts_leb ts_initialized (tst dep)))) (g_deps g) = true).
    { apply existsb_exists. exists d. split; [exact IN|]. rewrite D, A. destruct (connection d); (reflexivity || contradiction). }
    congruence.
  - apply andb_true_iff in H as [H1 H2]. rewrite forallb_forall in H2. specialize (H2 d IN). rewrite D in H2. cbn [andb] in H2.
    apply orb_true_iff in H2 as [H2|H2].
    + left. apply negb_true_iff in H2. unfold hasAsked. destruct (tst d); (reflexivity || discriminate H2).
    + right. apply andb_true_iff in H2 as [A B]. lia.
Qed.
Lemma noExec_ok g out : noExec out -> execOk g out.
Proof. intros N m I E. destruct (N m I E). Qed.
Lemma execOk_app g a b : noExec a -> execOk g b -> execOk g (a ++ b).
Proof.
  intros N O m I E. apply in_app_or in I as [I|I]; [destruct (N m I E)|]. destruct (O m I E) as (A & B & C). split; [exact A|]. split; [exact B|].
  intros d Id Dd. destruct (C d Id Dd) as (q & Q & R). exists q. split; [apply in_or_app; right; exact Q|exact R].
Qed.
Lemma update_noExec g : noExec (snd (gUpdate g)).
Proof.
  intros m I E. destruct (gUpdate_cases g) as (_ & _ & _ & _ & A).
  unfold gUpdate in I. destruct (_ && _); [destruct I|]. destruct (ts_eqb _ _); [destruct I|]. destruct (isRequested _); [|destruct I]. destruct (ts_eqb _ _).
  - cbn [snd sendRound] in I. apply in_map_iff in I as (d & <- & _). discriminate E.
  - destruct (ts_eqb _ _); [|destruct I]. unfold gConfirm in I. destruct (verifySequenceCounter _ _ _); [|destruct I]. destruct (checkForTriggered _ _). destruct (_ || _ || _); cbn [snd sendRound] in I; apply in_map_iff in I as (d & <- & _); discriminate E.
Qed.
Lemma message_noExec g c : noExec (snd (fst (gMessage g c))).
Proof.
  intros m I E. unfold gMessage in I. destruct (updateTime _ _) as [deps r]. destruct r; cbn [fst snd] in I; try destruct I. destruct (checkForIssues _ _); [|destruct I]. destruct I as [<-|[]]. discriminate E.
Qed.
Lemma entry_ok g : execOk (fst (gNote (gExecEntry g))) (snd (gNote (gExecEntry g))).
Proof.
  unfold gExecEntry. destruct (g_checking g && gExecAllowed g) eqn:C; [|cbn [gNote fst snd]; intros m []]. apply andb_prop in C as [_ C]. cbn [gNote fst snd].
  intros m _ _. cbn [g_deps g_id g_entered set_g_entered set_g_next set_g_st set_g_min set_g_exec]. split; [exact (allowed_spec g C)|]. split; [reflexivity|].
  intros d I D. exists (set_m_dest_id (fedID d) (newMsg CMD_EXEC_GRANT (g_id g))). split; [|split; reflexivity]. apply in_or_app. left.
  apply (in_map (fun d => set_m_dest_id (fedID d) (newMsg CMD_EXEC_GRANT (g_id g)))). apply filter_In. auto.
Qed.
Lemma entering_noExec g : noExec (snd (gEnteringExec g)).
Proof.
  unfold gEnteringExec. destruct (g_exec g); [intros m []|]. set (g1 := set_g_checking true g).
  assert (T : forall x, noExec (map (fun d : dinfo => set_m_dest_id (fedID d) (setExtraData 1 (newMsg CMD_TIMING_INFO (g_id x)))) (filter dependent (g_deps x)))).
  { intros x m I E. apply in_map_iff in I as (d & <- & _). discriminate E. }
  destruct (g_deps g1) eqn:D; [exact (T g1)|]. clear D. pose proof (update_noExec g1) as U. destruct (gUpdate g1) as [g2 o2]. cbn [snd] in U. destruct (checkForIssues _ _); cbn [snd]; intros m I E; apply in_app_or in I as [I|I].
  - exact (U m I E).
  - destruct I as [<-|[]]. discriminate E.
  - exact (U m I E).
  - exact (T g2 m I E).
Qed.
Lemma step_execOk g e : execOk (fst (gstep g e)) (snd (gstep g e)).
Proof.
  assert (UP : forall g1 o1, noExec o1 -> execOk (fst (let '(g, o) := gUpdate g1 in (g, o1 ++ o))) (snd (let '(g, o) := gUpdate g1 in (g, o1 ++ o)))).
  { intros g1 o1 N. pose proof (update_noExec g1) as U. destruct (gUpdate g1) as [g2 o2]. cbn [fst snd] in *. apply execOk_app; [exact N|apply noExec_ok, U]. }
  assert (EN : forall g1 o1, noExec o1 -> execOk (fst (let '(g, o) := gNote (gExecEntry g1) in (g, o1 ++ o))) (snd (let '(g, o) := gNote (gExecEntry g1) in (g, o1 ++ o)))).
  { intros g1 o1 N. pose proof (entry_ok g1) as U. destruct (gNote (gExecEntry g1)) as [g2 o2]. cbn [fst snd] in *. apply execOk_app; assumption. }
  destruct e as [c|c|c|c|c|x|x|]; cbn [gstep]; try (intros m []; fail).
  - pose proof (message_noExec g c) as M. destruct (gMessage g c) as [[g1 o1] r]. cbn [fst snd] in M. destruct (negb _); [apply noExec_ok, M|]. destruct (g_entered g1); [apply UP, M|]. destruct (g_operating g1); [apply EN, M|apply noExec_ok, M].
  - pose proof (message_noExec g c) as M. destruct (gMessage g c) as [[g1 o1] r]. cbn [fst snd] in M. destruct (negb _); [apply noExec_ok, M|]. destruct (_ && _); [|apply noExec_ok, M].
    pose proof (entry_ok g1) as O. destruct (gExecEntry g1) as [[g2 o2] b] eqn:Q. destruct b; cbn [gNote fst snd] in *.
    + apply execOk_app; assumption.
    + assert (o2 = []) as -> by (unfold gExecEntry in Q; destruct (g_checking g1 && gExecAllowed g1); [discriminate|]; injection Q as _ <-; reflexivity).
      specialize (UP g2 o1 M). destruct (gUpdate g2) as [g3 o3]. exact UP.
  - pose proof (message_noExec g c) as M. destruct (negb _).
    + destruct (g_operating g); [|intros m []]. destruct (gMessage g c) as [[g1 o1] r]. cbn [fst snd] in M. destruct (tprProcessed r); [apply EN, M|apply noExec_ok, M].
    + destruct (gMessage g c) as [[g1 o1] r]. cbn [fst snd] in M. destruct (tprProcessed r); [apply UP, M|apply noExec_ok, M].
  - pose proof (message_noExec g c) as M. destruct (gMessage g c) as [[g1 o1] r]. apply noExec_ok, M.
  - pose proof (entering_noExec (set_g_operating true g)) as N. destruct (gEnteringExec (set_g_operating true g)) as [g1 o1]. apply EN, N.
Qed.

(** **** C48: when the coordinator grants the execution, everyone it waits for has asked for it (or waits for the coordinator
    itself, in an iterative request), the coordinator is executing, and all its dependents are told *)
Theorem C48_execution_needs_everybody id es e m : In m (sends id es e) -> m_action m = CMD_EXEC_GRANT ->
  (forall d, knows id (es ++ [e]) d -> dependency d = true -> connection d <> c_SELF -> hasAsked d \/ minFed d = id)
  /\ g_entered (grun id (es ++ [e])) = true
  /\ forall d, knows id (es ++ [e]) d -> dependent d = true -> exists q, In q (sends id es e) /\ m_action q = CMD_EXEC_GRANT /\ m_dest_id q = fedID d.
Proof.
  unfold sends, knows. intros I E. rewrite grun_snoc. destruct (step_execOk (grun id es) e m I E) as (A & B & C). split; [|split; assumption].
  rewrite <- grun_snoc in A |- *. rewrite (i_id _ _ _ (inv_run id (es ++ [e]))) in A. exact A.
Qed.

(** an operating coordinator which does not execute checks for the entry *)
Definition ready (g : gco) : Prop := (g_operating g = true -> g_entered g = false -> g_checking g = true) /\ (g_exec g = true -> g_entered g = true).
Lemma update_ready g : g_operating (fst (gUpdate g)) = g_operating g /\ g_entered (fst (gUpdate g)) = g_entered g /\ g_checking (fst (gUpdate g)) = g_checking g /\ g_exec (fst (gUpdate g)) = g_exec g.
Proof.
  unfold gUpdate, gConfirm. destruct (_ && _); [repeat split|]. destruct (ts_eqb _ _); [repeat split|]. destruct (isRequested _); [|repeat split]. destruct (ts_eqb _ _); [repeat split|].
  destruct (ts_eqb _ _); [|repeat split]. destruct (verifySequenceCounter _ _ _); [|repeat split]. destruct (checkForTriggered _ _). destruct (_ || _ || _); repeat split.
Qed.
Lemma message_ready g c : let g' := fst (fst (gMessage g c)) in g_operating g' = g_operating g /\ g_entered g' = g_entered g /\ g_checking g' = g_checking g /\ g_exec g' = g_exec g.
Proof.
  cbv zeta. unfold gMessage. set (g0 := if fwdRemoves (m_action c) then _ else g).
  assert (H : g_operating g0 = g_operating g /\ g_entered g0 = g_entered g /\ g_checking g0 = g_checking g /\ g_exec g0 = g_exec g) by (unfold g0; destruct (fwdRemoves _); repeat split).
  clearbody g0. destruct (updateTime _ _) as [deps r]. destruct r; exact H.
Qed.
Lemma same_ready g g' : g_operating g' = g_operating g /\ g_entered g' = g_entered g /\ g_checking g' = g_checking g /\ g_exec g' = g_exec g -> ready g -> ready g'.
Proof. unfold ready. intros (-> & -> & -> & ->). auto. Qed.
Lemma note_ready g : ready g -> ready (fst (gNote (gExecEntry g))).
Proof.
  intros R. unfold gExecEntry. destruct (_ && _); [|exact R]. cbn [gNote fst]. split; [discriminate|reflexivity].
Qed.
Lemma step_ready g e : ready g -> ready (fst (gstep g e)).
Proof.
  intros R. assert (UP : forall g1 (o1 : list amsg), ready g1 -> ready (fst (let '(g, o) := gUpdate g1 in (g, o1 ++ o)))).
  { intros g1 o1 N. pose proof (update_ready g1) as U. destruct (gUpdate g1) as [g2 o2]. cbn [fst snd] in *. exact (same_ready _ _ U N). }
  assert (EN : forall g1 (o1 : list amsg), ready g1 -> ready (fst (let '(g, o) := gNote (gExecEntry g1) in (g, o1 ++ o)))).
  { intros g1 o1 N. apply note_ready in N. destruct (gNote (gExecEntry g1)) as [g2 o2]. exact N. }
  destruct e as [c|c|c|c|c|x|x|]; cbn [gstep]; try exact R.
  - pose proof (same_ready _ _ (message_ready g c) R) as M. destruct (gMessage g c) as [[g1 o1] r]. cbn [fst snd] in M. destruct (negb _); [apply M|]. destruct (g_entered g1); [apply UP, M|]. destruct (g_operating g1); [apply EN, M|apply M].
  - pose proof (same_ready _ _ (message_ready g c) R) as M. destruct (gMessage g c) as [[g1 o1] r]. cbn [fst snd] in M. destruct (negb _); [apply M|]. destruct (_ && _); [|apply M].
    unfold gExecEntry. destruct (g_checking g1 && gExecAllowed g1); [split; [discriminate|reflexivity]|]. specialize (UP g1 (o1 ++ []) M). rewrite app_nil_r in UP. destruct (gUpdate g1) as [g3 o3]. exact UP.
  - pose proof (same_ready _ _ (message_ready g c) R) as M. destruct (negb _).
    + destruct (g_operating g); [|exact R]. destruct (gMessage g c) as [[g1 o1] r]. cbn [fst snd] in M. destruct (tprProcessed r); [apply EN, M|apply M].
    + destruct (gMessage g c) as [[g1 o1] r]. cbn [fst snd] in M. destruct (tprProcessed r); [apply UP, M|apply M].
  - pose proof (same_ready _ _ (message_ready g c) R) as M. destruct (gMessage g c) as [[g1 o1] r]. exact M.
  - assert (E : ready (fst (gEnteringExec (set_g_operating true g)))).
    { unfold gEnteringExec. change (g_exec (set_g_operating true g)) with (g_exec g). destruct (g_exec g) eqn:X.
      - split; cbn; intros; [|apply R; exact X]. rewrite (proj2 R X) in *. discriminate.
      - set (g1 := set_g_checking true (set_g_operating true g)). assert (G : ready g1) by (split; cbn; [reflexivity|intros; apply R; assumption]).
        destruct (g_deps g1) eqn:D; [exact G|]. clear D. pose proof (same_ready _ _ (update_ready g1) G) as U. destruct (gUpdate g1) as [g2 o2]. cbn [fst] in U. destruct (checkForIssues _ _); exact U. }
    destruct (gEnteringExec (set_g_operating true g)) as [g1 o1]. apply EN, E.
Qed.
Lemma run_ready id es : ready (grun id es).
Proof. induction es as [|e es IH] using rev_ind; [split; discriminate|]. rewrite grun_snoc. apply step_ready, IH. Qed.
Lemma asked_allowed g : everyoneAsked (g_deps g) -> (forall d, In d (g_deps g) -> connection d = c_SELF -> ts_leb ts_initialized (tst d) = true) -> gExecAllowed g = true.
Proof.
  intros A S. unfold gExecAllowed. apply orb_true_iff. left. unfold checkIfReadyForExecEntry. apply negb_true_iff. apply not_true_is_false. intros X. apply existsb_exists in X as (d & I & X).
  apply andb_prop in X as [D X]. apply negb_true_iff in X. apply orb_false_elim in X as [X1 X2].
  destruct (connection d) eqn:C; try (specialize (A d I D); rewrite C in A; unfold hasAsked in A; rewrite A in X1 by discriminate; discriminate).
  cbn in X2. rewrite (S d I C) in X2. discriminate.
Qed.
Lemma processed_exec c (d : dinfo) : m_action c = CMD_EXEC_REQUEST -> tprProcessed (snd (processMessage c d)) = true.
Proof. intros A. unfold processMessage. rewrite A. change (tkind_of CMD_EXEC_REQUEST) with k_exec_request. cbv iota zeta. cbn [snd]. try reflexivity. destruct (_ && _); reflexivity. Qed.

(** **** C48: the execution begins: when the last federate asks for it, every dependent is granted it at once *)
Theorem C48_execution_begins id es c : g_operating (grun id es) = true -> g_entered (grun id es) = false ->
  m_action c = CMD_EXEC_REQUEST -> (exists d, getDep (g_deps (grun id es)) (m_source_id c) = Some d /\ dependency d = true) ->
  let after := grun id (es ++ [B_exec c]) in
  everyoneAsked (g_deps after) -> (forall d, In d (g_deps after) -> connection d <> c_SELF) ->
  g_entered after = true
  /\ forall d, knows id (es ++ [B_exec c]) d -> dependent d = true -> exists q, In q (sends id es (B_exec c)) /\ m_action q = CMD_EXEC_GRANT /\ m_dest_id q = fedID d.
Proof.
  unfold sends, knows. rewrite grun_snoc. pose proof (run_ready id es) as RD. set (g := grun id es) in *. clearbody g. intros OP EN A (d & G & D). cbv zeta. cbn [gstep].
  pose proof (message_ready g c) as MR. cbv zeta in MR.
  assert (P : tprProcessed (snd (gMessage g c)) = true).
  { unfold gMessage. rewrite A. change (fwdRemoves CMD_EXEC_REQUEST) with false. cbv iota. unfold updateTime. rewrite G, D. cbn [negb]. pose proof (processed_exec c d A) as P.
    destruct (snd (processMessage c d)) eqn:R; exact P. }
  destruct (gMessage g c) as [[g1 o1] r]. cbn [fst snd] in *. rewrite P. cbn [negb]. destruct MR as (M1 & M2 & M3 & M4). rewrite M1, M2, OP, EN. cbn [negb andb].
  assert (CH : g_checking g1 = true) by (rewrite M3; apply RD; assumption).
  unfold gExecEntry. rewrite CH. cbn [andb]. destruct (gExecAllowed g1) eqn:AL.
  - cbn [fst snd]. intros _ _. cbn [g_entered set_g_entered g_deps set_g_next set_g_st set_g_min set_g_exec]. split; [reflexivity|]. intros x I X.
    exists (set_m_dest_id (fedID x) (newMsg CMD_EXEC_GRANT (g_id g1))). split; [|split; reflexivity]. apply in_or_app. right. apply in_or_app. left.
    apply (in_map (fun d => set_m_dest_id (fedID d) (newMsg CMD_EXEC_GRANT (g_id g1)))). apply filter_In. auto.
  - intros AA NS. exfalso. assert (X : gExecAllowed g1 = true); [|congruence].
    pose proof (gUpdate_cases g1) as (_ & _ & _ & _ & UC). destruct (gUpdate g1) as [g2 o2]. cbn [fst snd] in *.
    assert (F : everyoneAsked (g_deps g1) /\ forall y, In y (g_deps g1) -> connection y <> c_SELF).
    { destruct UC as [UC|[UC|UC]].
      - destruct UC as (_ & U & _). rewrite U in AA, NS. auto.
      - destruct UC as (_ & _ & _ & _ & U & _). rewrite U in AA, NS.
        assert (AF : forall x, let y := askDep (trigTime (g_next g2)) (g_seq g2) x in dependency y = dependency x /\ connection y = connection x /\ tst y = tst x) by (intros x; cbv zeta; unfold askDep; destruct (addressed _ _); repeat split; reflexivity).
        split.
        + intros x Ix. destruct (AF x) as (Y1 & Y2 & Y3). unfold hasAsked. rewrite <- Y1, <- Y2, <- Y3. apply AA, in_map, Ix.
        + intros x Ix. destruct (AF x) as (Y1 & Y2 & Y3). rewrite <- Y2. apply NS, in_map, Ix.
      - destruct UC as (_ & _ & _ & _ & U & _). rewrite U in AA, NS. auto. }
    apply asked_allowed; [apply F|]. intros y Iy Cy. destruct (proj2 F y Iy Cy).
Qed.

Lemma lower_bound_same l g a d b (d' : dinfo) : lower_bound l g = (a, d :: b) -> fedID d' = fedID d -> lower_bound (a ++ d' :: b) g = (a, d' :: b).
Proof.
  revert a. induction l as [|x l IH]; intros a E F; cbn [lower_bound] in E; [discriminate|]. destruct (fedID x <? g) eqn:X.
  - destruct (lower_bound l g) as [a0 b0] eqn:Q. injection E as <- ->. cbn [app lower_bound]. rewrite X, (IH a0 eq_refl F). reflexivity.
  - injection E as <- -> ->. cbn [app lower_bound]. rewrite F, X. reflexivity.
Qed.
Lemma bye_processed g c d : getDep (g_deps g) (m_source_id c) = Some d -> dependency d = true -> m_action c = CMD_DISCONNECT -> tprProcessed (snd (gMessage g c)) = true.
Proof.
  intros G D A. unfold gMessage. rewrite A. change (fwdRemoves CMD_DISCONNECT) with true. cbv iota. cbn [g_deps set_g_deps].
  assert (G1 : getDep (removeDependent (g_deps g) (m_source_id c)) (m_source_id c) = Some (set_dependent false d)).
  { unfold getDep in G |- *. unfold removeDependent. destruct (lower_bound (g_deps g) (m_source_id c)) as [a l] eqn:L. cbn [snd] in G. destruct l as [|x l]; [discriminate|].
    destruct (fedID x =? m_source_id c) eqn:F; [|discriminate]. injection G as ->. change (dependency (set_dependent false d)) with (dependency d). rewrite D. cbn [negb].
    rewrite (lower_bound_same _ _ _ _ _ (set_dependent false d) L eq_refl). cbn [snd]. change (fedID (set_dependent false d)) with (fedID d). rewrite F. reflexivity. }
  unfold updateTime. rewrite G1. change (dependency (set_dependent false d)) with (dependency d). rewrite D. cbn [negb].
  assert (P : snd (processMessage c (set_dependent false d)) = PROCESSED) by (unfold processMessage; rewrite A; change (tkind_of CMD_DISCONNECT) with k_disconnect; reflexivity).
  rewrite P. reflexivity.
Qed.

(** **** C48: the same for a federate which leaves: afterwards the coordinator asks or permits something, or an answer is missing *)
Theorem C48_departure_is_followed id es c : isValidId id = true -> g_entered (grun id es) = true ->
  m_action c = CMD_DISCONNECT -> (exists d, getDep (g_deps (grun id es)) (m_source_id c) = Some d /\ dependency d = true) ->
  let after := grun id (es ++ [B_disconnect c]) in
  allWaiting id (g_deps after) ->
  (exists q, In q (sends id es (B_disconnect c)) /\ (m_action q = CMD_REQUEST_CURRENT_TIME \/ m_action q = CMD_TIME_REQUEST))
  \/ missing (g_seq after) (g_deps after).
Proof.
  intros V EN A (d & G & D). pose proof (bye_processed _ _ _ G D A) as P. clear A G D d. cbv zeta. rewrite grun_snoc. unfold sends. set (g := grun id es) in *. cbn [gstep]. rewrite EN. cbn [negb].
  pose proof (message_good g c (run_good id es)) as M. pose proof (message_mid g c (B_disconnect c) eq_refl) as [(GI & _) _]. pose proof (i_id _ _ _ (inv_run id es)) as GI0. fold g in GI0. rewrite GI0 in GI.
  pose proof (message_ready g c) as MR. cbv zeta in MR.
  destruct (gMessage g c) as [[g1 o1] r]. cbn [fst snd] in *. rewrite P. destruct MR as (_ & E1 & _). rewrite EN in E1. destruct M as [O R]. specialize (R E1).
  intros W. pose proof (gUpdate_cases g1) as (_ & _ & _ & _ & UC). pose proof (update_speaks g1 R O) as US. rewrite GI in US. specialize (US V).
  destruct (gUpdate g1) as [g2 o2]. cbn [fst snd] in *.
  assert (W1 : allWaiting id (g_deps g1)).
  { destruct UC as [UC|[UC|UC]].
    - destruct UC as (_ & U & _). rewrite U in W. exact W.
    - destruct UC as (_ & _ & _ & _ & U & _). rewrite U in W. destruct W as (X1 & X2 & f & F1 & F2 & F3 & F4 & F5 & F6).
      assert (AF : forall x, let y := askDep (trigTime (g_next g2)) (g_seq g2) x in dependency y = dependency x /\ connection y = connection x /\ tst y = tst x /\ next y = next x /\ Te y = Te x
        /\ nonGranting y = nonGranting x /\ fedID y = fedID x) by (intros x; cbv zeta; unfold askDep; destruct (addressed _ _); repeat split; reflexivity).
      split; [|split].
      + intros x Ix. destruct (AF x) as (Y1 & Y2 & Y3 & _). unfold waiting. destruct (AF x) as (_ & _ & _ & Y4 & _). rewrite <- Y1, <- Y2, <- Y3, <- Y4. apply X1, in_map, Ix.
      + intros x Ix. destruct (AF x) as (_ & _ & _ & Y1 & Y2 & _). rewrite <- Y1, <- Y2. apply X2, in_map, Ix.
      + apply in_map_iff in F1 as (x & <- & F1). destruct (AF x) as (Y1 & Y2 & Y3 & Y4 & Y5 & Y6 & Y7). rewrite Y1 in F2. rewrite Y2 in F3. rewrite Y6 in F4. rewrite Y7 in F5. rewrite Y5 in F6. exists x. auto 10.
    - destruct UC as (_ & _ & _ & _ & U & _). rewrite U in W. exact W. }
  destruct (US W1) as [(q & Q1 & Q2)|[Q1 Q2]].
  - left. exists q. split; [apply in_or_app; right; exact Q1|exact Q2].
  - right. injection Q1 as Q1 _; rewrite Q1. exact Q2.
Qed.

(** the hypotheses are met: the second of two federates asks for the execution; and one of two waiting federates leaves *)
Definition beforeLast : list bevent := [join fa; join fb; B_init; execReq fa].
Definition lastReq : amsg := setExtraDestData 0 (newMsg CMD_EXEC_REQUEST fb).
Definition bye (f : Z) : amsg := newMsg CMD_DISCONNECT f.
Example C48_execution_meets_hypotheses :
  (exists m, In m (sends root beforeLast (B_exec lastReq)) /\ m_action m = CMD_EXEC_GRANT)
  /\ g_operating (grun root beforeLast) = true /\ g_entered (grun root beforeLast) = false
  /\ (exists d, getDep (g_deps (grun root beforeLast)) (m_source_id lastReq) = Some d /\ dependency d = true)
  /\ everyoneAsked (g_deps (grun root (beforeLast ++ [B_exec lastReq])))
  /\ (forall d, In d (g_deps (grun root (beforeLast ++ [B_exec lastReq]))) -> connection d <> c_SELF)
  /\ harmless (sends root [join fa; join fb; B_init] (execReq fa)).
Proof.
  split; [eexists; split; [vm_compute; left; reflexivity|reflexivity]|]. split; [reflexivity|]. split; [reflexivity|]. split; [eexists; split; [vm_compute; reflexivity|reflexivity]|].
  split; [|split].
  - intros d I. tabled I. destruct I as [<-|[<-|[]]]; reflexivity.
  - intros d I. tabled I. destruct I as [<-|[<-|[]]]; discriminate.
  - intros m I. tabled I. destruct I.
Qed.
Example C48_departure_meets_hypotheses :
  let h := asked in
  g_entered (grun root h) = true /\ (exists d, getDep (g_deps (grun root h)) (m_source_id (bye fa)) = Some d /\ dependency d = true)
  /\ allWaiting root (g_deps (grun root (h ++ [B_disconnect (bye fa)])))
  /\ exists q, In q (sends root h (B_disconnect (bye fa))) /\ m_action q = CMD_REQUEST_CURRENT_TIME /\ m_dest_id q = fb.
Proof.
  cbv zeta. split; [reflexivity|]. split; [eexists; split; [vm_compute; reflexivity|reflexivity]|]. split.
  - split; [|split].
    + intros d I. tabled I. destruct I as [<-|[<-|[]]]; [right; split; reflexivity|left; reflexivity].
    + intros d I. tabled I. destruct I as [<-|[<-|[]]]; vm_compute; discriminate.
    + eexists. split; [vm_compute; right; left; reflexivity|]. vm_compute. repeat split; (discriminate || reflexivity).
  - eexists. split; [vm_compute; left; reflexivity|]. vm_compute. auto.
Qed.
