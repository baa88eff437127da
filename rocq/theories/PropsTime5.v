(** * Property C06: executing mode is entered only when every dependency is ready *)
From Coq Require Import ZArith Bool List Lia ZifyBool.
From Verif Require Import HTime Action TimeDep TimeDepProofs TimeCoord TimeCoordProofs TimeProc TimeProcProofs TimeInitProofs TimeInv TimeAnswer TimeGrid PropsTime1 TimeTable MinTimeProofs TimeNotice NoticeStep Examples1 PropsTime2.
Import ListNotations.
Open Scope Z_scope.

(** ** The entry requested last stays the entry requested, and executing mode is not set before the entry *)
Lemma iprim_modes e c c' : wf_event e -> iprim e c c' ->
  c_execMode c' = c_execMode c /\ ((forall it, e <> Ev_enterExec it) -> c_iterating c' = c_iterating c).
Proof.
  intros W H. assert (CO : forall c1, core c1 = core c -> c_execMode c1 = c_execMode c /\ ((forall it, e <> Ev_enterExec it) -> c_iterating c1 = c_iterating c)).
  { intros c1 K. core_inv K. auto. }
  destruct H as [c c' H _|c t c' out r H HR|c it H|c|c|c cmd H1 H2].
  - destruct H as [c cmd E NF|c cmd k E D|c t c' out E _|c cmd t b E|c cmd t b E|c p v E|c g v E|c v E|c g E|c g E|c g E|c cmd E|c E]; try (subst e; try (split; [reflexivity|reflexivity])).
    + apply CO, processTimeMessage_core; assumption.
    + apply CO, processTimeMessage_core. intros Q; rewrite Q in D; discriminate.
    + apply CO. eapply refused_core; eassumption.
    + destruct (valueTime_core c t b) as [K|[L K]]; [apply CO; exact K|]. core_inv K. auto.
    + destruct (messageTime_core c t b) as [K|[L K]]; [apply CO; exact K|]. core_inv K. auto.
    + apply CO. unfold tcAddDependency. destruct (addDependency _ _); reflexivity.
    + apply CO. apply depUpdate_core.
    + apply CO. apply disconnect_core.
  - pose proof (checkExecEntry_core c t) as K. rewrite H in K. destruct K as [K _]. destruct r; try contradiction; apply CO; exact K.
  - pose proof (enteringExecMode_core c (execIter it)) as K. cbn zeta in K. destruct K as (_&_&_&_&_&_&_&K&_). split; [exact K|].
    intros N. destruct (N it H).
  - split; reflexivity.
  - destruct (localError_core c) as [->|E]; [split; reflexivity|]. core_inv E. auto.
  - split; reflexivity.
Qed.
Lemma iprims_modes e c c' : wf_event e -> iprims e c c' ->
  c_execMode c' = c_execMode c /\ ((forall it, e <> Ev_enterExec it) -> c_iterating c' = c_iterating c).
Proof.
  intros W H. induction H as [|x y z P IH Q]; [split; reflexivity|]. destruct (iprim_modes e _ _ W Q) as [A B]. destruct IH as [C D].
  split; [congruence|]. intros N. rewrite B, D by exact N. reflexivity.
Qed.
Lemma step_modes f e : wf_event e -> started (f_st f) = false ->
  ((forall it, e <> Ev_enterExec it) -> c_iterating (f_tc (fst (step f e))) = c_iterating (f_tc f))
  /\ (c_execMode (f_tc f) = false -> f_st (fst (step f e)) <> EXECUTING -> c_execMode (f_tc (fst (step f e))) = false)
  /\ (f_st (fst (step f e)) = EXECUTING -> c_execMode (f_tc (fst (step f e))) = true).
Proof.
  intros W S. pose proof (step_init f e S) as [H _]. set (f' := fst (step f e)) in *.
  assert (NE : iprims e (f_tc f) (f_tc f') -> f_st f' <> EXECUTING -> 
     ((forall it, e <> Ev_enterExec it) -> c_iterating (f_tc f') = c_iterating (f_tc f))
      /\ (c_execMode (f_tc f) = false -> f_st f' <> EXECUTING -> c_execMode (f_tc f') = false)
      /\ (f_st f' = EXECUTING -> c_execMode (f_tc f') = true)).
  { intros P N. destruct (iprims_modes e _ _ W P) as [A B]. split; [exact B|]. split; [congruence|]. contradiction. }
  destruct H as [A1 A2|c0 t c' out A1 A2 A3 A4 A5 A6|r t A1 A2 A3|c0 t out A1 A2 A3 A4 A5|t cmd A1 A2 A3 A4|A1 A2|t A1 A2].
  - apply NE; [exact A1|]. destruct A2 as [->| ->]; [|discriminate]. destruct (f_st f); discriminate.
  - destruct (iprims_modes e _ _ W A1) as [A B]. pose proof (checkExecEntry_core c0 t) as K. rewrite A3 in K. destruct K as [(g&_&K&_) _].
    pose proof (updateTimeFactors_core c') as U. rewrite K in U. rewrite A4. core_inv U.
    split; [intros N; rewrite <- B by exact N; assumption|]. split; [|intros _; assumption]. intros _ N. contradiction.
  - apply NE; [exact A1|]. destruct A3 as [->| ->]; discriminate.
  - destruct (iprims_modes e _ _ W A1) as [A B]. pose proof (checkExecEntry_core c0 t) as K. rewrite A3 in K. destruct K as [K _]. core_inv K.
    split; [intros N; rewrite <- B by exact N; assumption|]. split; [congruence|]. congruence.
  - apply NE; [exact A1|congruence].
  - apply NE; [exact A1|congruence].
  - apply NE; [exact A1|congruence].
Qed.
(** a federate not yet executing has not been moved to executing mode *)
Lemma after_mode id o n es : opts_ok o -> Forall wf_event es -> started (f_st (after (fed_init id o n) es)) = false ->
  c_execMode (f_tc (after (fed_init id o n) es)) = false.
Proof.
  intros O W. induction es as [|e es IH] using rev_ind; intros S; [reflexivity|]. apply Forall_app in W as [W1 W2]. inversion W2; subst.
  rewrite after_snoc in *. destruct (started (f_st (after (fed_init id o n) es))) eqn:S0.
  - exfalso. pose proof (step_mono (after (fed_init id o n) es) e S0 ltac:(assumption) (run_inv _ _ W1 (init_inv id o n O))) as (_&K&_). congruence.
  - apply (step_modes _ e ltac:(assumption) S0); [auto|]. destruct (f_st (fst (step _ e))); discriminate.
Qed.
Lemma enter_iterating f it : f_st f = INITIALIZING -> c_execMode (f_tc f) = false ->
  c_iterating (f_tc (fst (step f (Ev_enterExec it)))) = execIter it.
Proof.
  intros ST EM. cbn [step]. unfold enterExecuting. rewrite ST.
  set (m := setFlag indicator_flag _).
  assert (FI : checkFlag indicator_flag m = true).
  { unfold m, checkFlag, setFlag. cbn [m_flags set_m_flags]. rewrite Z.lor_spec. rewrite orb_true_iff. right. reflexivity. }
  assert (MA : m_action m = CMD_EXEC_REQUEST) by (unfold m; destruct it; reflexivity).
  assert (MS : m_source_id m = c_id (f_tc f)) by (unfold m; destruct it; reflexivity).
  assert (C1 : coordStep m (f_tc f) INITIALIZING (f_gm f) =
     let '(c, out) := enteringExecMode (f_tc f) (iterOf m) in (c, out, INITIALIZING, PR_CONTINUE, false)).
  { unfold coordStep. rewrite MA, MS, FI, (Z.eqb_refl (c_id (f_tc f))). reflexivity. }
  assert (IT : iterOf m = execIter it) by (unfold m; destruct it; reflexivity).
  assert (EI : c_iterating (fst (enteringExecMode (f_tc f) (iterOf m))) = execIter it).
  { rewrite IT. unfold enteringExecMode. rewrite EM. destruct (checkForIssues _ _); [reflexivity|]. destruct (is_no_iter (execIter it)); reflexivity. }
  cbn [procMsg procDepth]. rewrite ST, C1.
  destruct (enteringExecMode (f_tc f) (iterOf m)) as [c1 out1]. cbn [fst] in EI.
  pose proof (checkProcResult_init f c1 out1 INITIALIZING PR_CONTINUE false ltac:(rewrite ST; reflexivity)) as K.
  destruct (checkProcResult f _) as [[f1 o1] p1]. destruct K as ((K1&K2&K3)&->&K4). cbn [returnable].
  set (m2 := set_m_action CMD_EXEC_CHECK m). rewrite K1, K2, K3.
  change (coordStep m2 c1 INITIALIZING false) with (execCheck m2 c1 INITIALIZING false).
  pose proof (execCheck_via m2 c1 INITIALIZING false) as V.
  pose proof (execCheck_iout (Ev_enterExec it) c1 m2 c1 INITIALIZING false (is_refl _ _) eq_refl) as T.
  destruct (execCheck m2 c1 INITIALIZING false) as [[[[c2 o2] st2] p2] gm2]. destruct T as (_&NR&_).
  pose proof (cpr_tc f1 (c2, o2, st2, p2, gm2)) as F. cbn iota in F. pose proof (cpr_pres f1 c2 o2 st2 p2 gm2) as PP.
  destruct (checkProcResult f1 (c2, o2, st2, p2, gm2)) as [[f2 o3] p']. cbn [fst snd] in *. subst p'.
  assert (E2 : c_iterating c2 = execIter it).
  { destruct V as [->|[t ->]]; [exact EI|]. pose proof (checkExecEntry_core c1 t) as K. destruct (checkExecEntry c1 t) as [[c3 o4] r]. cbn [fst].
    destruct K as [K _]. destruct r; [| destruct K as (g&_&K&_)| |]; core_inv K; congruence. }
  assert (E3 : c_iterating (f_tc f2) = execIter it).
  { destruct F as [->| ->]; [exact E2|]. exact E2. }
  destruct p2; try (rewrite finish_tc; exact E3). destruct (NR m0 eq_refl).
Qed.
Definition notEnter (e : event) : Prop := forall it, e <> Ev_enterExec it.
Lemma started_before id o n es es2 : opts_ok o -> Forall wf_event (es ++ es2) -> started (f_st (after (fed_init id o n) (es ++ es2))) = false ->
  started (f_st (after (fed_init id o n) es)) = false.
Proof.
  intros O W S. destruct (started (f_st (after (fed_init id o n) es))) eqn:E; [|reflexivity]. exfalso.
  apply Forall_app in W as [W1 W2]. rewrite after_app in S.
  pose proof (run_started (after (fed_init id o n) es) es2 W2 (run_inv _ _ W1 (init_inv id o n O)) E) as [K _]. unfold after in *. congruence.
Qed.
(** the last entry request decides how the federate enters *)
Lemma last_enter id o n pre it post e : let f0 := fed_init id o n in opts_ok o -> Forall wf_event (pre ++ Ev_enterExec it :: post) ->
  f_st (after f0 pre) = INITIALIZING -> Forall notEnter post ->
  pre ++ Ev_enterExec it :: post = removelast (pre ++ Ev_enterExec it :: post) ++ [e] ->
  started (f_st (after f0 (removelast (pre ++ Ev_enterExec it :: post)))) = false ->
  c_iterating (f_tc (after f0 (pre ++ Ev_enterExec it :: post))) = execIter it.
Proof.
  intros f0 O W ST. revert e. induction post as [|x post IH] using rev_ind; intros e NP EQ S.
  - rewrite after_snoc. apply enter_iterating; [exact ST|]. apply after_mode; [exact O|apply Forall_app in W; apply W|]. fold f0. rewrite ST. reflexivity.
  - replace (pre ++ Ev_enterExec it :: post ++ [x]) with ((pre ++ Ev_enterExec it :: post) ++ [x]) in * by (rewrite <- app_assoc; reflexivity).
    rewrite removelast_last in S. apply Forall_app in NP as [N1 N2]. inversion N2 as [|? ? N3 _]; subst.
    pose proof W as W'. apply Forall_app in W as [W1 W2]. inversion W2; subst.
    rewrite after_snoc. rewrite (proj1 (step_modes _ x ltac:(assumption) S) N3).
    destruct (@exists_last _ (pre ++ Ev_enterExec it :: post)) as (l&y&E); [destruct pre; discriminate|].
    apply (IH W1 y N1).
    + rewrite E, removelast_last. reflexivity.
    + rewrite E, removelast_last. apply (started_before id o n l [y] O); rewrite <- E; assumption.
Qed.

(** ** A dependency that is not ready keeps the federate out *)
Definition unready (d : dinfo) : Prop := connection d <> c_SELF /\ ts_ltb (tst d) ts_exec_requested = true.
Definition justInit (d : dinfo) : Prop := tst d = ts_initialized.
Lemma getDep_in l g d : getDep l g = Some d -> In d l.
Proof.
  unfold getDep. destruct (lower_bound l g) as [x y] eqn:E. cbn [snd]. destruct y as [|z y]; [discriminate|]. destruct (fedID z =? g); [|discriminate].
  intros H. injection H as <-. revert x E. induction l as [|w l IH]; intros x E; cbn in E; [discriminate|].
  destruct (fedID w <? g); [|injection E as _ -> _; left; reflexivity]. destruct (lower_bound l g) as [x' y'] eqn:E'. injection E as _ ->.
  right. eapply IH; reflexivity.
Qed.
Lemma unready_blocks c t c' out r g : checkExecEntry c t = (c', out, r) -> c_iterating c = NO_ITERATIONS -> has (c_deps c) g unready -> r = CONTINUE_PROCESSING.
Proof.
  intros E IT (d&D1&D2&D3&D4). pose proof (getDep_in _ _ _ D1) as IN. unfold checkExecEntry in E.
  destruct (c_block c <=? timeZero); [injection E; auto|]. rewrite IT in E. cbn [is_no_iter negb] in E.
  assert (R : checkIfReadyForExecEntry false (o_wait (c_opts c)) (c_deps c) = false).
  { unfold checkIfReadyForExecEntry. destruct (o_wait (c_opts c)).
    - unfold checkIfAllDependenciesArePastExec. rewrite <- not_true_iff_false. intros F. rewrite forallb_forall in F. specialize (F d IN).
      unfold pastExec in F. rewrite D2 in F. assert (conn_eqb (connection d) c_SELF = false) as K by (destruct (connection d); try reflexivity; contradiction).
      rewrite K in F. destruct (tst d); try discriminate D4; discriminate F.
    - apply negb_false_iff. apply existsb_exists. exists d. split; [exact IN|]. rewrite D2.
      assert (conn_eqb (connection d) c_SELF = false) as K by (destruct (connection d); try reflexivity; contradiction). rewrite K.
      destruct (tst d); try discriminate D4; reflexivity. }
  rewrite R in E. cbn [negb] in E. rewrite andb_false_r in E. injection E; auto.
Qed.
Lemma init_blocks c t c' out r g : checkExecEntry c t = (c', out, r) -> o_wait (c_opts c) = false -> has (c_deps c) g (fun d => justInit d /\ connection d <> c_SELF) -> r = CONTINUE_PROCESSING.
Proof.
  intros E OW (d&D1&D2&D3&D4). pose proof (getDep_in _ _ _ D1) as IN.
  destruct (c_iterating c) eqn:IT.
  1: { apply (unready_blocks c t c' out r g E IT). exists d. repeat split; try assumption. rewrite D3. reflexivity. }
  all: unfold checkExecEntry in E; destruct (c_block c <=? timeZero); [injection E; auto|]; rewrite IT, OW in E; cbn [is_no_iter negb] in E;
    assert (R : checkIfReadyForExecEntry true false (c_deps c) = false)
      by (unfold checkIfReadyForExecEntry; apply negb_false_iff; apply existsb_exists; exists d; split; [exact IN|]; rewrite D2, D3; reflexivity);
    rewrite R in E; cbn [negb] in E; destruct (negb (c_hasInit c) && isValidId t && true);
    [destruct (checkIfReadyForExecEntry false false (c_deps c)); [destruct (_ =? t); [injection E; auto|destruct (getDep _ t); injection E; auto]|injection E; auto]|injection E; auto].
Qed.

(** ** The entry of a dependency stays unready until its next notice *)
Lemma aprims_keep e c c' id g (P : dinfo -> Prop) : aprims e c c' -> tabOk id c -> g <> id -> quiet g e ->
  (forall d d', key d' = key d -> P d -> P d') -> (forall G d, P d -> P (f_events G d)) -> (forall t d, P d -> P (f_iterTime t d)) -> (forall d, P d -> P (f_iterExec d)) ->
  has (c_deps c) g P -> has (c_deps c') g P.
Proof.
  intros H T NG Q PK PE PT PX HA. assert (K : tabOk id c' /\ has (c_deps c') g P); [|apply K].
  pose proof (conj T HA) as A. clear T HA. revert c c' H A. apply (aprims_inv e (fun c => tabOk id c /\ has (c_deps c) g P)).
  intros c1 c2 H [T1 A1]. split; [eapply aprim_tabOk; eassumption|].
  destruct (aprim_tabOf e c1 c2 H) as (TS&_). destruct T1 as (I&S&_). rewrite I in TS. eapply entry_preserved; try eassumption; auto.
Qed.
Definition kept (P : dinfo -> Prop) : Prop :=
  (forall d d', key d' = key d -> P d -> P d') /\ (forall G d, P d -> P (f_events G d)) /\ (forall t d, P d -> P (f_iterTime t d)) /\ (forall d, P d -> P (f_iterExec d)).
Lemma kept_unready : kept unready.
Proof.
  split; [|split; [|split]].
  - unfold unready, key. intros d d' K. injection K as _ _ K1 _ K2 _. rewrite K1, K2. auto.
  - intros G d [A B]. unfold f_events. destruct (dependency d); (split; [exact A|exact B]).
  - intros t d [A B]. unfold f_iterTime. destruct (dependency d && ts_eqb (tst d) ts_time_requested_iterative && (next d =? t)) eqn:E; [|split; assumption].
    apply andb_true_iff in E as [E _]. apply andb_true_iff in E as [_ E]. destruct (tst d); try discriminate E; discriminate B.
  - intros d [A B]. unfold f_iterExec. destruct (_ && _); (split; [exact A|]); [reflexivity|exact B].
Qed.
Lemma kept_init : kept (fun d => justInit d /\ connection d <> c_SELF).
Proof.
  unfold justInit. split; [|split; [|split]].
  - unfold key. intros d d' K. injection K as _ _ K1 _ K2 _. rewrite K1, K2. auto.
  - intros G d [B A]. unfold f_events. destruct (dependency d); (split; [exact B|exact A]).
  - intros t d [B A]. unfold f_iterTime. rewrite B. cbn [ts_eqb]. rewrite andb_false_r. cbn [andb]. split; assumption.
  - intros d [B A]. unfold f_iterExec. destruct (_ && _); (split; [|exact A]); [reflexivity|exact B].
Qed.
Lemma kept_steps P es f id g : kept P -> tabOk id (f_tc f) -> g <> id -> Forall (quiet g) es ->
  has (c_deps (f_tc f)) g P -> has (c_deps (f_tc (after f es))) g P.
Proof.
  intros (K1&K2&K3&K4) T NG Q. revert f T. induction Q as [|e es Q1 Q2 IH]; intros f T H; [exact H|].
  rewrite after_cons. apply IH; [apply step_tabOk; exact T|]. eapply aprims_keep; try eassumption; [apply step_any].
Qed.

(** ** A federate which was never a dependency *)
(** the event does not make [g] a dependency *)
Definition addsNot (g : Z) (e : event) : Prop :=
  match e with
  | Ev_msg cmd => m_source_id cmd = g -> m_action cmd <> CMD_ADD_DEPENDENCY /\ m_action cmd <> CMD_ADD_INTERDEPENDENCY
  | Ev_addDependency x => x <> g
  | _ => True
  end.
Definition untouched (l : table) (g : Z) : Prop := forall d, getDep l g = Some d -> dependency d = false /\ tst d = ts_initialized.
Definition blank (F : option dinfo -> option dinfo) : Prop :=
  forall o, (forall d, o = Some d -> dependency d = false /\ tst d = ts_initialized) -> forall d, F o = Some d -> dependency d = false /\ tst d = ts_initialized.
Lemma blank_removeDependent : blank f_removeDependent.
Proof. intros o H d E. destruct o as [y|]; cbn in E; [|discriminate]. destruct (H y eq_refl) as [A B]. rewrite A in E. discriminate. Qed.
Lemma blank_msg cmd : blank (f_upd (fun d => if dependency d then fst (processMessage cmd d) else d)).
Proof. intros o H d E. destruct o as [y|]; cbn in E; [|discriminate]. destruct (H y eq_refl) as [A B]. rewrite A in E. injection E as <-. auto. Qed.
Lemma blank_addDependent x : blank (f_addDependent x).
Proof. intros o H d E. destruct o as [y|]; cbn in E; injection E as <-; [|split; reflexivity]. exact (H y eq_refl). Qed.
Lemma untouched_op l g x F : tsorted l -> keepsId x F -> blank F -> untouched l g -> untouched (alter l x F) g.
Proof.
  intros S K B U d E. rewrite getDep_lookup in E by (apply alter_sorted; assumption). rewrite lookup_alter in E by assumption.
  rewrite <- !getDep_lookup in E by exact S. destruct (Z.eqb_spec g x) as [->|]; [|apply U; exact E]. apply (B _ U d E).
Qed.
Lemma untouched_msg l cmd g : tsorted l -> untouched l g -> untouched (msgTable l cmd) g.
Proof.
  intros S U d E. rewrite msgTable_getDep in E by exact S. destruct (g =? m_source_id cmd); [|apply U; exact E].
  unfold f_msg in E. refine (blank_msg cmd _ _ d E). destruct (removesDependent (m_action cmd)); [|exact U]. apply blank_removeDependent. exact U.
Qed.
Lemma untouched_map l g f : (forall d, fedID (f d) = fedID d) -> (forall d, dependency d = false -> f d = d) -> tsorted l -> untouched l g -> untouched (map f l) g.
Proof.
  intros FI FD S U d E. rewrite map_getDep in E by assumption. destruct (getDep l g) as [y|] eqn:Y; [|discriminate]. injection E as <-.
  destruct (U y Y) as [A B]. rewrite FD by exact A. auto.
Qed.
Lemma opKeeps l o g : tsorted l -> blank (opFun o) -> untouched l g -> untouched (applyOp l o) g.
Proof.
  intros S B U d E. rewrite applyOp_lookup in E by exact S. destruct (g =? opTarget o); [|apply U; exact E]. apply (B _ U d E).
Qed.
Lemma untouched_step e id G l l' g : tabStep e id G l l' -> tsorted l -> g <> id -> addsNot g e -> untouched l g -> untouched l' g.
Proof.
  intros H S NG Q U. destruct H as [->|cmd _ _ _ ->|a _ ->|cmd c E <- <- ->|x c E <- <- ->|x E ->|x E ->|t it nv nm E ->|t ->| ->].
  - exact U.
  - apply untouched_msg; assumption.
  - apply untouched_msg; assumption.
  - destruct (Z.eq_dec g (m_source_id cmd)) as [EQ|N].
    2: { intros d D. rewrite (proj2 (depUpdate_table c cmd S)) in D by exact N. apply U; exact D. }
    rewrite E in Q. cbn [addsNot] in Q. destruct (Q (eq_sym EQ)) as [Q1 Q2]. apply Z.eqb_neq in Q1, Q2.
    rewrite depUpdate_eq. unfold depUpdateFirst. rewrite Q1, Q2.
    destruct (_ =? CMD_REMOVE_DEPENDENCY).
    { cbn [c_deps set_c_deps]. apply (opKeeps _ (OpRemoveDependency (m_source_id cmd))); [exact S| |exact U].
      intros o H d D. destruct o as [y|]; cbn in D; [|discriminate]. destruct (H y eq_refl) as [A B]. destruct (dependent y); [injection D as <-; auto|discriminate]. }
    destruct (_ =? CMD_ADD_DEPENDENT); [apply (opKeeps _ (OpAddDependent (m_source_id cmd)) g S); [apply blank_addDependent|exact U]|].
    destruct (_ =? CMD_REMOVE_DEPENDENT); [apply (opKeeps _ (OpRemoveDependent (m_source_id cmd)) g S); [apply blank_removeDependent|exact U]|].
    destruct (_ =? CMD_REMOVE_INTERDEPENDENCY).
    { cbn [c_deps set_c_deps]. apply (opKeeps _ (OpRemoveDependent (m_source_id cmd))).
      - apply (applyOp_sorted _ (OpRemoveDependency (m_source_id cmd)) S).
      - apply blank_removeDependent.
      - apply (opKeeps _ (OpRemoveDependency (m_source_id cmd))); [exact S| |exact U].
        intros o H d D. destruct o as [y|]; cbn in D; [|discriminate]. destruct (H y eq_refl) as [A B]. destruct (dependent y); [injection D as <-; auto|discriminate]. }
    destruct (_ =? CMD_TIMING_INFO); [|exact U]. apply (opKeeps _ (OpMessage cmd) g S); [apply blank_msg|exact U].
  - rewrite E in Q. cbn [addsNot] in Q. intros d D. rewrite (proj2 (tcAddDependency_table c x S)) in D by auto. apply U; exact D.
  - apply (opKeeps _ (OpAddDependent x) g S); [apply blank_addDependent|exact U].
  - rewrite resetDependency_alter. apply untouched_op; [exact S|apply keepsId_reset| |exact U].
    intros o H d D. destruct o as [y|]; cbn in D; [|discriminate]. destruct (H y eq_refl) as [A B]. destruct (_ && _); injection D as <-; [split; reflexivity|auto].
  - apply (untouched_map _ _ (f_events G)); [apply f_events_id| |exact S|exact U]. intros d D. unfold f_events. rewrite D. reflexivity.
  - apply (untouched_map _ _ (f_iterTime t)); [apply f_iterTime_id| |exact S|exact U]. intros d D. unfold f_iterTime. rewrite D. reflexivity.
  - apply (untouched_map _ _ f_iterExec); [apply f_iterExec_id| |exact S|exact U]. intros d D. unfold f_iterExec. rewrite D. reflexivity.
Qed.
Lemma after_untouched id o n es g : g <> id -> Forall (addsNot g) es -> untouched (c_deps (f_tc (after (fed_init id o n) es))) g.
Proof.
  intros NG. induction es as [|e es IH] using rev_ind; intros A; [intros d E; discriminate E|]. apply Forall_app in A as [A1 A2]. inversion A2; subst.
  rewrite after_snoc. pose proof (step_any (after (fed_init id o n) es) e) as SA.
  pose proof (after_tabOk id _ es (init_tabOk id o n)) as T. specialize (IH A1).
  pose proof (conj T IH) as P. revert SA P. generalize (f_tc (after (fed_init id o n) es)) as c. generalize (f_tc (fst (step (after (fed_init id o n) es) e))) as c'.
  intros c' c SA P. apply (aprims_inv e (fun c => tabOk id c /\ untouched (c_deps c) g)) in SA; [apply SA| |exact P].
  intros c1 c2 H [T1 U1]. split; [eapply aprim_tabOk; eassumption|]. destruct (aprim_tabOf e c1 c2 H) as (TS&_). destruct T1 as (I&S&_). rewrite I in TS.
  eapply untouched_step; eassumption.
Qed.

(** ** The two ways in which a dependency is known not to be ready *)
(** [x] makes [g] a dependency *)
Definition adds (id g : Z) (x : event) : Prop :=
  x = Ev_addDependency g \/
  exists cmd, x = Ev_msg cmd /\ m_source_id cmd = g /\ m_dest_id cmd = id /\ (m_action cmd = CMD_ADD_DEPENDENCY \/ m_action cmd = CMD_ADD_INTERDEPENDENCY).
Definition freshDep (d : dinfo) : Prop := justInit d /\ connection d <> c_SELF.
Lemma tcAdd_fresh c id g : tabOk id c -> g <> id -> untouched (c_deps c) g -> has (c_deps (fst (tcAddDependency c g))) g justInit.
Proof.
  intros (I&S&F) NG U. unfold tcAddDependency.
  pose proof (fun x => applyOp_lookup _ (OpAddDependency g) x S) as L. cbn [applyOp opTarget opFun] in L.
  destruct (addDependency (c_deps c) g) as [deps added]. cbn [fst] in *.
  assert (NE : (g =? c_id c) = false) by (apply Z.eqb_neq; congruence). rewrite NE, andb_false_r.
  change (c_deps (set_c_deps deps c)) with deps. unfold has. rewrite L, Z.eqb_refl.
  destruct (getDep (c_deps c) g) as [y|] eqn:Y; cbn [f_addDependency].
  - destruct (U y Y) as [A B]. eexists. split; [reflexivity|]. change (next (set_dependency true y)) with (next y). destruct (cTerminationTime <? next y); (split; [reflexivity|]); [reflexivity|exact B].
  - eexists. split; [reflexivity|]. split; reflexivity.
Qed.
Lemma has_fresh id c g : tabOk id c -> g <> id -> has (c_deps c) g justInit -> has (c_deps c) g freshDep.
Proof. intros (I&S&F) NG (d&D1&D2&D3). exists d. split; [exact D1|]. split; [exact D2|]. split; [exact D3|]. eapply F; eassumption. Qed.
Lemma upd_init l x g f : (forall d, fedID (f d) = fedID d) -> (forall d, dependency (f d) = dependency d) -> (forall d, tst (f d) = tst d) -> tsorted l ->
  has l g justInit -> has (updDep l x f) g justInit.
Proof.
  intros F1 F2 F3 S (d&D1&D2&D3). unfold has. rewrite updDep_getDep by assumption. rewrite D1. destruct (g =? x); [|exists d; auto].
  exists (f d). split; [reflexivity|]. rewrite F2. split; [exact D2|]. unfold justInit. rewrite F3. exact D3.
Qed.
Lemma depUpdate_fresh c id cmd : tabOk id c -> m_source_id cmd <> id -> untouched (c_deps c) (m_source_id cmd) ->
  m_action cmd = CMD_ADD_DEPENDENCY \/ m_action cmd = CMD_ADD_INTERDEPENDENCY ->
  has (c_deps (processDependencyUpdateMessage c cmd)) (m_source_id cmd) justInit.
Proof.
  intros T NG U A. rewrite depUpdate_eq. set (g := m_source_id cmd) in *.
  assert (H1 : has (c_deps (fst (depUpdateFirst c cmd))) g justInit /\ tsorted (c_deps (fst (depUpdateFirst c cmd)))).
  { split; [|apply depFirst_table; apply T]. pose proof (tcAdd_fresh c id g T NG U) as K. unfold depUpdateFirst. fold g. destruct A as [A|A]; rewrite A.
    - exact K.
    - change (CMD_ADD_INTERDEPENDENCY =? CMD_ADD_DEPENDENCY) with false. change (CMD_ADD_INTERDEPENDENCY =? CMD_REMOVE_DEPENDENCY) with false.
      change (CMD_ADD_INTERDEPENDENCY =? CMD_ADD_DEPENDENT) with false. change (CMD_ADD_INTERDEPENDENCY =? CMD_REMOVE_DEPENDENT) with false.
      change (CMD_ADD_INTERDEPENDENCY =? CMD_ADD_INTERDEPENDENCY) with true. cbn iota.
      pose proof (tcAddDependency_table c g ltac:(apply T)) as [S1 _].
      destruct (tcAddDependency c g) as [c1 ad]. cbn [fst] in *. destruct K as (d&D1&D2&D3).
      pose proof (applyOp_lookup _ (OpAddDependent g) g S1) as L. cbn [applyOp opTarget opFun] in L. rewrite Z.eqb_refl, D1 in L. cbn [f_addDependent] in L.
      exists (set_dependent true d). cbn [c_deps set_c_deps]. rewrite L. split; [reflexivity|]. split; [exact D2|exact D3]. }
  destruct (depUpdateFirst c cmd) as [c1 ad]. cbn [fst] in H1. destruct ad; [|apply H1]. cbv zeta. destruct H1 as [H1 S1].
  assert (CN : forall c k, tsorted (c_deps c) -> has (c_deps c) g justInit -> tsorted (c_deps (setConnection c g k)) /\ has (c_deps (setConnection c g k)) g justInit).
  { intros c2 k S2 H2. split; [apply setConnection_table; exact S2|]. unfold setConnection. destruct (g =? c_id c2); [exact H2|]. cbn [c_deps set_c_deps]. apply upd_init; auto. }
  set (c2 := if checkFlag child_flag cmd then _ else _).
  assert (H2 : tsorted (c_deps c2) /\ has (c_deps c2) g justInit) by (unfold c2; destruct (checkFlag child_flag cmd); auto). clearbody c2. destruct H2 as [S2 H2].
  set (c3 := if checkFlag parent_flag cmd then _ else _).
  assert (H3 : tsorted (c_deps c3) /\ has (c_deps c3) g justInit) by (unfold c3; destruct (checkFlag parent_flag cmd); auto). clearbody c3. destruct H3 as [S3 H3].
  destruct (0 <? m_counter cmd); [|exact H3]. unfold setVersion. cbn [c_deps set_c_deps]. apply upd_init; auto.
Qed.
Lemma step_depUpdate f cmd : f_st f <> FINISHED -> m_dest_id cmd = c_id (f_tc f) -> m_action cmd = CMD_ADD_DEPENDENCY \/ m_action cmd = CMD_ADD_INTERDEPENDENCY ->
  f_tc (fst (step f (Ev_msg cmd))) = processDependencyUpdateMessage (f_tc f) cmd /\ f_st (fst (step f (Ev_msg cmd))) = f_st f.
Proof.
  intros NF D A. cbn [step].
  assert (FF : fst_eqb (f_st f) FINISHED = false) by (destruct (f_st f); try reflexivity; contradiction).
  assert (SE : fst_eqb (f_st f) (f_st f) = true) by (destruct (f_st f); reflexivity).
  assert (X : isDataCmd (m_action cmd) = false /\ isOwnRequest (c_id (f_tc f)) cmd = false) by (unfold isOwnRequest; destruct A as [A|A]; rewrite A; split; reflexivity).
  destruct X as [X1 X2]. rewrite X1, X2, FF. cbn [orb].
  assert (C : coordStep cmd (f_tc f) (f_st f) (f_gm f) = (processDependencyUpdateMessage (f_tc f) cmd, [], f_st f, PR_CONTINUE, f_gm f)).
  { unfold coordStep. destruct A as [A|A]; rewrite A; cbn [isBlockCmd]; rewrite D, Z.eqb_refl; reflexivity. }
  unfold deliver. cbn [procMsg procDepth]. rewrite C. unfold checkProcResult. rewrite SE. cbn [returnable].
  assert (Y : (m_action cmd =? CMD_GLOBAL_DISCONNECT) = false /\ (m_action cmd =? CMD_USER_DISCONNECT) = false /\ (m_action cmd =? CMD_DISCONNECT_FED) = false /\ (m_action cmd =? CMD_DISCONNECT) = false)
    by (destruct A as [A|A]; rewrite A; repeat split; reflexivity).
  destruct Y as (Y1&Y2&Y3&Y4). rewrite Y1, Y2, Y3, Y4. cbn [orb andb]. unfold maskError.
  destruct (fst_eqb (f_st f) ERRORED); split; reflexivity.
Qed.
Lemma adds_fresh id o n pre x g : adds id g x -> g <> id -> Forall (addsNot g) pre -> let f := after (fed_init id o n) pre in
  f_st f <> FINISHED -> has (c_deps (f_tc (fst (step f x)))) g freshDep.
Proof.
  intros A NG N f NF. pose proof (after_tabOk id _ pre (init_tabOk id o n)) as T. fold f in T.
  pose proof (after_untouched id o n pre g NG N) as U. fold f in U.
  apply (has_fresh id); [apply step_tabOk; exact T|exact NG|].
  destruct A as [->|(cmd&->&<-&D&A)].
  - cbn [step fst f_tc set_f_tc]. apply (tcAdd_fresh _ id); assumption.
  - rewrite (proj1 (step_depUpdate f cmd NF ltac:(rewrite (proj1 T); exact D) A)). apply (depUpdate_fresh _ id); assumption.
Qed.
(** [x], which follows [pre], tells that the dependency [g] wants to iterate again: an execution request with
    an iteration flag, or the grant of another initialization iteration *)
Definition asksIteration (f : fed) (g : Z) (x : event) : Prop :=
  exists cmd, x = Ev_msg cmd /\ m_source_id cmd = g /\ isDependency (c_deps (f_tc f)) g = true
   /\ (m_action cmd = CMD_EXEC_REQUEST \/ m_action cmd = CMD_EXEC_GRANT) /\ checkFlag iteration_requested_flag cmd = true.
Definition grantsIteration (f : fed) (g : Z) (x : event) : Prop :=
  exists cmd, x = Ev_msg cmd /\ m_source_id cmd = g /\ isDependency (c_deps (f_tc f)) g = true
   /\ m_action cmd = CMD_EXEC_GRANT /\ checkFlag iteration_requested_flag cmd = true.

Lemma asks_recorded c cmd id : tabOk id c -> m_source_id cmd <> id -> isDependency (c_deps c) (m_source_id cmd) = true ->
  m_action cmd = CMD_EXEC_REQUEST \/ m_action cmd = CMD_EXEC_GRANT -> checkFlag iteration_requested_flag cmd = true ->
  has (c_deps (fst (fst (processTimeMessage c cmd)))) (m_source_id cmd) (fun d => unready d /\ (m_action cmd = CMD_EXEC_GRANT -> justInit d)).
Proof.
  intros (I&S&F) NG D A IF.
  assert (T : isTiming (m_action cmd)) by (unfold isTiming; tauto). destruct (timing_flags cmd T) as (_&NB&NF&NRC&RD&_).
  rewrite (proj1 (ptm_table c cmd) NF), NB. apply Z.eqb_neq in NRC. rewrite NRC. cbn [andb].
  rewrite isDependency_getDep in D. destruct (getDep (c_deps c) (m_source_id cmd)) as [d|] eqn:G; [|discriminate].
  pose proof (F _ d NG G) as C.
  exists (fst (processMessage cmd d)). rewrite msgTable_getDep by exact S. rewrite Z.eqb_refl. unfold f_msg. rewrite RD, G. cbn [f_upd]. rewrite D.
  split; [reflexivity|]. unfold unready, justInit. rewrite processMessage_connection.
  unfold processMessage. destruct A as [A|A]; rewrite A.
  - change (tkind_of CMD_EXEC_REQUEST) with k_exec_request. cbv zeta. rewrite IF. unfold clearUpdateReq.
    match goal with |- context [if ?b then _ else _] => destruct b end; destruct (checkFlag required_flag cmd); cbn;
    (split; [first [exact D|reflexivity]|]); (split; [split; [exact C|reflexivity]|discriminate]).
  - change (tkind_of CMD_EXEC_GRANT) with k_exec_grant. rewrite IF. cbn. split; [exact D|]. split; [split; [exact C|reflexivity]|reflexivity].
Qed.

Definition blocksEntry (P : dinfo -> Prop) (Q : iter_req -> bool -> Prop) : Prop :=
  forall c t c' out r g, checkExecEntry c t = (c', out, r) -> Q (c_iterating c) (o_wait (c_opts c)) -> has (c_deps c) g P -> r = CONTINUE_PROCESSING.
Lemma exec_keeps c t : c_iterating (fst (fst (checkExecEntry c t))) = c_iterating c /\ c_opts (fst (fst (checkExecEntry c t))) = c_opts c.
Proof.
  pose proof (checkExecEntry_core c t) as K. destruct (checkExecEntry c t) as [[c3 o4] r]. cbn [fst].
  destruct K as [K _]. destruct r; [| destruct K as (g&_&K&_)| |]; core_inv K; auto.
Qed.
Lemma blocked_notice P Q f cmd id : blocksEntry P Q -> wf_event (Ev_msg cmd) -> tabOk id (f_tc f) -> f_st f = INITIALIZING -> c_execMode (f_tc f) = false ->
  isTiming (m_action cmd) -> m_source_id cmd <> id -> has (c_deps (fst (fst (processTimeMessage (f_tc f) cmd)))) (m_source_id cmd) P ->
  Q (c_iterating (f_tc (fst (step f (Ev_msg cmd))))) (o_wait (c_opts (f_tc (fst (step f (Ev_msg cmd)))))) ->
  f_st (fst (step f (Ev_msg cmd))) <> EXECUTING.
Proof.
  intros B W T ST EM TM NG HA HQ EX.
  destruct (notice_init f cmd TM ltac:(rewrite (proj1 T); exact NG) ltac:(rewrite ST; discriminate) ltac:(rewrite ST; discriminate)) as (c2&V&F).
  destruct (step_modes f (Ev_msg cmd) W ltac:(rewrite ST; reflexivity)) as (_&_&M). specialize (M EX).
  set (f' := fst (step f (Ev_msg cmd))) in *. clearbody f'.
  assert (F2 : c_execMode c2 = true /\ Q (c_iterating c2) (o_wait (c_opts c2))).
  { destruct F as [F|F]; rewrite F in *; [split; assumption|]. split; [exact M|exact HQ]. }
  clear F HQ M. destruct F2 as [M HQ].
  destruct (timing_flags cmd TM) as (_&_&NF&_).
  pose proof (processTimeMessage_core (f_tc f) cmd NF) as PC. destruct (processTimeMessage (f_tc f) cmd) as [[c1 o1] r1]. cbn [fst] in *.
  assert (M1 : c_execMode c1 = false) by (core_inv PC; congruence).
  destruct V as [->|[t ->]]; [congruence|].
  destruct (exec_keeps c1 t) as [K1 K2]. rewrite K1, K2 in HQ.
  pose proof (checkExecEntry_core c1 t) as KC. destruct (checkExecEntry c1 t) as [[c3 o3] r] eqn:E. cbn [fst] in *.
  rewrite (B c1 t c3 o3 r _ E HQ HA) in KC. destruct KC as [KC _]. core_inv KC. congruence.
Qed.
Lemma blocked_step P Q f e id g : blocksEntry P Q -> kept P -> wf_event e -> tabOk id (f_tc f) -> f_st f = INITIALIZING -> g <> id -> quiet g e ->
  has (c_deps (f_tc f)) g P -> Q (c_iterating (f_tc (fst (step f e)))) (o_wait (c_opts (f_tc (fst (step f e))))) -> f_st (fst (step f e)) <> EXECUTING.
Proof.
  intros B (K1&K2&K3&K4) W T ST NG QU HA HQ EX. pose proof (step_init f e ltac:(rewrite ST; reflexivity)) as [H _]. set (f' := fst (step f e)) in *. clearbody f'.
  destruct H as [A1 A2|c0 t c' out A1 A2 A3 A4 A5 A6|r t A1 A2 A3|c0 t out A1 A2 A3 A4 A5|t cmd A1 A2 A3 A4|A1 A2|t A1 A2]; try congruence.
  - destruct A2; congruence.
  - rewrite A4 in HQ. change (Q (c_iterating c') (o_wait (c_opts c'))) in HQ.
    destruct (exec_keeps c0 t) as [I1 I2]. rewrite A3 in I1, I2. cbn [fst] in I1, I2. rewrite I1, I2 in HQ.
    pose proof (B c0 t c' out NEXT_STEP g A3 HQ) as X. specialize (X (aprims_keep e _ _ id g P (iprims_aprims _ _ _ A1) T NG QU K1 K2 K3 K4 HA)). discriminate X.
Qed.

Lemma C06_core P Q id o n es e pre x post g : let f0 := fed_init id o n in
  blocksEntry P Q -> kept P -> opts_ok o -> Forall wf_event (es ++ [e]) -> es ++ [e] = pre ++ x :: post -> Forall (quiet g) post -> g <> id ->
  ((adds id g x /\ Forall (addsNot g) pre /\ (forall d, freshDep d -> P d))
   \/ (asksIteration (after f0 pre) g x /\ (forall cmd d, x = Ev_msg cmd -> unready d -> (m_action cmd = CMD_EXEC_GRANT -> justInit d) -> P d))) ->
  f_st (after f0 es) = INITIALIZING -> Q (c_iterating (f_tc (after f0 (es ++ [e])))) (o_wait (c_opts (f_tc (after f0 (es ++ [e]))))) ->
  f_st (after f0 (es ++ [e])) <> EXECUTING.
Proof.
  intros f0 B K O W EQ QU NG H ST HQ. rewrite after_snoc in *. pose proof (after_tabOk id f0 es (init_tabOk id o n)) as T.
  assert (EM : c_execMode (f_tc (after f0 es)) = false).
  { apply after_mode; [exact O|apply Forall_app in W; apply W|]. fold f0. rewrite ST. reflexivity. }
  apply Forall_app in W as [W1 W2]. inversion W2 as [|? ? W3 _]; subst.
  assert (POST : post = [] \/ exists p, post = p ++ [e]).
  { destruct post as [|y p] using rev_ind; [left; reflexivity|right]. exists p.
    change (x :: p ++ [y]) with ((x :: p) ++ [y]) in EQ. rewrite app_assoc in EQ. apply app_inj_tail in EQ as [_ ->]. reflexivity. }
  destruct POST as [->|[p ->]].
  - apply app_inj_tail in EQ as [<- ->]. destruct H as [[A _]|[(cmd&->&<-&D&A&IF) PP]].
    + destruct A as [->|(cmd&->&<-&D&A)].
      * cbn [step fst f_st set_f_tc]. rewrite ST. discriminate.
      * destruct (step_depUpdate (after f0 es) cmd ltac:(rewrite ST; discriminate) ltac:(rewrite (proj1 T); exact D) A) as [_ E]. rewrite E, ST. discriminate.
    + apply (blocked_notice P Q _ cmd id); try assumption; [unfold isTiming; tauto|].
      destruct (asks_recorded _ cmd id T NG D A IF) as (d&D1&D2&D3&D4). exists d. split; [exact D1|]. split; [exact D2|]. eapply PP; auto.
  - change (x :: p ++ [e]) with ((x :: p) ++ [e]) in EQ. rewrite app_assoc in EQ. apply app_inj_tail in EQ as [EQ _].
    apply Forall_app in QU as [Q1 Q2]. inversion Q2 as [|? ? Q3 _]; subst.
    apply (blocked_step P Q _ e id g); try assumption. clear HQ Q2 Q3.
    assert (NF : f_st (after f0 pre) <> FINISHED).
    { intros FI. pose proof (finished_stays (after f0 pre) (x :: p) FI) as FS. rewrite <- after_app in FS. congruence. }
    rewrite after_app, after_cons. apply (kept_steps P p _ id g); try assumption.
    + apply step_tabOk, after_tabOk, init_tabOk.
    + destruct H as [[A [N PP]]|[(cmd&->&<-&D&A&IF) PP]].
      * destruct (adds_fresh id o n pre x g A NG N NF) as (d&D1&D2&D3). exists d. auto.
      * pose proof (after_tabOk id f0 pre (init_tabOk id o n)) as TP.
        assert (SN : started (f_st (after f0 pre)) = false).
        { apply (started_before id o n pre (Ev_msg cmd :: p) O); fold f0; [exact W1|]. rewrite ST. reflexivity. }
        assert (TM : isTiming (m_action cmd)) by (unfold isTiming; tauto).
        assert (R : has (c_deps (fst (fst (processTimeMessage (f_tc (after f0 pre)) cmd)))) (m_source_id cmd) P).
        { destruct (asks_recorded _ cmd id TP NG D A IF) as (d&D1&D2&D3&D4). exists d. split; [exact D1|]. split; [exact D2|]. eapply PP; auto. }
        destruct (notice_init (after f0 pre) cmd TM ltac:(rewrite (proj1 TP); exact NG) ltac:(destruct (f_st (after f0 pre)); discriminate) NF) as (c2&V&F).
        assert (T1 : tabOk id (fst (fst (processTimeMessage (f_tc (after f0 pre)) cmd)))).
        { destruct (timing_flags cmd TM) as (_&_&NFG&_). eapply (aprim_tabOk id (Ev_msg cmd)); [|exact TP]. apply ap_prim. apply p_msg; [reflexivity|exact NFG]. }
        assert (R2 : has (c_deps c2) (m_source_id cmd) P).
        { destruct V as [->|[t ->]]; [exact R|]. destruct K as (K1&K2&K3&K4).
          eapply (aprims_keep (Ev_maxIter 0)); [apply as_one; apply (ap_exec (Ev_maxIter 0) _ t)|exact T1|exact NG|exact I|..]; assumption. }
        destruct F as [F|F]; rewrite F; [exact R2|]. rewrite updateTimeFactors_deps. exact R2.
Qed.

(** ** C06
    [es ++ [e]] is any history of a federate; before its last event the federate was initializing.  [g] is a
    federate it depends on: [x] either made [g] a dependency (for the first time) or is a message by which
    [g], being a dependency, asked to iterate or granted itself another initialization iteration, and
    nothing was heard of [g] since.

    1. If the application's last call of enterExecutingMode asked for no iteration, the federate does not
       enter executing mode: [g] must first request execution itself (or go further). *)
Theorem C06_no_entry_before_dependency_requests :
  forall id o maxIter es e pre x post g pre' post',
  let f0 := fed_init id o maxIter in
  opts_ok o -> Forall wf_event (es ++ [e]) -> g <> id ->
  es ++ [e] = pre ++ x :: post -> Forall (quiet g) post ->
  (adds id g x /\ Forall (addsNot g) pre) \/ asksIteration (after f0 pre) g x ->
  es ++ [e] = pre' ++ Ev_enterExec NO_ITERATIONS :: post' -> f_st (after f0 pre') = INITIALIZING -> Forall notEnter post' ->
  f_st (after f0 es) = INITIALIZING -> f_st (after f0 (es ++ [e])) <> EXECUTING.
Proof.
  intros id o n es e pre x post g pre' post' f0 O W NG EQ QU H EQ' ST' NE ST.
  apply (C06_core unready (fun it _ => it = NO_ITERATIONS) id o n es e pre x post g); try assumption.
  - intros c t c' out r h E IT HA. eapply unready_blocks; eassumption.
  - apply kept_unready.
  - destruct H as [[A N]|A]; [left|right].
    + split; [exact A|]. split; [exact N|]. intros d [D1 D2]. split; [exact D2|]. unfold justInit in D1. rewrite D1. reflexivity.
    + split; [exact A|]. auto.
  - pose proof (last_enter id o n pre' NO_ITERATIONS post' e O) as L. cbn zeta in L. rewrite <- EQ' in L.
    rewrite removelast_last in L. apply L; auto. fold f0. rewrite ST. reflexivity.
Qed.
(** 2. Without wait_for_current_time: whatever iteration was asked for, a dependency which was only added, or
       which is in an initialization iteration it was granted, keeps the federate out of executing mode. *)
Theorem C06_initialized_dependency_blocks :
  forall id o maxIter es e pre x post g,
  let f0 := fed_init id o maxIter in
  opts_ok o -> Forall wf_event (es ++ [e]) -> g <> id ->
  es ++ [e] = pre ++ x :: post -> Forall (quiet g) post ->
  (adds id g x /\ Forall (addsNot g) pre) \/ grantsIteration (after f0 pre) g x ->
  o_wait (c_opts (f_tc (after f0 (es ++ [e])))) = false ->
  f_st (after f0 es) = INITIALIZING -> f_st (after f0 (es ++ [e])) <> EXECUTING.
Proof.
  intros id o n es e pre x post g f0 O W NG EQ QU H OW ST.
  apply (C06_core (fun d => justInit d /\ connection d <> c_SELF) (fun _ w => w = false) id o n es e pre x post g); try assumption.
  - intros c t c' out r h E IT HA. eapply init_blocks; eassumption.
  - apply kept_init.
  - destruct H as [[A N]|(cmd&A1&A2&A3&A4&A5)]; [left|right].
    + split; [exact A|]. split; [exact N|]. auto.
    + split; [exists cmd; tauto|]. intros cmd' d E [U1 U2] J. rewrite A1 in E. injection E as <-. split; [apply J; exact A4|exact U1].
Qed.
(** 3. And conversely nothing else keeps a federate out: with no iteration and without wait_for_current_time,
       a check of the entry succeeds exactly if no time barrier is at or before zero and every dependency
       (other than the federate itself) has requested execution without iteration or gone further. *)
Theorem C06_entry_exactly_when_ready :
  forall c t, c_iterating c = NO_ITERATIONS -> o_wait (c_opts c) = false ->
  (forall d, In d (c_deps c) -> connection d <> c_SELF) ->
  (snd (checkExecEntry c t) = NEXT_STEP <->
   0 < c_block c /\ forall d, In d (c_deps c) -> dependency d = true -> ts_leb ts_exec_requested (tst d) = true).
Proof.
  intros c t IT OW NS. unfold checkExecEntry. rewrite IT, OW. cbn [is_no_iter negb]. unfold timeZero.
  destruct (Z.leb_spec (c_block c) 0) as [L|L]; [split; [discriminate|lia]|].
  unfold checkIfReadyForExecEntry. rewrite negb_involutive.
  match goal with |- context [existsb ?f (c_deps c)] => destruct (existsb f (c_deps c)) eqn:X end.
  - rewrite andb_false_r. split; [discriminate|]. intros [_ A]. apply existsb_exists in X as (d&D1&D2).
    apply andb_true_iff in D2 as [D2 D3]. rewrite (A d D1 D2) in D3. discriminate D3.
  - unfold execDecision. cbn [c_iterating set_c_needSendAll c_opts]. rewrite IT, OW. cbn [negb].
    destruct (execAct _ NEXT_STEP) as [c2 o2]. cbn [execFollowUp snd]. split; [|reflexivity]. intros _. split; [lia|].
    intros d D1 D2. destruct (ts_leb ts_exec_requested (tst d)) eqn:TT; [reflexivity|]. exfalso. rewrite <- not_true_iff_false in X. apply X.
    apply existsb_exists. exists d. split; [exact D1|]. rewrite D2, TT. specialize (NS d D1).
    assert (conn_eqb (connection d) c_SELF = false) as K by (destruct (connection d); try reflexivity; contradiction). rewrite K. reflexivity.
Qed.

(** ** The hypotheses are met: a federate with a dependency asks to enter; the dependency grants itself an
    iteration and the federate stays; then the dependency requests execution and the federate enters *)
Definition saysIter (a : Z) : event :=
  match otherSays a 0 0 0 with Ev_msg m => Ev_msg (setFlag iteration_requested_flag m) | e => e end.
Theorem C06_not_vacuous :
  let f0 := fed_init me opts_default 50 in
  let pre := [initGrant; Ev_addDependency other; Ev_enterExec NO_ITERATIONS] in
  let es := pre ++ [saysIter CMD_EXEC_GRANT] in
  let e := Ev_maxIter 4 in
  opts_ok opts_default /\ Forall wf_event (es ++ [e]) /\ other <> me /\ asksIteration (after f0 pre) other (saysIter CMD_EXEC_GRANT)
  /\ grantsIteration (after f0 pre) other (saysIter CMD_EXEC_GRANT) /\ adds me other (Ev_addDependency other) /\ addsNot other initGrant
  /\ Forall (quiet other) [e] /\ f_st (after f0 [initGrant; Ev_addDependency other]) = INITIALIZING /\ f_st (after f0 es) = INITIALIZING
  /\ o_wait (c_opts (f_tc (after f0 (es ++ [e])))) = false
  /\ f_st (after f0 (es ++ [otherSays CMD_EXEC_REQUEST 0 0 0])) = EXECUTING.
Proof.
  cbn zeta. split; [unfold opts_ok, bigTime; cbn; lia|]. split; [repeat constructor; cbn; unfold maxVal; lia|]. split; [discriminate|].
  assert (G : grantsIteration (after (fed_init me opts_default 50) [initGrant; Ev_addDependency other; Ev_enterExec NO_ITERATIONS]) other (saysIter CMD_EXEC_GRANT)).
  { eexists. split; [reflexivity|]. split; [reflexivity|]. split; [vm_compute; reflexivity|]. split; reflexivity. }
  split; [destruct G as (cmd&A&B&C&D&E); exists cmd; tauto|]. split; [exact G|]. split; [left; reflexivity|]. split; [cbn; discriminate|].
  split; [repeat constructor|]. repeat split; vm_compute; reflexivity.
Qed.
