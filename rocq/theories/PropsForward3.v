(** * C11: whom a broker or core tells about times (ForwardingTimeCoordinator.cpp)

    The announcements go to the members of the table which depend on the coordinator, to no one else, and to all of them which
    can use the news.  The only exception is the separate message for the member which holds the time back; it is sent when
    a dependency with the wait_for_current_time option is known ([hasDelayed]). *)
From Coq Require Import ZArith Bool List Lia.
From Verif Require Import HTime Action TimeDep TimeDepProofs TimeCoord Forward PropsForward.
Import ListNotations.
Open Scope Z_scope.

(** [d] depends on the times of this coordinator and [m] is for it *)
Definition toldTo (m : amsg) (d : dinfo) : Prop := m_dest_id m = fedID d /\ dependent d = true.

Lemma up_told w m0 m : In m (transmitUpstream w m0) -> exists d, In d (w_deps w) /\ toldTo m d.
Proof.
  unfold transmitUpstream. intros H. apply in_map_iff in H as (d & <- & H). apply filter_In in H as [H U]. exists d. split; [exact H|].
  split; [reflexivity|]. unfold toUpstream in U. apply andb_true_iff in U. tauto.
Qed.
Lemma down_told w m0 skip m : In m (transmitDownstream w m0 skip) -> exists d, In d (w_deps w) /\ toldTo m d.
Proof.
  unfold transmitDownstream. intros H. apply in_map_iff in H as (d & <- & H). apply filter_In in H as [H U]. exists d. split; [exact H|].
  split; [reflexivity|]. revert U. unfold toDownstream. destruct (_ || _); rewrite !andb_true_iff; tauto.
Qed.
Lemma unless_in m0 l m : In m (unlessIgnored m0 l) -> In m l.
Proof. unfold unlessIgnored. destruct (_ =? _); [intros []|auto]. Qed.

Lemma update_told w m : In m (snd (fwdUpdate w)) -> (exists d, In d (w_deps w) /\ toldTo m d) \/ hasDelayed w = true.
Proof.
  unfold fwdUpdate. pose proof (recompute_frame w) as FR. cbv zeta in FR. destruct (recompute w) as [[[w1 u1] u2] md]. cbn [fst snd] in *. destruct FR as (D & _ & _ & _ & _ & _ & _ & HD).
  unfold hasDelayed. rewrite <- D, <- HD. destruct (isValidId (w_delayed w1)); [auto|]. cbn [andb]. intros H. left. apply in_app_or in H as [H|H].
  - destruct (u1 || u2); [|destruct H]. apply unless_in in H. apply (up_told _ _ _ H).
  - destruct u2; [|destruct H]. apply unless_in in H. apply (down_told _ _ _ _ H).
Qed.
Lemma exec_told w m : In m (snd (fst (fwdExecEntry w))) -> exists d, In d (w_deps w) /\ toldTo m d.
Proof.
  unfold fwdExecEntry. destruct (execAllowed w); [|intros []]. cbn [fst snd]. intros H. apply in_app_or in H as [H|H].
  - apply (down_told _ _ _ _ H).
  - apply (up_told _ _ _ H).
Qed.
Lemma message_told w cmd m : In m (snd (fst (fwdMessage w cmd))) -> m_action m = CMD_GLOBAL_ERROR.
Proof. intros I. pose proof (fwdMessage_frame w cmd) as (_&_&_&_&E). rewrite Forall_forall in E. auto. Qed.

(** [w0]: before the event, [w]: after it *)
Definition somebody (w0 w : fwd) (m : amsg) : Prop :=
  m_action m = CMD_GLOBAL_ERROR \/ (exists d, In d (w_deps w) /\ toldTo m d) \/ hasDelayed w0 = true \/ hasDelayed w = true.
Lemma update_deps w : w_deps (fst (fwdUpdate w)) = w_deps w /\ w_delayed (fst (fwdUpdate w)) = w_delayed w.
Proof.
  unfold fwdUpdate. pose proof (recompute_frame w) as FR. cbv zeta in FR. destruct (recompute w) as [[[w1 u1] u2] md]. cbn [fst snd] in *. tauto.
Qed.
Lemma update_some w0 w m : In m (snd (fwdUpdate w)) -> somebody w0 (fst (fwdUpdate w)) m.
Proof.
  intros H. destruct (update_deps w) as [D1 D2]. unfold somebody, hasDelayed. rewrite D1, D2. apply update_told in H as [H|H]; [auto|]. right. right. right. exact H.
Qed.
Lemma exec_some w0 w m : In m (snd (fst (fwdExecEntry w))) -> somebody w0 (fst (fst (fwdExecEntry w))) m.
Proof. intros H. pose proof (execEntry_frame w) as (D&_). cbv zeta in D. unfold somebody. rewrite D. right. left. apply exec_told, H. Qed.
Lemma entered_some w0 w b m : somebody w0 w m -> somebody w0 (if b : bool then set_w_entered true w else w) m.
Proof. destruct b; exact (fun H => H). Qed.

Lemma bstep_some w e m : In m (snd (bstep w e)) -> somebody w (fst (bstep w e)) m.
Proof.
  assert (MSG : forall cmd w' m, In m (snd (fst (fwdMessage w cmd))) -> somebody w w' m) by (intros cmd w' m0 I; left; apply (message_told w cmd m0 I)).
  destruct e as [cmd|cmd|cmd|cmd|cmd|g|g|]; cbn [bstep].
  - specialize (MSG cmd). destruct (fwdMessage w cmd) as [[w1 o1] r]. cbn [fst snd] in MSG. destruct (negb (tprProcessed r)); cbn [fst snd]; [apply MSG|].
    destruct (w_entered w1).
    + pose proof (update_some w w1 m) as U. destruct (fwdUpdate w1) as [w2 o2]. cbn [fst snd] in *. intros H. apply in_app_or in H as [H|H]; [apply MSG, H|apply U, H].
    + destruct (w_operating w1); cbn [fst snd]; [|apply MSG]. pose proof (exec_some w w1 m) as U. unfold noteEntry. destruct (fwdExecEntry w1) as [[w2 o2] b]. cbn [fst snd] in *.
      intros H. apply in_app_or in H as [H|H]; [apply MSG, H|]. apply entered_some, U, H.
  - specialize (MSG cmd). destruct (fwdMessage w cmd) as [[w1 o1] r]. cbn [fst snd] in MSG. destruct (negb (tprProcessed r)); cbn [fst snd]; [apply MSG|].
    destruct (negb (w_entered w1) && w_operating w1); cbn [fst snd]; [|apply MSG].
    pose proof (exec_some w w1 m) as U. assert (NO : snd (fwdExecEntry w1) = false -> snd (fst (fwdExecEntry w1)) = []) by (unfold fwdExecEntry; destruct (execAllowed w1); [discriminate|reflexivity]).
    destruct (fwdExecEntry w1) as [[w2 o2] b]. cbn [fst snd] in *. destruct b.
    + cbn [fst snd]. intros H. apply in_app_or in H as [H|H]; [apply MSG, H|]. exact (U H).
    + rewrite (NO eq_refl). pose proof (update_some w w2 m) as U2. destruct (fwdUpdate w2) as [w3 o3]. cbn [fst snd app] in *. intros H. apply in_app_or in H as [H|H]; [apply MSG, H|apply U2, H].
  - specialize (MSG cmd). destruct (negb (w_entered w)).
    + destruct (w_operating w); [|intros []]. destruct (fwdMessage w cmd) as [[w1 o1] r]. cbn [fst snd] in MSG. destruct (tprProcessed r); cbn [fst snd]; [|apply MSG].
      pose proof (exec_some w w1 m) as U. unfold noteEntry. destruct (fwdExecEntry w1) as [[w2 o2] b]. cbn [fst snd] in *.
      intros H. apply in_app_or in H as [H|H]; [apply MSG, H|]. apply entered_some, U, H.
    + destruct (fwdMessage w cmd) as [[w1 o1] r]. cbn [fst snd] in MSG. destruct (tprProcessed r); cbn [fst snd]; [|apply MSG].
      pose proof (update_some w w1 m) as U. destruct (fwdUpdate w1) as [w2 o2]. cbn [fst snd] in *. intros H. apply in_app_or in H as [H|H]; [apply MSG, H|apply U, H].
  - specialize (MSG cmd). destruct (fwdMessage w cmd) as [[w1 o1] r]. cbn [fst snd] in *. apply MSG.
  - intros [].
  - intros [].
  - destruct (fwdAddDependency w g) as [w1 a]. destruct a; intros [].
  - clear MSG. change (hasDelayed w) with (hasDelayed (set_w_operating true w)). set (w0 := set_w_operating true w).
    assert (E : forall m, In m (snd (fwdEnteringExec w0)) -> somebody w0 (fst (fwdEnteringExec w0)) m).
    { clear m. unfold fwdEnteringExec. destruct (w_execMode w0); [intros m []|].
      set (p := match w_deps w0 with [] => (w0, [], false) | _ => _ end).
      assert (P : forall m, In m (snd (fst p)) -> somebody w0 (fst (fst p)) m).
      { intros m. subst p. pose proof (update_told w0 m) as U. destruct (update_deps w0) as [D1 D2]. destruct (w_deps w0) eqn:WD; [intros []|]. destruct (fwdUpdate w0) as [w1 o1]. cbn [fst snd] in *.
        assert (K : In m o1 -> somebody w0 (set_w_delayed (noteDelayed (w_deps w1) (w_delayed w1)) w1) m).
        { intros H. apply U in H as [H|H]; unfold somebody; cbn [w_deps set_w_delayed]; [rewrite D1|]; auto. }
        destruct (checkForIssues false _); cbn [fst snd]; [|exact K]. intros H. apply in_app_or in H as [H|[<-|[]]]; [apply K, H|left; reflexivity]. }
      clearbody p. intros m. destruct p as [[w1 o1] bad]. cbn [fst snd] in P. destruct bad; cbn [fst snd]; [apply P|]. intros H. apply in_app_or in H as [H|H]; [apply (P m H)|].
      apply in_map_iff in H as (d & <- & H). apply filter_In in H. right. left. exists d. split; [apply H|]. split; [reflexivity|apply H]. }
    specialize (E m). destruct (fwdEnteringExec w0) as [w1 o1]. cbn [fst snd] in E. pose proof (exec_some w0 w1 m) as U. pose proof (execEntry_frame w1) as (D&_). cbv zeta in D.
    assert (DL : w_delayed (fst (fst (fwdExecEntry w1))) = w_delayed w1) by (unfold fwdExecEntry; destruct (execAllowed w1); reflexivity).
    unfold noteEntry. destruct (fwdExecEntry w1) as [[w2 o2] b]. cbn [fst snd] in *.
    intros H. apply in_app_or in H as [H|H]; apply (entered_some w0); [|apply U, H]. specialize (E H). unfold somebody, hasDelayed in *. rewrite D, DL. exact E.
Qed.

(** **** C11: a broker sends its announcements only to those which depend on it (errors go to its own broker) *)
Theorem C11_only_dependents_are_told id restrictive es e m :
  let before := brun (fwd_init id restrictive) es in
  let after := fst (bstep before e) in
  In m (snd (bstep before e)) -> m_action m <> CMD_GLOBAL_ERROR -> hasDelayed before = false -> hasDelayed after = false ->
  exists d, In d (w_deps after) /\ m_dest_id m = fedID d /\ dependent d = true.
Proof.
  cbv zeta. intros I N H1 H2. destruct (bstep_some _ e m I) as [E|[E|[E|E]]]; [contradiction|exact E|congruence|congruence].
Qed.

(** ** and all of them are told *)
Lemma exec_all w : snd (fwdExecEntry w) = true -> forall d, In d (w_deps w) -> dependent d = true -> fedID d <> invalidId ->
  exists m, In m (snd (fst (fwdExecEntry w))) /\ m_action m = CMD_EXEC_GRANT /\ m_dest_id m = fedID d.
Proof.
  unfold fwdExecEntry. destruct (execAllowed w); [|discriminate]. intros _ d I D V. cbn [fst snd].
  set (m0 := newMsg _ _). exists (set_m_dest_id (fedID d) (withResponse m0 d)). split; [|split; reflexivity].
  apply in_or_app. left. unfold transmitDownstream. apply in_map_iff. exists d. split; [reflexivity|]. apply filter_In. split; [exact I|]. unfold toDownstream. cbn [m0 m_action newMsg].
  change (_ || _) with false. cbv iota. rewrite D. cbn [andb]. destruct (Z.eqb_spec (fedID d) invalidId); [contradiction|reflexivity].
Qed.
Lemma message_entered w cmd : w_entered (fst (fst (fwdMessage w cmd))) = w_entered w.
Proof.
  unfold fwdMessage. set (w1 := if fwdRemoves _ then _ else w). assert (E : w_entered w1 = w_entered w) by (unfold w1; destruct (fwdRemoves _); reflexivity). clearbody w1.
  destruct (updateTime (w_deps w1) cmd) as [dp r]. destruct r; exact E.
Qed.
Lemma update_entered w : w_entered (fst (fwdUpdate w)) = w_entered w.
Proof. unfold fwdUpdate. pose proof (recompute_frame w) as FR. cbv zeta in FR. destruct (recompute w) as [[[w1 u1] u2] md]. cbn [fst snd] in *. tauto. Qed.
Lemma exec_entered w : w_entered (fst (fst (fwdExecEntry w))) = w_entered w.
Proof. unfold fwdExecEntry. destruct (execAllowed w); reflexivity. Qed.
(** joining and leaving do not touch the computed times *)
Definition kept (w w' : fwd) : Prop := w_entered w' = w_entered w /\ w_down w' = w_down w /\ w_execMode w' = w_execMode w.
Lemma kept_trans a b c : kept a b -> kept b c -> kept a c.
Proof. unfold kept. intuition congruence. Qed.
Lemma connection_kept w g k : kept w (fwdConnection w g k).
Proof. unfold fwdConnection. destruct (_ =? _); [repeat split|]. destruct k, (getDep (w_deps w) g); repeat split. Qed.
Lemma add_kept w g : kept w (fst (fwdAddDependency w g)).
Proof. unfold fwdAddDependency. destruct (addDependency (w_deps w) g). repeat split. Qed.
Lemma update_kept w cmd : kept w (fwdDependencyUpdate w cmd).
Proof.
  unfold fwdDependencyUpdate. set (p := if m_action cmd =? CMD_ADD_DEPENDENCY then _ else _). assert (P : kept w (fst p)).
  { subst p. pose proof (add_kept w (m_source_id cmd)) as A. destruct (fwdAddDependency w (m_source_id cmd)) as [w1 a]. cbn [fst] in A.
    repeat (match goal with |- kept _ (fst (if ?b then _ else _)) => destruct b end); cbn [fst]; try (repeat split; fail); [exact A|].
    apply (kept_trans _ _ _ A). repeat split. }
  clearbody p. destruct p as [w1 a]. cbn [fst] in P. destruct a; [|exact P].
  set (w2 := if checkFlag child_flag cmd then _ else w1). assert (K2 : kept w w2) by (unfold w2; destruct (checkFlag _ _); [apply (kept_trans _ _ _ P), connection_kept|exact P]). clearbody w2.
  set (w3 := if checkFlag parent_flag cmd then _ else w2). assert (K3 : kept w w3) by (unfold w3; destruct (checkFlag _ _); [apply (kept_trans _ _ _ K2), connection_kept|exact K2]). clearbody w3.
  destruct (_ <? _); [|exact K3]. apply (kept_trans _ _ _ K3). repeat split.
Qed.
Lemma child_kept w g : kept w (fst (bstep w (B_child g))).
Proof. cbn [bstep fst]. eapply kept_trans; [apply add_kept|]. eapply kept_trans; [|apply connection_kept]. repeat split. Qed.
Lemma parent_kept w g : kept w (fst (bstep w (B_parent g))).
Proof.
  cbn [bstep fst]. pose proof (add_kept w g) as A. destruct (fwdAddDependency w g) as [w1 a]. cbn [fst] in *. destruct a; [|exact A].
  eapply kept_trans; [exact A|]. eapply kept_trans; [|apply connection_kept]. repeat split.
Qed.
Definition execToldTo (out : list amsg) (d : dinfo) : Prop := exists m, In m out /\ m_action m = CMD_EXEC_GRANT /\ m_dest_id m = fedID d.
Lemma execTold_app o1 o2 d : execToldTo o2 d -> execToldTo (o1 ++ o2) d.
Proof. intros (m & A & B). exists m. split; [apply in_or_app; auto|exact B]. Qed.
Lemma noteEntry_all w : w_entered w = false -> w_entered (fst (noteEntry (fwdExecEntry w))) = true ->
  forall d, In d (w_deps (fst (noteEntry (fwdExecEntry w)))) -> dependent d = true -> fedID d <> invalidId -> execToldTo (snd (noteEntry (fwdExecEntry w))) d.
Proof.
  intros E. pose proof (exec_all w) as A. pose proof (execEntry_frame w) as (D&_). cbv zeta in D. pose proof (exec_entered w) as EE. unfold noteEntry.
  destruct (fwdExecEntry w) as [[w1 o] b]. cbn [fst snd] in *. destruct b; [|congruence]. intros _ d I. cbn [w_deps set_w_entered] in I. rewrite D in I. apply (A eq_refl d I).
Qed.

(** **** C11: when a broker enters the execution mode, everyone who depends on it is told so *)
Theorem C11_execution_is_announced_to_all id restrictive es e d :
  let before := brun (fwd_init id restrictive) es in
  let after := fst (bstep before e) in
  w_entered before = false -> w_entered after = true -> In d (w_deps after) -> dependent d = true -> fedID d <> invalidId ->
  exists m, In m (snd (bstep before e)) /\ m_action m = CMD_EXEC_GRANT /\ m_dest_id m = fedID d.
Proof.
  cbv zeta. generalize (brun (fwd_init id restrictive) es) as w. clear es. intros w NE EN I D V. change (execToldTo (snd (bstep w e)) d). revert EN I.
  destruct e as [cmd|cmd|cmd|cmd|cmd|g|g|]; cbn [bstep].
  - pose proof (message_entered w cmd) as ME. destruct (fwdMessage w cmd) as [[w1 o1] r]. cbn [fst snd] in ME. rewrite NE in ME. destruct (negb (tprProcessed r)); cbn [fst snd]; [congruence|].
    rewrite ME. destruct (w_operating w1); cbn [fst snd]; [|congruence]. pose proof (noteEntry_all w1 ME) as A. destruct (noteEntry (fwdExecEntry w1)) as [w2 o2]. cbn [fst snd] in *.
    intros EN I. apply execTold_app, A; assumption.
  - pose proof (message_entered w cmd) as ME. destruct (fwdMessage w cmd) as [[w1 o1] r]. cbn [fst snd] in ME. rewrite NE in ME. destruct (negb (tprProcessed r)); cbn [fst snd]; [congruence|].
    rewrite ME. cbn [negb andb]. destruct (w_operating w1); cbn [fst snd]; [|congruence]. pose proof (noteEntry_all w1 ME) as A. unfold noteEntry in A. pose proof (exec_entered w1) as EE.
    destruct (fwdExecEntry w1) as [[w2 o2] b]. cbn [fst snd] in *. destruct b; cbn [fst snd] in *.
    + intros EN I. apply execTold_app, A; assumption.
    + pose proof (update_entered w2) as UE. destruct (fwdUpdate w2) as [w3 o3]. cbn [fst snd] in *. congruence.
  - rewrite NE. cbn [negb]. destruct (w_operating w); [|cbn [fst]; congruence]. pose proof (message_entered w cmd) as ME. destruct (fwdMessage w cmd) as [[w1 o1] r]. cbn [fst snd] in ME. rewrite NE in ME.
    destruct (tprProcessed r); cbn [fst snd]; [|congruence]. pose proof (noteEntry_all w1 ME) as A. destruct (noteEntry (fwdExecEntry w1)) as [w2 o2]. cbn [fst snd] in *.
    intros EN I. apply execTold_app, A; assumption.
  - pose proof (message_entered w cmd) as ME. destruct (fwdMessage w cmd) as [[w1 o1] r]. cbn [fst snd] in *. congruence.
  - cbn [fst]. destruct (update_kept w cmd) as [-> _]. congruence.
  - cbn [fst]. destruct (child_kept w g) as [K _]. cbn [bstep fst] in K. rewrite K. congruence.
  - destruct (parent_kept w g) as [K _]. cbn [bstep] in K. rewrite K. congruence.
  - set (w0 := set_w_operating true w). assert (E : w_entered (fst (fwdEnteringExec w0)) = false).
    { unfold fwdEnteringExec. destruct (w_execMode w0); [exact NE|]. set (p := match w_deps w0 with [] => (w0, [], false) | _ => _ end).
      assert (P : w_entered (fst (fst p)) = false).
      { subst p. pose proof (update_entered w0) as U. destruct (w_deps w0); [exact NE|]. destruct (fwdUpdate w0) as [w1 o1]. cbn [fst] in U. destruct (checkForIssues false _); cbn; rewrite U; exact NE. }
      clearbody p. destruct p as [[w1 o1] bad]. destruct bad; exact P. }
    destruct (fwdEnteringExec w0) as [w1 o1]. cbn [fst] in E. pose proof (noteEntry_all w1 E) as A. destruct (noteEntry (fwdExecEntry w1)) as [w2 o2]. cbn [fst snd] in *.
    intros EN I. apply execTold_app, A; assumption.
Qed.

(** [d] can use the announcement of the time [t]: it is not known to be beyond [t] itself *)
Definition canUse (t : Z) (d : dinfo) : Prop := dependency d = false \/ next d <= t \/ cTerminationTime <= next d.
Lemma adjusted_next (up dn : tdata) : next (if ts_eqb (tst up) ts_time_requested then
    let down := if minDe up <? minDe dn then set_minDe (minDe up) dn else dn in if Te up <? Te down then set_Te (Te up) down else down else dn) = next dn.
Proof. destruct (ts_eqb _ _); [|reflexivity]. cbv zeta. destruct (minDe up <? minDe dn); destruct (Te up <? _); reflexivity. Qed.
Lemma update_all w : let w' := fst (fwdUpdate w) in
  next (w_down w') <> next (w_down w) -> tst (w_down w') = ts_time_requested \/ tst (w_down w') = ts_time_granted ->
  forall d, In d (w_deps w') -> connection d = c_CHILD -> dependent d = true -> canUse (next (w_down w')) d -> fedID d <> invalidId ->
    (hasDelayed w' = true -> fedID d <> minFed (w_down w')) ->
  exists m, In m (snd (fwdUpdate w)) /\ m_dest_id m = fedID d /\ releasesTime m /\ m_actionTime m = next (w_down w').
Proof.
  cbv zeta. unfold fwdUpdate. pose proof (recompute_frame w) as FR. cbv zeta in FR.
  assert (UD : let '(w1, _, u2, _) := recompute w in next (w_down w1) <> next (w_down w) -> u2 = true).
  { unfold recompute. destruct (if _ || negb (w_execMode w) then td_update (w_up w) _ else _) as [up u1].
    set (md := if w_noParent w then _ else _). destruct (ts_ltb ts_exec_requested (tst md) || negb (w_execMode w)).
    - destruct (td_update (w_down w) md) as [dn u2] eqn:T. unfold td_update in T. apply pair_equal_spec in T as [T1 T2].
      cbn [w_down set_w_seq set_w_down]. rewrite adjusted_next. replace (next dn) with (next md) by (rewrite <- T1; reflexivity). intros NE. rewrite <- T2. destruct (Z.eqb_spec (next (w_down w)) (next md)) as [E|E]; [congruence|].
      cbn [negb]. rewrite !orb_true_r. rewrite ?orb_true_l. reflexivity.
    - cbn [w_down set_w_seq set_w_down]. rewrite adjusted_next. congruence. }
  destruct (recompute w) as [[[w1 u1] u2] md]. cbn [fst snd] in *. intros NE ST d I C D U V ND. rewrite (UD NE).
  set (m0 := forwardRequest w1 (w_down w1) invalidId 0).
  assert (A0 : releasesTime m0) by (unfold releasesTime, m0, forwardRequest, generateTimeRequest, setFlagIf; destruct ST as [-> | ->]; destruct (interrupted (w_down w1)); auto).
  assert (T0 : m_actionTime m0 = next (w_down w1)) by (apply request_time; destruct ST as [-> | ->]; reflexivity).
  assert (ALL : forall skip, fedID d <> skip -> In (set_m_dest_id (fedID d) (withResponse m0 d)) (unlessIgnored m0 (transmitDownstream w1 m0 skip))).
  { intros skip NS. unfold unlessIgnored. replace (m_action m0 =? CMD_IGNORE) with false by (destruct A0 as [-> | ->]; reflexivity).
    unfold transmitDownstream. apply in_map_iff. exists d. split; [reflexivity|]. apply filter_In. split; [exact I|]. unfold toDownstream.
    replace ((m_action m0 =? CMD_TIME_REQUEST) || (m_action m0 =? CMD_TIME_GRANT)) with true by (destruct A0 as [-> | ->]; reflexivity).
    rewrite C, D, T0. cbn [conn_eqb andb]. destruct (Z.eqb_spec (fedID d) skip); [contradiction|]. cbn [negb andb].
    destruct U as [U|[U|U]]; [rewrite U; reflexivity| |]; destruct (dependency d); cbn [andb negb]; try reflexivity.
    - destruct (Z.ltb_spec (next (w_down w1)) (next d)); [lia|reflexivity].
    - destruct (Z.ltb_spec (next d) cTerminationTime); [lia|]. rewrite andb_false_r. reflexivity. }
  exists (set_m_dest_id (fedID d) (withResponse m0 d)). destruct (withResponse_facts m0 d) as [WA WT]. split; [|split; [reflexivity|split]].
  - apply in_or_app. right. destruct (hasDelayed w1 && isValidId (minFed (w_down w1))) eqn:HD.
    + apply andb_true_iff in HD as [HD _]. apply in_or_app. left. apply ALL, ND, HD.
    + apply ALL, V.
  - unfold releasesTime. cbn [m_action set_m_dest_id]. rewrite WA. exact A0.
  - cbn [m_actionTime set_m_dest_id]. rewrite WT. exact T0.
Qed.

Lemma message_down w cmd : w_down (fst (fst (fwdMessage w cmd))) = w_down w.
Proof.
  unfold fwdMessage. set (w1 := if fwdRemoves _ then _ else w). assert (E : w_down w1 = w_down w) by (unfold w1; destruct (fwdRemoves _); reflexivity). clearbody w1.
  destruct (updateTime (w_deps w1) cmd) as [dp r]. destruct r; exact E.
Qed.
(** **** C11: when the time which an executing broker has computed for its children changes, every child which depends on it and is
    not itself known to be beyond that time is told the new one (with a wait_for_current_time dependency somewhere, the
    child which holds the time back gets its own message instead) *)
Theorem C11_new_times_are_announced_to_all id restrictive es e d :
  let before := brun (fwd_init id restrictive) es in
  let after := fst (bstep before e) in
  let t := next (w_down after) in
  w_entered before = true -> e <> B_init -> t <> next (w_down before) ->
  tst (w_down after) = ts_time_requested \/ tst (w_down after) = ts_time_granted ->
  In d (w_deps after) -> connection d = c_CHILD -> dependent d = true -> canUse t d -> fedID d <> invalidId ->
  (hasDelayed after = true -> fedID d <> minFed (w_down after)) ->
  exists m, In m (snd (bstep before e)) /\ m_dest_id m = fedID d /\ releasesTime m /\ m_actionTime m = t.
Proof.
  cbv zeta. generalize (brun (fwd_init id restrictive) es) as w. clear es. intros w EN NB. destruct e as [cmd|cmd|cmd|cmd|cmd|g|g|]; cbn [bstep].
  - pose proof (message_entered w cmd) as ME. pose proof (message_down w cmd) as MD. destruct (fwdMessage w cmd) as [[w1 o1] r]. cbn [fst snd] in ME, MD. rewrite EN in ME.
    destruct (negb (tprProcessed r)); cbn [fst snd]; [intros N; congruence|]. rewrite ME. pose proof (update_all w1) as U. destruct (fwdUpdate w1) as [w2 o2]. cbn [fst snd] in *.
    rewrite MD in U. intros N ST I C D CU V ND. destruct (U N ST d I C D CU V ND) as (m & M1 & M2). exists m. split; [apply in_or_app; right; exact M1|exact M2].
  - pose proof (message_entered w cmd) as ME. pose proof (message_down w cmd) as MD. destruct (fwdMessage w cmd) as [[w1 o1] r]. cbn [fst snd] in ME, MD. rewrite EN in ME.
    destruct (negb (tprProcessed r)); cbn [fst snd]; [intros N; congruence|]. rewrite ME. cbn [negb andb fst]. intros N; congruence.
  - rewrite EN. cbn [negb]. pose proof (message_down w cmd) as MD. destruct (fwdMessage w cmd) as [[w1 o1] r]. cbn [fst snd] in MD. destruct (tprProcessed r); cbn [fst snd]; [|intros N; congruence].
    pose proof (update_all w1) as U. destruct (fwdUpdate w1) as [w2 o2]. cbn [fst snd] in *.
    rewrite MD in U. intros N ST I C D CU V ND. destruct (U N ST d I C D CU V ND) as (m & M1 & M2). exists m. split; [apply in_or_app; right; exact M1|exact M2].
  - pose proof (message_down w cmd) as MD. destruct (fwdMessage w cmd) as [[w1 o1] r]. cbn [fst snd] in *. intros N; congruence.
  - cbn [fst]. destruct (update_kept w cmd) as (_ & -> & _). intros N; congruence.
  - destruct (child_kept w g) as (_ & K & _). cbn [bstep] in K. rewrite K. intros N; congruence.
  - destruct (parent_kept w g) as (_ & K & _). cbn [bstep] in K. rewrite K. intros N; congruence.
  - congruence.
Qed.

(** ** Concrete histories which meet the hypotheses *)
Definition f3core : Z := 1879048193.
Definition f3a : Z := 131072.
Definition f3b : Z := 131073.
Definition f3join (f : Z) : bevent := B_dependency (set_m_flags (Z.shiftl 1 child_flag) (newMsg CMD_ADD_INTERDEPENDENCY f)).
Definition f3says (a f t : Z) : bevent := B_timing (set_m_Tdemin t (set_m_Te t (set_m_actionTime t (newMsg a f)))).
Definition f3start : list bevent := [f3join f3a; f3join f3b; B_init; B_exec (newMsg CMD_EXEC_REQUEST f3a)].
Definition f3exec : bevent := B_exec (newMsg CMD_EXEC_REQUEST f3b).
Definition f3asked : list bevent := f3start ++ [f3exec; f3says CMD_TIME_GRANT f3a 0; f3says CMD_TIME_GRANT f3b 0; f3says CMD_TIME_REQUEST f3a 10].
Example C11_recipients_meet_hypotheses :
  (let before := brun (fwd_init f3core true) f3start in
   w_entered before = false /\ w_entered (fst (bstep before f3exec)) = true /\ hasDelayed before = false /\ hasDelayed (fst (bstep before f3exec)) = false
   /\ map (fun m => (m_action m, m_dest_id m)) (snd (bstep before f3exec)) = [(CMD_EXEC_GRANT, f3a); (CMD_EXEC_GRANT, f3b)])
  /\ (let before := brun (fwd_init f3core true) f3asked in let after := fst (bstep before (f3says CMD_TIME_REQUEST f3b 7)) in
      w_entered before = true /\ next (w_down after) = 7 /\ next (w_down before) = 0 /\ tst (w_down after) = ts_time_requested
      /\ exists d, In d (w_deps after) /\ connection d = c_CHILD /\ dependent d = true /\ canUse 7 d /\ fedID d = f3b).
Proof.
  cbv zeta. split.
  - vm_compute. repeat split.
  - split; [vm_compute; reflexivity|]. split; [vm_compute; reflexivity|]. split; [vm_compute; reflexivity|]. split; [vm_compute; reflexivity|].
    eexists. split; [vm_compute; right; left; reflexivity|]. vm_compute. repeat split. right. left. discriminate.
Qed.
