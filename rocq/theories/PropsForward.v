(** * C11: brokers never report a time later than what the federates behind them announced *)
From Coq Require Import ZArith Bool List Lia ZifyBool.
From Verif Require Import HTime Action TimeDep TimeCoord TimeDepProofs MinTimeProofs Forward.
Import ListNotations.
Open Scope Z_scope.

(** ** Specification *)
(** what a dependency has announced about its future: with the restrictive policy its next time, otherwise
    the later of its next time and of the earliest event that can still reach it *)
Definition promised (restrictive : bool) (d : dinfo) : Z :=
  if restrictive then next d else Z.max (next d) (minDe d).
(** a federate or broker that is past initialization *)
Definition pastInit (d : dinfo) : Prop := ts_leb ts_time_granted (tst d) = true.
(** a parent of the broker is in the table *)
Definition hasParent (l : table) : bool := existsb (fun d => conn_eqb (connection d) c_PARENT) l.
(** whose time a message to [receiver] speaks for: a child of a broker that has a parent hears about the parent;
    everybody else hears about everything below the broker except itself *)
Definition speaksFor (l : table) (receiver d : dinfo) : bool :=
  dependency d && negb (fedID d =? fedID receiver) && (next d <? cTerminationTime)
  && negb (fedID d =? invalidId) && negb (conn_eqb (connection d) c_SELF)
  && (if conn_eqb (connection receiver) c_CHILD && hasParent l
      then conn_eqb (connection d) c_PARENT else negb (conn_eqb (connection d) c_PARENT)).
(** the messages that release time *)
Definition releasesTime (m : amsg) : Prop := m_action m = CMD_TIME_REQUEST \/ m_action m = CMD_TIME_GRANT.

(** ** Table invariant of all histories *)
Definition entryOk (np : bool) (d : dinfo) : Prop := minFedActual d = invalidId /\ (np = true -> connection d <> c_PARENT).
Lemma alter_forall (P : dinfo -> Prop) l g f :
  (forall d, P d -> forall d', f (Some d) = Some d' -> P d') -> (forall d', f None = Some d' -> P d') ->
  Forall P l -> Forall P (alter l g f).
Proof.
  intros FS FN FL. unfold alter. destruct (lower_bound l g) as [a b] eqn:E.
  pose proof (lower_bound_app _ _ _ _ E) as ->. apply Forall_app in FL. destruct FL as [FA FB].
  assert (ON : Forall P (opt2l (f None))).
  { destruct (f None) as [x|] eqn:EN; cbn; [constructor; [apply FN; reflexivity|constructor]|constructor]. }
  destruct b as [|d b]; [apply Forall_app; split; assumption|].
  inversion FB as [|? ? PD FB']; subst.
  assert (OS : Forall P (opt2l (f (Some d)))).
  { destruct (f (Some d)) as [x|] eqn:EN; cbn; [constructor; [apply (FS d PD); exact EN|constructor]|constructor]. }
  destruct (fedID d =? g).
  - apply Forall_app; split; [exact FA|]. apply Forall_app; split; assumption.
  - apply Forall_app; split; [exact FA|]. apply Forall_app; split; [exact ON|constructor; assumption].
Qed.
Lemma msg_minFedActual cmd d : minFedActual (fst (processMessage cmd d)) = minFedActual d.
Proof.
  unfold processMessage, clearUpdateReq. destruct (tkind_of (m_action cmd)); cbn;
  repeat match goal with |- context [if ?b then _ else _] => destruct b; cbn end; reflexivity.
Qed.
Section Inv.
  Context (np : bool).
  Notation Ok := (Forall (entryOk np)).
  Lemma ok_addDependency l g : Ok l -> Ok (fst (addDependency l g)).
  Proof.
    rewrite addDependency_alter. apply alter_forall; [intros d H d'|intros d']; cbn.
    - destruct (cTerminationTime <? _); intros E; injection E as <-; exact H.
    - intros E; injection E as <-. split; [reflexivity|discriminate].
  Qed.
  Lemma ok_addDependent l g : Ok l -> Ok (fst (addDependent l g)).
  Proof.
    rewrite addDependent_alter. apply alter_forall; [intros d H d'|intros d']; cbn; intros E; injection E as <-; [exact H|].
    split; [reflexivity|discriminate].
  Qed.
  Lemma ok_removeDependency l g : Ok l -> Ok (removeDependency l g).
  Proof.
    rewrite removeDependency_alter. apply alter_forall; [intros d H d'|intros d']; cbn; [|discriminate].
    destruct (dependent d); intros E; [injection E as <-; exact H|discriminate].
  Qed.
  Lemma ok_removeDependent l g : Ok l -> Ok (removeDependent l g).
  Proof.
    rewrite removeDependent_alter. apply alter_forall; [intros d H d'|intros d']; cbn; [|discriminate].
    destruct (dependency d); intros E; [injection E as <-; exact H|discriminate].
  Qed.
  Lemma ok_upd l g f : (forall d, entryOk np d -> entryOk np (f d)) -> Ok l -> Ok (updDep l g f).
  Proof.
    intros F. rewrite updDep_alter. apply alter_forall; [intros d H d'|intros d']; cbn; [|discriminate].
    intros E; injection E as <-. apply F; exact H.
  Qed.
  Lemma ok_updateTime l cmd : Ok l -> Ok (fst (updateTime l cmd)).
  Proof.
    intros H. unfold updateTime. destruct (getDep l (m_source_id cmd)); [|exact H].
    destruct (negb (dependency d)); [exact H|]. apply ok_upd; [|exact H].
    intros e [H1 H2]. split; [rewrite msg_minFedActual; exact H1|].
    destruct (processMessage_static cmd e) as (_&_&_&C). rewrite C. exact H2.
  Qed.
End Inv.
Lemma entryOk_weak np d : entryOk np d -> entryOk false d.
Proof. intros [H _]. split; [exact H|discriminate]. Qed.
Definition fwdOk (w : fwd) : Prop := Forall (entryOk (w_noParent w)) (w_deps w).

Lemma fwdMessage_frame w cmd : let w' := fst (fst (fwdMessage w cmd)) in
  w_noParent w' = w_noParent w /\ w_restrictive w' = w_restrictive w /\ w_id w' = w_id w
  /\ (fwdOk w -> fwdOk w') /\ Forall (fun m => m_action m = CMD_GLOBAL_ERROR) (snd (fst (fwdMessage w cmd))).
Proof.
  cbn zeta. unfold fwdMessage.
  set (w1 := if fwdRemoves (m_action cmd) then _ else w).
  assert (H1 : w_noParent w1 = w_noParent w /\ w_restrictive w1 = w_restrictive w /\ w_id w1 = w_id w /\ (fwdOk w -> fwdOk w1)).
  { unfold w1. destruct (fwdRemoves _); cbn; repeat split; auto. intros H. apply (ok_removeDependent (w_noParent w)). exact H. }
  clearbody w1. destruct H1 as (A&B&C&D). rewrite <- A, <- B, <- C.
  pose proof (ok_updateTime (w_noParent w1) (w_deps w1) cmd) as U.
  destruct (updateTime (w_deps w1) cmd) as [deps r]. cbn [fst] in U.
  assert (OK : fwdOk w -> Forall (entryOk (w_noParent w1)) deps) by (intros H; apply U, D, H).
  destruct r; cbn; repeat split; auto; try (destruct (checkForIssues _ _); repeat constructor).
Qed.

Lemma recompute_frame w : let w' := fst (fst (fst (recompute w))) in
  w_deps w' = w_deps w /\ w_noParent w' = w_noParent w /\ w_restrictive w' = w_restrictive w /\ w_id w' = w_id w
  /\ w_execMode w' = w_execMode w /\ w_entered w' = w_entered w /\ w_operating w' = w_operating w /\ w_delayed w' = w_delayed w.
Proof.
  cbn zeta. unfold recompute.
  destruct (if _ || negb (w_execMode w) then td_update (w_up w) _ else _) as [up u1].
  destruct (if _ || negb (w_execMode w) then td_update (w_down w) _ else _) as [dn u2].
  repeat split.
Qed.
Lemma fwdUpdate_frame w : let w' := fst (fwdUpdate w) in
  w_deps w' = w_deps w /\ w_noParent w' = w_noParent w /\ w_restrictive w' = w_restrictive w /\ w_id w' = w_id w.
Proof.
  cbn zeta. unfold fwdUpdate. pose proof (recompute_frame w) as R. cbn zeta in R.
  destruct (recompute w) as [[[w1 a] b] md]. cbn [fst] in *. tauto.
Qed.
Lemma execEntry_frame w : let w' := fst (fst (fwdExecEntry w)) in
  w_deps w' = w_deps w /\ w_noParent w' = w_noParent w /\ w_restrictive w' = w_restrictive w /\ w_id w' = w_id w
  /\ Forall (fun m => m_action m = CMD_EXEC_GRANT) (snd (fst (fwdExecEntry w))).
Proof.
  cbn zeta. unfold fwdExecEntry. destruct (execAllowed w); cbn; repeat split; [|constructor].
  apply Forall_app; split; apply Forall_forall; intros m H; apply in_map_iff in H; destruct H as (d & <- & _); reflexivity.
Qed.

(** ** The minimum over entries that are past initialization *)
Lemma past_ltb d : pastInit d -> ts_ltb (tst d) ts_time_granted = false.
Proof. unfold pastInit. destruct (tst d); (discriminate || reflexivity). Qed.
Definition quietTd (keepIds : Z -> Prop) (m : tdata) : Prop :=
  ts_ltb (tst m) ts_time_granted = false /\ (minFed m = invalidId \/ keepIds (minFed m)).
Lemma next_quiet K m d c : pastInit d -> quietTd K m -> quietTd K (minTimeNext m d c).
Proof.
  intros P [Q1 Q2]. pose proof (past_ltb _ P) as P'. unfold minTimeNext.
  destruct (next d <? next m); [split; [exact P'|exact Q2]|].
  destruct (next d =? next m); [|split; assumption]. split; [|exact Q2].
  cbn. destruct (iterativeRequest (tst d)).
  - destruct (_ || _); assumption.
  - destruct (_ && _); assumption.
Qed.
Lemma te_quiet (K : Z -> Prop) m d : K (fedID d) -> quietTd K m -> quietTd K (minTimeTe m d).
Proof.
  intros P [Q1 Q2]. unfold minTimeTe. destruct (Te d <? Te m).
  - destruct (isValidId (minFed d)); split; cbn; auto.
  - destruct (Te d =? Te m); split; cbn; auto.
Qed.
Lemma impl_quiet (K : Z -> Prop) m d i c : pastInit d -> K (fedID d) -> quietTd K m -> quietTd K (generateMinTimeImplementation m d i c).
Proof.
  intros P KD Q. unfold generateMinTimeImplementation. rewrite (past_ltb _ P).
  destruct (fedID d =? i).
  - destruct (_ && _); exact Q.
  - apply te_quiet; [exact KD|]. apply next_quiet; [exact P|]. exact Q.
Qed.
Lemma loop_quiet keep i c l : (forall d, In d l -> keep d = true -> pastInit d) ->
  quietTd (fun g => exists d, In d l /\ keep d = true /\ fedID d = g) (minTimeLoop keep i c l).
Proof.
  intros P. unfold minTimeLoop.
  set (K := fun g => exists d, In d l /\ keep d = true /\ fedID d = g).
  assert (G : forall l' m, (forall d, In d l' -> In d l) -> quietTd K m ->
    quietTd K (fold_left (fun m dep => if keep dep then generateMinTimeImplementation m dep i c else m) l' m)).
  { induction l' as [|x r IH]; intros m SUB Q; [exact Q|]. cbn [fold_left]. apply IH; [intros d H; apply SUB; right; exact H|].
    destruct (keep x) eqn:KX; [|exact Q]. apply impl_quiet; [apply P; [apply SUB; left; reflexivity|exact KX]| |exact Q].
    exists x. repeat split; auto. apply SUB; left; reflexivity. }
  apply G; [auto|]. split; [reflexivity|left; reflexivity].
Qed.
Lemma adjust_quiet K r m : quietTd K m -> quietTd K (minTimeAdjust r m).
Proof.
  intros [Q1 Q2]. unfold minTimeAdjust. destruct (Te m <? minDe m); cbn; destruct (_ && _); split; assumption.
Qed.
Lemma released_promised r c d : pastInit d -> released r c d <= promised r d.
Proof.
  intros P. unfold released, promised. rewrite (past_ltb _ P). destruct r; cbn [orb]; [lia|].
  destruct (answered c d); cbn [negb]; lia.
Qed.
(** the common shape of both minimum functions *)
Lemma min_quiet keep r i c l : (forall d, In d l -> keep d = true -> pastInit d) ->
  let m := minTimeAdjust r (minTimeLoop keep i c l) in
  minTimeInitOverride m = m /\
  quietTd (fun g => exists d, In d l /\ keep d = true /\ fedID d = g) m /\
  (forall d, In d l -> keep d = true -> fedID d <> i -> connection d <> c_SELF -> next m <= Z.max 0 (promised r d)).
Proof.
  intros P m. pose proof (adjust_quiet _ r _ (loop_quiet keep i c l P)) as Q. fold m in Q.
  split; [|split; [exact Q|]].
  - unfold minTimeInitOverride. destruct Q as [Q1 _]. rewrite Q1. reflexivity.
  - intros d IN K NI NS. pose proof (loop_le keep i c l d IN K NI NS) as [L1 L2].
    pose proof (adjust_le r (minTimeLoop keep i c l)) as (A1&A2&_&_). fold m in A1, A2. cbn zeta in *.
    pose proof (released_promised r c d (P d IN K)) as RP.
    destruct r.
    + rewrite A2 by reflexivity. lia.
    + assert (released true c d <= released false c d).
      { unfold released. rewrite (past_ltb _ (P d IN K)). cbn [orb]. destruct (answered c d); cbn [negb]; lia. }
      lia.
Qed.
Lemma upstream_quiet l r self i c : (forall d, In d l -> dependency d = true -> pastInit d) ->
  let m := generateMinTimeUpstream l r self i c in
  quietTd (fun g => exists d, In d l /\ keepUpstream self d = true /\ fedID d = g) m /\
  (forall d, In d l -> keepUpstream self d = true -> fedID d <> i -> connection d <> c_SELF -> next m <= Z.max 0 (promised r d)).
Proof.
  intros P. cbn zeta. unfold generateMinTimeUpstream. cbn zeta.
  destruct (min_quiet (keepUpstream self) r i c l) as (A&B&C).
  { intros d IN K. apply P; [exact IN|]. unfold keepUpstream in K. destruct (dependency d); [reflexivity|discriminate]. }
  cbn zeta in A, B, C. set (m := minTimeAdjust r (minTimeLoop (keepUpstream self) i c l)) in *.
  generalize (fold_left (fun a d => if keepUpstream self d then a + sequenceCounter d else a) l 0). intros z.
  assert (E : minTimeInitOverride (set_sequenceCounter z m) = set_sequenceCounter z m).
  { unfold minTimeInitOverride. cbn [tst set_sequenceCounter]. destruct B as [B1 _]. rewrite B1. reflexivity. }
  rewrite E. split; [exact B|exact C].
Qed.
Lemma downstream_quiet l r self i c : (forall d, In d l -> dependency d = true -> pastInit d) ->
  let m := generateMinTimeDownstream l r self i c in
  quietTd (fun g => exists d, In d l /\ keepDownstream self d = true /\ fedID d = g) m /\
  (forall d, In d l -> keepDownstream self d = true -> fedID d <> i -> connection d <> c_SELF -> next m <= Z.max 0 (promised r d)).
Proof.
  intros P. cbn zeta. unfold generateMinTimeDownstream. cbn zeta.
  destruct (min_quiet (keepDownstream self) r i c l) as (A&B&C).
  { intros d IN K. apply P; [exact IN|]. unfold keepDownstream in K. destruct (dependency d); [reflexivity|discriminate]. }
  cbn zeta in A, B, C. rewrite A.
  assert (E : ts_ltb (tst (minTimeAdjust r (minTimeLoop (keepDownstream self) i c l))) ts_exec_requested = false).
  { destruct B as [B1 _]. destruct (tst _); (discriminate || reflexivity). }
  rewrite E. split; [exact B|exact C].
Qed.
(** nothing kept: the minimum is in the error state and no message is sent *)
Lemma downstream_none l r self i c : hasParent l = false -> tst (generateMinTimeDownstream l r self i c) = ts_error.
Proof.
  intros H. assert (L : minTimeLoop (keepDownstream self) i c l = mTime0).
  { unfold minTimeLoop. generalize mTime0. induction l as [|d l IH]; intros m; [reflexivity|].
    cbn in H. apply orb_false_iff in H. destruct H as [H1 H2]. cbn [fold_left].
    unfold keepDownstream at 2. rewrite H1, andb_false_r. cbn [andb]. apply IH; exact H2. }
  unfold generateMinTimeDownstream. rewrite L. destruct r; reflexivity.
Qed.

(** ** Messages *)
Lemma request_time w d g code : ts_ltb (tst d) ts_time_granted = false -> m_actionTime (forwardRequest w d g code) = next d
  /\ (releasesTime (forwardRequest w d g code) -> tst d <> ts_error)
  /\ (m_dest_id (forwardRequest w d g code) = g).
Proof.
  intros H. unfold forwardRequest, generateTimeRequest, setFlagIf, releasesTime.
  destruct (tst d) eqn:E; try discriminate H;
    (destruct (interrupted d); (split; [reflexivity|split; [|reflexivity]]); first [discriminate | intros [X|X]; discriminate X]).
Qed.
Lemma withResponse_facts m d : m_action (withResponse m d) = m_action m /\ m_actionTime (withResponse m d) = m_actionTime m.
Proof. unfold withResponse. destruct (_ || _); split; reflexivity. Qed.

Section Update.
  Context (w : fwd).
  Hypothesis OK : fwdOk w.
  Hypothesis PAST : forall d, In d (w_deps w) -> dependency d = true -> pastInit d.
  Let w' := fst (fwdUpdate w).

  Lemma keepUp_iff d : In d (w_deps w) -> dependency d = true -> connection d <> c_PARENT -> keepUpstream (w_id w) d = true.
  Proof.
    intros IN D NP. unfold keepUpstream. rewrite D. pose proof (proj1 (Forall_forall _ _) OK d IN) as [M _]. rewrite M.
    assert (C : conn_eqb (connection d) c_PARENT = false) by (destruct (connection d); try reflexivity; contradiction). rewrite C. cbn [negb andb].
    unfold isValidId. destruct (Z.eqb_spec invalidId (w_id w)) as [<-|_]; [reflexivity|]. rewrite andb_false_r. reflexivity.
  Qed.
  Lemma keepDown_iff d : In d (w_deps w) -> dependency d = true -> connection d = c_PARENT -> keepDownstream (w_id w) d = true.
  Proof.
    intros IN D NP. unfold keepDownstream. rewrite D. pose proof (proj1 (Forall_forall _ _) OK d IN) as [M _]. rewrite M, NP. cbn [conn_eqb andb].
    unfold isValidId. destruct (Z.eqb_spec invalidId (w_id w)) as [<-|_]; [reflexivity|]. rewrite andb_false_r. reflexivity.
  Qed.
  Lemma parent_flag_ok : hasParent (w_deps w) = true -> w_noParent w = false.
  Proof.
    intros H. apply existsb_exists in H. destruct H as (d & IN & C). pose proof (proj1 (Forall_forall _ _) OK d IN) as [_ N].
    destruct (w_noParent w); [|reflexivity]. exfalso. apply (N eq_refl). destruct (connection d); (discriminate || reflexivity).
  Qed.

  Lemma excluding_quiet g : let m := generateExcluding (w_deps w) (w_restrictive w) (w_id w) g in
    ts_ltb (tst m) ts_time_granted = false /\
    (forall d, In d (w_deps w) -> dependency d = true -> connection d <> c_PARENT -> fedID d <> g -> connection d <> c_SELF ->
       next d < cTerminationTime -> next m <= Z.max 0 (promised (w_restrictive w) d)).
  Proof.
    cbn zeta. unfold generateExcluding.
    destruct (upstream_quiet (w_deps w) (w_restrictive w) (w_id w) g 0 PAST) as [[Q1 Q2] B]. cbn zeta in *.
    set (m := generateMinTimeUpstream _ _ _ _ _) in *. clearbody m.
    destruct (ts_eqb (tst m) ts_error && negb _) eqn:E.
    - apply andb_true_iff in E. destruct E as [_ E]. split; [reflexivity|]. intros d IN D NP NG NS NT. exfalso.
      apply negb_true_iff in E.
      assert (X : existsb (fun dep => dependency dep && negb (fedID dep =? g) && negb (conn_eqb (connection dep) c_PARENT)
                   && (negb (isValidId (w_id w)) || negb (minFedActual dep =? w_id w))
                   && (ts_eqb (tst dep) ts_error || (next dep <? cTerminationTime))) (w_deps w) = true).
      { apply existsb_exists. exists d. split; [exact IN|]. pose proof (keepUp_iff d IN D NP) as K. unfold keepUpstream in K.
        apply andb_true_iff in K. destruct K as [K1 K2]. apply andb_true_iff in K1. destruct K1 as [_ K1]. rewrite D, K1.
        replace (fedID d =? g) with false by lia. rewrite <- negb_andb, K2. replace (next d <? cTerminationTime) with true by lia.
        rewrite orb_true_r. reflexivity. }
      congruence.
    - split; [exact Q1|]. intros d IN D NP NG NS NT. apply B; auto. apply keepUp_iff; assumption.
  Qed.

  (** the facts about the recomputed values *)
  Lemma recompute_facts : let '(w1, _, _, md) := recompute w in
    ts_ltb (tst (w_up w1)) ts_time_granted = false /\ ts_ltb (tst (w_down w1)) ts_time_granted = false /\
    minFed (w_down w1) = minFed md /\
    (forall d, In d (w_deps w) -> dependency d = true -> connection d <> c_PARENT -> fedID d <> invalidId -> connection d <> c_SELF ->
       next (w_up w1) <= Z.max 0 (promised (w_restrictive w) d)) /\
    (if w_noParent w then next (w_down w1) = next (w_up w1)
     else (hasParent (w_deps w) = false -> tst (w_down w1) = ts_error) /\
       forall d, In d (w_deps w) -> dependency d = true -> connection d = c_PARENT -> fedID d <> invalidId ->
         next (w_down w1) <= Z.max 0 (promised (w_restrictive w) d)) /\
    (minFed md = invalidId \/ exists d, In d (w_deps w) /\ fedID d = minFed md /\ dependency d = true /\
       (connection d = c_PARENT <-> w_noParent w = false)).
  Proof.
    unfold recompute.
    destruct (upstream_quiet (w_deps w) (w_restrictive w) (w_id w) invalidId (w_seq w) PAST) as [[U1 U2] U3]. cbn zeta in *.
    destruct (downstream_quiet (w_deps w) (w_restrictive w) (w_id w) invalidId (w_seq w) PAST) as [[D1 D2] D3]. cbn zeta in *.
    pose proof (downstream_none (w_deps w) (w_restrictive w) (w_id w) invalidId (w_seq w)) as D4.
    set (mu := generateMinTimeUpstream _ _ _ _ _) in *. set (m2 := generateMinTimeDownstream _ _ _ _ _) in *.
    clearbody mu m2.
    set (md := if w_noParent w then mu else m2).
    assert (X1 : ts_ltb ts_exec_requested (tst mu) = true) by (destruct (tst mu); (discriminate || reflexivity)).
    assert (MD : ts_ltb (tst md) ts_time_granted = false) by (unfold md; destruct (w_noParent w); assumption).
    assert (X2 : ts_ltb ts_exec_requested (tst md) = true) by (destruct (tst md); (discriminate || reflexivity)).
    rewrite X1, X2. cbn [orb td_update].
    match goal with |- context [set_w_down ?x _] => set (dn := x) end.
    assert (DN : next dn = next md /\ tst dn = tst md /\ minFed dn = minFed md).
    { unfold dn. destruct (ts_eqb _ _); [|repeat split]. repeat match goal with |- context [if ?b then _ else _] => destruct b end; repeat split. }
    clearbody dn. destruct DN as (N1&N2&N3). cbn. rewrite N1, N2, N3.
    assert (PR : forall x, conn_eqb x c_PARENT = true <-> x = c_PARENT) by (intros []; split; (discriminate || reflexivity)).
    split; [exact U1|]. split; [exact MD|]. split; [reflexivity|]. split; [|split].
    - intros d IN D NP NI NS. apply U3; auto. apply keepUp_iff; assumption.
    - unfold md. destruct (w_noParent w) eqn:NP; [reflexivity|]. split; [exact D4|]. intros d IN D P NI.
      apply D3; auto; [apply keepDown_iff; assumption|rewrite P; discriminate].
    - unfold md. destruct (w_noParent w) eqn:NP.
      + destruct U2 as [U2|(d&IN&K&E)]; [left; exact U2|right]. exists d. unfold keepUpstream in K.
        apply andb_true_iff in K. destruct K as [K _]. apply andb_true_iff in K. destruct K as [K1 K2].
        repeat split; auto. intros C. apply PR in C. rewrite C in K2. discriminate. discriminate.
      + destruct D2 as [V2|(d&IN&K&E)]; [left; exact V2|right]. exists d. unfold keepDownstream in K.
        apply andb_true_iff in K. destruct K as [K _]. apply andb_true_iff in K. destruct K as [K1 K2].
        repeat split; auto. intros _. apply PR. exact K2.
  Qed.

  Theorem update_safe m : In m (snd (fwdUpdate w)) -> releasesTime m ->
    exists rcv, In rcv (w_deps w) /\ fedID rcv = m_dest_id m /\
      forall d, In d (w_deps w) -> speaksFor (w_deps w) rcv d = true -> m_actionTime m <= Z.max 0 (promised (w_restrictive w) d).
  Proof.
    intros IN RT. unfold fwdUpdate in IN. pose proof recompute_facts as F. pose proof (recompute_frame w) as FR. cbn zeta in FR.
    destruct (recompute w) as [[[w1 u1] u2] md]. cbn [fst snd] in *.
    destruct F as (F1&F2&F3&F4&F5&F6). destruct FR as (R1&R2&R3&R4&R5&_).
    assert (SF : forall rcv d, speaksFor (w_deps w) rcv d = true -> dependency d = true /\ fedID d <> fedID rcv /\ next d < cTerminationTime
       /\ fedID d <> invalidId /\ connection d <> c_SELF /\
       (if conn_eqb (connection rcv) c_CHILD && hasParent (w_deps w) then connection d = c_PARENT else connection d <> c_PARENT)).
    { intros rcv d H. unfold speaksFor in H. apply andb_true_iff in H. destruct H as [H H6]. apply andb_true_iff in H. destruct H as [H H5].
      apply andb_true_iff in H. destruct H as [H H4]. apply andb_true_iff in H. destruct H as [H H3]. apply andb_true_iff in H. destruct H as [H1 H2].
      split; [exact H1|]. split; [lia|]. split; [lia|]. split; [lia|]. split; [intros C; rewrite C in H5; discriminate|].
      revert H6; destruct (conn_eqb (connection rcv) c_CHILD && hasParent (w_deps w)); destruct (connection d); intros H6; first [discriminate H6 | discriminate | reflexivity]. }
    apply in_app_iff in IN. destruct IN as [IN|IN].
    - (* the report to everything that is not a child *)
      destruct (u1 || u2); [|destruct IN]. set (m0 := forwardRequest w1 (w_up w1) invalidId (responseSequenceCounter (w_up w1))) in IN.
      destruct (request_time w1 (w_up w1) invalidId (responseSequenceCounter (w_up w1)) F1) as [TM _]. fold m0 in TM.
      unfold unlessIgnored in IN. destruct (m_action m0 =? CMD_IGNORE); [destruct IN|].
      unfold transmitUpstream in IN. apply in_map_iff in IN. destruct IN as (rcv & <- & IN). apply filter_In in IN. rewrite R1 in IN. destruct IN as [IN UP].
      exists rcv. split; [exact IN|]. split; [reflexivity|]. intros d IND S. destruct (SF _ _ S) as (S1&S2&S3&S4&S5&S6).
      assert (E : m_actionTime (set_m_dest_id (fedID rcv) (withResponse m0 rcv)) = m_actionTime m0) by (destruct (withResponse_facts m0 rcv); assumption).
      rewrite E, TM. unfold toUpstream in UP. apply andb_true_iff in UP. destruct UP as [UP _]. apply negb_true_iff in UP. rewrite UP in S6. cbn [andb] in S6.
      apply F4; auto.
    - assert (EX : forall g, (g = minFed md) -> isValidId g = true ->
        In m [forwardRequest w1 (generateExcluding (w_deps w1) (w_restrictive w1) (w_id w1) g) g
              (responseSequenceCounter (generateExcluding (w_deps w1) (w_restrictive w1) (w_id w1) g))] ->
        exists rcv, In rcv (w_deps w) /\ fedID rcv = m_dest_id m /\
        forall d, In d (w_deps w) -> speaksFor (w_deps w) rcv d = true -> m_actionTime m <= Z.max 0 (promised (w_restrictive w) d)).
      { intros g EG V [<-|[]]. rewrite R1, R3, R4. destruct (excluding_quiet g) as [Q1 Q2]. cbn zeta in Q1, Q2.
        set (x := generateExcluding (w_deps w) (w_restrictive w) (w_id w) g) in *. destruct (request_time w1 x g (responseSequenceCounter x) Q1) as (TM&_&DM).
        destruct F6 as [F6|(rcv&I1&I2&I3&I4)]; [rewrite EG, F6 in V; discriminate|].
        exists rcv. split; [exact I1|]. split; [rewrite DM, EG; exact I2|]. intros d IND S. destruct (SF _ _ S) as (S1&S2&S3&S4&S5&S6).
        rewrite TM. apply Q2; auto; [|rewrite EG, <- I2; exact S2].
        destruct (conn_eqb (connection rcv) c_CHILD && hasParent (w_deps w)) eqn:C; [|exact S6].
        apply andb_true_iff in C. destruct C as [C1 C2]. apply parent_flag_ok in C2. apply I4 in C2. rewrite C2 in C1. discriminate. }
      assert (DOWN : forall skip, In m (unlessIgnored (forwardRequest w1 (w_down w1) invalidId 0) (transmitDownstream w1 (forwardRequest w1 (w_down w1) invalidId 0) skip)) ->
        exists rcv, In rcv (w_deps w) /\ fedID rcv = m_dest_id m /\
        forall d, In d (w_deps w) -> speaksFor (w_deps w) rcv d = true -> m_actionTime m <= Z.max 0 (promised (w_restrictive w) d)).
      { intros skip I. destruct (request_time w1 (w_down w1) invalidId 0 F2) as (TM&NE&_). set (m0 := forwardRequest w1 (w_down w1) invalidId 0) in *.
        unfold unlessIgnored in I. destruct (m_action m0 =? CMD_IGNORE); [destruct I|].
        unfold transmitDownstream in I. apply in_map_iff in I. destruct I as (rcv & <- & I). apply filter_In in I. rewrite R1 in I. destruct I as [I UP].
        destruct (withResponse_facts m0 rcv) as [WA WT].
        assert (RT0 : releasesTime m0) by (unfold releasesTime in *; cbn in RT; rewrite WA in RT; exact RT).
        exists rcv. split; [exact I|]. split; [reflexivity|]. intros d IND S. destruct (SF _ _ S) as (S1&S2&S3&S4&S5&S6).
        cbn [m_actionTime set_m_dest_id]. rewrite WT, TM.
        assert (CH : conn_eqb (connection rcv) c_CHILD = true).
        { unfold toDownstream in UP. destruct RT0 as [A|A]; rewrite A in UP; cbn in UP;
          destruct (conn_eqb (connection rcv) c_CHILD); auto; discriminate. }
        rewrite CH in S6. cbn [andb] in S6.
        destruct (w_noParent w) eqn:NP.
        + assert (HP : hasParent (w_deps w) = false) by (destruct (hasParent (w_deps w)) eqn:HP; auto; apply parent_flag_ok in HP; congruence).
          rewrite HP in S6. rewrite F5. apply F4; auto.
        + destruct F5 as [F5a F5]. destruct (hasParent (w_deps w)) eqn:HP; [|exfalso; apply (NE RT0); auto].
          apply F5; auto. }
      destruct u2.
      + destruct (hasDelayed w1 && isValidId (minFed (w_down w1))) eqn:HD.
        * apply andb_true_iff in HD. destruct HD as [_ HD]. apply in_app_iff in IN. destruct IN as [IN|IN]; [eapply DOWN; exact IN|].
          apply (EX (minFed (w_down w1))); auto.
        * eapply DOWN; exact IN.
      + destruct (hasDelayed w1 && isValidId (minFed md) && w_execMode w1) eqn:HD; [|destruct IN].
        apply andb_true_iff in HD. destruct HD as [HD _]. apply andb_true_iff in HD. destruct HD as [_ HD].
        apply (EX (minFed md)); auto.
  Qed.
End Update.

(** ** All histories *)
Lemma addDep_ok w g : fwdOk w -> fwdOk (fst (fwdAddDependency w g)) /\ w_restrictive (fst (fwdAddDependency w g)) = w_restrictive w.
Proof.
  intros H. unfold fwdAddDependency. pose proof (ok_addDependency (w_noParent w) (w_deps w) g H) as A.
  destruct (addDependency (w_deps w) g) as [deps ad]. cbn [fst] in *. split; [|reflexivity].
  unfold fwdOk. cbn. destruct (ad && _); [|exact A]. apply ok_upd; [|exact A]. intros d [E1 E2]. split; [exact E1|cbn; discriminate].
Qed.
Lemma connection_ok w g k : fwdOk w -> fwdOk (fwdConnection w g k) /\ w_restrictive (fwdConnection w g k) = w_restrictive w.
Proof.
  intros H. unfold fwdConnection. destruct (g =? w_id w); [split; [exact H|reflexivity]|].
  assert (NP : k <> c_PARENT -> fwdOk (set_w_deps (updDep (w_deps w) g (set_connection k)) w)).
  { intros NK. unfold fwdOk. cbn. apply ok_upd; [|exact H]. intros d [E1 E2]. split; [exact E1|]. intros _. cbn. exact NK. }
  destruct k; try (split; [apply NP; discriminate|reflexivity]).
  destruct (getDep (w_deps w) g) eqn:G; (split; [|reflexivity]).
  - unfold fwdOk. cbn. apply ok_upd; [|eapply Forall_impl; [|exact H]; intros d' D; exact (entryOk_weak _ _ D)].
    intros d' [E1 _]. split; [exact E1|discriminate].
  - unfold fwdOk. cbn. unfold getDep in G. unfold updDep. destruct (lower_bound (w_deps w) g) as [a [|d b]] eqn:L; cbn [snd] in G; [exact H|].
    destruct (fedID d =? g); [discriminate|exact H].
Qed.
Lemma deps_ok w l : Forall (entryOk (w_noParent w)) l -> fwdOk (set_w_deps l w).
Proof. intros H. exact H. Qed.
Lemma dependencyUpdate_ok w cmd : fwdOk w -> fwdOk (fwdDependencyUpdate w cmd) /\ w_restrictive (fwdDependencyUpdate w cmd) = w_restrictive w.
Proof.
  intros H. unfold fwdDependencyUpdate.
  match goal with |- context [let '(w, added) := ?x in _] => set (p := x) end.
  assert (P : fwdOk (fst p) /\ w_restrictive (fst p) = w_restrictive w).
  { unfold p.
    pose proof (addDep_ok w (m_source_id cmd) H) as A.
    destruct (m_action cmd =? CMD_ADD_DEPENDENCY); [exact A|].
    destruct (m_action cmd =? CMD_REMOVE_DEPENDENCY); [split; [apply (ok_removeDependency (w_noParent w)), H|reflexivity]|].
    destruct (m_action cmd =? CMD_ADD_DEPENDENT); [split; [apply (ok_addDependent (w_noParent w)), H|reflexivity]|].
    destruct (m_action cmd =? CMD_REMOVE_DEPENDENT); [split; [apply (ok_removeDependent (w_noParent w)), H|reflexivity]|].
    destruct (m_action cmd =? CMD_ADD_INTERDEPENDENCY).
    { destruct (fwdAddDependency w (m_source_id cmd)) as [w1 ad]. cbn [fst] in *. destruct A as [A1 A2].
      split; [apply (ok_addDependent (w_noParent w1)), A1|exact A2]. }
    destruct (m_action cmd =? CMD_REMOVE_INTERDEPENDENCY).
    { split; [apply (ok_removeDependent (w_noParent w)), (ok_removeDependency (w_noParent w)), H|reflexivity]. }
    destruct (m_action cmd =? CMD_TIMING_INFO); [split; [apply (ok_updateTime (w_noParent w)), H|reflexivity]|].
    split; [exact H|reflexivity]. }
  clearbody p. destruct p as [w1 ad]. cbn [fst] in P. destruct ad; [|exact P].
  set (w2 := if checkFlag child_flag cmd then fwdConnection w1 (m_source_id cmd) c_CHILD else w1).
  assert (P2 : fwdOk w2 /\ w_restrictive w2 = w_restrictive w).
  { unfold w2. destruct (checkFlag _ _); [|exact P]. destruct (connection_ok w1 (m_source_id cmd) c_CHILD (proj1 P)) as [X Y]. split; [exact X|]. rewrite Y. apply P. }
  clearbody w2.
  set (w3 := if checkFlag parent_flag cmd then fwdConnection w2 (m_source_id cmd) c_PARENT else w2).
  assert (P3 : fwdOk w3 /\ w_restrictive w3 = w_restrictive w).
  { unfold w3. destruct (checkFlag _ _); [|exact P2]. destruct (connection_ok w2 (m_source_id cmd) c_PARENT (proj1 P2)) as [X Y]. split; [exact X|]. rewrite Y. apply P2. }
  clearbody w3. destruct (0 <? m_counter cmd); [|exact P3]. split; [|apply P3].
  unfold fwdOk, fwdVersion. cbn. apply ok_upd; [|apply P3]. intros d D. exact D.
Qed.

(** the timing messages of one step of the broker, and how the table they speak about relates to the new state *)
Definition stepSafe (w : fwd) (r : fwd * list amsg) : Prop :=
  fwdOk (fst r) /\ w_restrictive (fst r) = w_restrictive w /\
  ((forall d, In d (w_deps (fst r)) -> dependency d = true -> pastInit d) ->
   forall m, In m (snd r) -> releasesTime m ->
    exists rcv, In rcv (w_deps (fst r)) /\ fedID rcv = m_dest_id m /\
      forall d, In d (w_deps (fst r)) -> speaksFor (w_deps (fst r)) rcv d = true ->
        m_actionTime m <= Z.max 0 (promised (w_restrictive w) d)).
Lemma frame_ok w w' : w_deps w' = w_deps w -> w_noParent w' = w_noParent w -> fwdOk w -> fwdOk w'.
Proof. unfold fwdOk. intros -> ->. auto. Qed.
Lemma silent_safe w w' out : fwdOk w' -> w_restrictive w' = w_restrictive w -> (forall m, In m out -> ~ releasesTime m) -> stepSafe w (w', out).
Proof. intros A B C. split; [exact A|]. split; [exact B|]. intros _ m IN R. destruct (C m IN R). Qed.
Lemma update_stepSafe w w0 : fwdOk w -> w_restrictive w = w_restrictive w0 -> stepSafe w0 (fwdUpdate w).
Proof.
  intros OK R. destruct (fwdUpdate_frame w) as (D&N&R'&_). cbn zeta in *.
  split; [apply (frame_ok w); assumption|]. split; [congruence|]. rewrite D. intros PAST m IN RT.
  destruct (update_safe w OK PAST m IN RT) as (rcv&A&B&C). exists rcv. rewrite <- R. auto.
Qed.
Lemma prefix_safe w w' pre out : (forall m, In m pre -> ~ releasesTime m) -> stepSafe w (w', out) -> stepSafe w (w', pre ++ out).
Proof.
  intros P (A&B&C). split; [exact A|]. split; [exact B|]. intros PAST m IN RT. apply in_app_iff in IN.
  destruct IN as [IN|IN]; [destruct (P m IN RT)|apply (C PAST m IN RT)].
Qed.
Lemma silent_action (a : Z) out : a <> CMD_TIME_REQUEST -> a <> CMD_TIME_GRANT -> Forall (fun m => m_action m = a) out ->
  forall m, In m out -> ~ releasesTime m.
Proof. intros A B F m IN [R|R]; rewrite Forall_forall in F; apply F in IN; congruence. Qed.
Lemma noteEntry_safe w w0 pre : fwdOk w -> w_restrictive w = w_restrictive w0 -> (forall m, In m pre -> ~ releasesTime m) ->
  stepSafe w0 (fst (noteEntry (fwdExecEntry w)), pre ++ snd (noteEntry (fwdExecEntry w))).
Proof.
  intros OK R P. pose proof (execEntry_frame w) as (A&B&C&_&D). cbn zeta in *. unfold noteEntry.
  destruct (fwdExecEntry w) as [[w1 o] e]. cbn [fst snd] in *.
  apply prefix_safe; [exact P|]. apply silent_safe; [destruct e; apply (frame_ok w); assumption|destruct e; cbn; congruence|].
  apply (silent_action CMD_EXEC_GRANT); [discriminate|discriminate|exact D].
Qed.

Theorem bstep_safe w e : fwdOk w -> stepSafe w (bstep w e).
Proof.
  intros OK.
  assert (MSG : forall cmd, let '(w1, out, r) := fwdMessage w cmd in fwdOk w1 /\ w_restrictive w1 = w_restrictive w /\ (forall m, In m out -> ~ releasesTime m)).
  { intros cmd. pose proof (fwdMessage_frame w cmd) as (A&B&C&D&E). cbn zeta in *. destruct (fwdMessage w cmd) as [[w1 out] r]. cbn [fst snd] in *.
    split; [auto|]. split; [exact B|]. apply (silent_action CMD_GLOBAL_ERROR); [discriminate|discriminate|exact E]. }
  destruct e as [cmd|cmd|cmd|cmd|cmd|g|g|]; cbn [bstep].
  - specialize (MSG cmd). destruct (fwdMessage w cmd) as [[w1 out] r]. destruct MSG as (M1&M2&M3).
    destruct (negb (tprProcessed r)); [apply silent_safe; assumption|].
    destruct (w_entered w1).
    { pose proof (update_stepSafe w1 w M1 M2) as U. destruct (fwdUpdate w1) as [w2 o]. apply prefix_safe; assumption. }
    destruct (w_operating w1); [|apply silent_safe; assumption].
    pose proof (noteEntry_safe w1 w out M1 M2 M3) as N. destruct (noteEntry (fwdExecEntry w1)) as [w2 o]. exact N.
  - specialize (MSG cmd). destruct (fwdMessage w cmd) as [[w1 out] r]. destruct MSG as (M1&M2&M3).
    destruct (negb (tprProcessed r)); [apply silent_safe; assumption|].
    destruct (negb (w_entered w1) && w_operating w1); [|apply silent_safe; assumption].
    pose proof (execEntry_frame w1) as (A&B&C&_&D). cbn zeta in *. destruct (fwdExecEntry w1) as [[w2 o] b]. cbn [fst snd] in *.
    assert (M4 : forall m, In m (out ++ o) -> ~ releasesTime m).
    { intros m IN. apply in_app_iff in IN. destruct IN as [IN|IN]; [apply M3, IN|].
      revert IN. apply (silent_action CMD_EXEC_GRANT); [discriminate|discriminate|exact D]. }
    destruct b.
    + apply silent_safe; [apply (frame_ok w1); assumption|cbn; congruence|exact M4].
    + pose proof (update_stepSafe w2 w (frame_ok _ _ A B M1) (eq_trans C M2)) as U. destruct (fwdUpdate w2) as [w3 o'].
      rewrite app_assoc. apply prefix_safe; assumption.
  - destruct (negb (w_entered w)).
    + destruct (w_operating w); [|apply silent_safe; [assumption|reflexivity|intros m []]].
      specialize (MSG cmd). destruct (fwdMessage w cmd) as [[w1 out] r]. destruct MSG as (M1&M2&M3).
      destruct (tprProcessed r); [|apply silent_safe; assumption].
      pose proof (noteEntry_safe w1 w out M1 M2 M3) as N. destruct (noteEntry (fwdExecEntry w1)) as [w2 o]. exact N.
    + specialize (MSG cmd). destruct (fwdMessage w cmd) as [[w1 out] r]. destruct MSG as (M1&M2&M3).
      destruct (tprProcessed r); [|apply silent_safe; assumption].
      pose proof (update_stepSafe w1 w M1 M2) as U. destruct (fwdUpdate w1) as [w2 o]. apply prefix_safe; assumption.
  - specialize (MSG cmd). destruct (fwdMessage w cmd) as [[w1 out] r]. destruct MSG as (M1&M2&M3). apply silent_safe; assumption.
  - destruct (dependencyUpdate_ok w cmd OK) as [A B]. apply silent_safe; [exact A|exact B|intros m []].
  - destruct (addDep_ok w g OK) as [A B]. set (w1 := fst (fwdAddDependency w g)) in *. clearbody w1.
    pose proof (ok_addDependent (w_noParent w1) (w_deps w1) g A) as A2. cbn zeta.
    destruct (connection_ok (set_w_deps (fst (addDependent (w_deps w1) g)) w1) g c_CHILD A2) as [A3 B3].
    apply silent_safe; [exact A3|rewrite B3; exact B|intros m []].
  - destruct (addDep_ok w g OK) as [A B]. destruct (fwdAddDependency w g) as [w1 ad]. cbn [fst] in *.
    destruct ad; [|apply silent_safe; [exact A|exact B|intros m []]].
    pose proof (ok_addDependent (w_noParent w1) (w_deps w1) g A) as A2.
    destruct (connection_ok (set_w_deps (fst (addDependent (w_deps w1) g)) w1) g c_PARENT A2) as [A3 B3].
    apply silent_safe; [exact A3|rewrite B3; exact B|intros m []].
  - cbv zeta. set (w0 := set_w_operating true w).
    assert (OK0 : fwdOk w0) by exact OK. assert (R0 : w_restrictive w0 = w_restrictive w) by reflexivity. clearbody w0.
    assert (ENT : stepSafe w (fwdEnteringExec w0)).
    { unfold fwdEnteringExec. destruct (w_execMode w0); [apply silent_safe; [exact OK0|exact R0|intros m []]|].
      set (p := match w_deps w0 with [] => (w0, [], false) | _ => _ end).
      assert (P : stepSafe w (fst p)).
      { unfold p. destruct (w_deps w0); [apply silent_safe; [exact OK0|exact R0|intros m []]|].
        pose proof (update_stepSafe w0 w OK0 R0) as U. destruct (fwdUpdate w0) as [w1 o].
        assert (SFX : forall w2 suf, w_deps w2 = w_deps w1 -> w_noParent w2 = w_noParent w1 -> w_restrictive w2 = w_restrictive w1 ->
           (forall m, In m suf -> ~ releasesTime m) -> stepSafe w (w2, o ++ suf)).
        { intros w2 suf A B C Q. destruct U as (U1&U2&U3). cbn [fst snd] in *. split; [apply (frame_ok w1); assumption|].
          split; [cbn; congruence|]. cbn [fst snd]. rewrite A. intros PAST m IN RT. apply in_app_iff in IN.
          destruct IN as [IN|IN]; [apply (U3 PAST m IN RT)|destruct (Q m IN RT)]. }
        destruct (checkForIssues _ _); cbn [fst].
        - apply SFX; try reflexivity. intros m [<-|[]] [R|R]; discriminate R.
        - rewrite <- (app_nil_r o). apply SFX; try reflexivity. intros m []. }
      clearbody p. destruct p as [[w1 o] bad]. cbn [fst] in P. destruct bad; [exact P|].
      destruct P as (P1&P2&P3). cbn [fst snd] in *. split; [|split; [exact P2|]].
      - unfold fwdOk. cbn [w_deps w_noParent set_w_noParent fst]. apply Forall_forall. intros d IN.
        pose proof (proj1 (Forall_forall _ _) P1 d IN) as [E1 _]. split; [exact E1|]. intros NP C.
        apply negb_true_iff in NP. assert (X : existsb (fun d0 => conn_eqb (connection d0) c_PARENT) (w_deps w1) = true).
        { apply existsb_exists. exists d. rewrite C. auto. } congruence.
      - cbn [w_deps set_w_noParent fst snd]. intros PAST m IN RT. apply in_app_iff in IN. destruct IN as [IN|IN]; [apply (P3 PAST m IN RT)|].
        apply in_map_iff in IN. destruct IN as (d & <- & _). destruct RT as [R|R]; discriminate R. }
    destruct (fwdEnteringExec w0) as [w1 o1]. destruct ENT as (E1&E2&E3). cbn [fst snd] in *.
    pose proof (execEntry_frame w1) as (A&B&C&_&D). cbn zeta in *. unfold noteEntry. destruct (fwdExecEntry w1) as [[w2 o2] b]. cbn [fst snd] in *.
    assert (D2 : w_deps (if b then set_w_entered true w2 else w2) = w_deps w1) by (destruct b; exact A).
    split; [destruct b; apply (frame_ok w1); assumption|]. split; [destruct b; cbn; congruence|]. cbn [fst snd]. rewrite D2.
    intros PAST m IN RT. apply in_app_iff in IN. destruct IN as [IN|IN]; [apply (E3 PAST m IN RT)|].
    exfalso. revert IN RT. apply (silent_action CMD_EXEC_GRANT); [discriminate|discriminate|exact D].
Qed.

Lemma brun_snoc w es e : brun w (es ++ [e]) = fst (bstep (brun w es) e).
Proof. unfold brun. rewrite fold_left_app. reflexivity. Qed.
Lemma brun_ok id r es : fwdOk (brun (fwd_init id r) es) /\ w_restrictive (brun (fwd_init id r) es) = r.
Proof.
  induction es as [|e es IH] using rev_ind; [split; [constructor|reflexivity]|].
  rewrite brun_snoc. destruct IH as [A B]. destruct (bstep_safe _ e A) as (C&D&_). split; [exact C|congruence].
Qed.

(** ** C11 *)
Theorem C11_broker_never_releases_early id restrictive es e m :
  let before := brun (fwd_init id restrictive) es in
  let table := w_deps (fst (bstep before e)) in
  In m (snd (bstep before e)) -> releasesTime m ->
  (forall d, In d table -> dependency d = true -> pastInit d) ->
  exists receiver, In receiver table /\ fedID receiver = m_dest_id m /\
    forall d, In d table -> speaksFor table receiver d = true -> m_actionTime m <= Z.max 0 (promised restrictive d).
Proof.
  cbn zeta. intros IN RT PAST. destruct (brun_ok id restrictive es) as [A B].
  destruct (bstep_safe _ e A) as (_&_&C). rewrite B in C. apply C; assumption.
Qed.

(** ** The reported time is attained, so brokers also do not hold time back *)
Lemma loop_attained keep i c l : (forall d, In d l -> keep d = true -> pastInit d) ->
  next (minTimeLoop keep i c l) = maxVal \/
  exists d, In d l /\ keep d = true /\ fedID d <> i /\ next (minTimeLoop keep i c l) = next d.
Proof.
  intros P. unfold minTimeLoop.
  set (Q := fun m : tdata => next m = maxVal \/ exists d, In d l /\ keep d = true /\ fedID d <> i /\ next m = next d).
  assert (G : forall l' m, (forall d, In d l' -> In d l) -> Q m ->
    Q (fold_left (fun m dep => if keep dep then generateMinTimeImplementation m dep i c else m) l' m)).
  { induction l' as [|x r IH]; intros m SUB QM; [exact QM|]. cbn [fold_left]. apply IH; [intros d H; apply SUB; right; exact H|].
    destruct (keep x) eqn:K; [|exact QM]. assert (INX : In x l) by (apply SUB; left; reflexivity).
    unfold generateMinTimeImplementation. rewrite (past_ltb _ (P x INX K)).
    destruct (Z.eqb_spec (fedID x) i) as [E|E]; [destruct (_ && _); exact QM|].
    set (m1 := set_minDe _ m). pose proof (minTimeNext_next m1 x c) as [N1 _].
    pose proof (minTimeTe_next (minTimeNext m1 x c) x) as [T1 _]. unfold Q. rewrite T1, N1. change (next m1) with (next m).
    destruct (Z.le_gt_cases (next m) (next x)) as [L|L].
    - rewrite Z.min_l by lia. exact QM.
    - rewrite Z.min_r by lia. right. exists x. auto. }
  apply G; [auto|left; reflexivity].
Qed.
Definition attained (l : table) (r : bool) (parents : bool) (t : Z) : Prop :=
  t = maxVal \/ exists d, In d l /\ dependency d = true /\ conn_eqb (connection d) c_PARENT = parents /\
    next d <= t /\ (r = true -> t = next d).
Lemma adjust_attained keep r i c l parents : (forall d, In d l -> keep d = true -> pastInit d) ->
  (forall d, keep d = true -> dependency d = true /\ conn_eqb (connection d) c_PARENT = parents) ->
  let t := next (minTimeAdjust r (minTimeLoop keep i c l)) in t <= maxVal -> attained l r parents t.
Proof.
  intros P K t LE. destruct (loop_attained keep i c l P) as [E|(d&IN&KD&NI&E)].
  - left. assert (next (minTimeLoop keep i c l) <= t).
    { unfold t, minTimeAdjust. destruct (Te _ <? minDe _); cbn; destruct (negb r && _) eqn:C; cbn in *; lia. } lia.
  - right. exists d. destruct (K d KD) as [K1 K2]. repeat split; auto.
    + rewrite <- E. unfold t, minTimeAdjust. destruct (Te _ <? minDe _); cbn; destruct (negb r && _) eqn:C; cbn in *; lia.
    + intros ->. unfold t. destruct (adjust_le true (minTimeLoop keep i c l)) as (_&A&_). rewrite A by reflexivity. exact E.
Qed.
Lemma upstream_attained l r self i c : (forall d, In d l -> dependency d = true -> pastInit d) ->
  attained l r false (next (generateMinTimeUpstream l r self i c)).
Proof.
  intros P.
  assert (K : forall d, keepUpstream self d = true -> dependency d = true /\ conn_eqb (connection d) c_PARENT = false).
  { intros d H. unfold keepUpstream in H. destruct (dependency d); [|discriminate]. destruct (conn_eqb _ _); [discriminate|auto]. }
  assert (P' : forall d, In d l -> keepUpstream self d = true -> pastInit d) by (intros d IN H; apply P; [exact IN|apply K; exact H]).
  destruct (min_quiet (keepUpstream self) r i c l P') as (_&[B1 _]&_). cbn zeta in B1.
  unfold generateMinTimeUpstream. cbn zeta. unfold minTimeInitOverride. cbn [tst set_sequenceCounter]. rewrite B1. cbn [next set_sequenceCounter].
  apply adjust_attained; auto. destruct (loop_max (keepUpstream self) i c l) as [M1 M2].
  destruct (adjust_le r (minTimeLoop (keepUpstream self) i c l)) as (A&_). cbn zeta in A. lia.
Qed.
Lemma downstream_attained l r self i c : (forall d, In d l -> dependency d = true -> pastInit d) ->
  attained l r true (next (generateMinTimeDownstream l r self i c)).
Proof.
  intros P.
  assert (K : forall d, keepDownstream self d = true -> dependency d = true /\ conn_eqb (connection d) c_PARENT = true).
  { intros d H. unfold keepDownstream in H. destruct (dependency d); [|discriminate]. destruct (conn_eqb _ _); [auto|discriminate]. }
  assert (P' : forall d, In d l -> keepDownstream self d = true -> pastInit d) by (intros d IN H; apply P; [exact IN|apply K; exact H]).
  destruct (min_quiet (keepDownstream self) r i c l P') as (A&[B1 _]&_). cbn zeta in A, B1.
  unfold generateMinTimeDownstream. cbn zeta. rewrite A.
  assert (E : ts_ltb (tst (minTimeAdjust r (minTimeLoop (keepDownstream self) i c l))) ts_exec_requested = false)
    by (destruct (tst _); (discriminate || reflexivity)).
  rewrite E. apply adjust_attained; auto. destruct (loop_max (keepDownstream self) i c l) as [M1 M2].
  destruct (adjust_le r (minTimeLoop (keepDownstream self) i c l)) as (X&_). cbn zeta in X. lia.
Qed.
(** every released time is the end of time or is backed by a federate on the side the message speaks for: never
    below its next time, and with the restrictive policy exactly it *)
Theorem C11_reported_times_are_attained w m : fwdOk w -> (forall d, In d (w_deps w) -> dependency d = true -> pastInit d) ->
  In m (snd (fwdUpdate w)) -> releasesTime m ->
  exists parents, attained (w_deps w) (w_restrictive w) parents (m_actionTime m).
Proof.
  intros OK PAST IN RT. unfold fwdUpdate in IN. pose proof (recompute_facts w OK PAST) as F. pose proof (recompute_frame w) as FR.
  assert (NX : next (w_up (fst (fst (fst (recompute w))))) = next (generateMinTimeUpstream (w_deps w) (w_restrictive w) (w_id w) invalidId (w_seq w)) /\
     next (w_down (fst (fst (fst (recompute w))))) = next (if w_noParent w then generateMinTimeUpstream (w_deps w) (w_restrictive w) (w_id w) invalidId (w_seq w)
            else generateMinTimeDownstream (w_deps w) (w_restrictive w) (w_id w) invalidId (w_seq w))).
  { unfold recompute.
    destruct (upstream_quiet (w_deps w) (w_restrictive w) (w_id w) invalidId (w_seq w) PAST) as [[U1 U2] _]. cbn zeta in *.
    destruct (downstream_quiet (w_deps w) (w_restrictive w) (w_id w) invalidId (w_seq w) PAST) as [[D1 D2] _]. cbn zeta in *.
    set (mu := generateMinTimeUpstream _ _ _ _ _) in *. set (m2 := generateMinTimeDownstream _ _ _ _ _) in *. clearbody mu m2.
    set (md := if w_noParent w then mu else m2).
    assert (MD : ts_ltb (tst md) ts_time_granted = false) by (unfold md; destruct (w_noParent w); assumption).
    assert (X1 : ts_ltb ts_exec_requested (tst mu) = true) by (destruct (tst mu); (discriminate || reflexivity)).
    assert (X2 : ts_ltb ts_exec_requested (tst md) = true) by (destruct (tst md); (discriminate || reflexivity)).
    rewrite X1, X2. cbn [orb td_update fst w_up w_down set_w_seq set_w_down set_w_up].
    split; [reflexivity|]. destruct (ts_eqb _ _); [|reflexivity]. repeat match goal with |- context [if ?b <? ?c then _ else _] => destruct (b <? c) end; reflexivity. }
  destruct (recompute w) as [[[w1 u1] u2] md]. cbn [fst snd] in *.
  destruct F as (F1&F2&_). destruct FR as (R1&R2&R3&R4&_). destruct NX as [NU ND].
  apply in_app_iff in IN. destruct IN as [IN|IN].
  - destruct (u1 || u2); [|destruct IN]. destruct (request_time w1 (w_up w1) invalidId (responseSequenceCounter (w_up w1)) F1) as [TM _].
    unfold unlessIgnored in IN. destruct (_ =? CMD_IGNORE); [destruct IN|]. apply in_map_iff in IN. destruct IN as (rcv & <- & _).
    exists false. cbn [m_actionTime set_m_dest_id]. rewrite (proj2 (withResponse_facts _ _)), TM, NU. apply upstream_attained, PAST.
  - assert (EX : forall g, In m [forwardRequest w1 (generateExcluding (w_deps w1) (w_restrictive w1) (w_id w1) g) g
              (responseSequenceCounter (generateExcluding (w_deps w1) (w_restrictive w1) (w_id w1) g))] ->
        exists parents, attained (w_deps w) (w_restrictive w) parents (m_actionTime m)).
    { intros g [<-|[]]. rewrite R1, R3, R4. destruct (excluding_quiet w OK PAST g) as [Q1 _]. cbn zeta in Q1.
      destruct (request_time w1 _ g (responseSequenceCounter (generateExcluding (w_deps w) (w_restrictive w) (w_id w) g)) Q1) as (TM&_).
      exists false. rewrite TM. unfold generateExcluding. destruct (_ && negb _); [left; reflexivity|]. cbn [td_update fst next set_tst set_next].
      apply upstream_attained, PAST. }
    assert (DOWN : forall skip, In m (unlessIgnored (forwardRequest w1 (w_down w1) invalidId 0) (transmitDownstream w1 (forwardRequest w1 (w_down w1) invalidId 0) skip)) ->
        exists parents, attained (w_deps w) (w_restrictive w) parents (m_actionTime m)).
    { intros skip I. destruct (request_time w1 (w_down w1) invalidId 0 F2) as (TM&_).
      unfold unlessIgnored in I. destruct (_ =? CMD_IGNORE); [destruct I|]. apply in_map_iff in I. destruct I as (rcv & <- & _).
      exists (negb (w_noParent w)). cbn [m_actionTime set_m_dest_id]. rewrite (proj2 (withResponse_facts _ _)), TM, ND.
      destruct (w_noParent w); [apply upstream_attained, PAST|apply downstream_attained, PAST]. }
    destruct u2.
    + destruct (hasDelayed w1 && isValidId (minFed (w_down w1))).
      * apply in_app_iff in IN. destruct IN as [IN|IN]; [eapply DOWN; exact IN|eapply EX; exact IN].
      * eapply DOWN; exact IN.
    + destruct (_ && w_execMode w1); [eapply EX; exact IN|destruct IN].
Qed.

(** ** Execution mode: a broker lets its federates enter only when everybody asked *)
Definition entersExec (m : amsg) : Prop := m_action m = CMD_EXEC_GRANT /\ checkFlag iteration_requested_flag m = false.
Definition asked (d : dinfo) : Prop := ts_leb ts_exec_requested (tst d) = true.
(** an iterative request naming this broker as the federate to wait for *)
Definition waitsForMe (w : fwd) (d : dinfo) : Prop := minFed d = w_id w /\ responseSequenceCounter d = sequenceCounter (w_down w).
Lemma execAllowed_spec w : execAllowed w = true -> forall d, In d (w_deps w) -> dependency d = true -> connection d <> c_SELF ->
  asked d \/ (ts_eqb (tst (w_down w)) ts_exec_requested_iterative = true /\ waitsForMe w d).
Proof.
  intros H d IN D NS. unfold execAllowed in H. apply orb_true_iff in H. destruct H as [H|H].
  - left. unfold checkIfReadyForExecEntry in H. apply negb_true_iff in H.
    destruct (ts_leb ts_exec_requested (tst d)) eqn:A; [exact A|]. exfalso.
    assert (X : existsb (fun dep => dependency dep && negb (ts_leb ts_exec_requested (tst dep) || (conn_eqb (connection dep) c_SELF && ts_leb ts_initialized (tst dep)))) (w_deps w) = true).
    { apply existsb_exists. exists d. split; [exact IN|]. rewrite D, A. destruct (connection d); (reflexivity || contradiction). }
    congruence.
  - apply andb_true_iff in H. destruct H as [H1 H2]. rewrite forallb_forall in H2. specialize (H2 d IN). rewrite D in H2. cbn [andb] in H2.
    apply orb_true_iff in H2. destruct H2 as [H2|H2].
    + left. apply negb_true_iff in H2. unfold asked. destruct (tst d); (reflexivity || discriminate H2).
    + right. split; [exact H1|]. apply andb_true_iff in H2. destruct H2 as [A B]. split; lia.
Qed.
Lemma request_not_exec w d g code : ~ entersExec (forwardRequest w d g code).
Proof.
  intros [A B]. revert A B. unfold forwardRequest, generateTimeRequest, setFlagIf, setIterationFlags.
  destruct (tst d); destruct (interrupted d); try discriminate; destruct (responseSequenceCounter d =? 0); try discriminate; intros _ B; vm_compute in B; discriminate B.
Qed.
Lemma update_not_exec w m : In m (snd (fwdUpdate w)) -> ~ entersExec m.
Proof.
  unfold fwdUpdate. destruct (recompute w) as [[[w1 u1] u2] md]. cbn [snd].
  assert (WR : forall m0 d g, ~ entersExec m0 -> ~ entersExec (set_m_dest_id g (withResponse m0 d))).
  { intros m0 d g N [A B]. apply N. unfold withResponse in *. destruct (_ || _); split; assumption. }
  assert (UP : forall m0, ~ entersExec m0 -> In m (unlessIgnored m0 (transmitUpstream w1 m0)) -> ~ entersExec m).
  { intros m0 N IN. unfold unlessIgnored in IN. destruct (_ =? _); [destruct IN|]. apply in_map_iff in IN. destruct IN as (d & <- & _). apply WR, N. }
  assert (DN : forall m0 s, ~ entersExec m0 -> In m (unlessIgnored m0 (transmitDownstream w1 m0 s)) -> ~ entersExec m).
  { intros m0 s N IN. unfold unlessIgnored in IN. destruct (_ =? _); [destruct IN|]. apply in_map_iff in IN. destruct IN as (d & <- & _). apply WR, N. }
  intros IN. apply in_app_iff in IN. destruct IN as [IN|IN].
  - destruct (u1 || u2); [|destruct IN]. revert IN. apply UP, request_not_exec.
  - destruct u2.
    + destruct (_ && _).
      * apply in_app_iff in IN. destruct IN as [IN|[<-|[]]]; [revert IN; apply DN|]; apply request_not_exec.
      * revert IN; apply DN, request_not_exec.
    + destruct (_ && _); [|destruct IN]. destruct IN as [<-|[]]. apply request_not_exec.
Qed.
Lemma execEntry_spec w : let '(w1, o, b) := fwdExecEntry w in
  w_deps w1 = w_deps w /\ (o = [] \/ execAllowed w = true) /\ (b = false -> o = []) /\ w_id w1 = w_id w.
Proof. unfold fwdExecEntry. destruct (execAllowed w); repeat split; auto; discriminate. Qed.
Theorem C11_exec_grant_needs_everyone id restrictive es e m :
  let before := brun (fwd_init id restrictive) es in
  let after := fst (bstep before e) in
  In m (snd (bstep before e)) -> entersExec m ->
  forall d, In d (w_deps after) -> dependency d = true -> connection d <> c_SELF -> asked d \/ minFed d = w_id after.
Proof.
  cbn zeta. generalize (brun (fwd_init id restrictive) es) as w. clear es. intros w IN EX.
  assert (MSG : forall cmd, In m (snd (fst (fwdMessage w cmd))) -> False).
  { intros cmd I. pose proof (fwdMessage_frame w cmd) as (_&_&_&_&E). rewrite Forall_forall in E. apply E in I. destruct EX as [A _]. rewrite A in I. discriminate. }
  assert (UPD : forall w1, In m (snd (fwdUpdate w1)) -> False) by (intros w1 I; exact (update_not_exec _ _ I EX)).
  assert (ENT : forall w1 (f : fwd -> fwd), (forall x, w_deps (f x) = w_deps x /\ w_id (f x) = w_id x) -> In m (snd (fst (fwdExecEntry w1))) ->
    forall d, In d (w_deps (f (fst (fst (fwdExecEntry w1))))) -> dependency d = true -> connection d <> c_SELF -> asked d \/ minFed d = w_id (f (fst (fst (fwdExecEntry w1))))).
  { intros w1 f F I d ID DD NS. pose proof (execEntry_spec w1) as S. destruct (fwdExecEntry w1) as [[w2 o] b]. cbn [fst snd] in *.
    destruct S as (S1&S2&_&S4). destruct (F w2) as [F1 F2]. rewrite F1, S1 in ID. rewrite F2, S4.
    destruct S2 as [->|S2]; [destruct I|]. destruct (execAllowed_spec w1 S2 d ID DD NS) as [A|(_&A&_)]; auto. }
  assert (NOTE : forall w1, In m (snd (noteEntry (fwdExecEntry w1))) -> forall d, In d (w_deps (fst (noteEntry (fwdExecEntry w1)))) ->
     dependency d = true -> connection d <> c_SELF -> asked d \/ minFed d = w_id (fst (noteEntry (fwdExecEntry w1)))).
  { intros w1. specialize (ENT w1 (fun x => if snd (fwdExecEntry w1) then set_w_entered true x else x)). unfold noteEntry.
    destruct (fwdExecEntry w1) as [[w2 o] b]. cbn [fst snd] in *. apply ENT. intros x. destruct b; split; reflexivity. }
  destruct e as [cmd|cmd|cmd|cmd|cmd|g|g|]; cbn [bstep] in *.
  - specialize (MSG cmd). destruct (fwdMessage w cmd) as [[w1 out] r]. cbn [fst snd] in *.
    destruct (negb (tprProcessed r)); [destruct (MSG IN)|].
    destruct (w_entered w1).
    { specialize (UPD w1). destruct (fwdUpdate w1) as [w2 o]. cbn [fst snd] in *. apply in_app_iff in IN. destruct IN as [IN|IN]; [destruct (MSG IN)|destruct (UPD IN)]. }
    destruct (w_operating w1); [|destruct (MSG IN)].
    specialize (NOTE w1). destruct (noteEntry (fwdExecEntry w1)) as [w2 o]. cbn [fst snd] in *.
    apply in_app_iff in IN. destruct IN as [IN|IN]; [destruct (MSG IN)|]. apply NOTE; exact IN.
  - specialize (MSG cmd). destruct (fwdMessage w cmd) as [[w1 out] r]. cbn [fst snd] in *.
    destruct (negb (tprProcessed r)); [destruct (MSG IN)|].
    destruct (negb (w_entered w1) && w_operating w1); [|destruct (MSG IN)].
    specialize (ENT w1 (set_w_entered true) (fun x => conj eq_refl eq_refl)). pose proof (execEntry_spec w1) as S.
    destruct (fwdExecEntry w1) as [[w2 o] b]. cbn [fst snd] in *. destruct b.
    + apply in_app_iff in IN. destruct IN as [IN|IN]; [destruct (MSG IN)|]. apply ENT; exact IN.
    + destruct S as (_&_&S&_). rewrite (S eq_refl) in *. specialize (UPD w2). destruct (fwdUpdate w2) as [w3 o']. cbn [fst snd app] in *.
      apply in_app_iff in IN. destruct IN as [IN|IN]; [destruct (MSG IN)|destruct (UPD IN)].
  - destruct (negb (w_entered w)).
    + destruct (w_operating w); [|destruct IN].
      specialize (MSG cmd). destruct (fwdMessage w cmd) as [[w1 out] r]. cbn [fst snd] in *.
      destruct (tprProcessed r); [|destruct (MSG IN)].
      specialize (NOTE w1). destruct (noteEntry (fwdExecEntry w1)) as [w2 o]. cbn [fst snd] in *.
      apply in_app_iff in IN. destruct IN as [IN|IN]; [destruct (MSG IN)|]. apply NOTE; exact IN.
    + specialize (MSG cmd). destruct (fwdMessage w cmd) as [[w1 out] r]. cbn [fst snd] in *.
      destruct (tprProcessed r); [|destruct (MSG IN)]. specialize (UPD w1). destruct (fwdUpdate w1) as [w2 o]. cbn [fst snd] in *.
      apply in_app_iff in IN. destruct IN as [IN|IN]; [destruct (MSG IN)|destruct (UPD IN)].
  - specialize (MSG cmd). destruct (fwdMessage w cmd) as [[w1 out] r]. cbn [fst snd] in *. destruct (MSG IN).
  - destruct IN.
  - destruct IN.
  - destruct (fwdAddDependency w g); destruct IN.
  - cbv zeta in *. set (w0 := set_w_operating true w) in *. clearbody w0.
    assert (EE : In m (snd (fwdEnteringExec w0)) -> False).
    { unfold fwdEnteringExec. destruct (w_execMode w0); [intros []|].
      set (p := match w_deps w0 with [] => (w0, [], false) | _ => _ end).
      assert (P : In m (snd (fst p)) -> False).
      { unfold p. destruct (w_deps w0); [intros []|]. specialize (UPD w0). destruct (fwdUpdate w0) as [w1 o]. cbn [fst snd] in *.
        destruct (checkForIssues _ _); cbn [fst snd]; [|exact UPD]. intros I. apply in_app_iff in I. destruct I as [I|[<-|[]]]; [exact (UPD I)|].
        destruct EX as [A _]; discriminate A. }
      clearbody p. destruct p as [[w1 o] bad]. cbn [fst snd] in P. destruct bad; [exact P|]. cbn [snd]. intros I. apply in_app_iff in I.
      destruct I as [I|I]; [exact (P I)|]. apply in_map_iff in I. destruct I as (d & <- & _). destruct EX as [A _]; discriminate A. }
    destruct (fwdEnteringExec w0) as [w1 o1]. cbn [snd] in EE. specialize (NOTE w1). destruct (noteEntry (fwdExecEntry w1)) as [w2 o2]. cbn [fst snd] in *.
    apply in_app_iff in IN. destruct IN as [IN|IN]; [destruct (EE IN)|]. apply NOTE; exact IN.
Qed.

(** ** Concrete cases *)
Definition ex11_brk := 1879048195. Definition ex11_par := 1879048193.
Definition ex11_c1 := 131072. Definition ex11_c2 := 131073.
Definition ex11_joins g := B_dependency (setFlag child_flag (newMsg CMD_ADD_INTERDEPENDENCY g)).
Definition ex11_says a g t := set_m_Te t (set_m_Tdemin t (set_m_actionTime t (newMsg a g))).
Definition ex11_start := [B_parent ex11_par; ex11_joins ex11_c1; ex11_joins ex11_c2; B_init; B_exec (newMsg CMD_EXEC_REQUEST ex11_c1); B_exec (newMsg CMD_EXEC_REQUEST ex11_c2);
  B_exec (newMsg CMD_EXEC_GRANT ex11_par); B_exec (newMsg CMD_EXEC_GRANT ex11_c1); B_exec (newMsg CMD_EXEC_GRANT ex11_c2);
  B_timing (ex11_says CMD_TIME_REQUEST ex11_c1 10)].
Definition ex11_times (l : list amsg) := map (fun m => (m_action m, m_dest_id m, m_actionTime m)) l.
Definition ex11_table (es : list bevent) := w_deps (brun (fwd_init ex11_brk true) es).
(** a broker with a parent and two children: it reports 7, the smaller of 10 and 7 *)
Example C11_meets_hypotheses :
  let e := B_timing (ex11_says CMD_TIME_REQUEST ex11_c2 7) in
  ex11_times (snd (bstep (brun (fwd_init ex11_brk true) ex11_start) e)) = [(CMD_TIME_REQUEST, ex11_par, 7)] /\
  forallb (fun d => negb (dependency d) || ts_leb ts_time_granted (tst d)) (ex11_table (ex11_start ++ [e])) = true /\
  map (fun d => (fedID d, next d, existsb (fun r => (fedID r =? ex11_par) && speaksFor (ex11_table (ex11_start ++ [e])) r d) (ex11_table (ex11_start ++ [e])))) (ex11_table (ex11_start ++ [e]))
    = [(ex11_c1, 10, true); (ex11_c2, 7, true); (ex11_par, 0, false)].
Proof. vm_compute. repeat split. Qed.
(** the exec grant is sent when the parent, the last one, has agreed *)
Example C11_exec_meets_hypotheses :
  map (fun m => (m_action m, m_dest_id m)) (snd (bstep (brun (fwd_init ex11_brk true) (firstn 6 ex11_start)) (nth 6 ex11_start B_init)))
    = [(CMD_EXEC_GRANT, ex11_c1); (CMD_EXEC_GRANT, ex11_c2); (CMD_EXEC_GRANT, ex11_par); (CMD_EXEC_GRANT, ex11_par)]
  /\ snd (bstep (brun (fwd_init ex11_brk true) (firstn 4 ex11_start)) (nth 4 ex11_start B_init)) = [].
Proof. vm_compute. repeat split. Qed.

(** Without the hypothesis the bound fails: when a federate joins a running co-simulation, the broker keeps its old
    upstream value and re-sends it (ForwardingTimeCoordinator.cpp:62-63 and 84-90) although the newcomer has
    released no time at all. *)
Theorem C11_dynamic_join_refuted :
  exists id es e m d rcv, let before := brun (fwd_init id true) es in
  let table := w_deps (fst (bstep before e)) in
  In m (snd (bstep before e)) /\ m_action m = CMD_TIME_REQUEST /\ In rcv table /\ fedID rcv = m_dest_id m /\
  In d table /\ speaksFor table rcv d = true /\ tst d = ts_initialized /\ next d < 0 /\ m_actionTime m = 10.
Proof.
  pose (es := [B_parent ex11_par; ex11_joins ex11_c1; B_init; B_exec (newMsg CMD_EXEC_REQUEST ex11_c1); B_exec (newMsg CMD_EXEC_GRANT ex11_par);
     B_exec (newMsg CMD_EXEC_GRANT ex11_c1); B_timing (ex11_says CMD_TIME_GRANT ex11_par 5); B_timing (ex11_says CMD_TIME_REQUEST ex11_c1 10);
     ex11_joins ex11_c2]).
  pose (e := B_timing (ex11_says CMD_TIME_REQUEST ex11_par 12)).
  exists ex11_brk, es, e.
  let x := eval vm_compute in (nth 0 (snd (bstep (brun (fwd_init ex11_brk true) es) e)) (newMsg 0 0)) in exists x.
  let x := eval vm_compute in (nth 1 (w_deps (fst (bstep (brun (fwd_init ex11_brk true) es) e))) (newDep 0)) in exists x.
  let x := eval vm_compute in (nth 2 (w_deps (fst (bstep (brun (fwd_init ex11_brk true) es) e))) (newDep 0)) in exists x.
  vm_compute. repeat split; auto.
Qed.
