(** * What the last timing message of a dependency says, and how long it stays in force *)
From Coq Require Import ZArith Bool List Lia ZifyBool.
From Verif Require Import HTime Action TimeDep TimeDepProofs TimeCoord TimeCoordProofs TimeProc TimeProcProofs TimeInitProofs TimeInv TimeAnswer TimeGrid PropsTime1 TimeTable MinTimeProofs.
Import ListNotations.
Open Scope Z_scope.

(** commands which tell about the progress of their sender *)
Definition isNotice (a : Z) : bool :=
  match tkind_of a with
  | k_exec_request | k_exec_grant | k_time_request | k_time_grant | k_disconnect | k_error => true
  | _ => false
  end.
(** commands which add or remove their sender as a dependency *)
Definition changesDependency (a : Z) : bool :=
  (a =? CMD_ADD_DEPENDENCY) || (a =? CMD_REMOVE_DEPENDENCY) || (a =? CMD_ADD_INTERDEPENDENCY) || (a =? CMD_REMOVE_INTERDEPENDENCY).
(** an event which is not a notice from [g] and does not add, remove or reset the dependency on [g] *)
Definition quiet (g : Z) (e : event) : Prop :=
  match e with
  | Ev_msg cmd => m_source_id cmd = g -> isNotice (m_action cmd) = false /\ changesDependency (m_action cmd) = false
  | Ev_addDependency x | Ev_resetDependency x => x <> g
  | _ => True
  end.

Definition key (d : dinfo) := (next d, minDe d, tst d, dependency d, connection d, Te d).

Lemma notice_removes a : isNotice a = false -> removesDependent a = false.
Proof.
  unfold isNotice, tkind_of, removesDependent. intros H.
  repeat match type of H with context [if ?b then _ else _] => destruct b eqn:?; try discriminate H end;
  try (repeat match goal with E : (_ || _) = false |- _ => apply orb_false_iff in E as [? ?] end);
  unfold CMD_DISCONNECT, CMD_BROADCAST_DISCONNECT, CMD_DISCONNECT_CORE, CMD_DISCONNECT_FED, CMD_DISCONNECT_BROKER, CMD_GLOBAL_ERROR, CMD_LOCAL_ERROR,
   CMD_EXEC_REQUEST, CMD_EXEC_GRANT, CMD_TIME_REQUEST, CMD_TIME_GRANT, CMD_PRIORITY_DISCONNECT, CMD_TIMING_INFO, CMD_SEND_MESSAGE, CMD_PUB, CMD_REQUEST_CURRENT_TIME, cmd_info_basis in *; lia.
Qed.
Lemma quiet_key cmd d : isNotice (m_action cmd) = false -> key (fst (processMessage cmd d)) = key d.
Proof.
  unfold isNotice, processMessage, key. destruct (tkind_of (m_action cmd)); intros H; try discriminate H; reflexivity.
Qed.
Lemma updDep_getDep l g f g' : (forall d, fedID (f d) = fedID d) -> tsorted l ->
  getDep (updDep l g f) g' = if g' =? g then option_map f (getDep l g') else getDep l g'.
Proof.
  intros H S. rewrite updDep_alter. rewrite !getDep_lookup; [|exact S|apply alter_sorted; [apply keepsId_upd; exact H|exact S]].
  rewrite lookup_alter; [|apply keepsId_upd; exact H|exact S]. destruct (Z.eqb_spec g' g) as [->|N]; reflexivity.
Qed.
Lemma updDep_sorted l g f : (forall d, fedID (f d) = fedID d) -> tsorted l -> tsorted (updDep l g f).
Proof. intros H S. rewrite updDep_alter. apply alter_sorted; [apply keepsId_upd; exact H|exact S]. Qed.

(** adding a dependency touches only that entry *)
Lemma tcAddDependency_table c x : tsorted (c_deps c) ->
  tsorted (c_deps (fst (tcAddDependency c x))) /\ forall g, g <> x -> getDep (c_deps (fst (tcAddDependency c x))) g = getDep (c_deps c) g.
Proof.
  intros S. unfold tcAddDependency.
  pose proof (applyOp_sorted _ (OpAddDependency x) S) as S2. cbn [applyOp] in S2.
  pose proof (fun g => applyOp_lookup _ (OpAddDependency x) g S) as L. cbn [applyOp opTarget] in L.
  destruct (addDependency (c_deps c) x) as [deps added]. cbn [fst] in *.
  change (c_deps (set_c_deps (if added && (x =? c_id c) then updDep deps x (set_connection c_SELF) else deps) c))
    with (if added && (x =? c_id c) then updDep deps x (set_connection c_SELF) else deps).
  destruct (added && (x =? c_id c)).
  - split; [apply updDep_sorted; [reflexivity|exact S2]|]. intros g N. rewrite updDep_getDep; [|reflexivity|exact S2].
    rewrite L. destruct (Z.eqb_spec g x); [contradiction|reflexivity].
  - split; [exact S2|]. intros g N. rewrite L. destruct (Z.eqb_spec g x); [contradiction|reflexivity].
Qed.
Lemma setConnection_table c x k : tsorted (c_deps c) ->
  tsorted (c_deps (setConnection c x k)) /\ forall g, g <> x -> getDep (c_deps (setConnection c x k)) g = getDep (c_deps c) g.
Proof.
  intros S. unfold setConnection. destruct (x =? c_id c); [split; auto|]. cbn [c_deps set_c_deps].
  split; [apply updDep_sorted; [reflexivity|exact S]|]. intros g N. rewrite updDep_getDep; [|reflexivity|exact S].
  destruct (Z.eqb_spec g x); [contradiction|reflexivity].
Qed.
Lemma setVersion_table c x v : tsorted (c_deps c) ->
  tsorted (c_deps (setVersion c x v)) /\ forall g, g <> x -> getDep (c_deps (setVersion c x v)) g = getDep (c_deps c) g.
Proof.
  intros S. unfold setVersion. cbn [c_deps set_c_deps].
  split; [apply updDep_sorted; [reflexivity|exact S]|]. intros g N. rewrite updDep_getDep; [|reflexivity|exact S].
  destruct (Z.eqb_spec g x); [contradiction|reflexivity].
Qed.

(** the effect of the first part of processDependencyUpdateMessage *)
Definition depUpdateFirst (c : tc) (cmd : amsg) : tc * bool :=
  let a := m_action cmd in
  let g := m_source_id cmd in
    if a =? CMD_ADD_DEPENDENCY then tcAddDependency c g
    else if a =? CMD_REMOVE_DEPENDENCY then (set_c_deps (removeDependency (c_deps c) g) c, false)
    else if a =? CMD_ADD_DEPENDENT then (set_c_deps (fst (addDependent (c_deps c) g)) c, false)
    else if a =? CMD_REMOVE_DEPENDENT then (set_c_deps (removeDependent (c_deps c) g) c, false)
    else if a =? CMD_ADD_INTERDEPENDENCY then
      let '(c, ad) := tcAddDependency c g in (set_c_deps (fst (addDependent (c_deps c) g)) c, ad)
    else if a =? CMD_REMOVE_INTERDEPENDENCY then
      (set_c_deps (removeDependent (removeDependency (c_deps c) g) g) c, false)
    else if a =? CMD_TIMING_INFO then (set_c_deps (fst (updateTime (c_deps c) cmd)) c, false)
    else (c, false).
Lemma depUpdate_eq c cmd : processDependencyUpdateMessage c cmd =
  let '(c, added) := depUpdateFirst c cmd in
  if added then
    let c := if checkFlag child_flag cmd then setConnection c (m_source_id cmd) c_CHILD else c in
    let c := if checkFlag parent_flag cmd then setConnection c (m_source_id cmd) c_PARENT else c in
    if 0 <? m_counter cmd then setVersion c (m_source_id cmd) (s8 (m_counter cmd)) else c
  else c.
Proof. reflexivity. Qed.
Lemma depFirst_table c cmd : tsorted (c_deps c) -> let c' := fst (depUpdateFirst c cmd) in
  tsorted (c_deps c') /\ forall g, g <> m_source_id cmd -> getDep (c_deps c') g = getDep (c_deps c) g.
Proof.
  intros S. cbn zeta. unfold depUpdateFirst.
  assert (OP : forall o, opTarget o = m_source_id cmd -> forall l, tsorted l -> tsorted (applyOp l o) /\ forall g, g <> m_source_id cmd -> getDep (applyOp l o) g = getDep l g).
  { intros o T l Sl. split; [apply applyOp_sorted; exact Sl|]. intros g N. rewrite applyOp_lookup by exact Sl. rewrite T.
    destruct (Z.eqb_spec g (m_source_id cmd)); [contradiction|reflexivity]. }
  destruct (_ =? CMD_ADD_DEPENDENCY); [apply tcAddDependency_table; exact S|].
  destruct (_ =? CMD_REMOVE_DEPENDENCY); [apply (OP (OpRemoveDependency (m_source_id cmd)) eq_refl _ S)|].
  destruct (_ =? CMD_ADD_DEPENDENT); [apply (OP (OpAddDependent (m_source_id cmd)) eq_refl _ S)|].
  destruct (_ =? CMD_REMOVE_DEPENDENT); [apply (OP (OpRemoveDependent (m_source_id cmd)) eq_refl _ S)|].
  destruct (_ =? CMD_ADD_INTERDEPENDENCY).
  { pose proof (tcAddDependency_table c (m_source_id cmd) S) as [A1 A2]. destruct (tcAddDependency c _) as [c1 ad]. cbn [fst] in *.
    destruct (OP (OpAddDependent (m_source_id cmd)) eq_refl _ A1) as [B1 B2]. split; [exact B1|]. intros g N. rewrite <- A2 by exact N. apply B2; exact N. }
  destruct (_ =? CMD_REMOVE_INTERDEPENDENCY).
  { destruct (OP (OpRemoveDependency (m_source_id cmd)) eq_refl _ S) as [A1 A2].
    destruct (OP (OpRemoveDependent (m_source_id cmd)) eq_refl _ A1) as [B1 B2]. split; [exact B1|]. intros g N. rewrite <- A2 by exact N. apply B2; exact N. }
  destruct (_ =? CMD_TIMING_INFO); [apply (OP (OpMessage cmd) eq_refl _ S)|]. split; auto.
Qed.
Lemma depUpdate_table c cmd : tsorted (c_deps c) -> let c' := processDependencyUpdateMessage c cmd in
  tsorted (c_deps c') /\ forall g, g <> m_source_id cmd -> getDep (c_deps c') g = getDep (c_deps c) g.
Proof.
  intros S. cbn zeta. rewrite depUpdate_eq. pose proof (depFirst_table c cmd S) as T. cbn zeta in T.
  destruct (depUpdateFirst c cmd) as [c1 ad]. cbn [fst] in T. destruct T as [S1 T]. destruct ad; [|split; assumption].
  cbv zeta. set (c2 := if checkFlag child_flag cmd then setConnection c1 (m_source_id cmd) c_CHILD else c1).
  assert (P2 : tsorted (c_deps c2) /\ forall g, g <> m_source_id cmd -> getDep (c_deps c2) g = getDep (c_deps c) g).
  { unfold c2. destruct (checkFlag child_flag cmd); [|split; assumption].
    destruct (setConnection_table c1 (m_source_id cmd) c_CHILD S1) as [A B]. split; [exact A|]. intros g N. rewrite B, T by exact N. reflexivity. }
  clearbody c2. destruct P2 as [S2 T2].
  set (c3 := if checkFlag parent_flag cmd then setConnection c2 (m_source_id cmd) c_PARENT else c2).
  assert (P3 : tsorted (c_deps c3) /\ forall g, g <> m_source_id cmd -> getDep (c_deps c3) g = getDep (c_deps c) g).
  { unfold c3. destruct (checkFlag parent_flag cmd); [|split; assumption].
    destruct (setConnection_table c2 (m_source_id cmd) c_PARENT S2) as [A B]. split; [exact A|]. intros g N. rewrite B, T2 by exact N. reflexivity. }
  clearbody c3. destruct P3 as [S3 T3].
  destruct (0 <? m_counter cmd); [|split; assumption].
  destruct (setVersion_table c3 (m_source_id cmd) (s8 (m_counter cmd)) S3) as [A B]. split; [exact A|]. intros g N. rewrite B, T3 by exact N. reflexivity.
Qed.

Lemma tabStep_sorted e id G l l' : tabStep e id G l l' -> tsorted l -> tsorted l'.
Proof.
  intros H S. destruct H as [->|cmd _ _ _ ->|a _ ->|cmd c _ <- _ ->|x c _ <- _ ->|x _ ->|x _ ->|t it nv nm _ ->|t ->| ->].
  - exact S.
  - apply msgTable_sorted; exact S.
  - apply msgTable_sorted; exact S.
  - apply depUpdate_table; exact S.
  - apply tcAddDependency_table; exact S.
  - apply (applyOp_sorted _ (OpAddDependent x)); exact S.
  - rewrite resetDependency_alter. apply alter_sorted; [apply keepsId_reset|exact S].
  - apply (map_sorted (f_events G)); [apply f_events_id|exact S].
  - apply (map_sorted (f_iterTime t)); [apply f_iterTime_id|exact S].
  - apply (map_sorted f_iterExec); [apply f_iterExec_id|exact S].
Qed.

(** a property of the entry of [g] which a quiet event preserves *)
Definition has (l : table) (g : Z) (P : dinfo -> Prop) : Prop := exists d, getDep l g = Some d /\ dependency d = true /\ P d.
Lemma entry_preserved e id G l l' g (P : dinfo -> Prop) : tabStep e id G l l' -> tsorted l -> g <> id -> quiet g e ->
  (forall d d', key d' = key d -> P d -> P d') ->
  (forall d, dependency d = true -> P d -> (exists t it nv nm, e = Ev_request t it nv nm) -> P (f_events G d)) ->
  (forall t d, dependency d = true -> P d -> P (f_iterTime t d)) ->
  (forall d, dependency d = true -> P d -> P (f_iterExec d)) ->
  has l g P -> has l' g P.
Proof.
  intros H S NG Q PK PE PT PX (d&D1&D2&D3).
  assert (KEY : forall d', getDep l' g = Some d' -> key d' = key d -> has l' g P).
  { intros d' E K. exists d'. split; [exact E|]. split; [unfold key in K; congruence|]. eapply PK; eassumption. }
  destruct H as [->|cmd E B NF ->|a _ ->|cmd c E <- <- ->|x c E <- <- ->|x E ->|x E ->|t it nv nm E ->|t ->| ->].
  - exists d; auto.
  - destruct (Z.eqb_spec g (m_source_id cmd)) as [EQ|N].
    2: { exists d. rewrite msgTable_getDep by exact S. rewrite (proj2 (Z.eqb_neq _ _) N). auto. }
    assert (NN : isNotice (m_action cmd) = false).
    { destruct E as [->|[DC _]].
      - cbn [quiet] in Q. apply Q. auto.
      - unfold isDataCmd in DC. apply orb_true_iff in DC as [DC|DC]; apply Z.eqb_eq in DC; rewrite DC; reflexivity. }
    eapply KEY.
    + rewrite msgTable_getDep by exact S. rewrite (proj2 (Z.eqb_eq _ _) EQ). unfold f_msg.
      rewrite (notice_removes _ NN), D1. cbn [f_upd]. rewrite D2. reflexivity.
    + apply quiet_key; exact NN.
  - exists d. rewrite msgTable_getDep by exact S. change (m_source_id (set_m_dest_id id (newMsg a id))) with id.
    rewrite (proj2 (Z.eqb_neq _ _) NG). auto.
  - destruct (Z.eq_dec g (m_source_id cmd)) as [EQ|N].
    2: { exists d. rewrite (proj2 (depUpdate_table c cmd S)) by exact N. auto. }
    rewrite E in Q. cbn [quiet] in Q. destruct (Q (eq_sym EQ)) as [Q1 Q2]. unfold changesDependency in Q2.
    assert (Q3 : (m_action cmd =? CMD_ADD_DEPENDENCY) = false /\ (m_action cmd =? CMD_REMOVE_DEPENDENCY) = false
       /\ (m_action cmd =? CMD_ADD_INTERDEPENDENCY) = false /\ (m_action cmd =? CMD_REMOVE_INTERDEPENDENCY) = false) by lia.
    destruct Q3 as (A1&A2&A3&A4). rewrite depUpdate_eq in *. unfold depUpdateFirst in *. rewrite A1, A2, A3, A4 in *.
    destruct (_ =? CMD_ADD_DEPENDENT); [|destruct (_ =? CMD_REMOVE_DEPENDENT); [|destruct (_ =? CMD_TIMING_INFO)]].
    + cbn [c_deps set_c_deps] in *. pose proof (applyOp_lookup _ (OpAddDependent (m_source_id cmd)) g S) as L. cbn [applyOp opTarget opFun] in L.
      rewrite (proj2 (Z.eqb_eq _ _) EQ), D1 in L. cbn [f_addDependent] in L. eapply KEY; [exact L|reflexivity].
    + cbn [c_deps set_c_deps] in *. pose proof (applyOp_lookup _ (OpRemoveDependent (m_source_id cmd)) g S) as L. cbn [applyOp opTarget opFun] in L.
      rewrite (proj2 (Z.eqb_eq _ _) EQ), D1 in L. cbn [f_removeDependent] in L. rewrite D2 in L. eapply KEY; [exact L|reflexivity].
    + cbn [c_deps set_c_deps] in *. pose proof (applyOp_lookup _ (OpMessage cmd) g S) as L. cbn [applyOp opTarget opFun] in L.
      rewrite (proj2 (Z.eqb_eq _ _) EQ), D1 in L. cbn [f_upd] in L. rewrite D2 in L. eapply KEY; [exact L|]. apply quiet_key; exact Q1.
    + exists d; auto.
  - rewrite E in Q. cbn [quiet] in Q. exists d. rewrite (proj2 (tcAddDependency_table c x S)) by auto. auto.
  - destruct (Z.eq_dec g x) as [EQ|N].
    + pose proof (applyOp_lookup _ (OpAddDependent x) g S) as L. cbn [applyOp opTarget opFun] in L.
      rewrite (proj2 (Z.eqb_eq _ _) EQ), D1 in L. cbn [f_addDependent] in L. eapply KEY; [exact L|reflexivity].
    + pose proof (applyOp_lookup _ (OpAddDependent x) g S) as L. cbn [applyOp opTarget opFun] in L.
      rewrite (proj2 (Z.eqb_neq _ _) N), D1 in L. eapply KEY; [exact L|reflexivity].
  - rewrite E in Q. cbn [quiet] in Q. exists d.
    rewrite resetDependency_alter, getDep_lookup by (apply alter_sorted; [apply keepsId_reset|exact S]).
    rewrite lookup_alter by (try apply keepsId_reset; exact S). rewrite (proj2 (Z.eqb_neq g x)) by auto.
    rewrite <- getDep_lookup by exact S. auto.
  - exists (f_events G d). change (resetDependentEvents G l) with (map (f_events G) l). rewrite map_getDep by (try apply f_events_id; exact S).
    rewrite D1. split; [reflexivity|]. split; [unfold f_events; rewrite D2; exact D2|]. apply PE; eauto 6.
  - exists (f_iterTime t d). change (resetIteratingTimeRequests t l) with (map (f_iterTime t) l). rewrite map_getDep by (try apply f_iterTime_id; exact S).
    rewrite D1. split; [reflexivity|]. split; [unfold f_iterTime; destruct (_ && _); exact D2|]. apply PT; assumption.
  - exists (f_iterExec d). change (resetIteratingExecRequests l) with (map f_iterExec l). rewrite map_getDep by (try apply f_iterExec_id; exact S).
    rewrite D1. split; [reflexivity|]. split; [unfold f_iterExec; destruct (_ && _); exact D2|]. apply PX; assumption.
Qed.
