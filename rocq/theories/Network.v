(** * A federation: federates exchanging timing commands, and what keeps it causal *)
From Coq Require Import ZArith Bool List Lia ZifyBool.
From Verif Require Import HTime Action TimeDep TimeDepProofs TimeCoord TimeCoordProofs TimeProc TimeProcProofs
  TimeInitProofs MinTimeProofs TimeInv TimeAnswer TimeGrid PropsTime1 TimeTable TimeNotice NoticeStep PropsTime2 PropsTime3 Promise Mine.
Import ListNotations.
Open Scope Z_scope.

(** ** The times recorded in a table *)
(** every entry but the federate's own holds a time acceptable to [P] *)
Definition tn (P : Z -> Z -> Prop) (id : Z) (l : table) : Prop := forall g d, g <> id -> getDep l g = Some d -> P g (next d).

Lemma processMessage_next cmd d : m_action cmd <> CMD_GLOBAL_ERROR ->
  next (fst (processMessage cmd d)) = match claim cmd with Some x => x | None => next d end.
Proof.
  intros NG. unfold processMessage, claim. destruct (tkind_of (m_action cmd)); try reflexivity.
  - unfold clearUpdateReq. cbv zeta. cbn [fst]. match goal with |- context [if ?b then set_updateRequested _ _ else _] => destruct b end; reflexivity.
  - destruct (checkFlag iteration_requested_flag cmd); reflexivity.
  - cbv zeta. unfold clearUpdateReq. cbn [fst]. destruct (checkFlag iteration_requested_flag cmd), (checkFlag required_flag cmd), (ts_eqb (tst d) ts_time_granted), (checkFlag non_granting_flag cmd); match goal with |- context [if ?b then set_updateRequested _ _ else _] => destruct b end; reflexivity.


  - destruct (Z.eqb_spec (m_action cmd) CMD_GLOBAL_ERROR); [contradiction|reflexivity].
Qed.

Section Table.
Variable P : Z -> Z -> Prop.
Variable id : Z.
Hypothesis Pstart : forall g, P g (-1).

Definition opClaims (o : tdop) : Prop :=
  match o with OpMessage cmd => m_action cmd <> CMD_GLOBAL_ERROR /\ (m_source_id cmd <> id -> forall x, claim cmd = Some x -> P (m_source_id cmd) x) | _ => True end.
Lemma op_tn l o : tsorted l -> opClaims o -> tn P id l -> tn P id (applyOp l o).
Proof.
  intros S C H g d N E. rewrite applyOp_lookup in E by exact S. destruct (Z.eqb_spec g (opTarget o)) as [T|T]; [|eapply H; eassumption].
  destruct (getDep l g) as [y|] eqn:Y; [pose proof (H g y N Y) as HY|]; destruct o; cbn [opFun] in E; cbn in E.
  - injection E as <-. destruct (cTerminationTime <? next y); [apply Pstart|exact HY].
  - destruct (dependent y); [injection E as <-; exact HY|discriminate].
  - injection E as <-; exact HY.
  - destruct (dependency y); [injection E as <-; exact HY|discriminate].
  - discriminate E.
  - injection E as <-. destruct (dependency y); [|exact HY]. destruct C as [C1 C2]. rewrite processMessage_next by exact C1.
    cbn [opTarget] in T. subst g. destruct (claim cmd) as [x|]; [apply C2; auto|exact HY].
  - injection E as <-. apply Pstart.
  - discriminate E.
  - injection E as <-. apply Pstart.
  - discriminate E.
  - discriminate E.
  - discriminate E.
Qed.
Lemma msgTable_tn l cmd : tsorted l -> opClaims (OpMessage cmd) -> tn P id l -> tn P id (msgTable l cmd).
Proof.
  intros S C H. unfold msgTable. destruct (removesDependent (m_action cmd)).
  - apply (op_tn _ (OpMessage cmd)); [apply (applyOp_sorted _ (OpRemoveDependent (m_source_id cmd))); exact S|exact C|].
    apply (op_tn _ (OpRemoveDependent (m_source_id cmd))); [exact S|exact Logic.I|exact H].
  - apply (op_tn _ (OpMessage cmd)); assumption.
Qed.
Lemma map_tn f l : (forall d, fedID (f d) = fedID d) -> (forall d, next (f d) = next d) -> tsorted l -> tn P id l -> tn P id (map f l).
Proof.
  intros F C S H g d N E. rewrite map_getDep in E by assumption. destruct (getDep l g) as [y|] eqn:Y; [|discriminate]. injection E as <-.
  rewrite C. eapply H; eassumption.
Qed.
Lemma upd_tn l g f : (forall d, fedID (f d) = fedID d) -> (forall d, next (f d) = next d) -> tsorted l -> tn P id l -> tn P id (updDep l g f).
Proof.
  intros F C S H x d N E. rewrite updDep_getDep in E by assumption. destruct (x =? g); [|eapply H; eassumption].
  destruct (getDep l x) as [y|] eqn:Y; [|discriminate]. injection E as <-. rewrite C. eapply H; eassumption.
Qed.
Lemma tcAdd_tn c x : tsorted (c_deps c) -> tn P id (c_deps c) -> tn P id (c_deps (fst (tcAddDependency c x))).
Proof.
  intros S H. unfold tcAddDependency.
  pose proof (applyOp_sorted _ (OpAddDependency x) S) as S2. pose proof (op_tn _ (OpAddDependency x) S Logic.I H) as H2. cbn [applyOp] in S2, H2.
  destruct (addDependency (c_deps c) x) as [deps added]. cbn [fst] in *.
  change (c_deps (set_c_deps (if added && (x =? c_id c) then updDep deps x (set_connection c_SELF) else deps) c))
    with (if added && (x =? c_id c) then updDep deps x (set_connection c_SELF) else deps).
  destruct (added && (x =? c_id c)) eqn:E; [|exact H2]. apply upd_tn; auto.
Qed.
Lemma setConnection_tn c x k : tsorted (c_deps c) -> tn P id (c_deps c) -> tn P id (c_deps (setConnection c x k)).
Proof. intros S H. unfold setConnection. destruct (x =? c_id c); [assumption|]. apply upd_tn; auto. Qed.
Lemma depUpdate_tn c cmd : tsorted (c_deps c) -> tn P id (c_deps c) -> tn P id (c_deps (processDependencyUpdateMessage c cmd)).
Proof.
  intros S H. rewrite depUpdate_eq. pose proof (depFirst_table c cmd S) as [S1 _].
  assert (H1 : tn P id (c_deps (fst (depUpdateFirst c cmd)))).
  { clear S1. unfold depUpdateFirst.
    destruct (_ =? CMD_ADD_DEPENDENCY); [apply tcAdd_tn; assumption|].
    destruct (_ =? CMD_REMOVE_DEPENDENCY); [apply (op_tn _ (OpRemoveDependency (m_source_id cmd))); auto; exact Logic.I|].
    destruct (_ =? CMD_ADD_DEPENDENT); [apply (op_tn _ (OpAddDependent (m_source_id cmd))); auto; exact Logic.I|].
    destruct (_ =? CMD_REMOVE_DEPENDENT); [apply (op_tn _ (OpRemoveDependent (m_source_id cmd))); auto; exact Logic.I|].
    destruct (_ =? CMD_ADD_INTERDEPENDENCY).
    { pose proof (tcAddDependency_table c (m_source_id cmd) S) as [A1 _]. pose proof (tcAdd_tn c (m_source_id cmd) S H) as A2.
      destruct (tcAddDependency c _) as [c1 ad]. cbn [fst] in *.
      apply (op_tn _ (OpAddDependent (m_source_id cmd))); auto; exact Logic.I. }
    destruct (_ =? CMD_REMOVE_INTERDEPENDENCY).
    { apply (op_tn _ (OpRemoveDependent (m_source_id cmd))); [|exact Logic.I|].
      - apply (applyOp_sorted _ (OpRemoveDependency (m_source_id cmd))); exact S.
      - apply (op_tn _ (OpRemoveDependency (m_source_id cmd))); auto; exact Logic.I. }
    destruct (Z.eqb_spec (m_action cmd) CMD_TIMING_INFO) as [E|E]; [|assumption].
    apply (op_tn _ (OpMessage cmd)); auto. split; [rewrite E; discriminate|]. intros _ x X. unfold claim in X. rewrite E in X. discriminate X. }
  destruct (depUpdateFirst c cmd) as [c1 ad]. cbn [fst] in *. destruct ad; [|exact H1].
  cbv zeta. set (c2 := if checkFlag child_flag cmd then setConnection c1 (m_source_id cmd) c_CHILD else c1).
  assert (P2 : tsorted (c_deps c2) /\ tn P id (c_deps c2)).
  { unfold c2. destruct (checkFlag child_flag cmd); [|auto]. split; [apply setConnection_table; exact S1|]. apply setConnection_tn; auto. }
  clearbody c2. destruct P2 as (S2&H2).
  set (c3 := if checkFlag parent_flag cmd then setConnection c2 (m_source_id cmd) c_PARENT else c2).
  assert (P3 : tsorted (c_deps c3) /\ tn P id (c_deps c3)).
  { unfold c3. destruct (checkFlag parent_flag cmd); [|auto]. split; [apply setConnection_table; exact S2|]. apply setConnection_tn; auto. }
  clearbody c3. destruct P3 as (S3&H3).
  destruct (0 <? m_counter cmd); [|exact H3]. unfold setVersion. cbn [c_deps set_c_deps]. apply upd_tn; auto.
Qed.
(** what an event may claim on behalf of another federate *)
Definition evClaims (e : event) : Prop :=
  forall cmd, e = Ev_msg cmd -> m_action cmd <> CMD_GLOBAL_ERROR /\ (m_source_id cmd <> id -> forall x, claim cmd = Some x -> P (m_source_id cmd) x).
Lemma tabStep_tn e G l l' : evClaims e -> tabStep e id G l l' -> tsorted l -> tn P id l -> tn P id l'.
Proof.
  intros C H S F. destruct H as [->|cmd E _ _ ->|a E ->|cmd c _ EL _ ->|x c _ EL _ ->|x _ ->|x _ ->|t it nv nm _ ->|t ->| ->].
  - exact F.
  - apply msgTable_tn; auto. destruct E as [E|[D _]]; [apply (C cmd E)|].
    unfold isDataCmd in D. apply orb_prop in D as [D|D]; apply Z.eqb_eq in D; (split; [rewrite D; discriminate|]); intros _ x X; unfold claim in X; rewrite D in X; discriminate X.
  - apply msgTable_tn; auto. split; [destruct E as [-> | ->]; discriminate|]. intros N. destruct N. reflexivity.
  - rewrite <- EL in *. apply depUpdate_tn; assumption.
  - rewrite <- EL in *. apply tcAdd_tn; assumption.
  - apply (op_tn _ (OpAddDependent x)); auto; exact Logic.I.
  - intros g d N E. rewrite resetDependency_alter, getDep_lookup in E by (apply alter_sorted; [apply keepsId_reset|exact S]).
    rewrite lookup_alter in E by (try apply keepsId_reset; exact S). destruct (Z.eqb_spec g x) as [->|].
    + rewrite <- getDep_lookup in E by exact S. destruct (getDep l x) as [y|] eqn:Y; [|discriminate]. cbn in E.
      destruct (_ && _); injection E as <-; [apply Pstart|]. eapply F; eassumption.
    + rewrite <- getDep_lookup in E by exact S. eapply F; eassumption.
  - apply (map_tn (f_events G)); auto; [apply f_events_id|]. intros d. unfold f_events. destruct (dependency d); reflexivity.
  - apply (map_tn (f_iterTime t)); auto; [apply f_iterTime_id|]. intros d. unfold f_iterTime. destruct (_ && _); reflexivity.
  - apply (map_tn f_iterExec); auto; [apply f_iterExec_id|]. intros d. unfold f_iterExec. destruct (_ && _); reflexivity.
Qed.
Lemma aprims_tn e c c' : evClaims e -> aprims e c c' -> tabOk id c -> tn P id (c_deps c) -> tabOk id c' /\ tn P id (c_deps c').
Proof.
  intros C H T F. apply (aprims_inv e (fun c => tabOk id c /\ tn P id (c_deps c))) with (c := c); [|exact H|split; assumption].
  clear c c' H T F. intros c c' A [T F]. split; [eapply aprim_tabOk; eassumption|]. destruct T as (T1&T2&_).
  destruct (aprim_tabOf e c c' A) as (B&_). rewrite T1 in B. eapply tabStep_tn; eassumption.
Qed.
End Table.

(** ** A global error ends the federate *)
Lemma dead_stays f f' out : Rf f f' out -> dead (f_st f) = true -> dead (f_st f') = true.
Proof.
  intros H D. assert (K : kinv (f_tc f) (f_st f) (f_gm f)) by (intros N; congruence).
  destruct (H K) as (_&M&_). unfold keeps in M.
  destruct (f_st f); try discriminate D; destruct (f_st f'); try reflexivity; exfalso.
  all: try (specialize (M (initializationTime + 1) Logic.I); lia).
  all: match type of M with forall x, True -> x <= ?b => specialize (M (b + 1) Logic.I); lia end.
Qed.
Lemma finish_st f out disc p : f_st (fst (finish f out disc p)) = f_st f \/ dead (f_st (fst (finish f out disc p))) = true.
Proof.
  unfold finish. destruct (returnable p); [|left; reflexivity].
  pose proof (returnTo_parts f p) as (_&B&_). destruct (returnTo f p). cbn [fst] in *. left. exact B.
Qed.
Lemma globalError_dead f cmd : plain f (Ev_msg cmd) -> m_action cmd = CMD_GLOBAL_ERROR -> dead (f_st (fst (step f (Ev_msg cmd)))) = true.
Proof.
  intros PL A. destruct (step_R f _ PL) as [RR _].
  destruct (dead (f_st f)) eqn:D; [eapply dead_stays; eassumption|]. clear RR PL.
  cbn [step]. unfold isOwnRequest, isDataCmd. rewrite A.
  replace (fst_eqb (f_st f) FINISHED) with false by (destruct (f_st f); try reflexivity; discriminate D). cbn [orb andb Z.eqb].
  change ((CMD_GLOBAL_ERROR =? CMD_PUB) || (CMD_GLOBAL_ERROR =? CMD_SEND_MESSAGE)
    || (((CMD_GLOBAL_ERROR =? CMD_TIME_REQUEST) || (CMD_GLOBAL_ERROR =? CMD_EXEC_REQUEST)) && (m_source_id cmd =? c_id (f_tc f)) && checkFlag indicator_flag cmd) || false) with false.
  cbv iota.
  assert (E : coordStep cmd (f_tc f) (f_st f) (f_gm f) = (f_tc f, [], ERRORED, PR_ERROR, f_gm f)).
  { unfold coordStep. rewrite A. cbn [isBlockCmd]. 
    change (isBlockCmd CMD_GLOBAL_ERROR) with false. cbv iota.
    destruct (f_st f); try discriminate D; reflexivity. }
  assert (Q : dead (f_st (fst (deliver f cmd))) = true).
  { unfold deliver. change procDepth with (S (pred procDepth)). cbn [procMsg]. rewrite E. unfold checkProcResult.
    replace (fst_eqb (f_st f) ERRORED) with false by (destruct (f_st f); try reflexivity; discriminate D).
    cbn [returnable]. match goal with |- context [finish ?a ?b ?c ?d] => destruct (finish_st a b c d) as [->|X]; [|exact X] end.
    destruct (f_gm f); reflexivity. }
  unfold maskError. destruct (fst_eqb (f_st f) ERRORED); exact Q.
Qed.

(** ** The federation
    [n_fed i] is the federate with identifier [i], [n_log] every command which any federate has sent. *)
Record net : Type := mkNet { n_fed : Z -> option fed; n_log : list amsg }.
(** A command which was sent arrives ([N_deliver k]: the k-th ever sent, at any later time, in any order,
    possibly repeatedly or never), or something else happens at federate [j] ([N_local]): a call of its
    application, data arriving, or a command of its core or broker. *)
Inductive nevent : Type :=
| N_deliver (k : nat)
| N_local (j : Z) (e : event).
Definition at_ (n : net) (j : Z) (e : event) : net :=
  match n_fed n j with
  | None => n
  | Some f => mkNet (fun i => if i =? j then Some (fst (step f e)) else n_fed n i) (n_log n ++ e_msgs (snd (step f e)))
  end.
Definition nstep (n : net) (e : nevent) : net :=
  match e with
  | N_deliver k => match nth_error (n_log n) k with Some m => at_ n (m_dest_id m) (Ev_msg m) | None => n end
  | N_local j e => at_ n j e
  end.
(** what a core or broker may tell a federate: the end of another federate only after that federate ended *)
Definition honest (n : net) (j : Z) (e : event) : Prop :=
  forall cmd, e = Ev_msg cmd -> claim cmd <> None -> m_source_id cmd <> j ->
  forall g, n_fed n (m_source_id cmd) = Some g -> dead (f_st g) = true.
Definition allowed (n : net) (e : nevent) : Prop :=
  match e with
  | N_deliver k => forall m f, nth_error (n_log n) k = Some m -> n_fed n (m_dest_id m) = Some f -> plain f (Ev_msg m)
  | N_local j e => (forall f, n_fed n j = Some f -> plain f e) /\ honest n j e
  end.
Inductive nrun : net -> list nevent -> net -> Prop :=
| nr_nil n : nrun n [] n
| nr_cons n e es n' : allowed n e -> nrun (nstep n e) es n' -> nrun n (e :: es) n'.
(** a federation before anything happened: every federate just created, with restrictive time policy and fixed options *)
Definition fresh (n : net) : Prop :=
  n_log n = [] /\ forall i f, n_fed n i = Some f -> exists o k, fixedOpts o /\ f = fed_init i o k.

Definition keptBy (n : net) (i x : Z) : Prop := forall g, n_fed n i = Some g -> keepsF x g.
Record causal (n : net) : Prop := mkCausal {
  ca_fed : forall i f, n_fed n i = Some f -> Kf f /\ sendOk f /\ tabOk i (f_tc f) /\ inv f;
  ca_log : forall m x, In m (n_log n) -> claim m = Some x -> keptBy n (m_source_id m) x;
  ca_tab : forall j f, n_fed n j = Some f -> dead (f_st f) = false -> tn (keptBy n) j (c_deps (f_tc f))
}.

Lemma keeps_start f : Kf f -> keepsF (-1) f.
Proof.
  intros K. unfold keepsF, keeps. destruct (f_st f) eqn:ST; try exact Logic.I; try (unfold initializationTime, negEpsilon; lia).
  unfold Kf in K. rewrite ST in K. destruct (K eq_refl) as (B&(_&_&S&_)&_&G&W&_). specialize (G eq_refl).
  destruct (f_gm f); [lia|]. destruct (W eq_refl eq_refl) as (_&W2&_). pose proof (low_ge _ B W2). lia.
Qed.
Lemma dead_keeps x f : dead (f_st f) = true -> keepsF x f.
Proof. intros D. unfold keepsF, keeps. destruct (f_st f); try discriminate D; exact Logic.I. Qed.

Lemma at_causal n j e : causal n -> (forall f, n_fed n j = Some f -> plain f e) ->
  (forall cmd, e = Ev_msg cmd -> m_source_id cmd <> j -> forall x, claim cmd = Some x -> keptBy n (m_source_id cmd) x) ->
  causal (at_ n j e).
Proof.
  intros [C1 C2 C3] PL HC. unfold at_. destruct (n_fed n j) as [f|] eqn:J; [|constructor; assumption].
  specialize (PL f eq_refl). destruct (C1 j f J) as (K&SO&T&IV).
  destruct (step_R f e PL) as [RR SS]. destruct (RR K) as (K'&MO&TO). pose proof (step_own f e PL) as [_ OW].
  set (f' := fst (step f e)) in *. set (out := e_msgs (snd (step f e))) in *.
  set (n' := mkNet (fun i => if i =? j then Some f' else n_fed n i) (n_log n ++ out)).
  assert (MON : forall i x, keptBy n i x -> keptBy n' i x).
  { intros i x H g G. cbn in G. destruct (Z.eqb_spec i j) as [E|E]; [|apply H; exact G]. injection G as <-. subst i. apply MO. apply H. exact J. }
  assert (NEG : forall i, keptBy n i (-1)).
  { intros i g G. apply keeps_start. apply (C1 i g G). }
  constructor.
  - intros i g G. cbn in G. destruct (Z.eqb_spec i j) as [E|E]; [|apply C1; exact G]. injection G as <-. subst i.
    split; [exact K'|]. split; [auto|]. split; [apply step_tabOk; exact T|]. apply step_inv; [apply PL|exact IV].
  - intros m x I C. cbn [n_log n'] in I. apply in_app_or in I as [I|I]; [apply MON; eapply C2; eassumption|].
    destruct (OW m I) as [N|N]; [congruence|]. rewrite (proj1 T) in N. rewrite N. intros g G. cbn in G. rewrite Z.eqb_refl in G.
    injection G as <-. eapply TO; eassumption.
  - intros i g G D. cbn in G. destruct (Z.eqb_spec i j) as [E|E].
    2: { intros h d NE GD. apply MON. eapply C3; eassumption. }
    injection G as <-. subst i.
    assert (AL : dead (f_st f) = false).
    { destruct (dead (f_st f)) eqn:X; [|reflexivity]. pose proof (dead_stays f f' out RR X). congruence. }
    assert (EC : evClaims (keptBy n) j e).
    { intros cmd ->. split; [|intros NE x X; eapply HC; eauto]. intros A. pose proof (globalError_dead f cmd PL A) as X. unfold f' in D. congruence. }
    destruct (aprims_tn (keptBy n) j NEG e _ _ EC (step_any f e) T (C3 j f J AL)) as [_ TN].
    intros h d NE GD. apply MON. eapply TN; eassumption.
Qed.
Theorem nstep_causal n e : causal n -> allowed n e -> causal (nstep n e).
Proof.
  intros C A. destruct e as [k|j e]; cbn [nstep allowed] in *.
  - destruct (nth_error (n_log n) k) as [m|] eqn:M; [|exact C]. apply at_causal; [exact C|intros f F; exact (A m f eq_refl F)|].
    intros cmd E NE x X. injection E as <-. eapply ca_log; [exact C|eapply nth_error_In; exact M|exact X].
  - destruct A as [A1 A2]. apply at_causal; [exact C|exact A1|]. intros cmd E NE x X g G. apply dead_keeps. eapply A2; eauto. congruence.
Qed.
Lemma nrun_causal n es n' : nrun n es n' -> causal n -> causal n'.
Proof. induction 1; intros C; [exact C|]. apply IHnrun. apply nstep_causal; assumption. Qed.
Lemma fresh_causal n : fresh n -> causal n.
Proof.
  intros [L F]. constructor.
  - intros i f E. destruct (F i f E) as (o&k&O&->). split; [apply init_Kf; exact O|]. split; [apply init_sendOk|].
    split; [apply init_tabOk|]. apply init_inv. apply O.
  - intros m x I. rewrite L in I. destruct I.
  - intros j f E _ g d _ G. destruct (F j f E) as (o&k&_&->). discriminate G.
Qed.
(** promises last *)
Lemma nstep_kept n e i x : causal n -> allowed n e -> keptBy n i x -> keptBy (nstep n e) i x.
Proof.
  assert (AT : forall j e, causal n -> (forall f, n_fed n j = Some f -> plain f e) -> keptBy n i x -> keptBy (at_ n j e) i x).
  { intros j ev C PL H. unfold at_. destruct (n_fed n j) as [f|] eqn:J; [|exact H]. intros g G. cbn in G.
    destruct (Z.eqb_spec i j) as [E|E]; [|apply H; exact G]. injection G as <-. subst i.
    destruct (step_R f ev (PL f eq_refl)) as [RR _]. destruct (RR (proj1 (ca_fed _ C j f J))) as (_&MO&_). apply MO. apply H. exact J. }
  intros C A H. destruct e as [k|j e]; cbn [nstep allowed] in *.
  - destruct (nth_error (n_log n) k) as [m|] eqn:M; [|exact H]. apply AT; auto.
  - apply AT; auto. apply A.
Qed.
Lemma nrun_kept n es n' i x : nrun n es n' -> causal n -> keptBy n i x -> keptBy n' i x.
Proof. induction 1; intros C K; [exact K|]. apply IHnrun; [apply nstep_causal; assumption|apply nstep_kept; assumption]. Qed.
