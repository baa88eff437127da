(** * A federate keeps the promises it makes (restrictive time policy)

    Every timing command a federate sends installs a time in the dependency table of its receivers
    (TimeDependencies.cpp:21-177): the receiver may then be granted up to that time.  This file shows
    that a federate with the restrictive policy never again stamps data before a time it has told
    anybody, whatever happens to it afterwards. *)
From Coq Require Import ZArith Bool List Lia ZifyBool.
From Verif Require Import HTime Action TimeDep TimeDepProofs TimeCoord TimeCoordProofs TimeProc TimeProcProofs
  TimeInitProofs MinTimeProofs TimeInv TimeAnswer TimeGrid.
Import ListNotations.
Open Scope Z_scope.

Definition dead (st : fstate) : bool := match st with TERMINATING | ERRORED | FINISHED => true | _ => false end.

(** the earliest time which the pending request can return *)
Definition low (c : tc) : Z :=
  if is_no_iter (c_iterating c)
  then if o_uninterruptible (c_opts c) then generateAllowedTime c (c_requested c) else getNextPossibleTime c
  else c_granted c.

(** the federate will not stamp data before [x] any more *)
Definition keeps (x : Z) (c : tc) (st : fstate) (gm : bool) : Prop :=
  match st with
  | CREATED | INITIALIZING => x <= initializationTime
  | EXECUTING => x <= (if gm then c_granted c else low c) + o_outputDelay (c_opts c)
  | _ => True
  end.

(** the time which a command installs in the table of its receiver, if any *)
Definition claim (m : amsg) : option Z :=
  match tkind_of (m_action m) with
  | k_time_request | k_time_grant => Some (m_actionTime m)
  | k_exec_grant => if checkFlag iteration_requested_flag m then None else Some timeZero
  | k_disconnect => Some maxVal
  | k_error => if m_action m =? CMD_GLOBAL_ERROR then None else Some maxVal
  | _ => None
  end.

(** fixed options *)
Definition static (c : tc) : Prop :=
  o_restrictive (c_opts c) = true /\ 0 <= o_inputDelay (c_opts c) /\ 0 <= o_outputDelay (c_opts c) /\ c_dynamic c = false.
(** what a waiting federate satisfies *)
Definition waits (c : tc) : Prop :=
  c_next c <= low c + o_outputDelay (c_opts c) /\ c_granted c <= c_requested c
  /\ (is_no_iter (c_iterating c) = true -> clamped c).
Definition said (c : tc) (st : fstate) (gm : bool) : Prop :=
  (c_disconnected c = true -> keeps maxVal c st gm)
  /\ (ts_leb ts_time_granted (tst (c_lastSend c)) = true ->
      tst (c_lastSend c) <> ts_error /\ keeps (next (c_lastSend c)) c st gm).
Definition kinv (c : tc) (st : fstate) (gm : bool) : Prop :=
  dead st = false ->
  bounded c /\ static c /\ said c st gm
  /\ (st = EXECUTING -> 0 <= c_granted c)
  /\ (st = EXECUTING -> gm = false -> waits c)
  /\ (st <> EXECUTING -> c_execMode c = false).

Definition told (out : list amsg) (c : tc) (st : fstate) (gm : bool) : Prop :=
  forall m x, In m out -> claim m = Some x -> keeps x c st gm.
(** the federate goes from one state to another, sending [out] *)
Definition R (c : tc) (st : fstate) (gm : bool) (c' : tc) (st' : fstate) (gm' : bool) (out : list amsg) : Prop :=
  kinv c st gm -> kinv c' st' gm' /\ (forall x, keeps x c st gm -> keeps x c' st' gm') /\ told out c' st' gm'.

Lemma R_trans c st gm c1 st1 gm1 o1 c2 st2 gm2 o2 :
  R c st gm c1 st1 gm1 o1 -> R c1 st1 gm1 c2 st2 gm2 o2 -> R c st gm c2 st2 gm2 (o1 ++ o2).
Proof.
  intros H1 H2 K. destruct (H1 K) as (K1&M1&T1). destruct (H2 K1) as (K2&M2&T2).
  split; [exact K2|]. split; [auto|]. intros m x I C. apply in_app_or in I as [I|I]; eauto.
Qed.
Lemma R_trans0 c st gm c1 st1 gm1 c2 st2 gm2 o2 :
  R c st gm c1 st1 gm1 [] -> R c1 st1 gm1 c2 st2 gm2 o2 -> R c st gm c2 st2 gm2 o2.
Proof. intros. change o2 with ([] ++ o2). eapply R_trans; eassumption. Qed.
Lemma R_weak c st gm c' st' gm' o o' : R c st gm c' st' gm' o -> (forall m, In m o' -> In m o \/ claim m = None) -> R c st gm c' st' gm' o'.
Proof.
  intros H W K. destruct (H K) as (K1&M1&T1). split; [exact K1|]. split; [exact M1|].
  intros m x I C. destruct (W m I) as [I'|N]; [eauto|congruence].
Qed.
Lemma told_nil c st gm : told [] c st gm. Proof. intros m x []. Qed.

(** once dead, nothing is promised any more *)
Lemma R_dead c st gm c' st' gm' out : dead st' = true -> R c st gm c' st' gm' out.
Proof.
  intros D _. split; [intros D'; congruence|].
  assert (K : forall x, keeps x c' st' gm') by (intros x; destruct st'; try discriminate D; exact I).
  split; [auto|]. intros m x _ _. apply K.
Qed.

(** ** Changes which promises do not depend on *)
Definition kpart (c : tc) := (core c, c_next c, c_lastSend c, c_disconnected c, c_dynamic c).
Lemma kp_parts c c' : kpart c' = kpart c ->
  core c' = core c /\ c_next c' = c_next c /\ c_lastSend c' = c_lastSend c /\ c_disconnected c' = c_disconnected c /\ c_dynamic c' = c_dynamic c.
Proof.
  unfold kpart. intros H.
  pose proof (f_equal (fun p => fst (fst (fst (fst p)))) H) as H1. pose proof (f_equal (fun p => snd (fst (fst (fst p)))) H) as H2.
  pose proof (f_equal (fun p => snd (fst (fst p))) H) as H3. pose proof (f_equal (fun p => snd (fst p)) H) as H4.
  pose proof (f_equal snd H) as H5. cbn [fst snd] in *. auto.
Qed.

Lemma core_low c c' : core c' = core c -> low c' = low c.
Proof.
  intros H. unfold low. rewrite (core_np _ _ H), (core_allowed _ _ (c_requested c') H).
  core_inv H. repeat match goal with E : _ = _ |- _ => rewrite E; clear E end. reflexivity.
Qed.
Lemma core_clamped c c' : core c' = core c -> clamped c -> clamped c'.
Proof.
  intros H. unfold clamped. rewrite (core_np _ _ H).
  core_inv H. repeat match goal with E : _ = _ |- _ => rewrite E; clear E end. auto.
Qed.
Lemma core_keeps c c' x st gm : core c' = core c -> keeps x c' st gm <-> keeps x c st gm.
Proof.
  intros H. unfold keeps. rewrite (core_low _ _ H). core_inv H.
  repeat match goal with E : _ = _ |- _ => rewrite E; clear E end. reflexivity.
Qed.
Lemma core_waits c c' : core c' = core c -> c_next c' = c_next c -> waits c -> waits c'.
Proof.
  intros H N (A&B&C). unfold waits. rewrite (core_low _ _ H), N. pose proof (core_clamped _ _ H) as CL.
  core_inv H. repeat match goal with E : _ = _ |- _ => match type of E with _ c' = _ => rewrite E; clear E end end. auto.
Qed.
Lemma kpart_kinv c c' st gm : kpart c' = kpart c -> kinv c st gm -> kinv c' st gm.
Proof.
  intros H K D. destruct (K D) as (B&S&[S1 S2]&G&W&E). destruct (kp_parts _ _ H) as (CO&NX&LS&DI&DY).
  pose proof (core_bounded _ _ CO B) as B'.
  assert (Q : c_opts c' = c_opts c /\ c_granted c' = c_granted c /\ c_execMode c' = c_execMode c) by (core_inv CO; auto).
  destruct Q as (Q1&Q2&Q3).
  split; [exact B'|]. unfold static, said. rewrite Q1, Q2, Q3, LS, DI, DY.
  split; [exact S|]. split.
  { rewrite !(core_keeps _ _ _ _ _ CO). split; [exact S1|exact S2]. }
  split; [exact G|]. split; [|exact E]. intros E1 E2. apply (core_waits c); auto.
Qed.
Lemma R_same c c' st gm out : kpart c' = kpart c -> (kinv c st gm -> told out c st gm) -> R c st gm c' st gm out.
Proof.
  intros H T K. split; [exact (kpart_kinv _ _ _ _ H K)|].
  assert (CO : core c' = core c) by apply (kp_parts _ _ H).
  split; [intros x; apply (core_keeps _ _ x st gm CO)|].
  intros m x I C. apply (core_keeps _ _ x st gm CO). exact (T K m x I C).
Qed.
Lemma R_same0 c c' st gm : kpart c' = kpart c -> R c st gm c' st gm [].
Proof. intros H. apply R_same; [exact H|]. intros _. apply told_nil. Qed.
Lemma told_none out c st gm : (forall m, In m out -> claim m = None) -> told out c st gm.
Proof. intros H m x I C. rewrite (H m I) in C. discriminate. Qed.
Lemma claim_map out f : (forall m, claim (f m) = claim m) -> forall m, In m (map f out) -> exists m0, In m0 out /\ claim m = claim m0.
Proof. intros H m I. apply in_map_iff in I as (m0&E&I). exists m0. split; [exact I|]. rewrite <- E. apply H. Qed.

(** ** Claims of the messages built by the coordinator *)
Lemma claim_action m m' : m_action m' = m_action m -> m_actionTime m' = m_actionTime m ->
  checkFlag iteration_requested_flag m' = checkFlag iteration_requested_flag m -> claim m' = claim m.
Proof. intros A T F. unfold claim. rewrite A, T, F. reflexivity. Qed.

Lemma transmit_claim c m skip m' : In m' (fst (transmit c m skip)) -> claim m' = claim m.
Proof.
  unfold transmit. cbn [fst]. intros I. apply in_map_iff in I as (d&E&_). subst m'.
  destruct (_ || _); apply claim_action; reflexivity.
Qed.

(** processTimeMessage *)
Lemma ptm_kpart c m : m_action m <> CMD_FORCE_TIME_GRANT -> kpart (fst (fst (processTimeMessage c m))) = kpart c.
Proof.
  intros NF. pose proof (processTimeMessage_core c m NF) as C. revert C. unfold processTimeMessage, kpart.
  destruct (isBlockCmd (m_action m)).
  { intros C. replace (kpart (fst (processTimeBlockMessage c m))) with (kpart c); [|]; unfold processTimeBlockMessage in *; cbn [fst] in *;
    repeat match goal with |- context [if ?b then _ else _] => destruct b end; try reflexivity; destruct (c_blocks c); reflexivity. }
  destruct (Z.eqb_spec (m_action m) CMD_FORCE_TIME_GRANT) as [E|E]; [contradiction|].
  destruct (m_action m =? CMD_REQUEST_CURRENT_TIME).
  { intros _. destruct (c_disconnected c || ts_eqb (tst (c_lastSend c)) ts_error); [reflexivity|].
    cbn [fst]. destruct (c_trig c && (m_source_id m =? gRootBrokerID)); reflexivity. }
  intros _. destruct (removesDependent (m_action m)); destruct (updateTime _ m) as [deps r]; destruct r; reflexivity.
Qed.

Lemma checkFlag_set k j m : k <> j -> 0 <= k -> 0 <= j -> checkFlag j (setFlag k m) = checkFlag j m.
Proof.
  intros N K J. unfold checkFlag, setFlag. cbn [m_flags set_m_flags]. rewrite Z.lor_spec, Z.shiftl_spec by lia.
  replace (Z.testbit 1 (j - k)) with false; [apply orb_false_r|].
  symmetry. destruct (Z.ltb_spec (j - k) 0); [apply Z.testbit_neg_r; lia|].
  apply Z.bits_above_log2; [lia|]. cbn. lia.
Qed.
Lemma checkFlag_same k m : 0 <= k -> checkFlag k (setFlag k m) = true.
Proof.
  intros K. unfold checkFlag, setFlag. cbn [m_flags set_m_flags]. rewrite Z.lor_spec, Z.shiftl_spec by lia.
  rewrite Z.sub_diag. apply orb_true_r.
Qed.
Lemma setFlag_claim k m : k <> iteration_requested_flag -> 0 <= k -> claim (setFlag k m) = claim m.
Proof.
  intros N K. apply claim_action; try reflexivity. apply checkFlag_set; [exact N|exact K|]. unfold iteration_requested_flag. lia.
Qed.
Lemma setFlagIf_claim b k m : k <> iteration_requested_flag -> 0 <= k -> claim (setFlagIf b k m) = claim m.
Proof. intros N K. destruct b; [apply setFlag_claim; assumption|reflexivity]. Qed.
Lemma setFlagIf_action b k m : m_action (setFlagIf b k m) = m_action m.
Proof. destruct b; reflexivity. Qed.
Lemma setFlagIf_time b k m : m_actionTime (setFlagIf b k m) = m_actionTime m.
Proof. destruct b; reflexivity. Qed.
Lemma iterFlags_action it m : m_action (setIterationFlags it m) = m_action m /\ m_actionTime (setIterationFlags it m) = m_actionTime m.
Proof. destruct it; split; reflexivity. Qed.

(** the answer to a request for the current time repeats the last thing said *)
Lemma generate_claim c d fed rc x : claim (generateTimeRequest c d fed rc) = Some x -> ts_leb ts_time_granted (tst d) = true /\ x = next d.
Proof.
  unfold generateTimeRequest. set (m0 := setFlagIf _ _ _).
  assert (A : m_actionTime m0 = next d) by (unfold m0; rewrite setFlagIf_time; reflexivity).
  assert (A2 : m_action m0 = CMD_TIME_REQUEST) by (unfold m0; rewrite setFlagIf_action; reflexivity). clearbody m0.
  destruct (tst d); cbn zeta; unfold claim.
  all: try solve [cbn -[checkFlag]; discriminate].
  all: try solve [intros H; split; [reflexivity|]; revert H; cbn -[checkFlag]; rewrite ?A2, ?A; cbn -[checkFlag]; congruence].
  destruct (responseSequenceCounter d =? 0); [discriminate|]. intros H. exfalso. revert H.
  match goal with |- context [checkFlag iteration_requested_flag ?m] =>
    change (checkFlag iteration_requested_flag m) with
     (checkFlag iteration_requested_flag (setFlag iteration_requested_flag (set_m_action CMD_EXEC_GRANT m0))) end.
  rewrite checkFlag_same by (unfold iteration_requested_flag; lia). discriminate.
Qed.

Lemma R_ptm c m st gm : m_action m <> CMD_FORCE_TIME_GRANT ->
  R c st gm (fst (fst (processTimeMessage c m))) st gm (snd (fst (processTimeMessage c m))).
Proof.
  intros NF. apply R_same; [apply ptm_kpart; exact NF|]. intros K m' x I C.
  destruct (dead st) eqn:D; [destruct st; try discriminate D; exact Logic.I|].
  destruct (K D) as (B&S&[S1 S2]&_). revert I. unfold processTimeMessage.
  destruct (isBlockCmd (m_action m)); [destruct (processTimeBlockMessage c m); intros []|].
  destruct (Z.eqb_spec (m_action m) CMD_FORCE_TIME_GRANT) as [E|E]; [contradiction|].
  destruct (m_action m =? CMD_REQUEST_CURRENT_TIME).
  { destruct (c_disconnected c || ts_eqb (tst (c_lastSend c)) ts_error) eqn:DI.
    - intros [<-|[]]. apply orb_prop in DI as [DI|DI].
      + replace x with maxVal; [auto|]. cbn in C. congruence.
      + exfalso. unfold ts_eqb in DI. destruct (tst (c_lastSend c)) eqn:T; try discriminate DI. destruct (S2 eq_refl) as [N _]. congruence.
    - cbn [fst snd]. intros [<-|[]]. rewrite setFlagIf_claim in C by (unfold destination_target, iteration_requested_flag; lia).
      apply generate_claim in C as [C1 ->]. apply S2. exact C1. }
  destruct (removesDependent (m_action m)); destruct (updateTime _ m) as [deps r]; destruct r; cbn [fst snd]; try (intros []);
  destruct (checkForIssues _ _); intros []; subst; try discriminate C; try contradiction.
Qed.

(** ** Sending a time request *)
Lemma trm_claim c : claim (timeRequestMessage c) = Some (m_actionTime (timeRequestMessage c))
  /\ m_actionTime (timeRequestMessage c) <= c_next c.
Proof.
  assert (A : m_action (timeRequestMessage c) = CMD_TIME_REQUEST).
  { unfold timeRequestMessage. rewrite setFlagIf_action.
    destruct (is_no_iter (c_iterating c)); rewrite ?(proj1 (iterFlags_action _ _)); cbn;
    (destruct (o_wait (c_opts c)); [|rewrite setFlagIf_action]; destruct (c_nonGranting c); reflexivity). }
  split; [unfold claim; rewrite A; reflexivity|].
  unfold timeRequestMessage. rewrite setFlagIf_time.
  destruct (is_no_iter (c_iterating c)); rewrite ?(proj2 (iterFlags_action _ _));
  cbn [m_actionTime setExtraData set_m_Tdemin set_m_Te set_m_actionTime set_m_counter];
  match goal with |- m_actionTime (setExtraData _ (set_m_Tdemin _ (set_m_Te _ (set_m_actionTime ?a _)))) <= _ => change (a <= c_next c) | _ => idtac end;
  match goal with |- context [if ?b then _ else _] => destruct b end; lia.
Qed.

Lemma send_parts c t : let c' := fst (sendTimeRequest c t) in
  core c' = core c /\ c_next c' = c_next c /\ c_disconnected c' = c_disconnected c /\ c_dynamic c' = c_dynamic c
  /\ (c_lastSend c' = c_lastSend c \/
      (tst (c_lastSend c') = ts_time_requested /\ next (c_lastSend c') = m_actionTime (timeRequestMessage c)))
  /\ (forall m, In m (snd (sendTimeRequest c t)) -> claim m = claim (timeRequestMessage c)).
Proof.
  cbn zeta. split; [apply sendTimeRequest_core|]. unfold sendTimeRequest.
  set (trig := negb (c_globalTime c) && _). clearbody trig. generalize (timeRequestMessage c). intros u.
  unfold checkAndSendTimeRequest. match goal with |- context [if ?b then _ else _] => destruct b end.
  - pose proof (transmit_claim c u (minFed (c_upstream c))) as T. destruct (transmit c u (minFed (c_upstream c))) as [out sk]. cbn [fst] in T.
    destruct (sk && isValidId (minFed (c_upstream c))); cbn [fst snd].
    + repeat split. { right. split; reflexivity. }
      intros m I. apply in_app_or in I as [I|[<-|[]]]; [auto|]. apply claim_action; reflexivity.
    + repeat split. { right. split; reflexivity. } exact T.
  - destruct (isValidId t); cbn [fst snd]; [|repeat split; [left; reflexivity|intros m []]].
    destruct (getDep (c_deps c) t) as [d|]; [destruct (dependent d)|]; cbn [fst snd app]; repeat split; try (left; reflexivity); try (intros m [<-|[]]; apply claim_action; reflexivity); intros m [].
Qed.

(** the last thing said may be replaced by another promise *)
Lemma R_say c c' st gm out : core c' = core c -> c_next c' = c_next c -> c_disconnected c' = c_disconnected c -> c_dynamic c' = c_dynamic c ->
  (kinv c st gm -> dead st = false ->
     c_lastSend c' = c_lastSend c \/ (tst (c_lastSend c') <> ts_error /\ keeps (next (c_lastSend c')) c st gm)) ->
  (kinv c st gm -> told out c st gm) -> R c st gm c' st gm out.
Proof.
  intros CO NX DI DY LS T K.
  split; [|split; [intros x; apply (core_keeps _ _ x st gm CO)|]].
  2: { intros m x I C. apply (core_keeps _ _ x st gm CO). exact (T K m x I C). }
  intros D. pose proof (kpart_kinv (set_c_lastSend (c_lastSend c') c) c' st gm) as Q.
  specialize (LS K D). destruct (K D) as (B&S&[S1 S2]&G&W&E).
  assert (K1 : kinv (set_c_lastSend (c_lastSend c') c) st gm).
  { intros _. split; [exact B|]. split; [exact S|]. split; [|split; [exact G|split; [exact W|exact E]]].
    split; [exact S1|]. cbn [c_lastSend set_c_lastSend]. destruct LS as [->|LS]; [exact S2|]. intros _. exact LS. }
  apply Q; [|exact K1|exact D]. unfold kpart. change (core (set_c_lastSend (c_lastSend c') c)) with (core c).
  rewrite CO, NX, DI, DY. reflexivity.
Qed.

Lemma R_send c t : R c EXECUTING false (fst (sendTimeRequest c t)) EXECUTING false (snd (sendTimeRequest c t)).
Proof.
  destruct (send_parts c t) as (A1&A2&A3&A4&A5&A6). destruct (trm_claim c) as [C1 C2].
  assert (KP : kinv c EXECUTING false -> keeps (m_actionTime (timeRequestMessage c)) c EXECUTING false).
  { intros K. destruct (K eq_refl) as (_&_&_&_&W&_). destruct (W eq_refl eq_refl) as [W1 _]. unfold keeps. lia. }
  apply R_say; try assumption.
  - intros K _. destruct A5 as [A5|[A5 A7]]; [left; exact A5|]. right. rewrite A5, A7. split; [discriminate|auto].
  - intros K m x I C. rewrite (A6 m I), C1 in C. injection C as <-. auto.
Qed.

(** ** The factors of a decision *)
Lemma restrictive_next c : o_restrictive (c_opts c) = true ->
  c_next (updateNextPossibleEventTime c) <= low c + o_outputDelay (c_opts c).
Proof.
  intros RS. unfold updateNextPossibleEventTime, low. cbn [c_next set_c_next]. rewrite RS. cbn [negb].
  rewrite !andb_false_r. cbn [andb].
  destruct (o_uninterruptible (c_opts c)), (is_no_iter (c_iterating c)); lia.
Qed.
Lemma une_next c : c_next (fst (updateNextExecutionTime c)) = c_next c.
Proof. reflexivity. Qed.
Lemma pair_fst {A B} (p : A * B) a b : p = (a, b) -> fst p = a.
Proof. intros ->. reflexivity. Qed.
Lemma utf_shape c : exists tot up md al m x u, updateTimeFactors c =
  (fst (updateNextExecutionTime (set_c_total tot (set_c_upstream up (set_c_minDe md (set_c_allow al
     (updateNextPossibleEventTime (set_c_maxTime m (set_c_minminDe x c)))))))), u).
Proof. unfold updateTimeFactors. do 7 eexists. reflexivity. Qed.
Lemma utf_next c : exists m x, c_next (fst (updateTimeFactors c)) = c_next (updateNextPossibleEventTime (set_c_maxTime m (set_c_minminDe x c))).
Proof. destruct (utf_shape c) as (tot&up&md&al&m&x&u&E). exists m, x. rewrite (pair_fst _ _ _ E). clear E. rewrite une_next. generalize (updateNextPossibleEventTime (set_c_maxTime m (set_c_minminDe x c))). reflexivity. Qed.
Lemma utf_same c : c_disconnected (fst (updateTimeFactors c)) = c_disconnected c /\ c_dynamic (fst (updateTimeFactors c)) = c_dynamic c
  /\ c_lastSend (fst (updateTimeFactors c)) = c_lastSend c.
Proof. repeat split; reflexivity. Qed.
Lemma utf_parts c : let c' := fst (updateTimeFactors c) in
  core c' = core c /\ c_disconnected c' = c_disconnected c /\ c_dynamic c' = c_dynamic c /\ c_lastSend c' = c_lastSend c
  /\ c_exec c' = nextExec c'
  /\ exists m x, c_next c' = c_next (updateNextPossibleEventTime (set_c_maxTime m (set_c_minminDe x c))).
Proof.
  cbn zeta. destruct (utf_same c) as (A&B&C). split; [apply updateTimeFactors_core|]. split; [exact A|]. split; [exact B|]. split; [exact C|].
  split; [|apply utf_next]. rewrite (core_nextExec _ _ (updateTimeFactors_core c)). apply updateTimeFactors_exec.
Qed.
Lemma R_utf c st gm : R c st gm (fst (updateTimeFactors c)) st gm [].
Proof.
  destruct (utf_parts c) as (A1&A2&A3&A4&_&A5). generalize dependent (fst (updateTimeFactors c)). intros c' A1 A2 A3 A4 A5 K.
  split; [|split; [intros x; apply (core_keeps _ _ x st gm A1)|apply told_nil]].
  intros D. destruct (K D) as (B&S&SA&G&W&E).
  assert (NX : c_next c' <= low c + o_outputDelay (c_opts c)).
  { destruct A5 as (m&x&->). apply (restrictive_next (set_c_maxTime m (set_c_minminDe x c))). apply S. }
  assert (K1 : kinv (set_c_next (c_next c') c) st gm).
  { intros _. split; [exact B|]. split; [exact S|]. split; [exact SA|]. split; [exact G|]. split; [|exact E].
    intros E1 E2. destruct (W E1 E2) as (W1&W2&W3). split; [exact NX|]. split; [exact W2|exact W3]. }
  apply (kpart_kinv (set_c_next (c_next c') c) c' st gm); [|exact K1|exact D].
  unfold kpart. change (core (set_c_next (c_next c') c)) with (core c). rewrite A1, A2, A3, A4. reflexivity.
Qed.

(** ** Saying goodbye *)
Lemma bye_parts a c : a = CMD_DISCONNECT \/ a = CMD_LOCAL_ERROR ->
  let p := processTimeMessage c (set_m_dest_id (c_id c) (newMsg a (c_id c))) in
  kpart (fst (fst p)) = kpart c /\ (forall m, In m (snd (fst p)) -> claim m = None).
Proof.
  intros A p. split. { apply ptm_kpart. destruct A as [-> | ->]; discriminate. }
  unfold p, processTimeMessage. destruct A as [-> | ->]; cbn -[removeDependent updateTime checkForIssues issueError];
  destruct (updateTime _ _) as [deps r]; destruct r; cbn [fst snd]; try (intros m []);
  destruct (checkForIssues _ _); intros m I; cbn in I; repeat (destruct I as [I|I]; [subst m; reflexivity|]); destruct I.
Qed.
Lemma byes_claim a id (l : list dinfo) : a = CMD_DISCONNECT \/ a = CMD_LOCAL_ERROR ->
  forall m, In m (map (fun d => set_m_dest_id (fedID d) (newMsg a id)) l) -> claim m = Some maxVal.
Proof. intros A m I. apply in_map_iff in I as (d&<-&_). destruct A as [-> | ->]; reflexivity. Qed.
Lemma firstn_in {A} n (l : list A) x : In x (firstn n l) -> In x l.
Proof. revert l. induction n as [|n IH]; intros [|y l]; cbn; try tauto. intros [->|H]; auto. Qed.

Lemma disconnect_parts c : let c' := fst (disconnect c) in
  core c' = core c /\ c_next c' = c_next c /\ c_lastSend c' = c_lastSend c /\ c_disconnected c' = true /\ c_dynamic c' = c_dynamic c
  /\ (forall m x, In m (snd (disconnect c)) -> claim m = Some x -> x = maxVal).
Proof.
  cbn zeta. unfold disconnect. destruct (c_disconnected c) eqn:DI.
  { cbn [fst snd]. rewrite DI. repeat split. intros m x []. }
  pose proof (bye_parts CMD_DISCONNECT c (or_introl eq_refl)) as P. cbn zeta in P.
  set (bye := newMsg CMD_DISCONNECT (c_id c)) in *.
  destruct (existsb _ _).
  - destruct (processTimeMessage c (set_m_dest_id (c_id c) bye)) as [[c1 o1] r1]. cbn [fst snd] in *. destruct P as [P1 P2].
    destruct (kp_parts _ _ P1) as (Q1&Q2&Q3&Q4&Q5). repeat split; try assumption.
    intros m x I C. apply in_app_or in I as [I|I]; [rewrite (P2 m I) in C; discriminate|].
    assert (I' : claim m = Some maxVal).
    { apply (byes_claim CMD_DISCONNECT (c_id c) (filter (fun d => negb (fedID d =? c_id c)) (filter toldBye (c_deps c)))); [left; reflexivity|].
      destruct (Nat.eqb _ _); [exact I|exact (firstn_in _ _ _ I)]. }
    congruence.
  - cbn [fst snd app]. repeat split. intros m x I C.
    assert (I' : claim m = Some maxVal).
    { apply (byes_claim CMD_DISCONNECT (c_id c) (filter (fun d => negb (fedID d =? c_id c)) (filter toldBye (c_deps c)))); [left; reflexivity|].
      destruct (Nat.eqb _ _); [exact I|exact (firstn_in _ _ _ I)]. }
    congruence.
Qed.

(** ** The decision *)
Lemma low_ge c : bounded c -> c_granted c <= c_requested c -> c_granted c <= low c.
Proof.
  intros (O&B&G&RQ&_) GR. unfold low. pose proof (np_ge c O B G) as (_&N&_). pose proof (allowed_ge c (c_requested c)).
  destruct (is_no_iter _); [destruct (o_uninterruptible _)|]; lia.
Qed.
Lemma low_le_exec c : bounded c -> 0 <= o_inputDelay (c_opts c) -> waits c -> low c <= nextExec c <= maxVal.
Proof.
  intros B ID (W1&W2&W3). pose proof (nextExec_mono c B W2) as M. split; [|lia]. unfold low.
  destruct (is_no_iter (c_iterating c)) eqn:NI; [|lia]. destruct (o_uninterruptible (c_opts c)) eqn:U.
  - unfold nextExec, updateNextExecutionTime. cbn [fst c_exec set_c_exec]. rewrite U, NI. lia.
  - apply nextExec_np; auto.
Qed.

(** a state in which exec was computed *)
Definition ready (c : tc) : Prop := low c <= c_exec c <= maxVal.
Lemma utg_parts c : let g := if is_force_iter (c_iterating c) then c_granted c else c_exec c in
  c_disconnected (fst (updateTimeGrant c)) = c_disconnected c /\ c_dynamic (fst (updateTimeGrant c)) = c_dynamic c
  /\ tst (c_lastSend (fst (updateTimeGrant c))) = ts_time_granted /\ next (c_lastSend (fst (updateTimeGrant c))) = g
  /\ forall m, In m (snd (updateTimeGrant c)) -> claim m = Some g.
Proof.
  cbv zeta. unfold updateTimeGrant.
  set (c0 := if is_force_iter (c_iterating c) then c else set_c_granted (c_exec c) (set_c_grantBase (c_exec c) c)).
  assert (P : c_disconnected c0 = c_disconnected c /\ c_dynamic c0 = c_dynamic c /\ c_granted c0 = if is_force_iter (c_iterating c) then c_granted c else c_exec c).
  { unfold c0. destruct (is_force_iter (c_iterating c)); repeat split. }
  clearbody c0. destruct P as (P1&P2&P3). rewrite <- P1, <- P2, <- P3. clear P1 P2 P3. cbv zeta.
  generalize (if u16 (c_seq c0 + 1) =? c_seq c0 + 1 then c_seq c0 + 1 else 0). intros s.
  set (c1 := if is_no_iter (c_iterating (set_c_seq s c0)) then set_c_seq s c0 else _).
  assert (Q : c_disconnected c1 = c_disconnected c0 /\ c_dynamic c1 = c_dynamic c0 /\ c_granted c1 = c_granted c0).
  { unfold c1. destruct (is_no_iter _); repeat split. }
  clearbody c1. destruct Q as (Q1&Q2&Q3). rewrite <- Q1, <- Q2, <- Q3.
  split; [reflexivity|]. split; [reflexivity|]. split; [reflexivity|]. split; [reflexivity|].
  intros m I. apply transmit_claim in I. rewrite I. reflexivity.
Qed.
Lemma R_grantTime c : (kinv c EXECUTING false -> is_force_iter (c_iterating c) = false -> ready c) ->
  R c EXECUTING false (fst (updateTimeGrant c)) EXECUTING true (snd (updateTimeGrant c)).
Proof.
  intros RD K. specialize (RD K). destruct (K eq_refl) as (B&S&[S1 S2]&G&W&E).
  specialize (W eq_refl eq_refl). specialize (G eq_refl). destruct W as (W1&W2&W3).
  pose proof (low_ge c B W2) as LG.
  pose proof (updateTimeGrant_core c) as (U1&U2). cbn zeta in U1. pose proof B as (O&BB&GM&RM&VM&MM).
  set (g := if is_force_iter (c_iterating c) then c_granted c else c_exec c) in *.
  assert (HG : low c <= g <= maxVal).
  { unfold g. destruct (is_force_iter (c_iterating c)) eqn:F; [|exact (RD eq_refl)].
    assert (NI : is_no_iter (c_iterating c) = false) by (destruct (c_iterating c); try discriminate F; reflexivity).
    unfold low in *. rewrite NI in *. lia. }
  assert (HB : (if is_force_iter (c_iterating c) then c_grantBase c else c_exec c) = g).
  { unfold g. destruct (is_force_iter _); lia. }
  rewrite HB in U1.
  assert (P : c_disconnected (fst (updateTimeGrant c)) = c_disconnected c /\ c_dynamic (fst (updateTimeGrant c)) = c_dynamic c
     /\ tst (c_lastSend (fst (updateTimeGrant c))) = ts_time_granted /\ next (c_lastSend (fst (updateTimeGrant c))) = g
     /\ forall m, In m (snd (updateTimeGrant c)) -> claim m = Some g).
  { exact (utg_parts c). }
  destruct P as (P1&P2&P3&P4&P5).
  generalize dependent (updateTimeGrant c). intros [c' out]. cbn [fst snd]. intros U1 U2 P1 P2 P3 P4 P5.
  assert (Q : c_granted c' = g /\ c_opts c' = c_opts c /\ c_grantBase c' = g /\ c_requested c' = c_requested c /\ c_value c' = c_value c
     /\ c_message c' = c_message c /\ c_execMode c' = c_execMode c) by (core_inv U1; auto 10).
  destruct Q as (Q1&Q2&Q3&Q4&Q5&Q6&Q7).
  assert (KG : forall x, x <= g + o_outputDelay (c_opts c) -> keeps x c' EXECUTING true).
  { intros x Hx. unfold keeps. rewrite Q1, Q2. exact Hx. }
  assert (OD : 0 <= o_outputDelay (c_opts c)) by apply S.
  split; [|split].
  - intros _. split. { unfold bounded. rewrite Q1, Q2, Q3, Q4, Q5, Q6. repeat split; try assumption; try lia; apply O. }
    split. { unfold static. rewrite Q2, P2. exact S. }
    split. { split; [rewrite P1; intros DI; specialize (S1 DI); unfold keeps in S1; apply KG; lia|].
             intros _. rewrite P3, P4. split; [discriminate|apply KG; lia]. }
    split; [intros _; rewrite Q1; lia|]. split; [discriminate|]. rewrite Q7. exact E.
  - intros x Kx. apply KG. unfold keeps in Kx. lia.
  - intros m x I C. rewrite (P5 m I) in C. injection C as <-. apply KG. lia.
Qed.

Lemma R_halt c : R c EXECUTING false (fst (disconnect (set_c_granted maxVal (set_c_grantBase maxVal c)))) EXECUTING true
  (snd (disconnect (set_c_granted maxVal (set_c_grantBase maxVal c)))).
Proof.
  set (c1 := set_c_granted maxVal (set_c_grantBase maxVal c)). intros K.
  destruct (K eq_refl) as (B&S&[S1 S2]&G&W&E). specialize (W eq_refl eq_refl). destruct W as (W1&W2&W3).
  pose proof B as (O&BB&GM&RM&VM&MM).
  destruct (disconnect_parts c1) as (A1&A2&A3&A4&A5&A6). generalize dependent (disconnect c1). intros [c' out]. cbn [fst snd].
  intros A1 A2 A3 A4 A5 A6.
  assert (OD : 0 <= o_outputDelay (c_opts c)) by apply S.
  assert (Q : c_granted c' = maxVal /\ c_opts c' = c_opts c /\ c_grantBase c' = maxVal /\ c_requested c' = c_requested c /\ c_value c' = c_value c
     /\ c_message c' = c_message c /\ c_execMode c' = c_execMode c) by (core_inv A1; auto 10).
  destruct Q as (Q1&Q2&Q3&Q4&Q5&Q6&Q7).
  assert (LM : low c <= maxVal).
  { unfold low. pose proof (np_ge c O BB GM) as (_&N&_). pose proof (allowed_le c (c_requested c) O RM).
    destruct (is_no_iter _); [destruct (o_uninterruptible _)|]; unfold cTerminationTime in *; lia. }
  assert (KG : forall x, x <= maxVal + o_outputDelay (c_opts c) -> keeps x c' EXECUTING true).
  { intros x Hx. unfold keeps. rewrite Q1, Q2. exact Hx. }
  split; [|split].
  - intros _. split. { unfold bounded. rewrite Q1, Q2, Q3, Q4, Q5, Q6. repeat split; try assumption; try lia; apply O. }
    split. { unfold static. rewrite Q2, A5. exact S. }
    split. { split; [intros _; apply KG; lia|]. rewrite A3. change (c_lastSend c1) with (c_lastSend c).
             intros T. destruct (S2 T) as [T1 T2]. split; [exact T1|]. apply KG. unfold keeps in T2. lia. }
    split; [intros _; rewrite Q1; unfold maxVal; lia|]. split; [discriminate|]. rewrite Q7. exact E.
  - intros x Kx. apply KG. unfold keeps in Kx. lia.
  - intros m x I C. rewrite (A6 m x I C). apply KG. lia.
Qed.

Definition gmOf (r : mpr) : bool := match r with CONTINUE_PROCESSING => false | _ => true end.
Definition Rdec (c : tc) (res : tc * list amsg * mpr) : Prop :=
  let '(c', out, r) := res in R c EXECUTING false c' EXECUTING (gmOf r) out.
(** an equivalent state in which exec is known *)
Definition sameR (c c1 : tc) : Prop := kpart c1 = kpart c /\ c_exec c1 = c_exec c.
Definition readyIn (c : tc) : Prop := kinv c EXECUTING false -> ready c.
Lemma sameR_ready c c1 : sameR c c1 -> readyIn c -> readyIn c1.
Proof.
  intros [H X] RD K. pose proof (kpart_kinv c1 c _ _ (eq_sym H) K) as K0. specialize (RD K0).
  unfold ready in *. rewrite X, (core_low c c1); [exact RD|]. apply (kp_parts _ _ H).
Qed.
Lemma sameR_R c c1 gm : sameR c c1 -> R c EXECUTING gm c1 EXECUTING gm [].
Proof. intros [H _]. apply R_same0. exact H. Qed.

Lemma Rdec_same c c1 res : sameR c c1 -> Rdec c1 res -> Rdec c res.
Proof. intros H. destruct res as [[c' out] r]. unfold Rdec. intros K. eapply R_trans0; [apply sameR_R; exact H|exact K]. Qed.
Lemma Rdec_update c r : gmOf r = true -> readyIn c -> Rdec c (let '(c', out) := updateTimeGrant c in (c', out, r)).
Proof.
  intros GM RD. pose proof (R_grantTime c) as H. destruct (updateTimeGrant c) as [c' out]. cbn [fst snd] in H. unfold Rdec. rewrite GM.
  apply H. intros K _. exact (RD K).
Qed.
Lemma Rdec_refuse c t : Rdec c (refuse c t).
Proof.
  unfold refuse. destruct (isValidId t && negb (t =? c_id c)).
  - pose proof (R_send c t) as H. destruct (sendTimeRequest c t). exact H.
  - unfold Rdec. apply R_same0. reflexivity.
Qed.
Lemma Rdec_grantStep c : readyIn c -> Rdec c (grantStep c).
Proof.
  intros RD. unfold grantStep. eapply Rdec_same; [|apply (Rdec_update (set_c_hasIter false (set_c_seq 0 (set_c_iteration 0 c))) NEXT_STEP eq_refl)].
  - split; reflexivity.
  - eapply sameR_ready; [|exact RD]. split; reflexivity.
Qed.
Lemma Rdec_actOn c sa r t : r <> HALTED -> readyIn c -> Rdec c (actOn c sa r t).
Proof.
  intros NH RD. destruct r; [| | |congruence]; cbn [actOn].
  - destruct sa.
    + pose proof (R_send c invalidId) as H. destruct (sendTimeRequest c invalidId). exact H.
    + destruct (isValidId t && negb (t =? c_id c)).
      * pose proof (R_send c t) as H. destruct (sendTimeRequest c t). exact H.
      * apply R_same0. reflexivity.
  - destruct (is_force_iter (c_iterating c)) eqn:F; [|apply Rdec_grantStep; exact RD].
    set (c1 := set_c_exec (c_granted c) (set_c_hasIter false (set_c_iteration (c_iteration c + 1) c))).
    assert (H : R c EXECUTING false c1 EXECUTING false []) by (apply R_same0; reflexivity).
    pose proof (R_grantTime c1) as U. destruct (updateTimeGrant c1) as [c' out]. cbn [fst snd] in U. unfold Rdec, gmOf.
    eapply R_trans0; [exact H|]. apply U. intros _ F'. change (is_force_iter (c_iterating c) = false) in F'. congruence.
  - eapply Rdec_same; [|apply (Rdec_update (set_c_hasIter false (set_c_iteration (c_iteration c + 1) c)) ITERATING eq_refl)].
    + split; reflexivity.
    + eapply sameR_ready; [|exact RD]. split; reflexivity.
Qed.
Lemma applyRestriction_same k rs c sa al : sameR c (fst (fst (applyRestriction k rs c sa al))).
Proof.
  unfold applyRestriction. repeat match goal with |- context [if ?b then _ else _] => destruct b end; split; reflexivity.
Qed.
Lemma iterDecision_same c sa : sameR c (fst (fst (iterDecision c sa))).
Proof.
  unfold iterDecision. repeat match goal with |- context [if ?b then _ else _] => destruct b end; try (split; reflexivity).
  apply applyRestriction_same.
Qed.
Lemma Rdec_grantFrom c t : readyIn c -> Rdec c (grantFrom c t).
Proof.
  intros RD. unfold grantFrom.
  destruct ((cTerminationTime <=? c_exec c) && (cTerminationTime <=? c_allow c)).
  { pose proof (R_halt c) as H. destruct (disconnect _) as [c' out]. exact H. }
  destruct ((c_block c <=? c_exec c) && (c_block c <? cTerminationTime)); [apply Rdec_refuse|].
  destruct (c_nonGranting c && (c_exec c <? c_requested c)); [apply Rdec_refuse|].
  set (sa := c_needSendAll c). clearbody sa. cbv zeta. generalize (c_opts c). intros o.
  set (c1 := set_c_needSendAll false c).
  assert (SM : sameR c c1) by (split; reflexivity).
  apply (Rdec_same c c1); [exact SM|]. pose proof (sameR_ready _ _ SM RD) as RD1. clearbody c1. clear SM RD c.
  assert (ITER : Rdec c1
    (if c_exec c1 <? c_allow c1 then
          if (c_exec c1 <=? c_granted c1) || c_hasIter c1 then
            let '(c, out) := updateTimeGrant (set_c_hasIter false (set_c_iteration (c_iteration c1 + 1) c1)) in
            (c, out, ITERATING)
          else if is_force_iter (c_iterating c1) then
            let '(c, out) := updateTimeGrant (set_c_iteration (c_iteration c1 + 1) c1) in (c, out, ITERATING)
          else
            let '(c, out) := updateTimeGrant (set_c_iteration 0 (set_c_seq 0 c1)) in (c, out, NEXT_STEP)
        else if c_allow c1 =? c_exec c1 then
          let '(c, sendAll, r) := iterDecision c1 sa in actOn c sendAll r t
        else actOn c1 sa CONTINUE_PROCESSING t)).
  { destruct (c_exec c1 <? c_allow c1).
    - destruct ((c_exec c1 <=? c_granted c1) || c_hasIter c1); [|destruct (is_force_iter (c_iterating c1))].
      + eapply Rdec_same; [|apply Rdec_update; [reflexivity|]]; [|eapply sameR_ready; [|exact RD1]]; split; reflexivity.
      + eapply Rdec_same; [|apply Rdec_update; [reflexivity|]]; [|eapply sameR_ready; [|exact RD1]]; split; reflexivity.
      + eapply Rdec_same; [|apply Rdec_update; [reflexivity|]]; [|eapply sameR_ready; [|exact RD1]]; split; reflexivity.
    - destruct (c_allow c1 =? c_exec c1); [|apply Rdec_actOn; [discriminate|exact RD1]].
      pose proof (iterDecision_same c1 sa) as SM. pose proof (iterDecision_core c1 sa) as N.
      destruct (iterDecision c1 sa) as [[c2 sa2] r2]. cbn [fst] in SM. destruct N as (_&_&N).
      apply (Rdec_same c1 c2); [exact SM|]. apply Rdec_actOn; [exact N|]. exact (sameR_ready _ _ SM RD1). }
  destruct (c_iterating c1) eqn:IT.
  - destruct (c_exec c1 <? c_allow c1); [apply Rdec_grantStep; exact RD1|].
    destruct (c_allow c1 =? c_exec c1); [|apply Rdec_actOn; [discriminate|exact RD1]].
    destruct (negb (o_wait o) && (c_requested c1 <=? c_exec c1)); [apply Rdec_grantStep; exact RD1|].
    destruct (checkIfReadyForTimeGrant _ _ _ _); [apply Rdec_grantStep; exact RD1|].
    apply Rdec_actOn; [discriminate|exact RD1].
  - exact ITER.
  - exact ITER.
  - apply Rdec_actOn; [discriminate|exact RD1].
  - apply Rdec_actOn; [discriminate|exact RD1].
Qed.
Lemma Rdec_checkTimeGrant c t : Rdec c (checkTimeGrant c t).
Proof.
  unfold checkTimeGrant. pose proof (R_utf c EXECUTING false) as U. destruct (utf_parts c) as (A1&_&_&_&A2&_).
  generalize dependent (fst (updateTimeFactors c)). intros c1 U A1 A2.
  pose proof (Rdec_grantFrom c1 t) as G. destruct (grantFrom c1 t) as [[c' out] r]. unfold Rdec in *.
  eapply R_trans0; [exact U|]. apply G. intros K. destruct (K eq_refl) as (B&S&_&_&W&_). unfold ready. rewrite A2.
  apply low_le_exec; [exact B|apply S|auto].
Qed.

(** ** Before execution *)
Definition k0 (c : tc) := (c_lastSend c, c_disconnected c, c_dynamic c, c_opts c, c_execMode c).
Definition pre (st : fstate) : Prop := st = CREATED \/ st = INITIALIZING.
Lemma pre_keeps st x c gm c' st' gm' : pre st -> pre st' -> keeps x c st gm -> keeps x c' st' gm'.
Proof. intros [-> | ->] [-> | ->]; exact (fun H => H). Qed.
Lemma R_pre c st gm c' st' gm' out : pre st -> pre st' -> (bounded c -> bounded c') -> k0 c' = k0 c ->
  (forall m, In m out -> claim m = None) -> R c st gm c' st' gm' out.
Proof.
  intros P P' B H N K. assert (D : dead st = false) by (destruct P as [-> | ->]; reflexivity).
  destruct (K D) as (B0&S&[S1 S2]&_&_&E). unfold k0 in H. injection H as H1 H2 H3 H4 H5.
  split; [|split; [intros x; apply pre_keeps; assumption|apply told_none; exact N]].
  intros _. split; [auto|]. split; [unfold static; rewrite H3, H4; exact S|].
  split. { unfold said. rewrite H1, H2. split; [intros X; exact (pre_keeps st _ c gm _ _ _ P P' (S1 X))|].
           intros X. destruct (S2 X) as [X1 X2]. split; [exact X1|exact (pre_keeps st _ c gm _ _ _ P P' X2)]. }
  split; [intros ->; destruct P'; discriminate|]. split; [intros ->; destruct P'; discriminate|].
  intros _. rewrite H5. apply E. destruct P as [-> | ->]; discriminate.
Qed.

Lemma updatedExec_claim c t a b m : In m (sendUpdatedExecRequest c t a b) -> claim m = None.
Proof.
  unfold sendUpdatedExecRequest. destruct (negb (isValidId a)).
  all: set (u := setFlagIf _ _ _); assert (A : m_action u = CMD_EXEC_REQUEST) by
   (unfold u; rewrite setFlagIf_action; cbn; rewrite (proj1 (iterFlags_action _ _)); reflexivity); clearbody u;
   destruct (isValidId t); [intros [<-|[]]|intros I; apply in_map_iff in I as (d&<-&_)]; unfold claim; cbn -[checkFlag]; rewrite A; reflexivity.
Qed.

(** entering execution *)
Lemma R_enter c gm c' out : bounded c' -> c_granted c' = 0 -> c_lastSend c' = c_lastSend c -> c_disconnected c' = c_disconnected c ->
  c_dynamic c' = c_dynamic c -> c_opts c' = c_opts c ->
  (forall m x, In m out -> claim m = Some x -> x = 0) ->
  R c INITIALIZING gm c' EXECUTING true out.
Proof.
  intros B G LS DI DY O N K. destruct (K eq_refl) as (B0&S&[S1 S2]&_&_&E).
  assert (OD : 0 <= o_outputDelay (c_opts c)) by apply S.
  assert (KG : forall x, x <= 0 -> keeps x c' EXECUTING true). { intros x Hx. unfold keeps. rewrite G, O. lia. }
  assert (KM : forall x, keeps x c INITIALIZING gm -> keeps x c' EXECUTING true).
  { intros x Hx. apply KG. unfold keeps, initializationTime, negEpsilon in Hx. lia. }
  split; [|split; [exact KM|]].
  - intros _. split; [exact B|]. split; [unfold static; rewrite O, DY; exact S|].
    split. { unfold said. rewrite LS, DI. split; [auto|]. intros X. destruct (S2 X) as [X1 X2]. auto. }
    split; [intros _; lia|]. split; [discriminate|]. intros X; congruence.
  - intros m x I C. apply KG. rewrite (N m x I C). lia.
Qed.

Definition stOf (r : mpr) : fstate := match r with NEXT_STEP => EXECUTING | _ => INITIALIZING end.

Lemma execDecision_k0 c sa : k0 (fst (fst (execDecision c sa))) = k0 c /\ snd (execDecision c sa) <> HALTED.
Proof.
  unfold execDecision. destruct (c_iterating c); cbn [is_force_iter]; try (split; [reflexivity|discriminate]).
  - destruct (negb (o_wait (c_opts c))); [split; [reflexivity|discriminate]|]. cbn [fst snd]. split; [reflexivity|]. destruct (_ <? _); discriminate.
  - destruct (_ <=? _); [split; [reflexivity|discriminate]|]. destruct (c_hasInit c); [split; [reflexivity|discriminate]|].
    destruct (_ || _); [split; [reflexivity|discriminate]|]. unfold applyRestriction.
    repeat match goal with |- context [if ?b then _ else _] => destruct b end; (split; [reflexivity|discriminate]).
  - destruct (_ <=? _); [split; [reflexivity|discriminate]|]. destruct (c_hasInit c); [split; [reflexivity|discriminate]|].
    destruct (_ || _); [split; [reflexivity|discriminate]|]. unfold applyRestriction.
    repeat match goal with |- context [if ?b then _ else _] => destruct b end; (split; [reflexivity|discriminate]).
Qed.
Lemma execAct_parts c r : c_dynamic c = false ->
  let c' := fst (execAct c r) in
  c_lastSend c' = c_lastSend c /\ c_disconnected c' = c_disconnected c /\ c_dynamic c' = c_dynamic c /\ c_opts c' = c_opts c
  /\ (r <> NEXT_STEP -> c_execMode c' = c_execMode c)
  /\ (forall m x, In m (snd (execAct c r)) -> claim m = Some x -> r = NEXT_STEP /\ x = 0).
Proof.
  intros DY. cbn zeta. unfold execAct. rewrite DY. cbn [negb]. rewrite <- DY. destruct r; cbn [fst snd].
  - do 4 (split; [reflexivity|]). split; [reflexivity|]. intros m x [].  
  - do 4 (split; [reflexivity|]). split; [congruence|]. intros m x I C. split; [reflexivity|].
    apply transmit_claim in I. rewrite I in C. revert C. unfold claim. cbn. intros X; injection X as <-. reflexivity.
  - do 4 (split; [reflexivity|]). split; [reflexivity|]. intros m x I C. exfalso. apply transmit_claim in I. rewrite I in C. revert C.
    match goal with |- claim (setFlag _ ?v) = _ -> _ => generalize (checkFlag_same iteration_requested_flag v); set (u := setFlag iteration_requested_flag v) end.
    intros X. unfold claim. rewrite X by (unfold iteration_requested_flag; lia). cbn. discriminate.
  - do 4 (split; [reflexivity|]). split; [reflexivity|]. intros m x [].  
Qed.
Lemma execFollowUp_parts c sa r t : k0 (fst (execFollowUp c sa r t)) = k0 c
  /\ (forall m, In m (snd (execFollowUp c sa r t)) -> claim m = None).
Proof.
  unfold execFollowUp. destruct r; try (split; [reflexivity|intros m []]).
  destruct (isValidId t && negb (is_no_iter (c_iterating c))); [|split; [reflexivity|intros m []]].
  destruct sa; [split; [reflexivity|intros m; apply updatedExec_claim]|].
  destruct (t =? c_id c); [split; [reflexivity|intros m []]|].
  destruct (_ && _); [split; [reflexivity|intros m; apply updatedExec_claim]|].
  destruct (getDep (c_deps c) t) as [d|]; [|split; [reflexivity|intros m []]].
  destruct (dependent d); (split; [reflexivity|]); [intros m; apply updatedExec_claim|intros m []].
Qed.
Lemma R_checkExecEntry c t gm gm' : let '(c', out, r) := checkExecEntry c t in
  R c INITIALIZING gm c' (stOf r) (match r with NEXT_STEP => true | _ => gm' end) out /\ r <> HALTED.
Proof.
  pose proof (checkExecEntry_core c t) as CC. revert CC. unfold checkExecEntry.
  assert (PP : pre INITIALIZING) by (right; reflexivity).
  destruct (c_block c <=? timeZero).
  { intros _. split; [|discriminate]. apply R_pre; auto. intros m []. }
  match goal with |- context [if ?b then _ else _] => destruct b end.
  { match goal with |- context [if ?b then _ else _] => destruct b end;
      [|intros _; split; [|discriminate]; apply R_pre; auto; intros m []].
    match goal with |- context [if ?b then _ else _] => destruct b end;
      [|intros _; split; [|discriminate]; apply R_pre; auto; intros m []].
    match goal with |- context [if ?b then _ else _] => destruct b end;
      [intros _; split; [|discriminate]; apply R_pre; auto; intros m; apply updatedExec_claim|].
    destruct (getDep _ _) as [d|]; intros _; (split; [|discriminate]); apply R_pre; auto; [|intros m []].
    destruct (dependent d); [intros m; apply updatedExec_claim|intros m []]. }
  pose proof (execDecision_k0 (set_c_needSendAll false c) (c_needSendAll c)) as D.
  destruct (execDecision _ _) as [[c1 sa] r]. cbn [fst snd] in D. destruct D as [D NH].
  pose proof (execAct_parts c1 r) as A. cbn zeta in A. destruct (execAct c1 r) as [c2 o2]. cbn [fst snd] in A.
  pose proof (execFollowUp_parts c2 sa r t) as F. destruct (execFollowUp c2 sa r t) as [c3 o3]. cbn [fst snd] in F. destruct F as [F1 F2].
  change (k0 (set_c_needSendAll false c)) with (k0 c) in D. unfold k0 in D, F1. injection D as D1 D2 D3 D4 D5. injection F1 as F11 F12 F13 F14 F15.
  intros [CC CB]. split; [|exact NH]. intros K. pose proof (K eq_refl) as (B&S&_). assert (DY : c_dynamic c = false) by apply S.
  rewrite <- D3 in DY. destruct (A DY) as (A1&A2&A3&A4&A5&A6). revert K.
  assert (CO : r <> NEXT_STEP -> core c3 = core c -> R c INITIALIZING gm c3 INITIALIZING gm' (o2 ++ o3)).
  { intros NR X. apply R_pre; auto.
    - apply core_bounded. exact X.
    - unfold k0. rewrite F11, F12, F13, F14, F15, A1, A2, A3, A4, (A5 NR), D1, D2, D3, D4, D5. reflexivity.
    - intros m I. apply in_app_or in I as [I|I]; [|auto]. destruct (claim m) as [x|] eqn:C; [|reflexivity].
      destruct (A6 m x I C). contradiction. }
  destruct r; cbn [stOf].
  - apply CO; [discriminate|exact CC].
  - destruct CC as (g&G0&CC&_). rewrite D3 in DY. specialize (G0 DY). subst g.
    apply R_enter.
    + destruct B as (O&BB&GM&RM&VM&MM). core_inv CC. unfold bounded.
      repeat match goal with E : _ c3 = _ |- _ => rewrite E; clear E end. repeat split; try assumption; try apply O; unfold timeZero, maxVal; lia.
    + core_inv CC. assumption.
    + congruence.
    + congruence.
    + congruence.
    + congruence.
    + intros m x I C. apply in_app_or in I as [I|I]; [|rewrite (F2 m I) in C; discriminate]. apply (A6 m x I C).
  - apply CO; [discriminate|exact CC].
  - apply CO; [discriminate|exact CC].
Qed.

(** ** Commands *)
Definition quietRes (p : pres) : bool := match p with PR_CONTINUE | PR_REPROCESS _ => true | _ => false end.
Definition stays (c : tc) (st : fstate) (gm : bool) (c' : tc) (st' : fstate) (gm' : bool) : Prop :=
  (st' = st /\ gm' = gm /\ c_granted c' = c_granted c /\ c_opts c' = c_opts c) \/ dead st' = true \/ gm' = false.
(** commands covered: no forced grant, no dynamic joining or observing, and the federate's own request
    to execute only while initializing *)
Definition adm (cmd : amsg) (id : Z) (st : fstate) : Prop :=
  m_action cmd <> CMD_FORCE_TIME_GRANT
  /\ (m_action cmd = CMD_INIT_GRANT -> checkFlag observer_flag cmd = false /\ checkFlag dynamic_join_flag cmd = false)
  /\ (m_action cmd = CMD_EXEC_REQUEST -> m_source_id cmd = id -> checkFlag indicator_flag cmd = true -> st = INITIALIZING).
Definition retOk (p : pres) (st' : fstate) : Prop :=
  match p with PR_HALT => st' = EXECUTING \/ dead st' = true | PR_ERROR => dead st' = true | _ => True end.
Definition coordOk (c : tc) (st : fstate) (gm : bool) (res : cres) : Prop :=
  let '(c', out, st', p, gm') := res in
  R c st gm c' st' gm' out /\ (quietRes p = true -> stays c st gm c' st' gm')
  /\ (forall m, p = PR_REPROCESS m -> (forall id st0, adm m id st0) /\ forall x, claim m = Some x -> dead st' = true)
  /\ retOk p st'.

Lemma ok_continue c st gm c' out st' gm' : R c st gm c' st' gm' out -> stays c st gm c' st' gm' -> coordOk c st gm (c', out, st', PR_CONTINUE, gm').
Proof. intros A B. split; [exact A|]. split; [intros _; exact B|]. split; [intros m X; discriminate X|exact I]. Qed.
Lemma ok_same c st gm : coordOk c st gm (c, [], st, PR_CONTINUE, gm).
Proof. apply ok_continue; [apply R_same0; reflexivity|]. left. auto. Qed.
Lemma ok_return c st gm c' out st' p gm' : quietRes p = false -> retOk p st' -> R c st gm c' st' gm' out -> coordOk c st gm (c', out, st', p, gm').
Proof. intros Q T A. split; [exact A|]. split; [congruence|]. split; [intros m ->; discriminate Q|exact T]. Qed.
Lemma ok_dead c st gm c' out st' p gm' : dead st' = true -> (forall m, p = PR_REPROCESS m -> forall id st0, adm m id st0) ->
  coordOk c st gm (c', out, st', p, gm').
Proof.
  intros D A. split; [apply R_dead; exact D|]. split; [intros _; right; left; exact D|].
  split; [intros m E; split; [exact (A m E)|auto]|]. destruct p; cbn; auto.
Qed.
Lemma ok_pre c st gm c1 out1 res : R c st gm c1 st gm out1 -> c_granted c1 = c_granted c -> c_opts c1 = c_opts c ->
  coordOk c1 st gm res -> coordOk c st gm (cpre out1 res).
Proof.
  intros H G O. destruct res as [[[[c' out] st'] p] gm']. cbn [cpre]. intros (A&B&C&T). split; [eapply R_trans; eassumption|].
  split; [|split; [exact C|exact T]]. intros Q. destruct (B Q) as [(B1&B2&B3&B4)|B']; [left; repeat split; congruence|right; exact B'].
Qed.
(** processTimeMessage followed by something *)
Lemma ptm_then c cmd st gm (k : tc -> list amsg -> tpr -> cres) : m_action cmd <> CMD_FORCE_TIME_GRANT ->
  (forall c1 out r, processTimeMessage c cmd = (c1, out, r) -> R c st gm c1 st gm out -> c_granted c1 = c_granted c -> c_opts c1 = c_opts c ->
     coordOk c st gm (k c1 out r)) ->
  coordOk c st gm (let '(c1, out, r) := processTimeMessage c cmd in k c1 out r).
Proof.
  intros NF H. pose proof (R_ptm c cmd st gm NF) as P. pose proof (processTimeMessage_core c cmd NF) as C.
  destruct (processTimeMessage c cmd) as [[c1 out] r] eqn:E. cbn [fst snd] in *. apply H; auto; core_inv C; assumption.
Qed.

Lemma ok_grantCheck c st gm t : coordOk c st gm (grantCheck c st gm t).
Proof.
  unfold grantCheck. destruct (fst_eqb st EXECUTING) eqn:S; [|apply ok_same]. assert (st = EXECUTING) by (destruct st; try discriminate S; reflexivity). subst st.
  destruct gm; [apply ok_same|]. cbn [andb negb]. pose proof (Rdec_checkTimeGrant c t) as H. destruct (checkTimeGrant c t) as [[c' out] r].
  unfold Rdec in H. destruct r; cbn [of_mpr gmOf] in *.
  - apply ok_continue; [exact H|]. right. right. reflexivity.
  - apply ok_return; [reflexivity|cbn; auto|exact H].
  - apply ok_return; [reflexivity|cbn; auto|exact H].
  - apply ok_return; [reflexivity|cbn; auto|exact H].
Qed.
Lemma ok_execCheck cmd c st gm : coordOk c st gm (execCheck cmd c st gm).
Proof.
  unfold execCheck. destruct (fst_eqb st INITIALIZING) eqn:S; [|apply ok_same]. assert (st = INITIALIZING) by (destruct st; try discriminate S; reflexivity). subst st.
  destruct gm; [apply ok_same|]. cbn [andb negb].
  set (t := if m_action cmd =? CMD_EXEC_REQUEST then m_source_id cmd else invalidId). clearbody t.
  pose proof (fun gm' => R_checkExecEntry c t false gm') as H. pose proof (checkExecEntry_core c t) as CC.
  destruct (checkExecEntry c t) as [[c' out] r]. destruct (H true) as [_ NH]. destruct r; cbn [stOf] in H; [| | |congruence].
  - apply ok_continue.
    + eapply R_weak; [apply (H false)|]. intros m I. apply in_app_or in I as [I|I]; [auto|]. right.
      destruct (_ && _); [|destruct I]. eapply updatedExec_claim, I.
    + right. right. reflexivity.
  - apply ok_return; [reflexivity|exact Logic.I|]. apply (H true).
  - apply ok_return; [reflexivity|exact Logic.I|]. apply (H true).
Qed.
Lemma adm_other a cmd : a <> CMD_FORCE_TIME_GRANT -> a <> CMD_INIT_GRANT -> a <> CMD_EXEC_REQUEST -> forall id st0, adm (set_m_action a cmd) id st0.
Proof. intros A B C id st0. split; [exact A|]. split; [intros X; cbn in X; congruence|]. intros X; cbn in X; congruence. Qed.
Lemma ok_timeCheck cmd c st gm : coordOk c st gm (timeCheck cmd c st gm).
Proof.
  unfold timeCheck. destruct (fst_eqb st INITIALIZING); [|apply ok_grantCheck].
  split; [apply R_same0; reflexivity|]. split; [intros _; left; auto|].
  split; [|exact Logic.I]. intros m E. injection E as <-. split; [apply adm_other; discriminate|]. intros x C. discriminate C.
Qed.

Lemma entering_parts c it : k0 (fst (enteringExecMode c it)) = k0 c /\ (bounded c -> bounded (fst (enteringExecMode c it)))
  /\ (forall m, In m (snd (enteringExecMode c it)) -> claim m = None).
Proof.
  pose proof (enteringExecMode_core c it) as E. cbn zeta in E. destruct E as (E1&E2&E3&E4&E5&E6&E7&E8&_).
  split; [|split].
  - unfold enteringExecMode. destruct (c_execMode c) eqn:EM; [reflexivity|]. destruct (checkForIssues _ _); [reflexivity|].
    destruct (is_no_iter it); reflexivity.
  - unfold bounded. rewrite E2, E3, E4, E5, E6, E7. auto.
  - clear. unfold enteringExecMode. destruct (c_execMode c); [intros m []|]. destruct (checkForIssues _ _); [intros m [<-|[]]; reflexivity|].
    assert (T : forall c1 m, In m (sendTimingInfo c1) -> claim m = None).
    { intros c1 m I. unfold sendTimingInfo in I. apply in_map_iff in I as (d&<-&_). unfold claim.
      cbn -[checkFlag setFlagIf]. rewrite !setFlagIf_action. reflexivity. }
    assert (TR : forall c1 u m, m_action u = CMD_EXEC_REQUEST -> In m (fst (transmit c1 u invalidId)) -> claim m = None).
    { intros c1 u m A I. apply transmit_claim in I. rewrite I. unfold claim. rewrite A. reflexivity. }
    destruct (is_no_iter it); cbn [fst snd]; intros m I; apply in_app_or in I as [I|I].
    + eapply T, I.
    + eapply TR; [|exact I]. rewrite setFlagIf_action. reflexivity.
    + eapply T, I.
    + eapply TR; [|exact I]. rewrite setFlagIf_action. destruct (negb _); cbn -[setIterationFlags]; rewrite (proj1 (iterFlags_action _ _)); reflexivity.
Qed.

Lemma depUpdate_kpart c cmd : kpart (processDependencyUpdateMessage c cmd) = kpart c.
Proof.
  unfold processDependencyUpdateMessage, tcAddDependency.
  assert (SC : forall c g k, kpart (setConnection c g k) = kpart c) by (intros; unfold setConnection; destruct (_ =? _); reflexivity).
  assert (V : forall c g v, kpart (setVersion c g v) = kpart c) by reflexivity.
  assert (T : forall c1, kpart c1 = kpart c -> kpart (let c := if checkFlag child_flag cmd then setConnection c1 (m_source_id cmd) c_CHILD else c1 in
    let c := if checkFlag parent_flag cmd then setConnection c (m_source_id cmd) c_PARENT else c in
    if 0 <? m_counter cmd then setVersion c (m_source_id cmd) (s8 (m_counter cmd)) else c) = kpart c).
  { intros c1 H. cbv zeta. repeat match goal with |- context [if ?b then _ else _] => destruct b end; rewrite ?V, ?SC; exact H. }
  repeat match goal with |- context [if m_action cmd =? ?x then _ else _] => destruct (m_action cmd =? x) end; try reflexivity;
  destruct (addDependency (c_deps c) (m_source_id cmd)) as [deps ad]; destruct ad; cbn [andb];
  try (apply T; repeat match goal with |- context [if ?b then _ else _] => destruct b end; reflexivity);
  repeat match goal with |- context [if ?b then _ else _] => destruct b end; reflexivity.
Qed.

Lemma kp_go c c' : kpart c' = kpart c -> c_granted c' = c_granted c /\ c_opts c' = c_opts c.
Proof. intros H. destruct (kp_parts _ _ H) as (CO&_). core_inv CO. auto. Qed.

Ltac ifd := match goal with |- coordOk _ _ _ (if ?b then _ else _) => destruct b end.
Theorem ok_coordStep cmd c st gm : adm cmd (c_id c) st -> coordOk c st gm (coordStep cmd c st gm).
Proof.
  intros (A1&A2&A3). unfold coordStep.
  destruct (isBlockCmd (m_action cmd)) eqn:BLK.
  { apply ptm_then; [exact A1|]. intros c1 out r _ P G O. destruct (negb (tpr_notProcessed r) && negb gm).
    - destruct st; try (apply ok_continue; [exact P|left; auto]).
      + split; [exact P|]. split; [intros _; left; auto|]. split; [|exact Logic.I]. intros m E. injection E as <-. split; [apply adm_other; discriminate|]. intros x C; discriminate C.
      + split; [exact P|]. split; [intros _; left; auto|]. split; [|exact Logic.I]. intros m E. injection E as <-. split; [apply adm_other; discriminate|]. intros x C; discriminate C.
    - apply ok_continue; [exact P|left; auto]. }
  destruct (Z.eqb_spec (m_action cmd) CMD_INIT_GRANT) as [EI|NI].
  { destruct (A2 EI) as [F1 F2]. rewrite F1, F2. cbn [orb]. destruct (fst_eqb st CREATED) eqn:S; [|apply ok_same].
    assert (st = CREATED) by (destruct st; try discriminate S; reflexivity). subst st.
    destruct (checkFlag iteration_requested_flag cmd); (apply ok_return; [reflexivity|exact Logic.I|]); apply R_pre; auto; unfold pre; auto; intros m []. }
  destruct ((m_action cmd =? CMD_EXEC_REQUEST) && (m_source_id cmd =? c_id c) && checkFlag indicator_flag cmd) eqn:OWN.
  { apply andb_prop in OWN as [OWN O3]. apply andb_prop in OWN as [O1 O2]. apply Z.eqb_eq in O1, O2.
    assert (st = INITIALIZING) by (apply A3; assumption). subst st. pose proof (entering_parts c (iterOf cmd)) as (E1&E2&E3).
    destruct (enteringExecMode c (iterOf cmd)) as [c1 out]. cbn [fst snd] in *. apply ok_continue; [|right; right; reflexivity].
    apply R_pre; auto; unfold pre; auto. }
  destruct ((m_action cmd =? CMD_EXEC_REQUEST) || (m_action cmd =? CMD_EXEC_GRANT)).
  { apply ptm_then; [exact A1|]. intros c1 out r _ P G O. destruct (tpr_notProcessed r); [apply ok_continue; [exact P|left; auto]|].
    apply (ok_pre c st gm c1); auto. apply ok_execCheck. }
  destruct (m_action cmd =? CMD_EXEC_CHECK); [apply ok_execCheck|].
  destruct (m_action cmd =? CMD_TERMINATE_IMMEDIATELY); [apply ok_dead; [reflexivity|intros m E; discriminate E]|].
  destruct (m_action cmd =? CMD_STOP).
  { destruct (disconnect c). apply ok_dead; [reflexivity|intros m E; discriminate E]. }
  destruct (m_action cmd =? CMD_DISCONNECT_FED_ACK).
  { ifd; [|apply ok_same]. ifd; [destruct (disconnect c)|]; (apply ok_dead; [reflexivity|intros m E; discriminate E]). }
  destruct ((m_action cmd =? CMD_REQUEST_CURRENT_TIME) || (m_action cmd =? CMD_TIMING_INFO)).
  { apply (ptm_then c cmd st gm (fun c1 out _ => (c1, out, st, PR_CONTINUE, gm))); [exact A1|]. intros c1 out r _ P G O. apply ok_continue; [exact P|left; auto]. }
  destruct ((m_action cmd =? CMD_DISCONNECT_FED) || (m_action cmd =? CMD_DISCONNECT)) eqn:DIS.
  { destruct (m_source_id cmd =? c_id c).
    - ifd; [|apply ok_same]. destruct (disconnect c). apply ok_dead; [reflexivity|].
      intros m E. injection E as <-. intros id st0. split; [exact A1|]. unfold CMD_INIT_GRANT, CMD_EXEC_REQUEST, CMD_DISCONNECT_FED, CMD_DISCONNECT, cmd_info_basis in *.
      split; intros X; cbn in X; lia.
    - apply (ptm_then c cmd st gm (fun c1 out _ => cpre out (grantCheck c1 st gm invalidId))); [exact A1|]. intros c1 out r _ P G O. apply (ok_pre c st gm c1); auto. apply ok_grantCheck. }
  ifd.
  { apply ptm_then; [exact A1|]. intros c1 out r _ P G O. destruct (tpr_notProcessed r); [apply ok_continue; [exact P|left; auto]|].
    apply (ok_pre c st gm c1); auto. apply ok_grantCheck. }
  destruct ((m_action cmd =? CMD_TIME_REQUEST) || (m_action cmd =? CMD_TIME_GRANT)).
  { apply ptm_then; [exact A1|]. intros c1 out r _ P G O. destruct (tpr_notProcessed r); [apply ok_continue; [exact P|left; auto]|].
    apply (ok_pre c st gm c1); auto. apply ok_timeCheck. }
  destruct (m_action cmd =? CMD_TIME_CHECK); [apply ok_timeCheck|].
  destruct (Z.eqb_spec (m_action cmd) CMD_FORCE_TIME_GRANT) as [E|_]; [contradiction|].
  destruct ((m_action cmd =? CMD_ERROR) || (m_action cmd =? CMD_LOCAL_ERROR) || (m_action cmd =? CMD_GLOBAL_ERROR)).
  { destruct ((m_action cmd =? CMD_GLOBAL_ERROR) || (m_source_id cmd =? c_id c) || (m_source_id cmd =? parent_broker_id)
       || (m_source_id cmd =? gRootBrokerID) || negb (m_dest_id cmd =? c_id c)).
    - destruct (negb (fst_eqb st FINISHED) && negb (fst_eqb st TERMINATING)); [|apply ok_same].
      destruct (if m_action cmd =? CMD_GLOBAL_ERROR then (c, []) else localError c) as [c1 out]. apply ok_dead; [reflexivity|intros m E; discriminate E].
    - apply ptm_then; [exact A1|]. intros c1 out r _ P G O. destruct (tpr_notProcessed r); [apply ok_continue; [exact P|left; auto]|].
      apply (ok_pre c st gm c1); auto. apply ok_grantCheck. }
  ifd; [|apply ok_same].
  destruct (m_dest_id cmd =? c_id c); [|apply ok_same].
  pose proof (depUpdate_kpart c cmd) as H. destruct (kp_go _ _ H). apply ok_continue; [apply R_same0; exact H|left; auto].
Qed.

(** ** The federate *)
Definition Kf (f : fed) : Prop := kinv (f_tc f) (f_st f) (f_gm f).
Definition keepsF (x : Z) (f : fed) : Prop := keeps x (f_tc f) (f_st f) (f_gm f).
Definition Rf (f f' : fed) (out : list amsg) : Prop := R (f_tc f) (f_st f) (f_gm f) (f_tc f') (f_st f') (f_gm f') out.
(** the stamp put on data (CommonCore.cpp: nextAllowedSendTime) while data can be sent *)
Definition sendOk (f : fed) : Prop :=
  (f_st f = INITIALIZING -> f_gm f = true -> f_send f = initializationTime) /\
  (f_st f = EXECUTING -> f_gm f = true -> f_send f = allowedSendTime (f_tc f) \/ f_send f = maxVal).

Lemma dyn_init c : c_dynamic c = false -> enterInitialization c = [].
Proof. intros H. unfold enterInitialization. rewrite H. reflexivity. Qed.

Lemma ok_procMsg n : forall f cmd, adm cmd (c_id (f_tc f)) (f_st f) ->
  let '(f', out, p) := procMsg n f cmd in
  Rf f f' out /\ (sendOk f -> returnable p = false -> sendOk f')
  /\ (forall m, p <> PR_REPROCESS m) /\ retOk p (f_st f').
Proof.
  induction n as [|n IH]; intros f cmd A.
  { cbn [procMsg]. split; [apply R_same0; reflexivity|]. split; [intros S _; exact S|]. split; [discriminate|exact Logic.I]. }
  cbn [procMsg]. pose proof (ok_coordStep cmd (f_tc f) (f_st f) (f_gm f) A) as C.
  destruct (coordStep cmd (f_tc f) (f_st f) (f_gm f)) as [[[[c1 o1] st1] p1] gm1].
  destruct C as (C1&C2&C3&C4). unfold checkProcResult.
  (* the change of state *)
  set (co := if fst_eqb (f_st f) st1 then (c1, o1) else match st1 with INITIALIZING => (c1, o1 ++ enterInitialization c1) | EXECUTING => (fst (updateTimeFactors c1), o1) | _ => (c1, o1) end).
  assert (CO : R (f_tc f) (f_st f) (f_gm f) (fst co) st1 gm1 (snd co) /\ c_granted (fst co) = c_granted c1 /\ c_opts (fst co) = c_opts c1).
  { unfold co. destruct (fst_eqb (f_st f) st1); [auto|]. destruct st1; cbn [fst snd]; auto.
    - split; [|auto]. intros K. destruct (C1 K) as (K1&M1&T1). destruct (K1 eq_refl) as (_&S&_).
      rewrite (dyn_init c1) by apply S. rewrite app_nil_r. auto.
    - split; [|split; reflexivity]. rewrite <- (app_nil_r o1). eapply R_trans; [exact C1|apply R_utf]. }
  clearbody co. destruct co as [c2 o2]. cbn [fst snd] in CO. destruct CO as (CO&CG&COP).
  set (f1 := set_f_tc c2 (set_f_st st1 (set_f_gm gm1 f))).
  set (f2 := match p1 with PR_CONTINUE | PR_REPROCESS _ => f1 | _ => if gm1 then refreshTimes f1 else f1 end).
  assert (F2 : f_tc f2 = c2 /\ f_st f2 = st1 /\ f_gm f2 = gm1) by (unfold f2; destruct p1, gm1; repeat split).
  destruct F2 as (F21&F22&F23).
  assert (RF : Rf f f2 o2) by (unfold Rf; rewrite F21, F22, F23; exact CO).
  assert (SF : sendOk f -> quietRes p1 = true -> sendOk f2).
  { intros [S1 S2] Q. assert (E : f2 = f1) by (unfold f2; destruct p1; try discriminate Q; reflexivity). rewrite E. unfold sendOk.
    change (f_st f1) with st1. change (f_gm f1) with gm1. change (f_send f1) with (f_send f). change (f_tc f1) with c2.
    destruct (C2 Q) as [(Q1&Q2&Q3&Q4)|[Q1|Q1]].
    - rewrite Q1, Q2. unfold allowedSendTime. rewrite CG, COP, Q3, Q4. split; [exact S1|exact S2].
    - split; intros ->; discriminate Q1.
    - split; intros _ X; congruence. }
  clearbody f2. clear f1.
  destruct p1; try (split; [exact RF|split; [intros S X; try discriminate X; auto|split; [discriminate|rewrite F22; exact C4]]]).
  destruct (C3 m eq_refl) as [AM CM].
  destruct (m_dest_id m =? c_id (f_tc f2)).
  - specialize (IH f2 m (AM _ _)). destruct (procMsg n f2 m) as [[f3 o3] p3]. destruct IH as (I1&I2&I3&I4).
    split; [eapply R_trans; [exact RF|exact I1]|]. split; [intros S X; apply I2; auto|split; [exact I3|exact I4]].
  - split; [|split; [auto|split; [discriminate|exact Logic.I]]]. intros K. destruct (RF K) as (K1&M1&T1). split; [exact K1|]. split; [exact M1|].
    intros u x I C. apply in_app_or in I as [I|[<-|[]]]; [eauto|]. specialize (CM x C). rewrite F22.
    destruct st1; try discriminate CM; exact Logic.I.
Qed.

Lemma returnTo_parts f p : f_tc (fst (returnTo f p)) = f_tc f /\ f_st (fst (returnTo f p)) = f_st f /\ f_gm (fst (returnTo f p)) = f_gm f.
Proof. unfold returnTo. cbn [fst]. destruct p, (f_st f) eqn:S; rewrite <- ?S; auto. Qed.
Lemma finish_parts f out disc p : (forall m, p <> PR_REPROCESS m) -> retOk p (f_st f) -> (returnable p = false -> sendOk f) ->
  let f' := fst (finish f out disc p) in
  f_tc f' = f_tc f /\ f_st f' = f_st f /\ f_gm f' = f_gm f /\ sendOk f' /\ e_msgs (snd (finish f out disc p)) = out.
Proof.
  intros NR RT S. cbn zeta. unfold finish. destruct (returnable p) eqn:RB.
  2: { cbn [fst snd]. auto 6. }
  pose proof (returnTo_parts f p) as (A1&A2&A3).
  assert (SO : sendOk (fst (returnTo f p))).
  { unfold sendOk. rewrite A1, A2, A3. unfold returnTo. cbn [fst]. destruct p; try discriminate RB; cbn [retOk] in RT.
    - split; intros -> _; [reflexivity|left; reflexivity].
    - split; intros -> _; [reflexivity|left; reflexivity].
    - split; intros E _; [rewrite E in RT; destruct RT; discriminate|right; destruct (f_st f); reflexivity].
    - split; intros E _; rewrite E in RT; discriminate.
    - destruct (NR m eq_refl). }
  destruct (returnTo f p) as [f' r]. cbn [fst snd] in *. auto 6.
Qed.

(** ** Requesting time *)
Lemma timeRequest_shape c t it nv nm : exists c2,
  timeRequest c t it nv nm = match c_deps (fst (updateTimeFactors c2)) with [] => (fst (updateTimeFactors c2), []) | _ => sendTimeRequest (fst (updateTimeFactors c2)) invalidId end
  /\ c_lastSend c2 = c_lastSend c /\ c_disconnected c2 = c_disconnected c /\ c_dynamic c2 = c_dynamic c.
Proof.
  unfold timeRequest. destruct (is_no_iter it); cbn [negb]; eexists; (split; [reflexivity|]); repeat split.
Qed.
Lemma R_request c t it nv nm : int64 t -> int64 nv -> int64 nm ->
  R c EXECUTING true (fst (timeRequest c t it nv nm)) EXECUTING false (snd (timeRequest c t it nv nm)).
Proof.
  intros I1 I2 I3 K. destruct (K eq_refl) as (B&S&[S1 S2]&G&W&E).
  pose proof (timeRequest_ok c t it nv nm B I1 I2 I3) as T. cbn zeta in T. destruct T as (T1&T2&T3&T4&T5&_&_&_&T6).
  destruct (timeRequest_shape c t it nv nm) as (c2&Q1&Q2&Q3&Q4).
  destruct (utf_parts c2) as (U1&U2&U3&U4&_&U5). pose proof (R_send (fst (updateTimeFactors c2)) invalidId) as SD.
  pose proof (send_parts (fst (updateTimeFactors c2)) invalidId) as (P1&_).
  assert (EM : c_execMode (fst (timeRequest c t it nv nm)) = c_execMode c).
  { pose proof (timeRequest_core c t it nv nm) as TC. cbn zeta in TC. core_inv TC. assumption. }
  rewrite Q1 in *. clear Q1.
  revert U1 U2 U3 U4 U5 SD P1 T1 T2 T3 T4 T5 T6 EM. generalize (fst (updateTimeFactors c2)) as c3. intros c3 U1 U2 U3 U4 U5 SD P1 T1 T2 T3 T4 T5 T6 EM.
  assert (RS : o_restrictive (c_opts c2) = o_restrictive (c_opts c3)) by (core_inv U1; congruence).
  (* the state after the factors were updated *)
  assert (FIN : forall cf, core cf = core c3 -> bounded cf -> c_granted cf = c_granted c -> c_granted cf <= c_requested cf -> c_opts cf = c_opts c ->
     c_iterating cf = it -> (is_no_iter it = true -> clamped cf /\ c_requested cf = Z.max t (getNextPossibleTime c)) -> c_execMode cf = c_execMode c ->
     kinv c3 EXECUTING false /\ forall x, keeps x c EXECUTING true -> keeps x c3 EXECUTING false).
  { intros cf CF X1 X2 X3 X4 X5 X6 X7. pose proof (core_bounded _ _ (eq_sym CF) X1) as B3.
    assert (F : c_granted c3 = c_granted c /\ c_requested c3 = c_requested cf /\ c_opts c3 = c_opts c /\ c_iterating c3 = it /\ c_execMode c3 = c_execMode c)
      by (core_inv CF; repeat split; congruence).
    destruct F as (F1&F2&F3&F4&F5).
    assert (NX : c_next c3 <= low c3 + o_outputDelay (c_opts c3)).
    { destruct U5 as (m&y&->). rewrite (core_low _ _ U1). replace (c_opts c3) with (c_opts c2) by (core_inv U1; congruence).
      apply (restrictive_next (set_c_maxTime m (set_c_minminDe y c2))). cbn. rewrite RS, F3. apply S. }
    assert (LG : c_granted c3 <= low c3) by (apply low_ge; [exact B3|lia]).
    assert (MK : forall x, keeps x c EXECUTING true -> keeps x c3 EXECUTING false).
    { intros x Hx. unfold keeps in *. rewrite F3. lia. }
    split; [|exact MK]. intros _. split; [exact B3|].
    split. { unfold static. rewrite F3, U3, Q4. exact S. }
    split. { unfold said. rewrite U2, U4, Q2, Q3. split; [auto|]. intros X. destruct (S2 X). auto. }
    split; [intros _; rewrite F1; auto|]. split; [|rewrite F5; exact E].
    intros _ _. split; [exact NX|]. split; [lia|]. intros NI. rewrite F4 in NI. destruct (X6 NI) as [CL _]. apply (core_clamped cf); [congruence|exact CL]. }
  destruct (c_deps c3) eqn:DP.
  - destruct (FIN c3 eq_refl T1 T2 T3 T4 T5 T6 EM) as [K3 M3]. split; [exact K3|]. split; [exact M3|apply told_nil].
  - destruct (FIN _ P1 T1 T2 T3 T4 T5 T6 EM) as [K3 M3]. destruct (SD K3) as (K4&M4&T7). split; [exact K4|]. split; [auto|exact T7].
Qed.

(** ** Data *)
Lemma R_change c c' st gm out : (* only value / message time, hasInit, hasIter change *)
  c_opts c' = c_opts c -> c_granted c' = c_granted c -> c_grantBase c' = c_grantBase c -> c_requested c' = c_requested c ->
  c_iterating c' = c_iterating c -> c_execMode c' = c_execMode c -> c_next c' = c_next c -> c_lastSend c' = c_lastSend c ->
  c_disconnected c' = c_disconnected c -> c_dynamic c' = c_dynamic c ->
  (bounded c -> bounded c') ->
  (is_no_iter (c_iterating c) = true -> clamped c -> clamped c') -> out = [] ->
  R c st gm c' st gm out.
Proof.
  intros H1 H2 H3 H4 H5 H6 H7 H8 H9 H10 HB HC -> K.
  assert (NP : getNextPossibleTime c' = getNextPossibleTime c).
  { unfold getNextPossibleTime, generateAllowedTime. rewrite H1, H2, H3. reflexivity. }
  assert (GA : forall x, generateAllowedTime c' x = generateAllowedTime c x).
  { intros x. unfold generateAllowedTime. rewrite H1, H3. reflexivity. }
  assert (LW : low c' = low c). { unfold low. rewrite NP, GA, H1, H2, H4, H5. reflexivity. }
  assert (KK : forall x, keeps x c st gm <-> keeps x c' st gm). { intros x. unfold keeps. rewrite LW, H1, H2. reflexivity. }
  split; [|split; [intros x; apply KK|apply told_nil]].
  intros D. destruct (K D) as (B&S&[S1 S2]&G&W&E). split; [auto|]. split; [unfold static; rewrite H1, H10; exact S|].
  split. { unfold said. rewrite H8, H9. split; [intros X; apply KK; auto|]. intros X. destruct (S2 X). split; [assumption|apply KK; assumption]. }
  split; [rewrite H2; exact G|]. split; [|rewrite H6; exact E].
  intros E1 E2. destruct (W E1 E2) as (W1&W2&W3). split; [rewrite H7, LW, H1; exact W1|]. split; [lia|]. rewrite H5. auto.
Qed.
Lemma clampData_np c t : is_no_iter (c_iterating c) = true -> getNextPossibleTime c <= clampData c t.
Proof. intros N. unfold clampData. rewrite N. cbn [negb]. cbv zeta. destruct (t <=? getNextPossibleTime c) eqn:E; lia. Qed.

Lemma dead_any st : dead st = true -> forall x c gm, keeps x c st gm.
Proof. intros D x c gm. destruct st; try discriminate D; exact I. Qed.
Lemma R_value c st gm t : int64 t -> R c st gm (fst (updateValueTime c t (negb gm))) st gm (snd (updateValueTime c t (negb gm))).
Proof.
  intros [_ IT]. destruct (dead st) eqn:D; [apply R_dead; exact D|]. unfold updateValueTime.
  destruct (c_execMode c) eqn:EM; cbn [negb].
  2: { apply R_same; [|intros _; apply told_nil]. cbn [fst]. destruct (t <? timeZero); reflexivity. }
  set (c1 := if t <=? c_granted c then set_c_hasIter true c else c).
  assert (K1 : kpart c1 = kpart c) by (unfold c1; destruct (t <=? c_granted c); reflexivity).
  assert (V1 : c_value c1 = c_value c) by (unfold c1; destruct (t <=? c_granted c); reflexivity).
  eapply R_trans0; [apply R_same0; exact K1|]. assert (EM1 : c_execMode c1 = true) by (rewrite <- EM; unfold c1; destruct (t <=? c_granted c); reflexivity).
  clearbody c1. clear K1 V1 EM c. rename c1 into c.
  cbv zeta. destruct (t <? c_value c); [|apply R_same0; reflexivity].
  set (c2 := set_c_value (clampData c t) c).
  assert (R2 : R c st gm c2 st gm []).
  { apply R_change; try reflexivity.
    - intros B. pose proof (clampData_le c t B IT). destruct B as (O&BB&GM&RM&VM&MM). unfold bounded, c2. cbn. repeat split; try assumption; apply O.
    - intros NI (L1&L2&L3). split; [exact L1|]. split; [|exact L3]. apply (clampData_np c t NI). }
  eapply R_trans0; [exact R2|]. clear R2. change (c_disconnected (set_c_value (clampData c t) c)) with (c_disconnected c2). fold c2.
  assert (EM2 : c_execMode c2 = true) by exact EM1. generalize (c_value c2 <? c_value c). intros b. clearbody c2. clear EM1 c. rename c2 into c.
  destruct (b && negb (c_disconnected c)); [|apply R_same0; reflexivity].
  pose proof (R_same0 c (fst (updateNextExecutionTime c)) st gm eq_refl) as U. destruct (updateNextExecutionTime c) as [c1 ch] eqn:UE. cbn [fst] in U.
  destruct (ch && negb gm) eqn:CH; [|exact U].
  assert (gm = false) by (destruct ch, gm; try discriminate CH; reflexivity). subst gm.
  eapply R_trans0; [exact U|]. destruct st; try discriminate D.
  - intros K. destruct (K eq_refl) as (_&_&_&_&_&E). exfalso. assert (c_execMode c1 = c_execMode c) by (replace c1 with (fst (updateNextExecutionTime c)) by (rewrite UE; reflexivity); reflexivity). rewrite E in H by discriminate. congruence.
  - intros K. destruct (K eq_refl) as (_&_&_&_&_&E). exfalso. assert (c_execMode c1 = c_execMode c) by (replace c1 with (fst (updateNextExecutionTime c)) by (rewrite UE; reflexivity); reflexivity). rewrite E in H by discriminate. congruence.
  - apply R_send.
Qed.
Lemma R_message c st gm t : int64 t -> R c st gm (fst (updateMessageTime c t (negb gm))) st gm (snd (updateMessageTime c t (negb gm))).
Proof.
  intros [_ IT]. destruct (dead st) eqn:D; [apply R_dead; exact D|]. unfold updateMessageTime.
  destruct (c_execMode c) eqn:EM; cbn [negb].
  2: { apply R_same; [|intros _; apply told_nil]. cbn [fst]. destruct (t <? timeZero); reflexivity. }
  set (c1 := if t <=? c_granted c then set_c_hasIter true c else c).
  assert (K1 : kpart c1 = kpart c) by (unfold c1; destruct (t <=? c_granted c); reflexivity).
  eapply R_trans0; [apply R_same0; exact K1|]. assert (EM1 : c_execMode c1 = true) by (rewrite <- EM; unfold c1; destruct (t <=? c_granted c); reflexivity).
  clearbody c1. clear K1 EM c. rename c1 into c.
  cbv zeta. destruct (t <? c_message c); [|apply R_same0; reflexivity].
  set (c2 := set_c_message (clampData c t) c).
  assert (R2 : R c st gm c2 st gm []).
  { apply R_change; try reflexivity.
    - intros B. pose proof (clampData_le c t B IT). destruct B as (O&BB&GM&RM&VM&MM). unfold bounded, c2. cbn. repeat split; try assumption; apply O.
    - intros NI (L1&L2&L3). split; [exact L1|]. split; [exact L2|]. apply (clampData_np c t NI). }
  eapply R_trans0; [exact R2|]. clear R2. change (c_disconnected (set_c_message (clampData c t) c)) with (c_disconnected c2). fold c2.
  assert (EM2 : c_execMode c2 = true) by exact EM1. generalize (c_message c2 <? c_message c). intros b. clearbody c2. clear EM1 c. rename c2 into c.
  destruct (b && negb (c_disconnected c)); [|apply R_same0; reflexivity].
  pose proof (R_same0 c (fst (updateNextExecutionTime c)) st gm eq_refl) as U. destruct (updateNextExecutionTime c) as [c1 ch] eqn:UE. cbn [fst] in U.
  destruct (ch && negb gm) eqn:CH; [|exact U].
  assert (gm = false) by (destruct ch, gm; try discriminate CH; reflexivity). subst gm.
  eapply R_trans0; [exact U|]. destruct st; try discriminate D.
  - intros K. destruct (K eq_refl) as (_&_&_&_&_&E). exfalso. assert (c_execMode c1 = c_execMode c) by (replace c1 with (fst (updateNextExecutionTime c)) by (rewrite UE; reflexivity); reflexivity). rewrite E in H by discriminate. congruence.
  - intros K. destruct (K eq_refl) as (_&_&_&_&_&E). exfalso. assert (c_execMode c1 = c_execMode c) by (replace c1 with (fst (updateNextExecutionTime c)) by (rewrite UE; reflexivity); reflexivity). rewrite E in H by discriminate. congruence.
  - apply R_send.
Qed.

(** ** Every event *)
(** events covered: options are fixed at creation, no forced grants, no dynamic joining, and the
    application does not request time while a request is pending *)
Definition plain (f : fed) (e : event) : Prop :=
  wf_event e /\
  match e with
  | Ev_msg cmd => m_action cmd <> CMD_FORCE_TIME_GRANT
      /\ (m_action cmd = CMD_INIT_GRANT -> checkFlag observer_flag cmd = false /\ checkFlag dynamic_join_flag cmd = false)
  | Ev_request _ _ _ _ => f_gm f = true
  | Ev_timeProp _ _ | Ev_flag _ _ => False
  | _ => True
  end.

Lemma sendOk_same f f' : f_st f' = f_st f -> f_gm f' = f_gm f -> f_send f' = f_send f -> c_granted (f_tc f') = c_granted (f_tc f) ->
  c_opts (f_tc f') = c_opts (f_tc f) -> sendOk f -> sendOk f'.
Proof. intros A B C D E. unfold sendOk, allowedSendTime. rewrite A, B, C, D, E. auto. Qed.
Lemma sendOk_dead f : dead (f_st f) = true -> sendOk f.
Proof. intros D. split; intros E; rewrite E in D; discriminate D. Qed.
Lemma sendOk_waiting f : f_gm f = false -> sendOk f.
Proof. intros D. split; intros _ E; congruence. Qed.

Lemma finish_R f f1 out disc p : Rf f f1 out -> (forall m, p <> PR_REPROCESS m) -> retOk p (f_st f1) -> (returnable p = false -> sendOk f1) ->
  Rf f (fst (finish f1 out disc p)) (e_msgs (snd (finish f1 out disc p))) /\ sendOk (fst (finish f1 out disc p)).
Proof.
  intros H N T S. destruct (finish_parts f1 out disc p N T S) as (A1&A2&A3&A4&A5). split; [|exact A4].
  unfold Rf. rewrite A1, A2, A3, A5. exact H.
Qed.

Lemma phase2_R f cmd : m_action cmd <> CMD_FORCE_TIME_GRANT ->
  let '(f', out, disc, p) := disconnectPhase2 f cmd in
  Rf f f' out /\ (sendOk f -> returnable p = false -> sendOk f') /\ (forall m, p <> PR_REPROCESS m) /\ retOk p (f_st f').
Proof.
  intros NF. unfold disconnectPhase2. pose proof (R_ptm (f_tc f) cmd (f_st f) (f_gm f) NF) as P.
  pose proof (processTimeMessage_core (f_tc f) cmd NF) as C.
  destruct (processTimeMessage (f_tc f) cmd) as [[c1 o1] r1]. cbn [fst snd] in *.
  assert (GO : c_granted c1 = c_granted (f_tc f) /\ c_opts c1 = c_opts (f_tc f)) by (core_inv C; auto). destruct GO as [G O].
  assert (BASE : Rf f (set_f_tc c1 f) o1 /\ (sendOk f -> returnable PR_CONTINUE = false -> sendOk (set_f_tc c1 f)) /\ (forall m, PR_CONTINUE <> PR_REPROCESS m) /\ retOk PR_CONTINUE (f_st (set_f_tc c1 f))).
  { split; [exact P|]. split; [intros S _; apply (sendOk_same f); auto|]. split; [discriminate|exact I]. }
  destruct (tpr_notProcessed r1); [exact BASE|].
  change (f_st (set_f_tc c1 f)) with (f_st f). change (f_gm (set_f_tc c1 f)) with (f_gm f).
  destruct (fst_eqb (f_st f) EXECUTING) eqn:ST; cbn [negb]; [|exact BASE].
  destruct (f_gm f) eqn:GM; cbn [negb]; [exact BASE|].
  assert (SX : f_st f = EXECUTING) by (destruct (f_st f); try discriminate ST; reflexivity).
  pose proof (Rdec_checkTimeGrant c1 invalidId) as D. destruct (checkTimeGrant c1 invalidId) as [[c2 o2] r2]. unfold Rdec in D.
  rewrite SX in P.
  assert (RF : forall f', f_tc f' = c2 -> f_st f' = EXECUTING -> f_gm f' = gmOf r2 -> Rf f f' (o1 ++ o2)).
  { intros f' E1 E2 E3. unfold Rf. rewrite E1, E2, E3, SX, GM. eapply R_trans; [exact P|exact D]. }
  destruct r2; cbn [of_mpr].
  - split; [apply RF; [reflexivity|exact SX|exact GM]|]. split; [intros _ _; apply sendOk_waiting; exact GM|]. split; [discriminate|exact I].
  - split; [apply RF; [reflexivity|exact SX|reflexivity]|]. split; [intros _ X; discriminate X|]. split; [discriminate|exact I].
  - split; [apply RF; [reflexivity|exact SX|reflexivity]|]. split; [intros _ X; discriminate X|]. split; [discriminate|exact I].
  - split; [apply RF; [reflexivity|exact SX|reflexivity]|]. split; [intros _ X; discriminate X|]. split; [discriminate|left; exact SX].
Qed.

Lemma deliver_R f cmd : adm cmd (c_id (f_tc f)) (f_st f) ->
  Rf f (fst (deliver f cmd)) (e_msgs (snd (deliver f cmd))) /\ (sendOk f -> sendOk (fst (deliver f cmd))).
Proof.
  intros A. unfold deliver. pose proof (ok_procMsg procDepth f cmd A) as P.
  destruct (procMsg procDepth f cmd) as [[f1 o1] p1]. destruct P as (P1&P2&P3&P4).
  destruct (returnable p1) eqn:RB.
  { destruct (finish_R f f1 o1 [] p1 P1 P3 P4 ltac:(congruence)). auto. }
  destruct (_ || _).
  { unfold userDisconnect. destruct (f_st f1) eqn:ST.
    5: { destruct (disconnect (f_tc f1)) as [c2 o2]. split; [apply R_dead; reflexivity|intros _; apply sendOk_dead; reflexivity]. }
    4: { cbn [fst snd effMsgs e_msgs]. rewrite app_nil_r. auto. }
    4: { cbn [fst snd effMsgs e_msgs]. rewrite app_nil_r. auto. }
    all: destruct (disconnect (f_tc f1)) as [c2 o2]; split; [apply R_dead; reflexivity|intros _; apply sendOk_dead; reflexivity]. }
  destruct (_ && _); [|cbn [fst snd effMsgs e_msgs]; auto].
  pose proof (phase2_R f1 cmd (proj1 A)) as Q. destruct (disconnectPhase2 f1 cmd) as [[[f2 o2] d2] p2]. destruct Q as (Q1&Q2&Q3&Q4).
  assert (RR : Rf f f2 (o1 ++ o2)) by (eapply R_trans; [exact P1|exact Q1]).
  split.
  - pose proof (returnTo_parts f2 p2) as (B1&B2&B3). unfold finish. destruct (returnable p2).
    + destruct (returnTo f2 p2) as [f3 r3]. cbn [fst snd e_msgs] in *. unfold Rf. rewrite B1, B2, B3. exact RR.
    + exact RR.
  - intros S. apply (finish_R f f2 (o1 ++ o2) d2 p2 RR Q3 Q4). intros X. auto.
Qed.

Lemma fin_Rf f f1 out disc p : Rf f f1 out -> Rf f (fst (finish f1 out disc p)) (e_msgs (snd (finish f1 out disc p))).
Proof.
  intros RR. pose proof (returnTo_parts f1 p) as (B1&B2&B3). unfold finish. destruct (returnable p); [|exact RR].
  destruct (returnTo f1 p) as [f3 r3]. cbn [fst snd e_msgs] in *. unfold Rf. rewrite B1, B2, B3. exact RR.
Qed.

Theorem step_R f e : plain f e ->
  Rf f (fst (step f e)) (e_msgs (snd (step f e))) /\ (sendOk f -> sendOk (fst (step f e))).
Proof.
  intros [W PL]. destruct e as [cmd|it|t it nv nm|cmd k|p v|g v|v|g|g|g]; cbn [step].
  - destruct (isDataCmd (m_action cmd) || isOwnRequest (c_id (f_tc f)) cmd || fst_eqb (f_st f) FINISHED) eqn:X.
    { split; [apply R_same0; reflexivity|auto]. }
    assert (A : adm cmd (c_id (f_tc f)) (f_st f)).
    { destruct PL as [P1 P2]. split; [exact P1|]. split; [exact P2|]. intros E1 E2 E3. exfalso.
      apply orb_false_elim in X as [X _]. apply orb_false_elim in X as [_ X]. unfold isOwnRequest in X.
      rewrite E1, E2, E3, !Z.eqb_refl in X. discriminate X. }
    destruct (deliver_R f cmd A) as [D1 D2]. unfold maskError. destruct (fst_eqb (f_st f) ERRORED); [|auto]. split; [exact D1|exact D2].
  - unfold enterExecuting. destruct (f_st f) eqn:ST; try (split; [apply R_same0; reflexivity|auto]).
    set (m := setFlag indicator_flag _).
    assert (A : adm m (c_id (f_tc f)) (f_st f)).
    { assert (MA : m_action m = CMD_EXEC_REQUEST) by (unfold m; cbn; rewrite (proj1 (iterFlags_action _ _)); reflexivity).
      split; [rewrite MA; discriminate|]. split; [rewrite MA; discriminate|]. auto. }
    pose proof (ok_procMsg procDepth f m A) as P. destruct (procMsg procDepth f m) as [[f1 o1] p1]. destruct P as (P1&P2&P3&P4).
    destruct (returnable p1) eqn:RB.
    { split; [apply fin_Rf; exact P1|]. intros S. apply (finish_R f f1 o1 [] p1 P1 P3 P4). congruence. }
    assert (A2 : adm (set_m_action CMD_EXEC_CHECK m) (c_id (f_tc f1)) (f_st f1)) by (apply adm_other; discriminate).
    pose proof (ok_procMsg procDepth f1 _ A2) as Q. destruct (procMsg procDepth f1 _) as [[f2 o2] p2]. destruct Q as (Q1&Q2&Q3&Q4).
    assert (RR : Rf f f2 (o1 ++ o2)) by (eapply R_trans; [exact P1|exact Q1]).
    split; [apply fin_Rf; exact RR|]. intros S. apply (finish_R f f2 (o1 ++ o2) [] p2 RR Q3 Q4). intros X. auto.
  - unfold requestTime. destruct (f_st f) eqn:ST; try (split; [apply R_same0; reflexivity|auto]).
    set (it' := match it with ITERATE_IF_NEEDED => _ | _ => it end). clearbody it'. destruct W as (W1&W2&W3).
    pose proof (R_request (f_tc f) t it' nv nm W1 W2 W3) as P. destruct (timeRequest (f_tc f) t it' nv nm) as [c1 o1]. cbn [fst snd] in P.
    set (f1 := set_f_gm false (set_f_tc c1 f)).
    assert (P1 : Rf f f1 o1). { unfold Rf, f1. cbn. rewrite ST, PL. exact P. }
    assert (A2 : adm (set_m_dest_id (c_id c1) (newMsg CMD_TIME_CHECK (c_id c1))) (c_id (f_tc f1)) (f_st f1)).
    { split; [discriminate|]. split; intros X; discriminate X. }
    pose proof (ok_procMsg procDepth f1 _ A2) as Q. destruct (procMsg procDepth f1 _) as [[f2 o2] p2]. destruct Q as (Q1&Q2&Q3&Q4).
    assert (RR : Rf f f2 (o1 ++ o2)) by (eapply R_trans; [exact P1|exact Q1]).
    split; [apply fin_Rf; exact RR|]. intros S. apply (finish_R f f2 (o1 ++ o2) [] p2 RR Q3 Q4). intros X. apply Q2; [|exact X].
    apply sendOk_waiting. reflexivity.
  - destruct (isDataCmd (m_action cmd) && negb (fst_eqb (f_st f) FINISHED)) eqn:X; [|split; [apply R_same0; reflexivity|auto]].
    apply andb_prop in X as [X _].
    assert (NF : m_action cmd <> CMD_FORCE_TIME_GRANT) by (intros Y; rewrite Y in X; discriminate X).
    unfold deliverData.
    set (u := match k with DK_value t => updateValueTime (f_tc f) t (negb (f_gm f)) | DK_message t => updateMessageTime (f_tc f) t (negb (f_gm f)) | DK_none => (f_tc f, []) end).
    assert (U : R (f_tc f) (f_st f) (f_gm f) (fst u) (f_st f) (f_gm f) (snd u) /\ c_granted (fst u) = c_granted (f_tc f) /\ c_opts (fst u) = c_opts (f_tc f)).
    { unfold u. destruct k as [t|t|].
      - split; [apply R_value; exact W|]. destruct (valueTime_core (f_tc f) t (negb (f_gm f))) as [C|[_ C]]; core_inv C; split; congruence.
      - split; [apply R_message; exact W|]. destruct (messageTime_core (f_tc f) t (negb (f_gm f))) as [C|[_ C]]; core_inv C; split; congruence.
      - split; [apply R_same0; reflexivity|auto]. }
    clearbody u. destruct u as [c1 o1]. cbn [fst snd] in U. destruct U as (U1&U2&U3).
    pose proof (R_ptm c1 cmd (f_st f) (f_gm f) NF) as P. pose proof (processTimeMessage_core c1 cmd NF) as C.
    assert (NX : R (f_tc f) (f_st f) (f_gm f) c1 (f_st f) (f_gm f) o1 /\ (sendOk f -> sendOk (set_f_tc c1 f))).
    { split; [exact U1|]. apply sendOk_same; auto. }
    destruct (processTimeMessage c1 cmd) as [[c2 o2] r2]. cbn [fst snd] in *.
    assert (GO : c_granted c2 = c_granted c1 /\ c_opts c2 = c_opts c1) by (core_inv C; auto). destruct GO as [G O].
    assert (YX : Rf f (set_f_tc c2 f) (o1 ++ o2) /\ (sendOk f -> sendOk (set_f_tc c2 f))).
    { split; [eapply R_trans; [exact U1|exact P]|]. apply sendOk_same; auto; cbn; congruence. }
    destruct (f_st f) eqn:ST; cbn [fst snd effMsgs e_msgs]; unfold Rf in *; cbn [f_tc set_f_tc f_st f_gm] in *; rewrite ?ST in *; auto.
  - destruct PL.
  - destruct PL.
  - split.
    + cbn [fst snd noEff e_msgs]. unfold Rf, updOpts, setMaxIterations. cbn [f_tc set_f_tc f_st f_gm]. intros K.
      split; [|split; [intros x; exact (fun H => H)|apply told_nil]]. exact K.
    + intros X. exact X.
  - assert (H : kpart (fst (tcAddDependency (f_tc f) g)) = kpart (f_tc f)).
    { unfold tcAddDependency. destruct (addDependency (c_deps (f_tc f)) g). reflexivity. }
    destruct (kp_go _ _ H). split; [apply R_same0; exact H|]. apply sendOk_same; auto.
  - split; [apply R_same0; reflexivity|]. apply sendOk_same; reflexivity.
  - split; [apply R_same0; reflexivity|]. apply sendOk_same; reflexivity.
Qed.

(** a federate just created *)
Definition fixedOpts (o : tcopts) : Prop :=
  opts_ok o /\ o_restrictive o = true /\ 0 <= o_inputDelay o /\ 0 <= o_outputDelay o.
Lemma init_Kf id o n : fixedOpts o -> Kf (fed_init id o n).
Proof.
  intros (A&B&C&D) _. cbn. split; [apply (init_inv id o n A)|]. split; [repeat split; assumption|].
  split; [split; intros X; discriminate X|]. split; [intros X; discriminate X|]. split; [intros X; discriminate X|]. reflexivity.
Qed.
Lemma init_sendOk id o n : sendOk (fed_init id o n).
Proof. split; intros X; discriminate X. Qed.
