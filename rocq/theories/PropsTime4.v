(** * Properties C08 and C09: the dependency table *)
From Coq Require Import ZArith Bool List Lia ZifyBool.
From Verif Require Import HTime Action TimeDep TimeDepProofs TimeCoord TimeCoordProofs TimeProc TimeProcProofs TimeInitProofs TimeInv TimeAnswer TimeGrid PropsTime1 TimeTable MinTimeProofs TimeNotice NoticeStep PropsTime2 PropsTime3 Examples1.
Import ListNotations.
Open Scope Z_scope.

(** ** C08 *)
(** after any sequence of operations on the table: who is a dependency (a dependent) is decided by the latest
    operation which adds or removes that federate, there is one entry per federate, and an operation on one
    federate does not change the entry of another *)
Theorem C08_lookups_follow_latest_operation :
  forall os g,
  isDependency (applyOps [] os) g = latestDependency g (rev os) /\
  isDependent (applyOps [] os) g = latestDependent g (rev os).
Proof. intros os g. apply (latest_spec os g). Qed.
Theorem C08_one_entry_per_federate : forall os, NoDup (map fedID (applyOps [] os)).
Proof. intros os. apply tsorted_nodup. apply (latest_spec os 0). Qed.
Theorem C08_operations_are_independent :
  forall os o g, g <> opTarget o -> getDep (applyOps [] (os ++ [o])) g = getDep (applyOps [] os) g.
Proof.
  intros os o g N. rewrite applyOps_snoc, applyOp_lookup by apply (latest_spec os 0). rewrite (proj2 (Z.eqb_neq _ _) N). reflexivity.
Qed.
(** lookups find an entry exactly when the table holds one *)
Theorem C08_lookup_is_membership : forall os g d, getDep (applyOps [] os) g = Some d <-> In d (applyOps [] os) /\ fedID d = g.
Proof.
  intros os g d. assert (S : tsorted (applyOps [] os)) by apply (latest_spec os 0). rewrite getDep_lookup by exact S. split.
  - intros H. apply lookup_some_id in H as [A B]. auto.
  - intros [I E]. unfold lookup. apply tsorted_nodup in S. unfold ids in S. induction (applyOps [] os) as [|x l IH]; [destruct I|]. cbn in *.
    inversion S as [|? ? S1 S2]; subst. destruct I as [->|I]; [rewrite Z.eqb_refl; reflexivity|].
    destruct (Z.eqb_spec (fedID x) (fedID d)) as [Q|_]; [|auto]. destruct S1. rewrite Q. apply in_map. exact I.
Qed.
(** the same for the table of a federate, after any history of events *)
Theorem C08_federate_table_has_one_entry_per_federate :
  forall id o n es, NoDup (map fedID (c_deps (f_tc (after (fed_init id o n) es)))).
Proof. intros id o n es. apply tsorted_nodup. apply (after_tabOk id _ es (init_tabOk id o n)). Qed.
Example C08_not_vacuous :
  let os := [OpAddDependency 7; OpAddDependent 5; OpAddDependency 5; OpRemoveDependency 7; OpAddDependent 9; OpRemoveDependent 5; OpAddDependency 7] in
  map fedID (applyOps [] os) = [5; 7; 9] /\ map (isDependency (applyOps [] os)) [5; 7; 9; 11] = [true; true; false; false]
  /\ map (isDependent (applyOps [] os)) [5; 7; 9; 11] = [false; false; true; false].
Proof. vm_compute. repeat split. Qed.

(** ** C09: a dependency which has left *)
(** the entry of a dependency which announced that it disconnected, or an error *)
Definition gone (d : dinfo) : Prop := next d = maxVal /\ minDe d = maxVal /\ Te d = maxVal /\ (tst d = ts_time_granted \/ tst d = ts_error).
Lemma gone_key d d' : key d' = key d -> gone d -> gone d'.
Proof. unfold key, gone. intros K (A&B&C&D). injection K as K1 K2 K3 K4 K5 K6. rewrite K1, K2, K3, K6. auto. Qed.

(** accumulators which agree on the times *)
Definition late (s : tstate) : Prop := ts_ltb s ts_time_granted = false.
Definition okAcc (m : tdata) : Prop :=
  next m <= maxVal /\ minDe m <= maxVal /\ Te m <= maxVal /\ (next m = maxVal -> late (tst m)).
Definition sim (m m' : tdata) : Prop :=
  next m = next m' /\ minDe m = minDe m' /\ Te m = Te m' /\ (tst m = tst m' \/ (late (tst m) /\ late (tst m') /\ next m = maxVal)).
Lemma minTimeNext_acc m (d : dinfo) c : late (tst d) -> okAcc m -> okAcc (minTimeNext m d c) /\ Te (minTimeNext m d c) = Te m.
Proof.
  intros L (A&B&C&D). unfold minTimeNext. destruct (Z.ltb_spec (next d) (next m)).
  - split; [|reflexivity]. unfold okAcc. cbn [next minDe Te tst set_next set_tst set_interrupted]. repeat split; try lia.
  - destruct (Z.eqb_spec (next d) (next m)); [|split; [repeat split; auto|reflexivity]].
    split; [|reflexivity]. unfold okAcc. cbn [next minDe Te tst set_tst set_interrupted]. repeat split; auto. intros E. specialize (D E).
    destruct (iterativeRequest (tst d)); [destruct (_ || _); assumption|]. destruct (_ && _); assumption.
Qed.
Lemma minTimeTe_acc m (d : dinfo) : okAcc m -> okAcc (minTimeTe m d) /\ tst (minTimeTe m d) = tst m /\ Te (minTimeTe m d) = Z.min (Te d) (Te m).
Proof.
  intros (A&B&C&D). unfold minTimeTe. destruct (Z.ltb_spec (Te d) (Te m)).
  - destruct (isValidId (minFed d)); (split; [|split; [reflexivity|cbn; lia]]); unfold okAcc; cbn; repeat split; auto; lia.
  - destruct (Z.eqb_spec (Te d) (Te m)); (split; [|split; [reflexivity|cbn; lia]]); unfold okAcc; cbn; repeat split; auto.
Qed.
Lemma minDe_acc m (d : dinfo) c : okAcc m -> okAcc (set_minDe (minTimeMinDe (minDe m) d c) m).
Proof.
  intros (A&B&C&D). pose proof (minTimeMinDe_le (minDe m) d c) as [H _]. unfold okAcc. cbn. unfold maxVal in *. repeat split; auto; lia.
Qed.
Lemma init_acc m (d : dinfo) i : okAcc m -> okAcc (minTimeInit m d i).
Proof.
  intros K. unfold minTimeInit. destruct (fedID d =? i); [exact K|]. unfold okAcc. cbn [next minDe Te tst set_next set_Te set_minDe].
  unfold initializationTime, timeZero, maxVal. repeat split; try lia; intros Q; discriminate Q.
Qed.
Lemma impl_acc m (d : dinfo) i c : okAcc m -> okAcc (generateMinTimeImplementation m d i c).
Proof.
  intros K. unfold generateMinTimeImplementation. destruct (ts_ltb (tst d) ts_time_granted) eqn:L; [apply init_acc; exact K|].
  destruct (fedID d =? i).
  - destruct (_ && _) eqn:E; [|exact K]. destruct K as (A&B&C&D). unfold okAcc. cbn. repeat split; auto. lia.
  - apply minTimeTe_acc, minTimeNext_acc, minDe_acc; assumption.
Qed.
Lemma sim_refl m : sim m m. Proof. unfold sim. auto. Qed.
Lemma sim_gone m (d : dinfo) i c : gone d -> okAcc m -> sim m (generateMinTimeImplementation m d i c).
Proof.
  intros (N&M&T&S) (B1&B2&B3&B4). unfold generateMinTimeImplementation.
  assert (L : ts_ltb (tst d) ts_time_granted = false) by (destruct S as [-> | ->]; reflexivity). rewrite L.
  destruct (fedID d =? i).
  { rewrite T. destruct (Z.ltb_spec maxVal (minDe m)); [lia|]. rewrite andb_false_r. apply sim_refl. }
  assert (MD : minTimeMinDe (minDe m) d c = minDe m).
  { unfold minTimeMinDe. rewrite N, M. rewrite Z.leb_refl. destruct (Z.ltb_spec maxVal (minDe m)); [lia|]. cbn [andb].
    destruct (_ && _); [reflexivity|]. destruct (_ && _); reflexivity. }
  rewrite MD. assert (E0 : set_minDe (minDe m) m = m) by (destruct m; reflexivity). rewrite E0.
  assert (SN : sim m (minTimeNext m d c) /\ Te (minTimeNext m d c) = Te m).
  { unfold minTimeNext. rewrite N. destruct (Z.ltb_spec maxVal (next m)); [lia|].
    destruct (Z.eqb_spec maxVal (next m)) as [E|E]; [|split; [apply sim_refl|reflexivity]].
    split; [|reflexivity]. unfold sim. cbn [next minDe Te tst set_tst set_interrupted].
    repeat split.
    assert (NI : iterativeRequest (tst d) = false) by (destruct S as [-> | ->]; reflexivity). rewrite NI.
    destruct S as [S|S]; rewrite S; [|left; reflexivity].
    destruct (_ && _); [|left; reflexivity].
    right. split; [apply B4; lia|]. split; [reflexivity|lia]. }
  destruct SN as [SN TN]. revert SN TN. generalize (minTimeNext m d c). intros m1 (A1&A2&A3&A4) TN.
  unfold minTimeTe. rewrite T. destruct (Z.ltb_spec maxVal (Te m1)); [lia|].
  destruct (maxVal =? Te m1); unfold sim; cbn; auto.
Qed.
Lemma sim_impl m m' (d : dinfo) i c : sim m m' -> okAcc m -> sim (generateMinTimeImplementation m d i c) (generateMinTimeImplementation m' d i c).
Proof.
  intros (A1&A2&A3&A4) (B1&B2&B3&B4). unfold generateMinTimeImplementation. destruct (ts_ltb (tst d) ts_time_granted) eqn:L.
  - unfold minTimeInit. destruct (fedID d =? i); [unfold sim; auto|]. unfold sim. cbn [next minDe Te tst set_next set_Te set_minDe].
    repeat split. left. destruct A4 as [A4|(A4&A5&_)].
    + rewrite A4. destruct (ts_ltb (tst d) (tst m')); [reflexivity|]. destruct (ts_eqb (tst d) (tst m')); [|exact A4].
      assert (T1 : forall x : tdata, tst (if restrictionLevel d <? restrictionLevel x then
          set_minFed (fedID d) (set_delayedTiming (delayedTiming d)
           (set_restrictionLevel (restrictionLevel d) (set_sequenceCounter (sequenceCounter d)
           (set_responseSequenceCounter (sequenceCounter d) (set_interrupted (interrupted d) x)))))
        else if (restrictionLevel d =? restrictionLevel x)
                && negb (Bool.eqb (interrupted d) (interrupted x)) then
          if negb (interrupted d) then
            set_minFed (fedID d) (set_delayedTiming (delayedTiming d)
             (set_restrictionLevel (restrictionLevel d) (set_sequenceCounter (sequenceCounter d)
             (set_responseSequenceCounter (sequenceCounter d) (set_interrupted false x)))))
          else x
        else if (restrictionLevel d =? restrictionLevel x) && (fedID d <? minFed x) then
          set_minFed (fedID d) (set_delayedTiming (delayedTiming d)
           (set_sequenceCounter (sequenceCounter d)
           (set_responseSequenceCounter (sequenceCounter d) x)))
        else x) = tst x).
      { intros x. destruct (_ <? _); [reflexivity|]. destruct (_ && _); [destruct (negb _); reflexivity|]. destruct (_ && _); reflexivity. }
      rewrite !T1. exact A4.
    + assert (L1 : ts_ltb (tst d) (tst m) = true) by (unfold late, ts_ltb in *; lia).
      assert (L2 : ts_ltb (tst d) (tst m') = true) by (unfold late, ts_ltb in *; lia).
      rewrite L1, L2. reflexivity.
  - destruct (fedID d =? i).
    + rewrite <- A2. destruct (_ && _); unfold sim; cbn; auto.
    + rewrite <- A2. set (k := minTimeMinDe (minDe m) d c).
      assert (SN : sim (minTimeNext (set_minDe k m) d c) (minTimeNext (set_minDe k m') d c)).
      { unfold minTimeNext. cbn [next tst set_minDe interrupted]. rewrite <- A1. destruct (next d <? next m); [unfold sim; cbn; auto 6|].
        destruct (Z.eqb_spec (next d) (next m)) as [E|E]; [|unfold sim; cbn; auto 6].
        unfold sim. cbn [next minDe Te tst set_tst set_interrupted set_minDe]. repeat split; auto.
        destruct A4 as [A4|(A4&A5&A6)]; [left; rewrite A4; reflexivity|].
        assert (LD : late (tst d)) by exact L.
        right. repeat split; auto.
        - destruct (iterativeRequest (tst d)); [destruct (_ || _); assumption|]. destruct (_ && _); assumption.
        - destruct (iterativeRequest (tst d)); [destruct (_ || _); assumption|]. destruct (_ && _); assumption. }
      revert SN. generalize (minTimeNext (set_minDe k m) d c), (minTimeNext (set_minDe k m') d c). intros x x' (C1&C2&C3&C4).
      unfold minTimeTe. rewrite <- C3. destruct (Te d <? Te x); [destruct (isValidId (minFed d)); unfold sim; cbn; auto|].
      destruct (Te d =? Te x); unfold sim; cbn; auto.
Qed.
Lemma sim_trans a b c : sim a b -> sim b c -> sim a c.
Proof.
  intros (A1&A2&A3&A4) (B1&B2&B3&B4). unfold sim. repeat split; try congruence.
  destruct A4 as [A4|(A4&A5&A6)], B4 as [B4|(B4&B5&B6)].
  - left; congruence.
  - right. rewrite A4, A1. auto.
  - right. rewrite <- B4. auto.
  - right. auto.
Qed.
Definition loopFrom (keep : dinfo -> bool) i c (l : table) m :=
  fold_left (fun m dep => if keep dep then generateMinTimeImplementation m dep i c else m) l m.
Lemma loopFrom_sim keep i c l m m' : sim m m' -> okAcc m -> okAcc m' -> sim (loopFrom keep i c l m) (loopFrom keep i c l m').
Proof.
  revert m m'. induction l as [|d l IH]; intros m m' S O O'; [exact S|]. cbn. destruct (keep d); [|apply IH; assumption].
  apply IH; [apply sim_impl; assumption|apply impl_acc; assumption|apply impl_acc; assumption].
Qed.
Lemma loopFrom_acc keep i c l m : okAcc m -> okAcc (loopFrom keep i c l m).
Proof. revert m. induction l as [|d l IH]; intros m O; [exact O|]. cbn. destruct (keep d); apply IH; [apply impl_acc|]; exact O. Qed.
Lemma mTime0_acc : okAcc mTime0.
Proof. unfold okAcc. cbn. unfold maxVal. repeat split; lia. Qed.
Lemma loop_gone keep i c a d b : gone d -> sim (minTimeLoop keep i c (a ++ b)) (minTimeLoop keep i c (a ++ d :: b)).
Proof.
  intros G. change (sim (loopFrom keep i c (a ++ b) mTime0) (loopFrom keep i c (a ++ d :: b) mTime0)). unfold loopFrom. rewrite !fold_left_app. cbn [fold_left].
  pose proof (loopFrom_acc keep i c a mTime0 mTime0_acc) as OA. unfold loopFrom in OA. set (m := fold_left _ a mTime0) in *. clearbody m.
  destruct (keep d); [|apply sim_refl].
  apply (loopFrom_sim keep i c b m); [apply sim_gone; assumption|exact OA|apply impl_acc; exact OA].
Qed.
(** the three times the coordinator takes from the table *)
Definition times (m : tdata) := (next m, minDe m, Te m).
Lemma finish_times r m m' : sim m m' -> times (minTimeInitOverride (minTimeAdjust r m)) = times (minTimeInitOverride (minTimeAdjust r m')).
Proof.
  intros (A1&A2&A3&A4).
  assert (LT : ts_ltb (tst (minTimeAdjust r m)) ts_time_granted = ts_ltb (tst (minTimeAdjust r m')) ts_time_granted).
  { assert (TS : forall x, tst (minTimeAdjust r x) = tst x) by (intros x; unfold minTimeAdjust; destruct (Te x <? minDe x); destruct (_ && _); reflexivity).
    rewrite !TS. destruct A4 as [->|(A4&A5&_)]; [reflexivity|]. unfold late in *. congruence. }
  unfold minTimeInitOverride. rewrite LT. clear LT. destruct (ts_ltb (tst (minTimeAdjust r m')) ts_time_granted); [reflexivity|].
  unfold minTimeAdjust. rewrite A2, A3. destruct (Te m' <? minDe m'); cbn [next minDe Te set_minDe]; rewrite A1, ?A2.
  - destruct (_ && _); unfold times; cbn; congruence.
  - destruct (_ && _); unfold times; cbn; congruence.
Qed.
Lemma total_gone a d b r c : gone d -> times (generateMinTimeTotal (a ++ d :: b) r invalidId invalidId c) = times (generateMinTimeTotal (a ++ b) r invalidId invalidId c).
Proof. intros G. symmetry. apply finish_times. apply loop_gone. exact G. Qed.

(** what the coordinator decides: the result, and the granted time *)
Definition verdict (x : tc * list amsg * mpr) : mpr * Z := (snd x, c_granted (fst (fst x))).
(** the fields a decision reads, besides the table *)
Definition knobs (c c' : tc) : Prop :=
  core c = core c' /\ c_exec c = c_exec c' /\ c_allow c = c_allow c' /\ c_block c = c_block c' /\ c_nonGranting c = c_nonGranting c'
  /\ c_needSendAll c = c_needSendAll c' /\ c_hasIter c = c_hasIter c' /\ c_seq c = c_seq c' /\ c_restrLevel c = c_restrLevel c'.
Lemma actOn_res c sa r t : snd (actOn c sa r t) = match r with NEXT_STEP => if is_force_iter (c_iterating c) then ITERATING else NEXT_STEP | _ => r end.
Proof.
  unfold actOn. destruct r.
  - destruct sa; [destruct (sendTimeRequest _ _); reflexivity|]. destruct (_ && _); [destruct (sendTimeRequest _ _); reflexivity|reflexivity].
  - destruct (is_force_iter _); [destruct (updateTimeGrant _); reflexivity|]. unfold grantStep. destruct (updateTimeGrant _). reflexivity.
  - destruct (updateTimeGrant _); reflexivity.
  - reflexivity.
Qed.
(** tables which give the same answers to the questions of a decision *)
Definition sameAnswers (src seq : Z) (l l' : table) : Prop :=
  (forall it t dm, checkIfReadyForTimeGrant it t dm l = checkIfReadyForTimeGrant it t dm l') /\
  (forall t w rs, t < maxVal -> checkTimeGrantRestriction l src seq t w rs = checkTimeGrantRestriction l' src seq t w rs).
Lemma grantFrom_res c c' t : knobs c c' -> sameAnswers (c_id c) (c_seq c) (c_deps c) (c_deps c') -> snd (grantFrom c t) = snd (grantFrom c' t).
Proof.
  intros (KC&KE&KA&KB&KN&KS&KH&KQ&KR) [A1 A2].
  assert (E : c_opts c = c_opts c' /\ c_requested c = c_requested c' /\ c_iterating c = c_iterating c' /\ c_granted c = c_granted c' /\ c_id c = c_id c') by (unfold core in KC; repeat split; congruence).
  destruct E as (EO&ER&EI&EG&ED). unfold grantFrom.
  rewrite <- EO, <- KE, <- KA, <- KB, <- KN, <- ER.
  destruct ((cTerminationTime <=? c_exec c) && (cTerminationTime <=? c_allow c)) eqn:HALT.
  { destruct (disconnect _), (disconnect _). reflexivity. }
  assert (RF : snd (refuse c t) = snd (refuse c' t)).
  { pose proof (refuse_core c t) as R1. pose proof (refuse_core c' t) as R2. destruct (refuse c t) as [[? ?] ?], (refuse c' t) as [[? ?] ?]. destruct R1, R2. cbn. congruence. }
  destruct ((c_block c <=? c_exec c) && _); [exact RF|]. destruct (c_nonGranting c && _); [exact RF|]. clear RF.
  set (d := set_c_needSendAll false c). set (d' := set_c_needSendAll false c').
  change (c_iterating d) with (c_iterating c). change (c_iterating d') with (c_iterating c'). rewrite <- EI.
  change (c_exec d) with (c_exec c). change (c_exec d') with (c_exec c'). change (c_allow d) with (c_allow c). change (c_allow d') with (c_allow c').
  change (c_requested d) with (c_requested c). change (c_requested d') with (c_requested c'). change (c_deps d) with (c_deps c). change (c_deps d') with (c_deps c').
  change (c_granted d) with (c_granted c). change (c_granted d') with (c_granted c'). change (c_hasIter d) with (c_hasIter c). change (c_hasIter d') with (c_hasIter c').
  rewrite <- KE, <- KA, <- ER, <- EG, <- KH, <- A1, <- KS.
  assert (GS : forall x, snd (grantStep x) = NEXT_STEP) by (intros x; unfold grantStep; destruct (updateTimeGrant _); reflexivity).
  assert (IT : c_allow c = c_exec c -> forall sa, snd (let '(x, sa', r) := iterDecision d sa in actOn x sa' r t) = snd (let '(x, sa', r) := iterDecision d' sa in actOn x sa' r t)).
  { intros Q sa. assert (EX : c_exec c < maxVal) by (unfold cTerminationTime, maxVal in *; lia).
    clear HALT. assert (FIRST : snd (iterDecision d sa) = snd (iterDecision d' sa)).
    { unfold iterDecision, d, d'. cbn [c_opts c_allow c_requested c_exec c_deps c_hasIter c_granted c_id c_seq set_c_needSendAll].
      rewrite <- EO, <- ER, <- EG, <- KE, <- KA, <- KH, <- KQ, <- ED, <- !A1.
      destruct (c_allow c =? c_requested c); [destruct (_ && _); reflexivity|].
      destruct (checkIfReadyForTimeGrant true _ _ _); [|reflexivity]. destruct (c_hasIter c); [reflexivity|].
      destruct (c_granted c <? c_exec c); [reflexivity|]. rewrite A2 by exact EX.
      unfold applyRestriction. cbn [c_restrLevel set_c_needSendAll]. rewrite <- KR.
      destruct (r_allowed _); [destruct (_ || _); [reflexivity|]; destruct (negb _); reflexivity|]. destruct (r_advance _); reflexivity. }
    pose proof (iterDecision_core d sa) as IC. pose proof (iterDecision_core d' sa) as IC'.
    destruct (iterDecision d sa) as [[x sx] rx], (iterDecision d' sa) as [[x' sx'] rx']. cbn [snd] in FIRST. subst rx'.
    rewrite !actOn_res. destruct IC as (IC&_), IC' as (IC'&_).
    assert (EX1 : c_iterating x = c_iterating x').
    { transitivity (c_iterating d); [unfold core in IC; congruence|]. transitivity (c_iterating d'); [exact EI|]. unfold core in IC'. congruence. }
    rewrite EX1. reflexivity. }
  clear HALT. destruct (c_iterating c).
  - destruct (c_exec c <? c_allow c); [rewrite !GS; reflexivity|]. destruct (c_allow c =? c_exec c); [|rewrite !actOn_res; reflexivity].
    destruct (negb (o_wait (c_opts c)) && _); [rewrite !GS; reflexivity|]. destruct (checkIfReadyForTimeGrant _ _ _ _); [rewrite !GS|rewrite !actOn_res]; reflexivity.
  - destruct (c_exec c <? c_allow c); [destruct (_ || _); [destruct (updateTimeGrant _), (updateTimeGrant _); reflexivity|]|].
    + cbn [is_force_iter]. first [destruct (updateTimeGrant _), (updateTimeGrant _); reflexivity].
    + destruct (Z.eqb_spec (c_allow c) (c_exec c)) as [Q|_]; [apply IT; exact Q|rewrite !actOn_res; reflexivity].
  - destruct (c_exec c <? c_allow c); [destruct (_ || _); [destruct (updateTimeGrant _), (updateTimeGrant _); reflexivity|]|].
    + cbn [is_force_iter]. first [destruct (updateTimeGrant _), (updateTimeGrant _); reflexivity].
    + destruct (Z.eqb_spec (c_allow c) (c_exec c)) as [Q|_]; [apply IT; exact Q|rewrite !actOn_res; reflexivity].
  - rewrite !actOn_res. reflexivity.
  - rewrite !actOn_res. reflexivity.
Qed.
Lemma grantRestr_gone src seq t rs a d b r : gone d -> t < maxVal -> grantRestrLoop (a ++ d :: b) src seq t rs r = grantRestrLoop (a ++ b) src seq t rs r.
Proof.
  intros (N&_) L. revert r. induction a as [|x a IH]; intros r.
  - cbn [app grantRestrLoop]. destruct (negb (dependency d)); [reflexivity|]. rewrite N. destruct (Z.ltb_spec t maxVal); [reflexivity|lia].
  - cbn [app grantRestrLoop]. rewrite !IH. reflexivity.
Qed.
Lemma gone_answers a d b src seq : gone d -> sameAnswers src seq (a ++ d :: b) (a ++ b).
Proof.
  intros G. split.
  - intros it t dm. destruct G as (N&_). unfold checkIfReadyForTimeGrant.
    assert (P : forall f, f d = true -> forallb f (a ++ d :: b) = forallb f (a ++ b)) by (intros f F; rewrite !forallb_app; cbn [forallb]; rewrite F; reflexivity).
    destruct it; apply P; [unfold iteratingTimeGrantCheck|unfold grantCheckOne]; rewrite N; change (cTerminationTime <=? maxVal) with true; rewrite orb_true_r; reflexivity.
  - intros t w rs L. unfold checkTimeGrantRestriction. destruct w; [reflexivity|]. apply grantRestr_gone; assumption.
Qed.
(** the coordinator as if it had never heard of [g] *)
Definition without (g : Z) (c : tc) : tc := set_c_deps (filter (fun d => negb (fedID d =? g)) (c_deps c)) c.
Lemma filter_split l g d : tsorted l -> getDep l g = Some d -> exists a b, l = a ++ d :: b /\ filter (fun x => negb (fedID x =? g)) l = a ++ b.
Proof.
  intros S. rewrite getDep_lookup by exact S. apply tsorted_nodup in S. unfold ids, lookup in *.
  induction l as [|x l IH]; [discriminate|]. cbn in *. inversion S as [|? ? S1 S2]; subst. destruct (Z.eqb_spec (fedID x) g) as [E|E].
  - intros Q. injection Q as ->. exists [], l. split; [reflexivity|]. cbn. clear IH S2 S. induction l as [|y l IH]; [reflexivity|]. cbn in *.
    destruct (Z.eqb_spec (fedID y) g) as [E2|E2]; [destruct S1; left; congruence|]. cbn. f_equal. apply IH. intros I. apply S1. right. exact I.
  - intros Q. destruct (IH S2 Q) as (a&b&->&F). exists (x :: a), b. split; [reflexivity|]. cbn. rewrite F. reflexivity.
Qed.
Lemma verdict_gone c g d t : tsorted (c_deps c) -> getDep (c_deps c) g = Some d -> gone d ->
  verdict (checkTimeGrant c t) = verdict (checkTimeGrant (without g c) t).
Proof.
  intros S D G. destruct (filter_split _ g d S D) as (a&b&E&F). unfold without. rewrite F. clear F.
  assert (RES : snd (checkTimeGrant c t) = snd (checkTimeGrant (set_c_deps (a ++ b) c) t)).
  { rewrite !grantFrom_eq. apply grantFrom_res.
    - unfold knobs. pose proof (total_gone a d b (o_restrictive (c_opts c) || c_globalTime c) (c_seq c) G) as TG.
      unfold times in TG. injection TG as TN _ _.
      assert (AL : c_allow (fst (updateTimeFactors c)) = c_allow (fst (updateTimeFactors (set_c_deps (a ++ b) c)))).
      { assert (X : forall c, c_allow (fst (updateTimeFactors c)) =
           if next (generateMinTimeTotal (c_deps c) (o_restrictive (c_opts c) || c_globalTime c) invalidId invalidId (c_seq c)) <? cTerminationTime - o_outputDelay (c_opts c) - Z.max (o_period (c_opts c)) (o_timeDelta (c_opts c))
           then o_inputDelay (c_opts c) + next (generateMinTimeTotal (c_deps c) (o_restrictive (c_opts c) || c_globalTime c) invalidId invalidId (c_seq c)) else maxVal).
        { clear. intros c. unfold updateTimeFactors. generalize (generateMinTimeTotal (c_deps c) (o_restrictive (c_opts c) || c_globalTime c) invalidId invalidId (c_seq c)). intros T.
          cbn [fst c_allow updateNextExecutionTime set_c_exec set_c_total set_c_upstream set_c_minDe set_c_allow].
          match goal with |- context [if ?b then set_minDe _ T else T] => destruct b end; reflexivity. }
        rewrite !X. cbn [c_deps set_c_deps c_opts c_globalTime c_seq]. rewrite E, TN. reflexivity. }
      rewrite AL. repeat split; reflexivity.
    - rewrite !updateTimeFactors_deps. cbn [c_deps set_c_deps]. rewrite E. apply gone_answers. exact G. }
  unfold verdict. f_equal; [exact RES|].
  pose proof (checkTimeGrant_spec c t) as P. pose proof (checkTimeGrant_spec (set_c_deps (a ++ b) c) t) as P'. cbn zeta in P, P'.
  destruct (checkTimeGrant c t) as [[x ox] r], (checkTimeGrant (set_c_deps (a ++ b) c) t) as [[x' ox'] r']. cbn [fst snd] in *. subst r'.
  destruct P as [P _], P' as [P' _].
  assert (CC : core (fst (updateTimeFactors c)) = core (fst (updateTimeFactors (set_c_deps (a ++ b) c)))) by reflexivity.
  assert (CE : c_exec (fst (updateTimeFactors c)) = c_exec (fst (updateTimeFactors (set_c_deps (a ++ b) c)))) by reflexivity.
  revert P P' CC CE. generalize (fst (updateTimeFactors c)), (fst (updateTimeFactors (set_c_deps (a ++ b) c))). intros y y' P P' CC CE.
  core_inv CC. destruct r; cbn [grantedFrom] in P, P'.
  - core_inv P. core_inv P'. congruence.
  - destruct P as [_ P], P' as [_ P']. core_inv P. core_inv P'. congruence.
  - destruct P as [_ P], P' as [_ P']. cbn zeta in P, P'. core_inv P. core_inv P'.
    match goal with H : c_iterating y = c_iterating y' |- _ => rewrite H in * end. destruct (is_force_iter (c_iterating y')); congruence.
  - destruct P as [P _], P' as [P' _]. core_inv P. core_inv P'. congruence.
Qed.

(** a command by which its sender says that it leaves the federation: a disconnect, or an error addressed to
    this federate by another federate (not by a broker) *)
Definition saysLeaving (id : Z) (cmd : amsg) : Prop :=
  m_action cmd = CMD_DISCONNECT \/ m_action cmd = CMD_DISCONNECT_FED \/ m_action cmd = CMD_BROADCAST_DISCONNECT
  \/ m_action cmd = CMD_DISCONNECT_BROKER \/ m_action cmd = CMD_DISCONNECT_CORE
  \/ (m_action cmd = CMD_LOCAL_ERROR /\ m_dest_id cmd = id /\ m_source_id cmd <> parent_broker_id /\ m_source_id cmd <> gRootBrokerID).
Lemma leaving_kind id cmd : saysLeaving id cmd -> tkind_of (m_action cmd) = k_disconnect \/ tkind_of (m_action cmd) = k_error.
Proof. intros [->|[->|[->|[->|[->|[-> _]]]]]]; vm_compute; auto. Qed.
Lemma leave_msg l cmd d id : tsorted l -> saysLeaving id cmd -> getDep l (m_source_id cmd) = Some d -> dependency d = true ->
  has (msgTable l cmd) (m_source_id cmd) gone.
Proof.
  intros S LV D DP. unfold has. rewrite msgTable_getDep by exact S. rewrite Z.eqb_refl. unfold f_msg. rewrite D.
  assert (X : exists d1, (if removesDependent (m_action cmd) then f_removeDependent (Some d) else Some d) = Some d1 /\ dependency d1 = true).
  { destruct (removesDependent (m_action cmd)); [|eauto]. cbn [f_removeDependent]. rewrite DP. eexists. split; [reflexivity|exact DP]. }
  destruct X as (d1&->&D1). cbn [f_upd]. rewrite D1. eexists. split; [reflexivity|].

  assert (G : gone (fst (processMessage cmd d1))).
  { unfold processMessage, gone. destruct (leaving_kind id cmd LV) as [-> | ->]; cbn; auto. }
  split; [|exact G]. unfold processMessage. destruct (leaving_kind id cmd LV) as [-> | ->]; exact D1.
Qed.
Lemma gone_iter t d : gone d -> f_iterTime t d = d.
Proof. intros (_&_&_&S). unfold f_iterTime. destruct S as [-> | ->]; rewrite andb_false_r; reflexivity. Qed.
Lemma gone_iterExec d : gone d -> f_iterExec d = d.
Proof. intros (_&_&_&S). unfold f_iterExec. destruct S as [-> | ->]; rewrite andb_false_r; reflexivity. Qed.
Lemma gone_grant id g l l' : tsorted l -> g <> id -> grantTab id l l' -> has l g gone -> has l' g gone.
Proof.
  intros S N [[->|(a&_&->)]|(t&->)] (d&D&DP&G).
  - exists d; auto.
  - exists d. rewrite msgTable_getDep by exact S. change (m_source_id (set_m_dest_id id (newMsg a id))) with id.
    rewrite (proj2 (Z.eqb_neq _ _) N). auto.
  - exists d. change (resetIteratingTimeRequests t l) with (map (f_iterTime t) l). rewrite map_getDep by (try apply f_iterTime_id; exact S).
    rewrite D. cbn. rewrite gone_iter by exact G. auto.
Qed.
(** the table after a coordinator handled the command: the message is recorded, then a grant may be decided *)
Lemma leaving_coord id cmd c st gm : saysLeaving id cmd -> c_id c = id -> m_source_id cmd <> id ->
  exists c1, c1 = fst (fst (processTimeMessage c cmd)) /\
  let '(c', _, st', p, _) := coordStep cmd c st gm in
  (c' = c1 \/ c' = fst (fst (checkTimeGrant c1 invalidId))) /\ st' = st /\ forall m, p <> PR_REPROCESS m.
Proof.
  intros LV ID NS. eexists. split; [reflexivity|]. apply Z.eqb_neq in NS. unfold coordStep. rewrite ID, NS.
  assert (GC : forall c o, let '(c', _, st', p, _) := cpre o (grantCheck c st gm invalidId) in
     (c' = c \/ c' = fst (fst (checkTimeGrant c invalidId))) /\ st' = st /\ forall m, p <> PR_REPROCESS m).
  { clear. intros c o. unfold grantCheck. destruct (_ && _); [|cbn; repeat split; [left; reflexivity|discriminate]].
    destruct (checkTimeGrant c invalidId) as [[c' o'] r]. cbn. repeat split; [right; reflexivity|]. destruct r; discriminate. }
  assert (A2 : let '(c0, _, _, _, _) := (let '(c, out, _) := processTimeMessage c cmd in cpre out (grantCheck c st gm invalidId)) in True)
    by (destruct (processTimeMessage c cmd) as [[? ?] ?]; destruct (cpre _ _) as [[[[? ?] ?] ?] ?]; exact I). clear A2.
  destruct (processTimeMessage c cmd) as [[c1 out] r] eqn:PT. cbn [fst].
  assert (T1 : let '(c', _, st', p, _) := cpre out (grantCheck c1 st gm invalidId) in
     (c' = c1 \/ c' = fst (fst (checkTimeGrant c1 invalidId))) /\ st' = st /\ forall m, p <> PR_REPROCESS m) by apply GC.
  assert (T2 : let '(c', _, st', p, _) := (if tpr_notProcessed r then (c1, out, st, PR_CONTINUE, gm) else cpre out (grantCheck c1 st gm invalidId)) in
     (c' = c1 \/ c' = fst (fst (checkTimeGrant c1 invalidId))) /\ st' = st /\ forall m, p <> PR_REPROCESS m).
  { destruct (tpr_notProcessed r); [repeat split; [left; reflexivity|discriminate]|exact T1]. }
  clear GC. destruct LV as [->|[->|[->|[->|[->|(->&DI&P1&P2)]]]]]; try exact T1; try exact T2.
  rewrite DI, Z.eqb_refl. apply Z.eqb_neq in P1, P2. rewrite P1, P2. exact T2.
Qed.
Lemma leaving_ptm c cmd id : saysLeaving id cmd -> c_deps (fst (fst (processTimeMessage c cmd))) = msgTable (c_deps c) cmd.
Proof.
  intros LV. pose proof (ptm_table c cmd) as [H _].
  assert (F : m_action cmd <> CMD_FORCE_TIME_GRANT /\ isBlockCmd (m_action cmd) = false /\ (m_action cmd =? CMD_REQUEST_CURRENT_TIME) = false).
  { destruct LV as [->|[->|[->|[->|[->|(->&_)]]]]]; repeat split; discriminate. }
  destruct F as (F1&F2&F3). specialize (H F1). rewrite F2, F3 in H. exact H.
Qed.
Lemma leaving_id c cmd id : saysLeaving id cmd -> c_id (fst (fst (processTimeMessage c cmd))) = c_id c.
Proof.
  intros LV. apply core_id. apply processTimeMessage_core.
  destruct LV as [->|[->|[->|[->|[->|(->&_)]]]]]; discriminate.
Qed.
Lemma leave_step id f cmd : tabOk id (f_tc f) -> f_st f <> FINISHED -> saysLeaving id cmd -> m_source_id cmd <> id ->
  isDependency (c_deps (f_tc f)) (m_source_id cmd) = true ->
  has (c_deps (f_tc (fst (step f (Ev_msg cmd))))) (m_source_id cmd) gone.
Proof.
  intros TO NF LV NS DP. destruct TO as (ID&S&_).
  rewrite isDependency_getDep in DP. destruct (getDep _ _) as [d|] eqn:D; [|discriminate].
  assert (FLAGS : isDataCmd (m_action cmd) = false /\ ((m_action cmd =? CMD_TIME_REQUEST) || (m_action cmd =? CMD_EXEC_REQUEST)) = false
     /\ ((m_action cmd =? CMD_GLOBAL_DISCONNECT) || (m_action cmd =? CMD_USER_DISCONNECT)) = false).
  { destruct LV as [->|[->|[->|[->|[->|(->&_)]]]]]; repeat split. }
  destruct FLAGS as (F1&F2&F3). cbn [step]. unfold isOwnRequest. rewrite F1, F2. cbn [orb andb].
  assert (FF : fst_eqb (f_st f) FINISHED = false) by (destruct (f_st f); try reflexivity; contradiction). rewrite FF.
  assert (E : f_tc (fst (maskError (fst_eqb (f_st f) ERRORED) (deliver f cmd))) = f_tc (fst (deliver f cmd)))
    by (unfold maskError; destruct (fst_eqb (f_st f) ERRORED); reflexivity). rewrite E. clear E.
  destruct (leaving_coord id cmd (f_tc f) (f_st f) (f_gm f) LV ID NS) as (c1&EC&CS).
  assert (H1 : has (c_deps c1) (m_source_id cmd) gone) by (rewrite EC, (leaving_ptm _ _ _ LV); eapply leave_msg; eassumption).
  assert (S1 : tsorted (c_deps c1)) by (rewrite EC, (leaving_ptm _ _ _ LV); apply msgTable_sorted; exact S).
  assert (I1 : c_id c1 = id) by (rewrite EC; rewrite <- ID; exact (leaving_id (f_tc f) cmd id LV)).
  clear EC. unfold deliver. change procDepth with 3%nat.
  change (procMsg 3 f cmd) with
     (let '(f1, out, p) := checkProcResult f (coordStep cmd (f_tc f) (f_st f) (f_gm f)) in
      match p with
      | PR_REPROCESS cmd' =>
          if m_dest_id cmd' =? c_id (f_tc f1)
          then let '(f1, out', p) := procMsg 2 f1 cmd' in (f1, out ++ out', p)
          else (f1, out ++ [cmd'], PR_CONTINUE)
      | _ => (f1, out, p)
      end).
  destruct (coordStep cmd (f_tc f) (f_st f) (f_gm f)) as [[[[c2 o] s] p] gm]. destruct CS as (C2&->&NR).
  assert (H2 : has (c_deps c2) (m_source_id cmd) gone /\ tsorted (c_deps c2) /\ c_id c2 = id).
  { destruct C2 as [->| ->]; [auto|]. pose proof (grant_table c1 invalidId) as [GT _]. rewrite I1 in GT.
    split; [eapply gone_grant; eassumption|]. split; [|].
    - destruct GT as [[GT|(a&_&GT)]|(t&GT)]; rewrite GT; [exact S1|apply msgTable_sorted; exact S1|].
      change (resetIteratingTimeRequests t (c_deps c1)) with (map (f_iterTime t) (c_deps c1)). apply map_sorted; [apply f_iterTime_id|exact S1].
    - rewrite <- I1. pose proof (aprim_tabOf (Ev_msg cmd) c1 _ (ap_grant (Ev_msg cmd) c1 invalidId)) as (_&_&X). exact X. }
  destruct H2 as (H2&S2&I2).
  pose proof (cpr_tc f (c2, o, f_st f, p, gm)) as CT. pose proof (cpr_pres f c2 o (f_st f) p gm) as CP. cbn iota in CT.
  destruct (checkProcResult f (c2, o, f_st f, p, gm)) as [[f1 o1] p1]. cbn [fst snd] in *. subst p1.
  assert (D1 : c_deps (f_tc f1) = c_deps c2) by (destruct CT as [->| ->]; [reflexivity|apply factors_frame]).
  assert (I3 : c_id (f_tc f1) = id) by (destruct CT as [->| ->]; [exact I2|exact I2]).
  assert (G1 : has (c_deps (f_tc f1)) (m_source_id cmd) gone) by (rewrite D1; exact H2).
  assert (PM : match p with
      | PR_REPROCESS cmd' =>
          if m_dest_id cmd' =? c_id (f_tc f1)
          then let '(f1, out', p) := procMsg 2 f1 cmd' in (f1, o1 ++ out', p)
          else (f1, o1 ++ [cmd'], PR_CONTINUE)
      | _ => (f1, o1, p)
      end = (f1, o1, p)) by (destruct p; try reflexivity; exfalso; exact (NR _ eq_refl)).
  rewrite PM. destruct (returnable p); [rewrite finish_tc; exact G1|]. rewrite F3.
  destruct (((m_action cmd =? CMD_DISCONNECT_FED) || (m_action cmd =? CMD_DISCONNECT)) && negb (m_source_id cmd =? c_id (f_tc f1))); [|exact G1].
  unfold disconnectPhase2. pose proof (leaving_ptm (f_tc f1) cmd id LV) as PT. pose proof (leaving_id (f_tc f1) cmd id LV) as PI.
  destruct (processTimeMessage (f_tc f1) cmd) as [[c3 o3] r3]. cbn [fst] in PT, PI.
  assert (G3 : has (c_deps c3) (m_source_id cmd) gone).
  { rewrite PT. destruct G1 as (d1&X1&X2&X3). eapply leave_msg; try eassumption. rewrite D1. exact S2. }
  assert (S3 : tsorted (c_deps c3)) by (rewrite PT; apply msgTable_sorted; rewrite D1; exact S2).
  destruct (tpr_notProcessed r3); [rewrite finish_tc; exact G3|]. destruct (negb _); [rewrite finish_tc; exact G3|].
  destruct (negb _); [|rewrite finish_tc; exact G3].
  pose proof (grant_table c3 invalidId) as [GT _]. rewrite PI, I3 in GT. destruct (checkTimeGrant c3 invalidId) as [[c4 o4] r4]. cbn [fst] in GT.
  assert (G4 : has (c_deps c4) (m_source_id cmd) gone) by (eapply gone_grant; eassumption).
  destruct r4; rewrite finish_tc; exact G4.
Qed.

Lemma gone_events G d : G <= maxVal -> gone d -> gone (f_events G d).
Proof.
  intros L (A&B&C&D). unfold f_events, gone. destruct (dependency d); [|auto]. cbn. rewrite ?A, ?B, ?C. repeat split; try lia. exact D.
Qed.
Lemma aprim_gone e c c' id g : aprim e c c' -> tabOk id c -> g <> id -> quiet g e ->
  (forall t it nv nm, e <> Ev_request t it nv nm) -> has (c_deps c) g gone -> has (c_deps c') g gone.
Proof.
  intros H (I&S&_) NG Q NR HA. destruct (aprim_tabOf e c c' H) as (T&_). rewrite I in T.
  eapply entry_preserved; try eassumption.
  - intros d d' K A. eapply gone_key; eassumption.
  - intros d _ _ (t&it&nv&nm&E). destruct (NR t it nv nm E).
  - intros t d _ A. rewrite gone_iter; assumption.
  - intros d _ A. rewrite gone_iterExec; assumption.
Qed.
Lemma request_gone c tq it nv nm id g : tabOk id c -> c_granted c <= maxVal ->
  has (c_deps c) g gone -> tabOk id (fst (timeRequest c tq it nv nm)) /\ has (c_deps (fst (timeRequest c tq it nv nm))) g gone.
Proof.
  intros T G HA. split.
  - eapply (aprim_tabOk id (Ev_request tq it nv nm)); [eapply ap_request; reflexivity|exact T].
  - rewrite (proj1 (timeRequest_table c tq it nv nm)). destruct T as (_&S&_). destruct HA as (d&D1&D2&D3).
    exists (f_events (c_granted c) d). change (resetDependentEvents (c_granted c) (c_deps c)) with (map (f_events (c_granted c)) (c_deps c)).
    rewrite map_getDep by (try apply f_events_id; exact S). rewrite D1. split; [reflexivity|].
    split; [unfold f_events; rewrite D2; exact D2|]. apply gone_events; assumption.
Qed.
Lemma inv_granted f : inv f -> c_granted (f_tc f) <= maxVal.
Proof. intros [B _]. unfold bounded in B. tauto || lia. Qed.
Lemma gone_step f e id g : tabOk id (f_tc f) -> g <> id -> quiet g e -> wf_event e -> inv f ->
  has (c_deps (f_tc f)) g gone -> has (c_deps (f_tc (fst (step f e)))) g gone.
Proof.
  intros T NG Q W I HA.
  assert (CASE : (exists t it nv nm, e = Ev_request t it nv nm) \/ (forall t it nv nm, e <> Ev_request t it nv nm)).
  { destruct e; try (right; intros; discriminate). left. repeat eexists. }
  destruct CASE as [(t&it&nv&nm&->)|NR].
  - destruct (f_st f) eqn:ST; try (cbn [step]; unfold requestTime; rewrite ST; exact HA).
    destruct (step_request f t it nv nm ST) as (out&r&E&_).
    destruct (request_gone (f_tc f) t (effIter f it) nv nm id g T (inv_granted f I) HA) as [T2 A2].
    replace (f_tc (fst (step f (Ev_request t it nv nm)))) with (fst (fst (checkTimeGrant (fst (timeRequest (f_tc f) t (effIter f it) nv nm)) invalidId))) by (rewrite E; reflexivity).
    refine (aprim_gone (Ev_maxIter 0) _ _ id g (ap_grant _ _ invalidId) T2 NG _ _ A2); [exact Logic.I|discriminate].
  - assert (K : tabOk id (f_tc (fst (step f e))) /\ has (c_deps (f_tc (fst (step f e)))) g gone); [|apply K].
    apply (aprims_inv e (fun c => tabOk id c /\ has (c_deps c) g gone)) with (c := f_tc f); [|apply step_any|auto].
    intros c1 c2 H [T1 A1]. split; [eapply aprim_tabOk; eassumption|eapply aprim_gone; eassumption].
Qed.
Lemma gone_steps es f id g : tabOk id (f_tc f) -> g <> id -> Forall (quiet g) es -> Forall wf_event es -> inv f ->
  has (c_deps (f_tc f)) g gone -> has (c_deps (f_tc (after f es))) g gone.
Proof.
  intros T NG Q W. revert f T. induction es as [|e es IH]; intros f T I HA; [exact HA|].
  inversion Q; inversion W; subst. rewrite after_cons. apply IH; auto.
  - apply step_tabOk, T.
  - apply step_inv; assumption.
  - eapply gone_step; eassumption.
Qed.

(** ** C09
    [cmd] is a message by which a federate [g], on which this federate depends, says that it leaves (disconnect or
    error); nothing further is heard from [g] and the dependency is not declared again.  From then on every
    decision on a time request, whatever its trigger, is the decision the federate takes with [g] struck from
    its table: same outcome, same granted time.  The second part says the same of any new request. *)
Theorem C09_left_dependency_never_blocks :
  forall id o maxIter pre cmd post,
  let f0 := fed_init id o maxIter in
  let f := after f0 (pre ++ Ev_msg cmd :: post) in
  let g := m_source_id cmd in
  opts_ok o -> Forall wf_event (pre ++ Ev_msg cmd :: post) ->
  saysLeaving id cmd -> g <> id -> f_st (after f0 pre) <> FINISHED ->
  isDependency (c_deps (f_tc (after f0 pre))) g = true -> Forall (quiet g) post ->
  (forall trig, verdict (checkTimeGrant (f_tc f) trig) = verdict (checkTimeGrant (without g (f_tc f)) trig)) /\
  (forall t it nv nm trig, let c := fst (timeRequest (f_tc f) t it nv nm) in
     verdict (checkTimeGrant c trig) = verdict (checkTimeGrant (without g c) trig)).
Proof.
  intros id o maxIter pre cmd post f0 f g O W LV NG NF DP Q.
  apply Forall_app in W as [W1 W2]. inversion W2 as [|? ? W3 W4]; subst. clear W2.
  pose proof (run_inv f0 pre W1 (init_inv id o maxIter O)) as I1. fold (after f0 pre) in I1.
  pose proof (after_tabOk id f0 pre (init_tabOk id o maxIter)) as T1.
  pose proof (leave_step id (after f0 pre) cmd T1 NF LV NG DP) as H1.
  pose proof (step_tabOk id (after f0 pre) (Ev_msg cmd) T1) as T2.
  pose proof (step_inv (after f0 pre) (Ev_msg cmd) W3 I1) as I2.
  assert (HF : f = after (fst (step (after f0 pre) (Ev_msg cmd))) post) by (unfold f; rewrite after_app, after_cons; reflexivity).
  pose proof (gone_steps post _ id g T2 NG Q W4 I2 H1) as H3. rewrite <- HF in H3.
  pose proof (after_tabOk id _ post T2) as T3. rewrite <- HF in T3.
  pose proof (run_inv _ post W4 I2) as I3. fold (after (fst (step (after f0 pre) (Ev_msg cmd))) post) in I3. rewrite <- HF in I3.
  split.
  - intros trig. destruct H3 as (d&D1&_&D3). destruct T3 as (_&S&_). eapply verdict_gone; eassumption.
  - intros t it nv nm trig c. destruct (request_gone (f_tc f) t it nv nm id g T3 (inv_granted f I3) H3) as [(_&S&_) (d&D1&_&D3)].
    eapply verdict_gone; eassumption.
Qed.

(** The converse half: a timing message from a federate which is not a dependency changes nothing at all and
    returns nothing. *)
Theorem C09_message_of_non_dependency_changes_nothing :
  forall f cmd, isTiming (m_action cmd) -> m_source_id cmd <> c_id (f_tc f) ->
  isDependency (c_deps (f_tc f)) (m_source_id cmd) = false ->
  step f (Ev_msg cmd) = (f, noEff).
Proof.
  intros f cmd T NS D. cbn [step]. destruct (timing_flags cmd T) as (DC&BC&NF&RC&RD&U1&U2).
  assert (OW : isOwnRequest (c_id (f_tc f)) cmd = false) by (unfold isOwnRequest; apply Z.eqb_neq in NS; rewrite NS, andb_false_r; reflexivity).
  rewrite DC, OW. cbn [orb]. destruct (fst_eqb (f_st f) FINISHED); [reflexivity|].
  assert (PT : processTimeMessage (f_tc f) cmd = (f_tc f, [], NOT_PROCESSED)).
  { unfold processTimeMessage. rewrite BC, (proj2 (Z.eqb_neq _ _) NF), (proj2 (Z.eqb_neq _ _) RC), RD. unfold updateTime.
    rewrite isDependency_getDep in D. destruct (getDep (c_deps (f_tc f)) (m_source_id cmd)) as [d|]; [rewrite D; cbn [negb]|]; destruct (f_tc f); reflexivity. }
  assert (CS : coordStep cmd (f_tc f) (f_st f) (f_gm f) = (f_tc f, [], f_st f, PR_CONTINUE, f_gm f)).
  { destruct T as [T|[T|T]]; [rewrite coord_exec by auto|rewrite coord_exec by auto|rewrite coord_time by auto]; rewrite PT; reflexivity. }
  assert (PM : procMsg 3 f cmd = (f, [], PR_CONTINUE)).
  { change (procMsg 3 f cmd) with
     (let '(f1, out, p) := checkProcResult f (coordStep cmd (f_tc f) (f_st f) (f_gm f)) in
      match p with
      | PR_REPROCESS cmd' =>
          if m_dest_id cmd' =? c_id (f_tc f1)
          then let '(f1, out', p) := procMsg 2 f1 cmd' in (f1, out ++ out', p)
          else (f1, out ++ [cmd'], PR_CONTINUE)
      | _ => (f1, out, p)
      end).
    rewrite CS. unfold checkProcResult. replace (fst_eqb (f_st f) (f_st f)) with true by (destruct (f_st f); reflexivity).
    destruct f; reflexivity. }
  unfold deliver. change procDepth with 3%nat. rewrite PM. cbn [returnable]. rewrite U1, U2. unfold maskError. destruct (fst_eqb _ _); reflexivity.
Qed.

(** the hypotheses are met: a federate blocked by a dependency at 5 is granted its request when the dependency
    disconnects, and the later history keeps the property *)
Example C09_not_vacuous :
  let o := cfgPOD 10 3 1 in
  let f0 := fed_init me o 50 in
  let pre := history1 ++ [Ev_request 4 NO_ITERATIONS 1000 1000; otherSays CMD_EXEC_GRANT 0 0 0; otherSays CMD_TIME_REQUEST 5 5 1] in
  let bye := set_m_dest_id me (newMsg CMD_DISCONNECT other) in
  opts_ok o /\ Forall wf_event (pre ++ Ev_msg bye :: []) /\ saysLeaving me bye /\ m_source_id bye <> me
  /\ f_st (after f0 pre) = EXECUTING /\ isDependency (c_deps (f_tc (after f0 pre))) (m_source_id bye) = true
  /\ verdict (checkTimeGrant (f_tc (after f0 pre)) invalidId) = (CONTINUE_PROCESSING, 0)
  /\ returnAt f0 pre (Ev_msg bye) = Some (PR_NEXT, 13)
  /\ returnAt f0 (pre ++ [Ev_msg bye]) (Ev_request 500 NO_ITERATIONS 1000 1000) = Some (PR_NEXT, 503).
Proof.
  cbv zeta. split; [unfold opts_ok, bigTime; cbn; lia|].
  split; [repeat constructor; cbn; unfold maxVal; lia|]. split; [left; reflexivity|]. split; [discriminate|].
  split; [vm_compute; reflexivity|]. split; [vm_compute; reflexivity|]. split; [vm_compute; reflexivity|]. split; [vm_compute; reflexivity|].
  vm_compute; reflexivity.
Qed.
