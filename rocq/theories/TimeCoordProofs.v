(** * Lemmas about the federate time coordinator *)
From Coq Require Import ZArith Bool List Lia ZifyBool.
From Verif Require Import HTime Action TimeDep TimeDepProofs TimeCoord.
Import ListNotations.
Open Scope Z_scope.
Ltac Zify.zify_post_hook ::= Z.div_mod_to_equations.

(** ** Options within the range where 64-bit time arithmetic cannot overflow *)
Definition bigTime : Z := 1152921504606846976.   (* 2^60 ns, about 36 years *)
Definition opts_ok (o : tcopts) : Prop :=
  1 <= o_timeDelta o <= bigTime /\ - bigTime <= o_period o <= bigTime /\ - bigTime <= o_offset o <= bigTime
  /\ - bigTime <= o_inputDelay o <= bigTime /\ - bigTime <= o_outputDelay o <= bigTime.

(** ** The part of the state which decides grants; most functions leave it alone *)
Definition core (c : tc) :=
  (c_id c, c_granted c, c_grantBase c, c_requested c, c_value c, c_message c, c_opts c, c_iterating c, c_execMode c).
Ltac core_inv H :=
  unfold core in H; injection H; clear H; intros.

(** ** Arithmetic *)
Lemma ceil_div_le a b : 0 < b -> a <= ceil_div a b * b.
Proof. intros Hb. unfold ceil_div. lia. Qed.
Lemma ceil_div_lt a b : 0 < b -> ceil_div a b * b < a + b.
Proof. intros Hb. unfold ceil_div. lia. Qed.

Lemma allowed_ge c t : t <= generateAllowedTime c t.
Proof.
  unfold generateAllowedTime. destruct (timeEpsilon <? _) eqn:P; [|lia]. unfold timeEpsilon in P.
  destruct (cTerminationTime <=? t); [lia|].
  destruct (c_grantBase c <? o_offset (c_opts c)) eqn:B; cbn [andb].
  - destruct (t <=? o_offset (c_opts c)) eqn:E; [lia|].
    destruct (o_period (c_opts c) <? t - o_offset (c_opts c)) eqn:F; [|lia].
    pose proof (ceil_div_le (t - o_offset (c_opts c)) (o_period (c_opts c))). lia.
  - destruct (o_period (c_opts c) <? t - c_grantBase c) eqn:F; [|lia].
    pose proof (ceil_div_le (t - c_grantBase c) (o_period (c_opts c))). lia.
Qed.

Lemma allowed_le c t : opts_ok (c_opts c) -> t <= maxVal ->
  (cTerminationTime <= c_grantBase c -> cTerminationTime <= t) ->
  generateAllowedTime c t <= maxVal /\
  (t < cTerminationTime -> generateAllowedTime c t <= Z.max (Z.max t (o_offset (c_opts c))) (c_grantBase c) + Z.max 0 (o_period (c_opts c))).
Proof.
  intros (H1&H2&H3&H4&H5) Ht Hb. unfold generateAllowedTime, bigTime, maxVal, cTerminationTime in *.
  destruct (timeEpsilon <? _) eqn:P; [|lia]. unfold timeEpsilon in P.
  destruct (4611686018427387392 <=? t) eqn:T; [lia|].
  destruct (c_grantBase c <? o_offset (c_opts c)) eqn:B; cbn [andb].
  - destruct (t <=? o_offset (c_opts c)) eqn:E; [lia|].
    destruct (o_period (c_opts c) <? t - o_offset (c_opts c)) eqn:F; [|lia].
    pose proof (ceil_div_lt (t - o_offset (c_opts c)) (o_period (c_opts c))). lia.
  - destruct (o_period (c_opts c) <? t - c_grantBase c) eqn:F; [|lia].
    pose proof (ceil_div_lt (t - c_grantBase c) (o_period (c_opts c))). lia.
Qed.

Lemma stepUntil_ge s p b : 0 < p -> b <= stepUntil s p b /\ s <= stepUntil s p b /\ stepUntil s p b < Z.max s b + p.
Proof.
  intros Hp. unfold stepUntil. destruct (s <? b) eqn:E; [|lia].
  pose proof (ceil_div_le (b - s) p). pose proof (ceil_div_lt (b - s) p). lia.
Qed.

Lemma np_ge c : opts_ok (c_opts c) -> c_grantBase c = c_granted c -> c_granted c <= maxVal ->
  (c_granted c <= cTerminationTime - bigTime -> c_granted c + o_timeDelta (c_opts c) <= getNextPossibleTime c)
  /\ c_granted c <= getNextPossibleTime c <= maxVal
  /\ (c_granted c < maxVal -> c_granted c < getNextPossibleTime c).
Proof.
  intros O B G. pose proof O as (H1&H2&H3&H4&H5). unfold getNextPossibleTime, timeZero, timeEpsilon.
  destruct (Z.eqb_spec (c_granted c) 0) as [E|E].
  - destruct (o_timeDelta (c_opts c) <? o_offset (c_opts c)) eqn:D; [unfold bigTime, maxVal in *; lia|].
    destruct (o_offset (c_opts c) =? 0) eqn:Z0.
    + pose proof (allowed_ge c (Z.max (o_timeDelta (c_opts c)) (o_period (c_opts c)))).
      pose proof (allowed_le c (Z.max (o_timeDelta (c_opts c)) (o_period (c_opts c))) O).
      unfold bigTime, maxVal, cTerminationTime in *; lia.
    + destruct (o_period (c_opts c) <=? 1) eqn:P; [unfold bigTime, maxVal in *; lia|].
      pose proof (stepUntil_ge (o_offset (c_opts c) + o_period (c_opts c)) (o_period (c_opts c)) (o_timeDelta (c_opts c))).
      unfold bigTime, maxVal, cTerminationTime in *; lia.
  - destruct (cTerminationTime - _ <=? c_grantBase c) eqn:D; [unfold bigTime, maxVal, cTerminationTime in *; lia|].
    pose proof (allowed_ge c (c_grantBase c + Z.max (o_timeDelta (c_opts c)) (o_period (c_opts c)))).
    pose proof (allowed_le c (c_grantBase c + Z.max (o_timeDelta (c_opts c)) (o_period (c_opts c))) O).
    unfold bigTime, maxVal, cTerminationTime in *; lia.
Qed.

(** functions of the core only *)
Lemma core_allowed c c' t : core c = core c' -> generateAllowedTime c t = generateAllowedTime c' t.
Proof.
  intros H. unfold generateAllowedTime. core_inv H.
  repeat match goal with E : _ = _ |- _ => rewrite E; clear E end. reflexivity.
Qed.
Lemma core_np c c' : core c = core c' -> getNextPossibleTime c = getNextPossibleTime c'.
Proof.
  intros H. unfold getNextPossibleTime. rewrite !(core_allowed c c' _ H). core_inv H.
  repeat match goal with E : _ = _ |- _ => rewrite E; clear E end. reflexivity.
Qed.

(** ** The next execution time *)
Definition nextExec (c : tc) : Z := c_exec (fst (updateNextExecutionTime c)).
Lemma core_nextExec c c' : core c = core c' -> nextExec c = nextExec c'.
Proof.
  intros H. unfold nextExec, updateNextExecutionTime. cbn [fst c_exec set_c_exec].
  rewrite !(core_np c c' H), !(core_allowed c c' _ H). core_inv H.
  repeat match goal with E : _ = _ |- _ => rewrite E; clear E end. reflexivity.
Qed.

Lemma updateNextExec_core c : core (fst (updateNextExecutionTime c)) = core c.
Proof. reflexivity. Qed.
Lemma updateTimeFactors_core c : core (fst (updateTimeFactors c)) = core c.
Proof. reflexivity. Qed.
Lemma updateTimeFactors_deps c : c_deps (fst (updateTimeFactors c)) = c_deps c.
Proof. reflexivity. Qed.
Lemma updateTimeFactors_exec c : c_exec (fst (updateTimeFactors c)) = nextExec c.
Proof. reflexivity. Qed.
Lemma updateTimeFactors_block c : c_block (fst (updateTimeFactors c)) = c_block c.
Proof. reflexivity. Qed.

(** the bounds every reachable coordinator satisfies *)
Definition bounded (c : tc) : Prop :=
  opts_ok (c_opts c) /\ c_grantBase c = c_granted c /\ c_granted c <= maxVal /\ c_requested c <= maxVal
  /\ c_value c <= maxVal /\ c_message c <= maxVal.

Lemma nextExec_mono c : bounded c -> c_granted c <= c_requested c ->
  c_granted c <= nextExec c <= maxVal.
Proof.
  intros (O&B&G&R&V&M) Hr. pose proof (np_ge c O B G) as (_&N&_). pose proof O as (H1&H2&H3&H4&H5).
  unfold nextExec, updateNextExecutionTime. cbn [fst c_exec set_c_exec].
  set (np := getNextPossibleTime c) in *.
  set (data := Z.min (c_message c) (c_value c)).
  set (data' := if data <? cTerminationTime then data + o_inputDelay (c_opts c) else data).
  assert (Hd : data' <= maxVal). { unfold data', data, bigTime, maxVal, cTerminationTime in *. destruct (_ <? _) eqn:E; lia. }
  assert (AR : c_granted c <= generateAllowedTime c (c_requested c) <= maxVal).
  { pose proof (allowed_ge c (c_requested c)). pose proof (allowed_le c (c_requested c) O R). lia. }
  destruct (o_uninterruptible (c_opts c)).
  - destruct (is_no_iter (c_iterating c)); [exact AR|]. destruct (data' <=? c_granted c); [lia|exact AR].
  - set (e := Z.min (c_requested c) data').
    destruct (e <=? c_granted c) eqn:E.
    + destruct (is_no_iter (c_iterating c)).
      * pose proof (allowed_ge c np). pose proof (allowed_le c np O).
        destruct (c_granted c <? cTerminationTime) eqn:T; [destruct (c_granted c <? np)|]; unfold cTerminationTime in *; lia.
      * pose proof (allowed_ge c (c_granted c)). pose proof (allowed_le c (c_granted c) O).
        destruct (c_granted c <? cTerminationTime) eqn:T; [destruct (c_granted c <? c_granted c)|]; unfold cTerminationTime in *; lia.
    + pose proof (allowed_ge c e). pose proof (allowed_le c e O).
      destruct (c_granted c <? cTerminationTime) eqn:T; [destruct (c_granted c <? e)|]; unfold cTerminationTime in *; lia.
Qed.

(** a request without iterations executes at or after the next possible time *)
Definition clamped (c : tc) : Prop :=
  getNextPossibleTime c <= c_requested c /\ getNextPossibleTime c <= c_value c /\ getNextPossibleTime c <= c_message c.
Lemma nextExec_np c : bounded c -> 0 <= o_inputDelay (c_opts c) -> is_no_iter (c_iterating c) = true -> clamped c ->
  getNextPossibleTime c <= nextExec c.
Proof.
  intros (O&B&G&R&V&M) ID NI (C1&C2&C3). pose proof O as (H1&H2&H3&H4&H5).
  unfold nextExec, updateNextExecutionTime. cbn [fst c_exec set_c_exec]. rewrite NI.
  set (np := getNextPossibleTime c) in *.
  set (data' := if Z.min (c_message c) (c_value c) <? cTerminationTime then Z.min (c_message c) (c_value c) + o_inputDelay (c_opts c) else Z.min (c_message c) (c_value c)).
  assert (Hd : np <= data') by (unfold data'; destruct (_ <? _); lia).
  pose proof (allowed_ge c (c_requested c)).
  destruct (o_uninterruptible (c_opts c)); [lia|].
  set (e := Z.min (c_requested c) data').
  pose proof (allowed_ge c np). pose proof (allowed_ge c e).
  destruct (e <=? c_granted c) eqn:E.
  - destruct (c_granted c <? cTerminationTime); [destruct (c_granted c <? np)|]; lia.
  - destruct (c_granted c <? cTerminationTime); [destruct (c_granted c <? e)|]; lia.
Qed.

(** ** Functions which leave the core alone *)
Lemma checkAndSend_core c m s : core (fst (fst (checkAndSendTimeRequest c m s))) = core c
  /\ c_deps (fst (fst (checkAndSendTimeRequest c m s))) = c_deps c
  /\ c_block (fst (fst (checkAndSendTimeRequest c m s))) = c_block c
  /\ c_seq (fst (fst (checkAndSendTimeRequest c m s))) = c_seq c.
Proof.
  unfold checkAndSendTimeRequest. match goal with |- context [if ?b then _ else _] => destruct b end.
  - destruct (transmit c m s); repeat split.
  - repeat split.
Qed.

Lemma sendTimeRequest_core c t : core (fst (sendTimeRequest c t)) = core c
  /\ c_deps (fst (sendTimeRequest c t)) = c_deps c /\ c_block (fst (sendTimeRequest c t)) = c_block c
  /\ c_seq (fst (sendTimeRequest c t)) = c_seq c.
Proof.
  unfold sendTimeRequest.
  pose proof (checkAndSend_core c (timeRequestMessage c) (minFed (c_upstream c))) as H.
  destruct (checkAndSendTimeRequest c (timeRequestMessage c) (minFed (c_upstream c))) as [[c1 out] [[|] sk]];
    cbn [fst] in H.
  - destruct (sk && isValidId (minFed (c_upstream c))); exact H.
  - destruct (isValidId t); [|exact H]. destruct (getDep (c_deps c) t) as [d|]; [destruct (dependent d)|]; exact H.
Qed.

Lemma block_core c m : core (fst (processTimeBlockMessage c m)) = core c
  /\ c_deps (fst (processTimeBlockMessage c m)) = c_deps c.
Proof.
  unfold processTimeBlockMessage. cbn [fst].
  repeat match goal with |- context [if ?b then _ else _] => destruct b end; try (split; reflexivity);
  destruct (c_blocks c); split; reflexivity.
Qed.

Lemma processTimeMessage_core c m : m_action m <> CMD_FORCE_TIME_GRANT ->
  core (fst (fst (processTimeMessage c m))) = core c.
Proof.
  intros NF. unfold processTimeMessage. destruct (isBlockCmd (m_action m)).
  { pose proof (block_core c m) as [H _]. destruct (processTimeBlockMessage c m). exact H. }
  destruct (Z.eqb_spec (m_action m) CMD_FORCE_TIME_GRANT) as [E|E]; [contradiction|].
  destruct (m_action m =? CMD_REQUEST_CURRENT_TIME).
  { destruct (c_disconnected c || ts_eqb (tst (c_lastSend c)) ts_error); [reflexivity|].
    cbn. destruct (c_trig c && (m_source_id m =? gRootBrokerID)); reflexivity. }
  destruct (removesDependent (m_action m)); destruct (updateTime _ m) as [deps r]; destruct r; reflexivity.
Qed.

Lemma disconnect_core c : core (fst (disconnect c)) = core c.
Proof.
  unfold disconnect. destruct (c_disconnected c); [reflexivity|].
  destruct (existsb _ _); [|reflexivity].
  pose proof (processTimeMessage_core c (set_m_dest_id (c_id c) (newMsg CMD_DISCONNECT (c_id c)))) as H.
  destruct (processTimeMessage c _) as [[c1 out1] r]. cbn in *. rewrite <- H by discriminate. reflexivity.
Qed.

(** ** What a grant does *)
Lemma updateTimeGrant_core c :
  let c' := fst (updateTimeGrant c) in
  let g := if is_force_iter (c_iterating c) then c_granted c else c_exec c in
  let b := if is_force_iter (c_iterating c) then c_grantBase c else c_exec c in
  core c' = (c_id c, g, b, c_requested c, c_value c, c_message c, c_opts c, c_iterating c, c_execMode c)
  /\ c_block c' = c_block c.
Proof.
  cbn zeta. unfold updateTimeGrant.
  destruct (c_iterating c) eqn:E; unfold core; cbn; rewrite ?E; cbn; rewrite ?E; split; reflexivity.
Qed.

(** result of a grant attempt, given the coordinator [c1] after its factors were updated *)
Definition grantedFrom (c1 c' : tc) (r : mpr) : Prop :=
  match r with
  | CONTINUE_PROCESSING => core c' = core c1
  | HALTED => core c' = (c_id c1, maxVal, maxVal, c_requested c1, c_value c1, c_message c1, c_opts c1, c_iterating c1, c_execMode c1)
              /\ cTerminationTime <= c_exec c1 /\ cTerminationTime <= c_allow c1
  | NEXT_STEP =>
      is_force_iter (c_iterating c1) = false
      /\ core c' = (c_id c1, c_exec c1, c_exec c1, c_requested c1, c_value c1, c_message c1, c_opts c1, c_iterating c1, c_execMode c1)
  | ITERATING =>
      is_no_iter (c_iterating c1) = false /\
      (let g := if is_force_iter (c_iterating c1) then c_granted c1 else c_exec c1 in
       let b := if is_force_iter (c_iterating c1) then c_grantBase c1 else c_exec c1 in
       core c' = (c_id c1, g, b, c_requested c1, c_value c1, c_message c1, c_opts c1, c_iterating c1, c_execMode c1))
  end.
(** the conditions under which time is granted *)
Definition grantConds (c1 : tc) : Prop :=
  c_exec c1 <= c_allow c1 /\ (c_exec c1 < c_block c1 \/ cTerminationTime <= c_block c1)
  /\ (c_exec c1 < cTerminationTime \/ c_allow c1 < cTerminationTime)
  /\ (c_nonGranting c1 = true -> c_requested c1 <= c_exec c1)
  /\ (c_exec c1 = c_allow c1 -> is_no_iter (c_iterating c1) = true ->
      (o_wait (c_opts c1) = false /\ c_requested c1 <= c_exec c1)
      \/ checkIfReadyForTimeGrant false (c_exec c1)
           (getDelayMode (o_wait (c_opts c1)) (c_exec c1 <? c_requested c1)) (c_deps c1) = true).
Definition grants (r : mpr) : bool := match r with NEXT_STEP | ITERATING => true | _ => false end.

Lemma refuse_core c t : let '(c', out, r) := refuse c t in core c' = core c /\ r = CONTINUE_PROCESSING.
Proof.
  unfold refuse. destruct (isValidId t && negb (t =? c_id c)); [|split; reflexivity].
  pose proof (sendTimeRequest_core c t) as (H&_). destruct (sendTimeRequest c t). split; [exact H|reflexivity].
Qed.

Lemma applyRestriction_core k rs c sa al : let '(c', sa', r) := applyRestriction k rs c sa al in
  core c' = core c /\ c_exec c' = c_exec c /\ (r = al \/ r = CONTINUE_PROCESSING).
Proof.
  unfold applyRestriction. destruct (r_allowed k); [destruct (negb rs || (1 <=? r_level k)); [|destruct (negb _)]|destruct (r_advance k)];
  repeat split; auto.
Qed.

Lemma iterDecision_core c sa : let '(c', sa', r) := iterDecision c sa in core c' = core c /\ c_exec c' = c_exec c /\ r <> HALTED.
Proof.
  unfold iterDecision. destruct (c_allow c =? c_requested c).
  { destruct (_ && _); repeat split; discriminate. }
  destruct (checkIfReadyForTimeGrant _ _ _ _); [|repeat split; discriminate].
  destruct (c_hasIter c); [repeat split; discriminate|].
  destruct (c_granted c <? c_exec c); [repeat split; discriminate|].
  pose proof (applyRestriction_core (checkTimeGrantRestriction (c_deps c) (c_id c) (c_seq c) (c_exec c) (o_wait (c_opts c)) (o_restrictive (c_opts c)))
     (o_restrictive (c_opts c)) c sa NEXT_STEP) as H.
  destruct (applyRestriction _ _ _ _ _) as [[c' sa'] r]. destruct H as (H1&H2&H3). repeat split; try assumption.
  destruct H3 as [->| ->]; discriminate.
Qed.

Lemma core_eta c x : core c = x ->
  match x with (a,b,d,e,f,g,h,i,j) => c_id c = a /\ c_granted c = b /\ c_grantBase c = d /\ c_requested c = e
     /\ c_value c = f /\ c_message c = g /\ c_opts c = h /\ c_iterating c = i /\ c_execMode c = j end.
Proof. intros <-. unfold core. repeat split. Qed.

Lemma updGrant_spec c c0 : core c = core c0 -> c_exec c = c_exec c0 ->
  let c' := fst (updateTimeGrant c) in
  let g := if is_force_iter (c_iterating c0) then c_granted c0 else c_exec c0 in
  let b := if is_force_iter (c_iterating c0) then c_grantBase c0 else c_exec c0 in
  core c' = (c_id c0, g, b, c_requested c0, c_value c0, c_message c0, c_opts c0, c_iterating c0, c_execMode c0).
Proof.
  intros H HE. cbn zeta. rewrite (proj1 (updateTimeGrant_core c)). core_inv H.
  repeat match goal with E : _ = _ |- _ => rewrite E; clear E end. reflexivity.
Qed.

Lemma actOn_spec c sa r t c0 : core c = core c0 -> c_exec c = c_exec c0 -> r <> HALTED ->
  is_no_iter (c_iterating c0) = false \/ r = CONTINUE_PROCESSING ->
  let '(c', out, r') := actOn c sa r t in
  grantedFrom c0 c' r' /\ (grants r' = true -> grants r = true) /\ r' <> HALTED.
Proof.
  intros H HE NH NI. unfold actOn. destruct r.
  - assert (S : forall u, core (fst (sendTimeRequest c u)) = core c0)
      by (intros u; rewrite (proj1 (sendTimeRequest_core c u)); exact H).
    destruct sa; [|destruct (isValidId t && negb (t =? c_id c))].
    + specialize (S invalidId). destruct (sendTimeRequest c invalidId). repeat split; try discriminate; exact S.
    + specialize (S t). destruct (sendTimeRequest c t). repeat split; try discriminate; exact S.
    + repeat split; try discriminate; exact H.
  - destruct NI as [NI|NI]; [|discriminate].
    assert (HI : c_iterating c = c_iterating c0) by (unfold core in H; congruence).
    destruct (is_force_iter (c_iterating c)) eqn:F.
    + rewrite HI in F.
      assert (HC : core (set_c_exec (c_granted c) (set_c_hasIter false (set_c_iteration (c_iteration c + 1) c))) = core c0) by exact H.
      pose proof (updateTimeGrant_core (set_c_exec (c_granted c) (set_c_hasIter false (set_c_iteration (c_iteration c + 1) c)))) as [G _].
      cbn [c_iterating set_c_exec set_c_hasIter set_c_iteration] in G. rewrite HI, F in G.
      destruct (updateTimeGrant _) as [c' out]. cbn [fst] in G.
      repeat split; try discriminate; [exact NI|]. rewrite F.
      rewrite G. clear G. cbn. unfold core in H. injection H as -> -> -> -> -> -> -> E -> . reflexivity.
    + rewrite HI in F. unfold grantStep.
      pose proof (updGrant_spec (set_c_hasIter false (set_c_seq 0 (set_c_iteration 0 c))) c0 H HE) as G. cbn zeta in G.
      rewrite F in G. destruct (updateTimeGrant _) as [c' out]. cbn [fst] in G.
      repeat split; try discriminate; [exact F|exact G].
  - destruct NI as [NI|NI]; [|discriminate].
    pose proof (updGrant_spec (set_c_hasIter false (set_c_iteration (c_iteration c + 1) c)) c0 H HE) as G. cbn zeta in G.
    destruct (updateTimeGrant _) as [c' out]. cbn [fst] in G.
    repeat split; try discriminate; [exact NI|exact G].
  - contradiction.
Qed.

Lemma checkTimeGrant_spec c t :
  let c1 := fst (updateTimeFactors c) in
  let '(c', out, r) := checkTimeGrant c t in
  grantedFrom c1 c' r /\ (grants r = true -> grantConds c1).
Proof.
  cbn zeta. unfold checkTimeGrant, grantFrom. generalize (fst (updateTimeFactors c)). intros c1.
  destruct ((cTerminationTime <=? c_exec c1) && (cTerminationTime <=? c_allow c1)) eqn:HALT.
  { pose proof (disconnect_core (set_c_granted maxVal (set_c_grantBase maxVal c1))) as D.
    destruct (disconnect _) as [c' out]. cbn [fst] in D. split; [|discriminate].
    split; [exact D|]. lia. }
  destruct ((c_block c1 <=? c_exec c1) && (c_block c1 <? cTerminationTime)) eqn:BL.
  { pose proof (refuse_core c1 t) as R. destruct (refuse c1 t) as [[c' out] r]. destruct R as [R ->].
    split; [exact R|discriminate]. }
  destruct (c_nonGranting c1 && (c_exec c1 <? c_requested c1)) eqn:NG.
  { pose proof (refuse_core c1 t) as R. destruct (refuse c1 t) as [[c' out] r]. destruct R as [R ->].
    split; [exact R|discriminate]. }
  set (c2 := set_c_needSendAll false c1).
  change (c_iterating c2) with (c_iterating c1). change (c_exec c2) with (c_exec c1).
  change (c_allow c2) with (c_allow c1). change (c_requested c2) with (c_requested c1).
  change (c_granted c2) with (c_granted c1). change (c_hasIter c2) with (c_hasIter c1).
  change (c_deps c2) with (c_deps c1).
  assert (GC : c_exec c1 <= c_allow c1 ->
     (c_exec c1 = c_allow c1 -> is_no_iter (c_iterating c1) = true ->
      (o_wait (c_opts c1) = false /\ c_requested c1 <= c_exec c1)
      \/ checkIfReadyForTimeGrant false (c_exec c1)
           (getDelayMode (o_wait (c_opts c1)) (c_exec c1 <? c_requested c1)) (c_deps c1) = true) -> grantConds c1).
  { intros HL HR. unfold grantConds. split; [exact HL|]. split; [lia|]. split; [lia|]. split; [intros HN; rewrite HN in NG; cbn [andb] in NG; lia|exact HR]. }
  assert (CONT : forall sa, is_no_iter (c_iterating c1) = false \/ True ->
     let '(c', out, r) := actOn c2 sa CONTINUE_PROCESSING t in grantedFrom c1 c' r /\ (grants r = true -> grantConds c1)).
  { intros sa _. pose proof (actOn_spec c2 sa CONTINUE_PROCESSING t c1 eq_refl eq_refl ltac:(discriminate) (or_intror eq_refl)) as A.
    destruct (actOn c2 sa CONTINUE_PROCESSING t) as [[c' out] r]. destruct A as (A1&A2&A3). split; [exact A1|].
    intros G; specialize (A2 G); discriminate. }
  destruct (c_iterating c1) eqn:IT; try (apply CONT; right; exact I).
  - assert (GS : forall ok : grantConds c1, let '(c', out, r) := grantStep c2 in grantedFrom c1 c' r /\ (grants r = true -> grantConds c1)).
    { intros ok. unfold grantStep.
      pose proof (updGrant_spec (set_c_hasIter false (set_c_seq 0 (set_c_iteration 0 c2))) c1 eq_refl eq_refl) as G. cbn zeta in G.
      rewrite IT in G; cbn [is_force_iter] in G.
      destruct (updateTimeGrant _) as [c' out]. cbn [fst] in G. split; [split; [rewrite IT; reflexivity|rewrite IT; exact G]|auto]. }
    destruct (c_exec c1 <? c_allow c1) eqn:LT; [apply GS, GC; lia|].
    destruct (c_allow c1 =? c_exec c1) eqn:EQ; [|apply CONT; right; exact I].
    match goal with |- context [if ?b then _ else _] => destruct b eqn:B1 end.
    { apply GS, GC; [lia|]. intros _ _. left. split; [destruct (o_wait (c_opts c1)); [discriminate B1|reflexivity]|lia]. }
    match goal with |- context [if ?b then _ else _] => destruct b eqn:B2 end; [|apply CONT; right; exact I].
    apply GS, GC; [lia|]. intros _ _. right. reflexivity.
  - destruct (c_exec c1 <? c_allow c1) eqn:LT.
    + match goal with |- context [if ?b then _ else _] => destruct b end.
      * pose proof (updGrant_spec (set_c_hasIter false (set_c_iteration (c_iteration c2 + 1) c2)) c1 eq_refl eq_refl) as G. cbn zeta in G.
        destruct (updateTimeGrant _) as [c' out]. cbn [fst] in G. rewrite IT in G.
        split; [split; [rewrite IT; reflexivity|rewrite IT; exact G]|]. intros _; apply GC; [lia|]. discriminate.
      * cbn [is_force_iter].
        pose proof (updGrant_spec (set_c_iteration (c_iteration c2 + 1) c2) c1 eq_refl eq_refl) as G. cbn zeta in G.
        destruct (updateTimeGrant _) as [c' out]. cbn [fst] in G. rewrite IT in G.
        split; [split; [rewrite IT; reflexivity|rewrite IT; exact G]|]. intros _; apply GC; [lia|]. discriminate.
    + destruct (c_allow c1 =? c_exec c1) eqn:EQ; [|apply CONT; right; exact I].
      pose proof (iterDecision_core c2 (c_needSendAll c1)) as D. destruct (iterDecision _ _) as [[c3 sa] r]. destruct D as (D1&D2&D3).
      pose proof (actOn_spec c3 sa r t c1 D1 D2 D3) as A. rewrite IT in A. specialize (A (or_introl eq_refl)).
      destruct (actOn c3 sa r t) as [[c' out] r']. destruct A as (A1&A2&A3). split; [exact A1|].
      intros _. apply GC; [lia|discriminate].
  - destruct (c_exec c1 <? c_allow c1) eqn:LT.
    + match goal with |- context [if ?b then _ else _] => destruct b end.
      * pose proof (updGrant_spec (set_c_hasIter false (set_c_iteration (c_iteration c2 + 1) c2)) c1 eq_refl eq_refl) as G. cbn zeta in G.
        destruct (updateTimeGrant _) as [c' out]. cbn [fst] in G. rewrite IT in G.
        split; [split; [rewrite IT; reflexivity|rewrite IT; exact G]|]. intros _; apply GC; [lia|]. discriminate.
      * cbn [is_force_iter].
        pose proof (updGrant_spec (set_c_iteration 0 (set_c_seq 0 c2)) c1 eq_refl eq_refl) as G. cbn zeta in G.
        destruct (updateTimeGrant _) as [c' out]. cbn [fst] in G. rewrite IT in G.
        split; [split; [rewrite IT; reflexivity|rewrite IT; exact G]|]. intros _; apply GC; [lia|]. discriminate.
    + destruct (c_allow c1 =? c_exec c1) eqn:EQ; [|apply CONT; right; exact I].
      pose proof (iterDecision_core c2 (c_needSendAll c1)) as D. destruct (iterDecision _ _) as [[c3 sa] r]. destruct D as (D1&D2&D3).
      pose proof (actOn_spec c3 sa r t c1 D1 D2 D3) as A. rewrite IT in A. specialize (A (or_introl eq_refl)).
      destruct (actOn c3 sa r t) as [[c' out] r']. destruct A as (A1&A2&A3). split; [exact A1|].
      intros _. apply GC; [lia|discriminate].
Qed.
