(** * Bounds on the minimum time computed over the dependency table *)
From Coq Require Import ZArith Bool List Lia ZifyBool.
From Verif Require Import HTime Action TimeDep.
Import ListNotations.
Open Scope Z_scope.

(** ** How far a dependency has released time, from what it last announced.
    [code] is the sequence number of the current request; a two-way dependency which has not yet
    answered it releases only its own next time. *)
Definition answered (code : Z) (d : dinfo) : bool :=
  (code =? 0) || (responseSequenceCounter d =? code) || (timingVersion d =? 0) || negb (dependent d).
Definition released (restricted : bool) (code : Z) (d : dinfo) : Z :=
  if ts_ltb (tst d) ts_time_granted then 0
  else if restricted || negb (answered code d) then next d
  else Z.max (next d) (minDe d).

(** ** Accumulator bounds *)
Lemma minTimeInit_next m d i : next (minTimeInit m d i) <= Z.max (next m) (-1) /\ minDe (minTimeInit m d i) <= Z.max (minDe m) 0
  /\ (fedID d <> i -> next (minTimeInit m d i) = -1 /\ minDe (minTimeInit m d i) = 0).
Proof.
  unfold minTimeInit. destruct (Z.eqb_spec (fedID d) i) as [E|E]; [repeat split; try lia; contradiction|].
  repeat split; cbn; unfold initializationTime, negEpsilon, timeZero; lia.
Qed.
Lemma minTimeTe_next m d : next (minTimeTe m d) = next m /\ minDe (minTimeTe m d) = minDe m.
Proof.
  unfold minTimeTe. destruct (Te d <? Te m); [destruct (isValidId (minFed d)); split; reflexivity|].
  destruct (Te d =? Te m); split; reflexivity.
Qed.
Lemma minTimeNext_next m d c : next (minTimeNext m d c) = Z.min (next m) (next d) /\ minDe (minTimeNext m d c) = minDe m.
Proof.
  unfold minTimeNext. destruct (next d <? next m) eqn:A; [cbn; lia|]. destruct (next d =? next m) eqn:B; cbn; lia.
Qed.
Lemma minTimeMinDe_le cur d c : minTimeMinDe cur d c <= Z.max cur (-1)
  /\ (connection d <> c_SELF -> minTimeMinDe cur d c <= Z.max (if answered c d then Z.max (next d) (minDe d) else next d) (-1)).
Proof.
  unfold minTimeMinDe, answered.
  destruct (negb (conn_eqb (connection d) c_SELF)) eqn:S; cbn [andb].
  - destruct ((c =? 0) || (responseSequenceCounter d =? c) || (timingVersion d =? 0) || negb (dependent d)) eqn:A.
    + destruct (next d <=? minDe d) eqn:B; [destruct (minDe d <? cur) eqn:C|]; split; intros; lia.
    + assert (R : (responseSequenceCounter d =? c) = false) by lia. rewrite R. cbn [andb].
      destruct (next d <? cur) eqn:C; split; intros; lia.
  - assert (E : connection d = c_SELF) by (destruct (connection d); try discriminate; reflexivity). rewrite E. split; [|congruence].
    destruct ((responseSequenceCounter d =? c) && dependent d).
    + destruct ((next d <=? minDe d) && (minDe d <? cur)) eqn:B; lia.
    + destruct (next d <? cur) eqn:B; lia.
Qed.
Lemma impl_le m d i c : let m' := generateMinTimeImplementation m d i c in
  next m' <= Z.max (next m) (-1) /\ minDe m' <= Z.max (minDe m) 0.
Proof.
  cbn zeta. unfold generateMinTimeImplementation. destruct (ts_ltb _ _).
  { pose proof (minTimeInit_next m d i). lia. }
  destruct (fedID d =? i).
  { destruct (isBroker (fedID d) && (Te d <? minDe m)) eqn:B; cbn; lia. }
  pose proof (minTimeMinDe_le (minDe m) d c) as [M _].
  set (m1 := set_minDe _ m). pose proof (minTimeNext_next m1 d c) as [N1 N2].
  pose proof (minTimeTe_next (minTimeNext m1 d c) d) as [T1 T2].
  rewrite T1, T2, N1, N2. unfold m1; cbn. lia.
Qed.
Lemma impl_dep m d i c : fedID d <> i -> connection d <> c_SELF ->
  let m' := generateMinTimeImplementation m d i c in
  next m' <= Z.max 0 (released true c d) /\ minDe m' <= Z.max 0 (released false c d).
Proof.
  intros NI NS. cbn zeta. unfold generateMinTimeImplementation, released. destruct (ts_ltb _ _).
  { pose proof (minTimeInit_next m d i) as (_&_&H). specialize (H NI). lia. }
  destruct (Z.eqb_spec (fedID d) i) as [E|_]; [contradiction|].
  pose proof (minTimeMinDe_le (minDe m) d c) as [_ M]. specialize (M NS).
  set (m1 := set_minDe _ m). pose proof (minTimeNext_next m1 d c) as [N1 N2].
  pose proof (minTimeTe_next (minTimeNext m1 d c) d) as [T1 T2].
  rewrite T1, T2, N1, N2. unfold m1; cbn. cbn [orb]. destruct (answered c d); cbn [negb]; lia.
Qed.

Lemma loop_le keep i c l d : In d l -> keep d = true -> fedID d <> i -> connection d <> c_SELF ->
  next (minTimeLoop keep i c l) <= Z.max 0 (released true c d) /\ minDe (minTimeLoop keep i c l) <= Z.max 0 (released false c d).
Proof.
  intros IN K NI NS. unfold minTimeLoop.
  assert (PRES : forall l m, next m <= Z.max 0 (released true c d) -> minDe m <= Z.max 0 (released false c d) ->
    let m' := fold_left (fun m dep => if keep dep then generateMinTimeImplementation m dep i c else m) l m in
    next m' <= Z.max 0 (released true c d) /\ minDe m' <= Z.max 0 (released false c d)).
  { clear IN. intros l'. induction l' as [|x r IH]; intros m H1 H2; cbn zeta; cbn [fold_left]; [auto|].
    apply IH; destruct (keep x); auto; pose proof (impl_le m x i c) as P; cbn zeta in P; lia. }
  generalize mTime0. induction l as [|x r IH]; intros m; [destruct IN|].
  cbn [fold_left]. destruct IN as [->|IN].
  - rewrite K. apply PRES; apply impl_dep; assumption.
  - apply IH; exact IN.
Qed.
Lemma loop_max keep i c l : next (minTimeLoop keep i c l) <= maxVal /\ minDe (minTimeLoop keep i c l) <= maxVal.
Proof.
  unfold minTimeLoop.
  assert (PRES : forall l m, next m <= maxVal -> minDe m <= maxVal ->
    let m' := fold_left (fun m dep => if keep dep then generateMinTimeImplementation m dep i c else m) l m in
    next m' <= maxVal /\ minDe m' <= maxVal).
  { intros l'. induction l' as [|x r IH]; intros m H1 H2; cbn zeta; cbn [fold_left]; [auto|].
    apply IH; destruct (keep x); auto; pose proof (impl_le m x i c) as P; cbn zeta in P; unfold maxVal in *; lia. }
  apply PRES; cbn; lia.
Qed.
Lemma adjust_le r m : let m' := minTimeAdjust r m in
  next m' <= Z.max (next m) (minDe m) /\ (r = true -> next m' = next m) /\ minDe m' <= minDe m /\ tst m' = tst m.
Proof.
  cbn zeta. unfold minTimeAdjust.
  set (m1 := if Te m <? minDe m then set_minDe (Te m) m else m).
  assert (H : next m1 = next m /\ minDe m1 <= minDe m /\ tst m1 = tst m) by (unfold m1; destruct (Te m <? minDe m) eqn:E; cbn; repeat split; lia).
  destruct H as (H1&H2&H3). destruct r; cbn [negb andb].
  - repeat split; auto; lia.
  - destruct (next m1 <? minDe m1) eqn:E; cbn; repeat split; try discriminate; try lia; auto.
Qed.

(** ** The total over the table never exceeds what a dependency has released *)
Theorem total_released l r self code d : In d l -> dependency d = true -> isValidId self = false ->
  fedID d <> invalidId -> connection d <> c_SELF ->
  next (generateMinTimeTotal l r self invalidId code) <= Z.max 0 (released r code d).
Proof.
  intros IN DP SV NI NS. unfold generateMinTimeTotal, minTimeInitOverride.
  assert (K : keepTotal self d = true) by (unfold keepTotal; rewrite DP, SV; reflexivity).
  pose proof (loop_le (keepTotal self) invalidId code l d IN K NI NS) as [L1 L2].
  pose proof (adjust_le r (minTimeLoop (keepTotal self) invalidId code l)) as (A1&A2&A3&A4).
  cbn zeta in *. destruct (ts_ltb (tst (minTimeAdjust r _)) ts_time_granted); [change (-1 <= Z.max 0 (released r code d)); lia|].
  destruct r; [rewrite A2 by reflexivity; exact L1|].
  assert (released true code d <= released false code d).
  { unfold released. destruct (ts_ltb _ _); [lia|]. cbn [orb]. destruct (answered code d); cbn [negb]; lia. }
  lia.
Qed.
Theorem total_max l r self i code : next (generateMinTimeTotal l r self i code) <= maxVal
  /\ minDe (generateMinTimeTotal l r self i code) <= maxVal.
Proof.
  unfold generateMinTimeTotal, minTimeInitOverride. pose proof (loop_max (keepTotal self) i code l) as [L1 L2].
  pose proof (adjust_le r (minTimeLoop (keepTotal self) i code l)) as (A1&_&A3&_). cbn zeta in *.
  destruct (ts_ltb (tst (minTimeAdjust r _)) ts_time_granted); [split; discriminate|lia].
Qed.
