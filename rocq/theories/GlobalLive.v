(** * C48: an executing coordinator is silent only while an answer is missing *)
From Coq Require Import ZArith Bool List Lia.
From Verif Require Import HTime Action TimeDep TimeDepProofs TimeCoord Forward GlobalTime GlobalInv PropsGlobal.
Import ListNotations.
Open Scope Z_scope.

(** the coordinator executes: it is granting or a round is under way; and nobody claims to be held up by the coordinator itself *)
Definition running (g : gco) : Prop := g_exec g = true /\ (g_st g = ts_time_granted \/ g_st g = ts_time_requested).
Definition noActual (d : dinfo) : Prop := minFedActual d = invalidId.
Lemma keeps_actual id : keeps id noActual.
Proof.
  unfold keeps, noActual. repeat (split; [intros; assumption || reflexivity|]).
  intros c d A H. unfold processMessage. rewrite A. cbn. exact H.
Qed.
Lemma clear_actual d : minFedActual (clearUpdateReq d) = minFedActual d.
Proof. unfold clearUpdateReq. destruct (_ =? _); reflexivity. Qed.
Lemma process_actual c d : noActual d -> noActual (fst (processMessage c d)).
Proof.
  unfold noActual. intros H. unfold processMessage. destruct (tkind_of (m_action c)); cbn [fst]; try exact H.
  - rewrite clear_actual. exact H.
  - destruct (negb _); exact H.
  - cbv zeta. cbn [fst]. rewrite clear_actual. destruct (checkFlag non_granting_flag c), (ts_eqb (tst d) ts_time_granted); exact H.
Qed.
Lemma updateTime_actual l c : okT noActual l -> okT noActual (fst (updateTime l c)).
Proof.
  intros O. unfold updateTime. destruct (getDep l (m_source_id c)) as [d0|]; [|exact O]. destruct (negb _); [exact O|]. apply upd_ok; [exact O|]. intros y _ _ H. apply process_actual, H.
Qed.
Definition good (g : gco) : Prop := okT noActual (g_deps g) /\ (g_entered g = true -> running g).
Lemma update_good g : good g -> good (fst (gUpdate g)).
Proof.
  intros [O R]. destruct (gUpdate_cases g) as (A1 & A2 & A3 & A4 & A). split.
  - destruct A as [A|[A|A]].
    + destruct A as (_ & -> & _). exact O.
    + destruct A as (_ & _ & _ & _ & -> & _). intros d I. apply in_map_iff in I as (d0 & <- & I). specialize (O d0 I). unfold askDep. destruct (addressed _ _); exact O.
    + destruct A as (_ & _ & _ & _ & -> & _). exact O.
  - rewrite A2. intros E. destruct (R E) as [R1 R2]. split; [congruence|]. destruct A as [A|[A|A]]; [|right; apply A|left; apply A].
    unfold gUpdate. rewrite R1. cbn [negb andb]. generalize (generateMinTimeUpstream (g_deps g) true (g_id g) invalidId 0). intros mt.
    destruct (ts_eqb (tst mt) ts_time_granted); [left; reflexivity|]. destruct (isRequested (tst mt)); [|exact R2].
    destruct R2 as [R2|R2]; rewrite R2; cbn [ts_eqb]; [right; reflexivity|]. change (ts_eqb ts_time_requested ts_time_granted) with false. change (ts_eqb ts_time_requested ts_time_requested) with true. cbv iota.
    destruct (gConfirm_cases mt g R2) as (_ & _ & _ & _ & [C|[C|C]]).
    + right. unfold gConfirm in C |- *. destruct (verifySequenceCounter _ _ _); [|exact R2]. destruct (checkForTriggered _ _). destruct (_ || _ || _); [exact R2|]. exfalso.
      destruct C as (_ & _ & _ & _ & C & _). cbn in C. lia.
    + right. apply C.
    + left. apply C.
Qed.
Lemma exec_good g : good g -> good (fst (fst (gExecEntry g))) /\ (snd (gExecEntry g) = true -> running (fst (fst (gExecEntry g)))).
Proof.
  intros [O R]. unfold gExecEntry. destruct (_ && _); [|split; [split; assumption|discriminate]]. cbn [fst snd]. split; [split; [exact O|]|]; intros; (split; [reflexivity|left; reflexivity]).
Qed.
Lemma note_good g : good g -> good (fst (gNote (gExecEntry g))).
Proof.
  intros G. destruct (exec_good g G) as [[O R] E]. destruct (gExecEntry g) as [[g1 o] b]. cbn [fst snd gNote] in *. destruct b; [|split; assumption].
  split; [exact O|]. intros _. apply E. reflexivity.
Qed.
Lemma message_good g c : good g -> good (fst (fst (gMessage g c))).
Proof.
  intros [O R]. unfold gMessage. set (g0 := if fwdRemoves (m_action c) then _ else g).
  assert (G0 : okT noActual (g_deps g0)) by (unfold g0; destruct (fwdRemoves _); [apply (removeDependent_ok (g_id g)); [apply keeps_actual|exact O]|exact O]).
  assert (R0 : g_entered g0 = true -> running g0) by (unfold g0; destruct (fwdRemoves _); exact R).
  pose proof (updateTime_actual (g_deps g0) c G0) as U. destruct (updateTime (g_deps g0) c) as [deps r]. cbn [fst] in U. clearbody g0.
  destruct r; cbn [fst]; split; (exact U || exact R0).
Qed.
Lemma step_good g e : good g -> good (fst (gstep g e)).
Proof.
  intros G. assert (UP : forall g o, good g -> good (fst (let '(g, o') := gUpdate g in (g, o ++ o')))) by (intros g0 o H; apply update_good in H; destruct (gUpdate g0); exact H).
  assert (EN : forall g o, good g -> good (fst (let '(g, o') := gNote (gExecEntry g) in (g, o ++ o')))) by (intros g0 o H; apply note_good in H; destruct (gNote (gExecEntry g0)); exact H).
  assert (TB : forall f, (forall w, okW (g_id g) noActual w -> okW (g_id g) noActual (f w)) -> good (onTable f g)).
  { intros f F. destruct G as [O R]. split; [apply (onTable_ok (g_id g)); auto|exact R]. }
  destruct e as [c|c|c|c|c|x|x|]; cbn [gstep].
  - pose proof (message_good g c G) as M. destruct (gMessage g c) as [[g1 o1] r]. cbn [fst] in M. destruct (negb _); [exact M|]. destruct (g_entered g1); [apply UP, M|]. destruct (g_operating g1); [apply EN, M|exact M].
  - pose proof (message_good g c G) as M. destruct (gMessage g c) as [[g1 o1] r]. cbn [fst] in M. destruct (negb _); [exact M|]. destruct (_ && _); [|exact M].
    destruct (exec_good g1 M) as [X Y]. destruct (gExecEntry g1) as [[g2 o2] b]. cbn [fst snd] in X, Y. destruct b.
    + split; [apply X|]. intros _. apply Y. reflexivity.
    + apply update_good in X. destruct (gUpdate g2). exact X.
  - pose proof (message_good g c G) as M. destruct (negb _).
    + destruct (g_operating g); [|exact G]. destruct (gMessage g c) as [[g1 o1] r]. cbn [fst] in M. destruct (tprProcessed r); [apply EN, M|exact M].
    + destruct (gMessage g c) as [[g1 o1] r]. cbn [fst] in M. destruct (tprProcessed r); [apply UP, M|exact M].
  - pose proof (message_good g c G) as M. destruct (gMessage g c) as [[g1 o1] r]. exact M.
  - apply TB. intros w. apply fwdDep_ok, keeps_actual.
  - apply TB. intros w W. cbn [bstep fst]. apply (fwdConnection_ok (g_id g)); [apply keeps_actual|auto|]. apply (fwdDependent_ok (g_id g)); [apply keeps_actual|]. apply (fwdAdd_ok (g_id g)); [apply keeps_actual|exact W].
  - apply TB. intros w W. cbn [bstep]. pose proof (fwdAdd_ok (g_id g) _ (keeps_actual (g_id g)) w x W) as A. destruct (fwdAddDependency w x) as [w1 ad]. cbn [fst] in *. destruct ad; [|exact A].
    apply (fwdConnection_ok (g_id g)); [apply keeps_actual|auto|]. apply (fwdDependent_ok (g_id g)); [apply keeps_actual|exact A].
  - assert (E : good (fst (gEnteringExec (set_g_operating true g)))).
    { unfold gEnteringExec. destruct (g_exec _); [exact G|]. set (g1 := set_g_checking true (set_g_operating true g)). assert (G1 : good g1) by exact G.
      destruct (g_deps g1) eqn:D; [exact G1|]. clear D. apply update_good in G1. destruct (gUpdate g1) as [g2 o2]. destruct (checkForIssues _ _); exact G1. }
    destruct (gEnteringExec (set_g_operating true g)) as [gm om]. cbn [fst] in E. apply note_good in E. destruct (gNote (gExecEntry gm)) as [g3 o3]. exact E.
Qed.
Lemma run_good id es : good (grun id es).
Proof. induction es as [|e es IH] using rev_ind; [split; [intros d []|discriminate]|]. rewrite grun_snoc. apply step_good, IH. Qed.

(** the minimum over federates which all are waiting is waiting *)
Lemma req_cases s : isRequested s = true -> ts_ltb s ts_time_granted = false /\ ts_eqb s ts_time_granted = false.
Proof. destruct s; cbn; intros; (discriminate || split; reflexivity). Qed.
(** it waits for a time, or it has left the federation *)
Definition waiting (d : tdata) : Prop := isRequested (tst d) = true \/ ts_ltb (tst d) ts_time_granted = false /\ next d = maxVal.
Lemma waiting_ge (d : tdata) : waiting d -> ts_ltb (tst d) ts_time_granted = false.
Proof. intros [H|[H _]]; [apply req_cases, H|exact H]. Qed.
Lemma min_req (keep : dinfo -> bool) (l : table) : forall m, (forall d, In d l -> keep d = true -> waiting d) ->
  (isRequested (tst m) = true \/ next m = maxVal) -> next m <= maxVal ->
  let r := fold_left (fun m dep => if keep dep then generateMinTimeImplementation m dep invalidId 0 else m) l m in
  (isRequested (tst r) = true \/ next r = maxVal) /\ next r <= next m
  /\ (forall d, In d l -> keep d = true -> fedID d <> invalidId -> next r <= next d).
Proof.
  induction l as [|d l IH]; intros m A B C; cbn [fold_left]; [split; [exact B|]; split; [lia|intros d []]|].
  cbv zeta in IH |- *. set (m1 := if keep d then _ else m).
  assert (M : (isRequested (tst m1) = true \/ next m1 = maxVal) /\ next m1 <= next m /\ (keep d = true -> fedID d <> invalidId -> next m1 <= next d)).
  { unfold m1. destruct (keep d) eqn:Kd; [|split; [exact B|]; split; [lia|discriminate]]. specialize (A d (or_introl eq_refl) Kd). pose proof (waiting_ge d A) as A1.
    unfold generateMinTimeImplementation. rewrite A1. destruct (Z.eqb_spec (fedID d) invalidId) as [F|F].
    - destruct (_ && _); cbn [tst next set_minDe]; (split; [exact B|]; split; [lia|intros; contradiction]).
    - set (m2 := set_minDe _ m). assert (TE : forall m, tst (minTimeTe m d) = tst m /\ next (minTimeTe m d) = next m).
      { intros m0. unfold minTimeTe. destruct (_ <? _); [destruct (isValidId _); split; reflexivity|]. destruct (_ =? _); split; reflexivity. }
      destruct (TE (minTimeNext m2 d 0)) as [-> ->]. unfold minTimeNext. change (next m2) with (next m). change (tst m2) with (tst m).
      destruct (Z.ltb_spec (next d) (next m)).
      { split; [|cbn; split; lia]. destruct A as [A|[_ A]]; [left; exact A|lia]. }
      destruct (Z.eqb_spec (next d) (next m)); [|change (tst m2) with (tst m); change (next m2) with (next m); split; [exact B|]; split; lia].
      destruct A as [A|[_ A]].
      + destruct (req_cases _ A) as [_ A2]. rewrite A2. cbn [tst next set_tst set_interrupted m2 set_minDe andb]. split; [|split; lia].
        destruct (iterativeRequest (tst d)); [|exact B]. destruct (negb _ || _); [left; exact A|exact B].
      + split; [right|]; destruct (ts_eqb (tst d) ts_time_granted), (iterativeRequest (tst d)); cbn [next set_tst set_interrupted m2 set_minDe andb]; try (destruct (negb _ || _)); cbn [next set_tst set_interrupted m2 set_minDe andb]; lia. }
  destruct M as (M1 & M2 & M3). destruct (IH m1) as (I1 & I2 & I3); auto; [|lia|].
  { intros x Ix. apply A. right. exact Ix. }
  split; [exact I1|]. split; [lia|]. intros x [<-|Ix] Kx Fx; [specialize (M3 Kx Fx); lia|auto].
Qed.
Lemma upstream_req l id : (forall d, In d l -> keepUpstream id d = true -> waiting d) ->
  (exists d, In d l /\ keepUpstream id d = true /\ fedID d <> invalidId /\ next d < maxVal) -> isRequested (tst (generateMinTimeUpstream l true id invalidId 0)) = true.
Proof.
  intros A (d & D1 & D2 & D3 & D4). unfold generateMinTimeUpstream. cbv zeta. unfold minTimeLoop.
  destruct (min_req (keepUpstream id) l mTime0 A) as (M1 & _ & M2); [right; reflexivity|cbn; lia|]. cbv zeta in M1, M2. specialize (M2 d D1 D2 D3).
  set (m := fold_left _ l mTime0) in *. clearbody m. destruct M1 as [M1|M1]; [|lia].
  assert (T : tst (minTimeAdjust true m) = tst m) by (unfold minTimeAdjust; cbn [negb andb]; destruct (_ <? _); reflexivity).
  set (a := minTimeAdjust true m) in *. clearbody a. rewrite <- T in M1. clear T. match goal with |- context [set_sequenceCounter ?z a] => generalize z end. intros z.
  unfold minTimeInitOverride. change (tst (set_sequenceCounter z a)) with (tst a). destruct (req_cases _ M1) as [-> _]. exact M1.
Qed.

(** somebody's answer to round [S] is missing *)
Definition missing (S : Z) (l : table) : Prop :=
  exists d, In d l /\ dependency d = true /\ dependent d = true /\ 0 < timingVersion d /\ next d < cTerminationTime /\ responseSequenceCounter d <> S.
(** everyone waits for a time or has left, and somebody who can be granted has an event before the end *)
Definition allWaiting (id : Z) (l : table) : Prop :=
  (forall d, In d l -> dependency d = true -> connection d <> c_PARENT -> waiting d)
  /\ (forall d, In d l -> next d <= Te d)
  /\ exists d, In d l /\ dependency d = true /\ connection d <> c_PARENT /\ nonGranting d = false /\ fedID d <> invalidId /\ Te d < cTerminationTime.
Lemma addressed_some (l : table) ev : (forall d, In d l -> next d <= Te d) -> ev < cTerminationTime -> (exists d, In d l /\ ev = Te d) ->
  exists d, In d (filter (addressed (trigTime ev)) l).
Proof.
  intros N L (d & I & ->). exists d. apply filter_In. split; [exact I|]. specialize (N d I). unfold addressed, trigTime. destruct (Z.ltb_spec (Te d) cTerminationTime); [|lia].
  apply andb_true_intro. split; [apply Z.leb_le; lia|apply Z.ltb_lt; lia].
Qed.
Lemma ne_term : cTerminationTime < maxVal.
Proof. reflexivity. Qed.
Lemma update_speaks g : running g -> okT noActual (g_deps g) -> isValidId (g_id g) = true -> allWaiting (g_id g) (g_deps g) ->
  (exists q, In q (snd (gUpdate g)) /\ numbered q) \/ gUpdate g = (g, []) /\ missing (g_seq g) (g_deps g).
Proof.
  intros [R1 R2] NA V (W1 & W2 & f & F1 & F2 & F3 & F4 & F5 & F6). pose proof ne_term as NT.
  assert (MT : isRequested (tst (generateMinTimeUpstream (g_deps g) true (g_id g) invalidId 0)) = true).
  { apply upstream_req.
    - intros d I K. unfold keepUpstream in K. apply andb_prop in K as [K _]. apply andb_prop in K as [K1 K2]. apply W1; auto. intros E. rewrite E in K2. discriminate.
    - exists f. split; [exact F1|]. split; [|split; [exact F5|specialize (W2 f F1); lia]]. unfold keepUpstream. rewrite F2, V. cbn [andb].
      assert (NF : minFedActual f = invalidId) by exact (NA f F1). rewrite NF. assert (H : (invalidId =? g_id g) = false). { apply Z.eqb_neq. intros E. rewrite <- E in V. discriminate V. } rewrite H. destruct (connection f); try reflexivity. congruence. }
  unfold gUpdate. rewrite R1. cbn [negb andb]. revert MT. generalize (generateMinTimeUpstream (g_deps g) true (g_id g) invalidId 0). intros mt MT.
  rewrite (proj2 (req_cases _ MT)), MT. destruct R2 as [R2|R2]; rewrite R2.
  - change (ts_eqb ts_time_granted ts_time_granted) with true. cbv iota zeta. left. destruct (findNext_spec (g_deps g)) as [A B].
    set (ev := findNextTriggerEvent (g_deps g)) in *. specialize (A f F1 F4). destruct (addressed_some (g_deps g) ev W2) as [d D]; [lia|destruct B as [B|B]; [lia|exact B]|].
    eexists. split; [cbn [sendRound snd]; apply in_map; exact D|]. left. reflexivity.
  - change (ts_eqb ts_time_requested ts_time_granted) with false. change (ts_eqb ts_time_requested ts_time_requested) with true. cbv iota. unfold gConfirm.
    destruct (verifySequenceCounter (trigTime (g_next g)) (g_seq g) (g_deps g)) eqn:Q.
    + left. pose proof (checkTrig_spec (trigTime (g_next g)) (g_deps g)) as K. destruct (checkForTriggered _ _) as [trig ev]. cbn [fst snd] in K. destruct K as (K1 & K2 & _).
      specialize (K1 f F1 (or_introl F4)). destruct (addressed_some (g_deps g) ev W2) as [d D]; [lia|destruct K2 as [K2|K2]; [lia|exact K2]|].
      destruct (_ || _ || _); (eexists; split; [cbn [snd sendRound]; apply in_map; exact D|]); [left|right]; reflexivity.
    + right. split; [reflexivity|]. unfold verifySequenceCounter in Q.
      assert (X : exists d, In d (g_deps g) /\ checkSequenceCounter d (trigTime (g_next g)) (g_seq g) = false).
      { clear - Q. induction (g_deps g) as [|d l IH]; [discriminate|]. cbn in Q. apply andb_false_iff in Q as [Q|Q]; [exists d; split; [left; reflexivity|exact Q]|].
        destruct (IH Q) as (x & I & E). exists x. split; [right; exact I|exact E]. }
      destruct X as (d & I & E). exists d. unfold checkSequenceCounter in E. repeat (apply orb_false_elim in E as [E ?]).
      destruct (dependency d), (dependent d); try discriminate. repeat split; auto; lia.
Qed.

(** **** C48: when a time request of one of its federates arrives at an executing coordinator, and then everyone who has not left waits for a time
    (and asked for times not beyond their events, and somebody who can be granted still has an event), the coordinator asks or
    permits something, or somebody's answer to the round under way is missing *)
Theorem C48_silent_only_when_an_answer_is_missing id es c : isValidId id = true -> g_entered (grun id es) = true ->
  (exists d, getDep (g_deps (grun id es)) (m_source_id c) = Some d /\ dependency d = true) -> m_action c = CMD_TIME_REQUEST ->
  let after := grun id (es ++ [B_timing c]) in
  allWaiting id (g_deps after) ->
  (exists q, In q (sends id es (B_timing c)) /\ (m_action q = CMD_REQUEST_CURRENT_TIME \/ m_action q = CMD_TIME_REQUEST))
  \/ missing (g_seq after) (g_deps after).
Proof.
  intros V EN (d & G & D) A. cbv zeta. rewrite grun_snoc. unfold sends. set (g := grun id es) in *. cbn [gstep].
  pose proof (message_good g c (run_good id es)) as M. pose proof (i_id _ _ _ (inv_run id es)) as GI. fold g in GI.
  assert (X : exists g1 o1 r, gMessage g c = (g1, o1, r) /\ tprProcessed r = true /\ g_entered g1 = true /\ g_id g1 = id).
  { unfold gMessage. rewrite A. change (fwdRemoves CMD_TIME_REQUEST) with false. cbv iota. unfold updateTime. rewrite G, D. cbn [negb].
    destruct (snd (processMessage c d)) eqn:P; eexists _, _, _; (split; [reflexivity|]);
      try (split; [reflexivity|split; [exact EN|exact GI]]).
    exfalso. revert P. unfold processMessage. rewrite A. change (tkind_of CMD_TIME_REQUEST) with k_time_request. cbv iota zeta. cbn [snd]. destruct (_ && _); [discriminate|]. destruct (ts_eqb _ _); discriminate. }
  destruct X as (g1 & o1 & r & E & P & E1 & I1). rewrite E in M |- *. rewrite P, E1. cbn [negb fst] in M |- *. destruct M as [O R]. specialize (R E1).
  intros W. pose proof (gUpdate_cases g1) as (_ & _ & _ & _ & UC). pose proof (update_speaks g1 R O) as US. rewrite I1 in US. specialize (US V).
  destruct (gUpdate g1) as [g2 o2]. cbn [fst snd] in *.
  assert (W1 : allWaiting id (g_deps g1)).
  { destruct UC as [UC|[UC|UC]].
    - destruct UC as (_ & U & _). rewrite U in W. exact W.
    - destruct UC as (_ & _ & _ & _ & U & _). rewrite U in W. destruct W as (X1 & X2 & f & F1 & F2 & F3 & F4 & F5 & F6).
      assert (AF : forall x, let y := askDep (trigTime (g_next g2)) (g_seq g2) x in dependency y = dependency x /\ connection y = connection x /\ tst y = tst x /\ next y = next x /\ Te y = Te x
        /\ nonGranting y = nonGranting x /\ fedID y = fedID x) by (intros x; cbv zeta; unfold askDep; destruct (addressed _ _); repeat split; reflexivity).
      split; [|split].
      + intros x Ix. destruct (AF x) as (Y1 & Y2 & Y3 & _). unfold waiting. destruct (AF x) as (_ & _ & _ & Y4 & _). rewrite <- Y1, <- Y2, <- Y3, <- Y4. apply X1, in_map, Ix.
      + intros x Ix. destruct (AF x) as (_ & _ & _ & Y1 & Y2 & _). rewrite <- Y1, <- Y2. apply X2, in_map, Ix.
      + apply in_map_iff in F1 as (x & <- & F1). destruct (AF x) as (Y1 & Y2 & Y3 & Y4 & Y5 & Y6 & Y7). rewrite Y1 in F2. rewrite Y2 in F3. rewrite Y6 in F4. rewrite Y7 in F5. rewrite Y5 in F6. exists x. auto 10.
    - destruct UC as (_ & _ & _ & _ & U & _). rewrite U in W. exact W. }
  destruct (US W1) as [(q & Q1 & Q2)|[Q1 Q2]].
  - left. exists q. split; [apply in_or_app; right; exact Q1|exact Q2].
  - right. injection Q1 as Q1 _; rewrite Q1. exact Q2.
Qed.
