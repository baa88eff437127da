(** * C11: the event times in a broker's time requests *)
From Coq Require Import ZArith Bool List Lia ZifyBool.
From Verif Require Import HTime Action TimeDep TimeCoord TimeDepProofs MinTimeProofs Forward PropsForward.
Import ListNotations.
Open Scope Z_scope.

(** ** The loop: event time and dependent event time *)
Lemma next_te m d c : Te (minTimeNext m d c) = Te m /\ minDe (minTimeNext m d c) = minDe m.
Proof. unfold minTimeNext. destruct (_ <? _); [split; reflexivity|]. destruct (_ =? _); split; reflexivity. Qed.
Lemma te_min m d : Te (minTimeTe m d) = Z.min (Te d) (Te m) /\ minDe (minTimeTe m d) = minDe m /\ tst (minTimeTe m d) = tst m /\ next (minTimeTe m d) = next m.
Proof.
  unfold minTimeTe. destruct (Z.ltb_spec (Te d) (Te m)); [destruct (isValidId _); cbn; repeat split; lia|].
  destruct (Z.eqb_spec (Te d) (Te m)); cbn; repeat split; lia.
Qed.
Lemma impl_te m d i c : pastInit d -> fedID d <> i -> Te (generateMinTimeImplementation m d i c) = Z.min (Te d) (Te m).
Proof.
  intros P N. unfold generateMinTimeImplementation. rewrite (past_ltb _ P). destruct (Z.eqb_spec (fedID d) i); [contradiction|].
  rewrite (proj1 (te_min _ _)), (proj1 (next_te _ _ _)). reflexivity.
Qed.
Lemma impl_te_le m d i c : pastInit d -> Te (generateMinTimeImplementation m d i c) <= Te m.
Proof.
  intros P. destruct (Z.eq_dec (fedID d) i) as [E|E]; [|rewrite impl_te by assumption; lia].
  unfold generateMinTimeImplementation. rewrite (past_ltb _ P). rewrite (proj2 (Z.eqb_eq _ _) E). destruct (_ && _); cbn; lia.
Qed.
Lemma loop_te keep i c l d : (forall d, In d l -> keep d = true -> pastInit d) -> In d l -> keep d = true -> fedID d <> i -> Te (minTimeLoop keep i c l) <= Te d.
Proof.
  intros P IN K N. unfold minTimeLoop.
  assert (PRES : forall l' m, (forall d, In d l' -> In d l) -> Te (fold_left (fun m dep => if keep dep then generateMinTimeImplementation m dep i c else m) l' m) <= Te m).
  { induction l' as [|x r IH]; intros m S; cbn [fold_left]; [lia|]. specialize (IH (if keep x then generateMinTimeImplementation m x i c else m) (fun d H => S d (or_intror H))).
    destruct (keep x) eqn:KX; [|exact IH]. pose proof (impl_te_le m x i c (P x (S x (or_introl eq_refl)) KX)). lia. }
  assert (G : forall l' m, (forall d, In d l' -> In d l) -> In d l' -> Te (fold_left (fun m dep => if keep dep then generateMinTimeImplementation m dep i c else m) l' m) <= Te d).
  { induction l' as [|x r IH]; intros m S I; [destruct I|]. cbn [fold_left]. destruct I as [->|I].
    - rewrite K. pose proof (PRES r (generateMinTimeImplementation m d i c) (fun e H => S e (or_intror H))) as Q. rewrite impl_te in Q by auto. lia.
    - apply IH; auto. intros e H. apply S. right. exact H. }
  apply G; auto.
Qed.
Lemma adjust_te r m : Te (minTimeAdjust r m) = Te m /\ minDe (minTimeAdjust r m) = Z.min (Te m) (minDe m) /\ tst (minTimeAdjust r m) = tst m.
Proof. unfold minTimeAdjust. destruct (Z.ltb_spec (Te m) (minDe m)); cbn [minDe set_minDe]; destruct (negb r && _); cbn; repeat split; lia. Qed.

(** what a time request says about the future beyond its own time *)
Definition eventsNotBefore (m : amsg) (d : dinfo) : Prop := m_Te m <= Te d /\ m_Tdemin m <= Te d /\ m_Tdemin m <= Z.max 0 (promised false d).
Definition tdBefore (x : tdata) (d : dinfo) : Prop := Te x <= Te d /\ minDe x <= Te d /\ minDe x <= Z.max 0 (promised false d).
Lemma released_false c d : pastInit d -> released false c d <= promised false d.
Proof. apply released_promised. Qed.
Lemma min_before keep r i c l d : (forall d, In d l -> keep d = true -> pastInit d) -> In d l -> keep d = true -> fedID d <> i -> connection d <> c_SELF ->
  tdBefore (minTimeAdjust r (minTimeLoop keep i c l)) d.
Proof.
  intros P IN K NI NS. destruct (adjust_te r (minTimeLoop keep i c l)) as (A & B & _). unfold tdBefore. rewrite A, B.
  pose proof (loop_te keep i c l d P IN K NI). pose proof (proj2 (loop_le keep i c l d IN K NI NS)). pose proof (released_false c d (P d IN K)). lia.
Qed.
Lemma upstream_before l r self i c d : (forall d, In d l -> dependency d = true -> pastInit d) -> In d l -> keepUpstream self d = true -> fedID d <> i -> connection d <> c_SELF ->
  tdBefore (generateMinTimeUpstream l r self i c) d.
Proof.
  intros P IN K NI NS.
  assert (P' : forall d, In d l -> keepUpstream self d = true -> pastInit d) by (intros x I K'; apply P; [exact I|]; unfold keepUpstream in K'; destruct (dependency x); [reflexivity|discriminate]).
  pose proof (min_before (keepUpstream self) r i c l d P' IN K NI NS) as B.
  unfold generateMinTimeUpstream. cbn zeta. set (m := minTimeAdjust _ _) in *. generalize (fold_left (fun a d => if keepUpstream self d then a + sequenceCounter d else a) l 0). intros z.
  unfold minTimeInitOverride. pose proof (adjust_quiet _ r _ (loop_quiet (keepUpstream self) i c l P')) as [Q _]. fold m in Q. cbn [tst set_sequenceCounter]. rewrite Q. exact B.
Qed.
Lemma downstream_before l r self i c d : (forall d, In d l -> dependency d = true -> pastInit d) -> In d l -> keepDownstream self d = true -> fedID d <> i -> connection d <> c_SELF ->
  tdBefore (generateMinTimeDownstream l r self i c) d.
Proof.
  intros P IN K NI NS.
  assert (P' : forall d, In d l -> keepDownstream self d = true -> pastInit d) by (intros x I K'; apply P; [exact I|]; unfold keepDownstream in K'; destruct (dependency x); [reflexivity|discriminate]).
  pose proof (min_before (keepDownstream self) r i c l d P' IN K NI NS) as B.
  unfold generateMinTimeDownstream. cbn zeta. set (m := minTimeAdjust _ _) in *.
  unfold minTimeInitOverride. pose proof (adjust_quiet _ r _ (loop_quiet (keepDownstream self) i c l P')) as [Q _]. fold m in Q. rewrite Q.
  destruct (ts_ltb (tst m) ts_exec_requested); exact B.
Qed.
(** everybody below has a pending request: so has the broker *)
Lemma upstream_requested l r self c d0 : (forall d, In d l -> dependency d = true -> pastInit d) ->
  (forall d, In d l -> dependency d = true -> connection d <> c_PARENT -> fedID d <> invalidId /\ tst d = ts_time_requested) ->
  In d0 l -> keepUpstream self d0 = true -> next d0 < maxVal -> connection d0 <> c_SELF ->
  tst (generateMinTimeUpstream l r self invalidId c) = ts_time_requested.
Proof.
  intros P A IN K NX NS.
  assert (P' : forall d, In d l -> keepUpstream self d = true -> fedID d <> invalidId /\ tst d = ts_time_requested).
  { intros x I K'. unfold keepUpstream in K'. apply andb_true_iff in K'. destruct K' as [K' _]. apply andb_true_iff in K'. destruct K' as [K1 K2].
    apply A; auto. intros E. rewrite E in K2. discriminate. }
  set (G := fun m : tdata => (tst m = ts_error /\ next m = maxVal) \/ tst m = ts_time_requested).
  assert (IMPL : forall (m : tdata) (d : dinfo), tst d = ts_time_requested -> fedID d <> invalidId -> G m ->
     G (generateMinTimeImplementation m d invalidId c) /\ (tst m = ts_time_requested \/ next d < maxVal -> tst (generateMinTimeImplementation m d invalidId c) = ts_time_requested)).
  { intros m d T N H. unfold generateMinTimeImplementation. rewrite T. replace (ts_ltb ts_time_requested ts_time_granted) with false by reflexivity.
    destruct (Z.eqb_spec (fedID d) invalidId); [contradiction|]. unfold G.
    set (m1 := set_minDe _ m). assert (M1 : tst m1 = tst m /\ next m1 = next m) by (split; reflexivity). clearbody m1. destruct M1 as [M1 M2].
    pose proof (te_min (minTimeNext m1 d c) d) as (_ & _ & T1 & T2). rewrite T1, T2. unfold minTimeNext. rewrite T.
    replace (iterativeRequest ts_time_requested) with false by reflexivity. replace (ts_eqb ts_time_requested ts_time_granted) with false by reflexivity. cbn [andb].
    destruct (Z.ltb_spec (next d) (next m1)); [cbn; auto|]. destruct (Z.eqb_spec (next d) (next m1)); cbn; rewrite M1, ?M2 in *;
      destruct H as [[H H']|H]; (split; [auto|intros [Q|Q]; auto; try congruence; lia]). }
  assert (PRES : forall l' m, (forall d, In d l' -> In d l) -> tst m = ts_time_requested ->
    tst (fold_left (fun m dep => if keepUpstream self dep then generateMinTimeImplementation m dep invalidId c else m) l' m) = ts_time_requested).
  { induction l' as [|x r' IH]; intros m S T; [exact T|]. cbn [fold_left]. apply IH; [intros d H; apply S; right; exact H|].
    destruct (keepUpstream self x) eqn:KX; [|exact T]. destruct (P' x (S x (or_introl eq_refl)) KX) as [X1 X2].
    apply (proj2 (IMPL m x X2 X1 (or_intror T))). left; exact T. }
  assert (LOOP : forall l' m, (forall d, In d l' -> In d l) -> In d0 l' -> G m ->
    tst (fold_left (fun m dep => if keepUpstream self dep then generateMinTimeImplementation m dep invalidId c else m) l' m) = ts_time_requested).
  { induction l' as [|x r' IH]; intros m S I H; [destruct I|]. cbn [fold_left]. destruct I as [->|I].
    - apply PRES; [intros d Q; apply S; right; exact Q|]. rewrite K. destruct (P' d0 IN K) as [X1 X2]. apply (proj2 (IMPL m d0 X2 X1 H)). right; exact NX.
    - apply IH; [intros d Q; apply S; right; exact Q|exact I|]. destruct (keepUpstream self x) eqn:KX; [|exact H].
      destruct (P' x (S x (or_introl eq_refl)) KX) as [X1 X2]. apply (proj1 (IMPL m x X2 X1 H)). }
  assert (T : tst (minTimeLoop (keepUpstream self) invalidId c l) = ts_time_requested) by (apply LOOP; [auto|exact IN|left; split; reflexivity]).
  unfold generateMinTimeUpstream, minTimeInitOverride. cbn [tst set_sequenceCounter]. rewrite (proj2 (proj2 (adjust_te r _))), T. cbn. rewrite (proj2 (proj2 (adjust_te r _))). exact T.
Qed.
(** the message built from a time value *)
Lemma request_events w x g code d : m_action (forwardRequest w x g code) = CMD_TIME_REQUEST -> tdBefore x d -> eventsNotBefore (forwardRequest w x g code) d.
Proof.
  intros A (B & C & D). unfold forwardRequest, generateTimeRequest, setFlagIf, eventsNotBefore in *.
  destruct (tst x); try discriminate A; destruct (interrupted x); cbn in A |- *; try discriminate A; try lia; repeat match type of A with context [if ?b then _ else _] => destruct b end; try discriminate A; unfold promised in D; lia.
Qed.

Section Events.
  Context (w : fwd).
  Hypothesis OK : fwdOk w.
  Hypothesis PAST : forall d, In d (w_deps w) -> dependency d = true -> pastInit d.
  (** [alike]: what a child's request may additionally be about, its siblings *)
  Definition sibling (rcv d : dinfo) : Prop := dependency d = true /\ fedID d <> fedID rcv /\ fedID d <> invalidId /\ connection d <> c_SELF /\ connection d <> c_PARENT.
  Definition allAsked : Prop := forall d, In d (w_deps w) -> dependency d = true -> connection d <> c_PARENT -> fedID d <> invalidId /\ tst d = ts_time_requested.

  Lemma recompute_events : let '(w1, _, _, md) := recompute w in
    (forall d, In d (w_deps w) -> dependency d = true -> connection d <> c_PARENT -> fedID d <> invalidId -> connection d <> c_SELF ->
       tdBefore (w_up w1) d /\ (w_noParent w = true -> tdBefore (w_down w1) d) /\ (allAsked -> next d < maxVal -> tdBefore (w_down w1) d)) /\
    (w_noParent w = false -> forall d, In d (w_deps w) -> dependency d = true -> connection d = c_PARENT -> fedID d <> invalidId -> tdBefore (w_down w1) d).
  Proof.
    unfold recompute.
    pose proof (upstream_quiet (w_deps w) (w_restrictive w) (w_id w) invalidId (w_seq w) PAST) as [[U1 _] _]. cbn zeta in U1.
    pose proof (downstream_quiet (w_deps w) (w_restrictive w) (w_id w) invalidId (w_seq w) PAST) as [[D1 _] _]. cbn zeta in D1.
    pose proof (fun d => upstream_before (w_deps w) (w_restrictive w) (w_id w) invalidId (w_seq w) d PAST) as UB.
    pose proof (fun d => downstream_before (w_deps w) (w_restrictive w) (w_id w) invalidId (w_seq w) d PAST) as DB.
    pose proof (fun d => upstream_requested (w_deps w) (w_restrictive w) (w_id w) (w_seq w) d PAST) as UR.
    set (mu := generateMinTimeUpstream _ _ _ _ _) in *. set (m2 := generateMinTimeDownstream _ _ _ _ _) in *. clearbody mu m2.
    set (md := if w_noParent w then mu else m2).
    assert (MD : ts_ltb (tst md) ts_time_granted = false) by (unfold md; destruct (w_noParent w); assumption).
    assert (X1 : ts_ltb ts_exec_requested (tst mu) = true) by (destruct (tst mu); (discriminate || reflexivity)).
    assert (X2 : ts_ltb ts_exec_requested (tst md) = true) by (destruct (tst md); (discriminate || reflexivity)).
    rewrite X1, X2. cbn [orb]. destruct (td_update (w_up w) mu) as [up b1] eqn:EU. destruct (td_update (w_down w) md) as [dn b2] eqn:ED.
    assert (UPD : forall o u x b, td_update o u = (x, b) -> Te x = Te u /\ minDe x = minDe u /\ tst x = tst u).
    { intros o u x b E. unfold td_update in E. injection E as <- _. repeat split. }
    destruct (UPD _ _ _ _ EU) as (U2 & U3 & U4). destruct (UPD _ _ _ _ ED) as (D2 & D3 & D4). clear EU ED UPD.
    match goal with |- context [set_w_down ?x _] => set (dn' := x) end.
    assert (LE : Te dn' <= Te dn /\ minDe dn' <= minDe dn /\ (tst up = ts_time_requested -> Te dn' <= Te up /\ minDe dn' <= minDe up)).
    { unfold dn'. destruct (ts_eqb (tst up) ts_time_requested) eqn:T.
      - destruct (Z.ltb_spec (minDe up) (minDe dn)); cbn [Te set_minDe]; destruct (Z.ltb_spec (Te up) (Te dn)); cbn; lia.
      - split; [lia|]. split; [lia|]. intros Q. rewrite Q in T. discriminate. }
    clearbody dn'. cbn [w_up w_down set_w_seq set_w_down set_w_up].
    assert (TR : forall (x y : tdata) d, Te x <= Te y -> minDe x <= minDe y -> tdBefore y d -> tdBefore x d) by (unfold tdBefore; intros; lia).
    split.
    - intros d IN D NP NI NS. assert (K : keepUpstream (w_id w) d = true) by (apply keepUp_iff; assumption).
      specialize (UB d IN K NI NS). split; [|split].
      + apply (TR up mu); [lia|lia|exact UB].
      + intros N. apply (TR dn' mu); [unfold md in *; rewrite N in *; lia|unfold md in *; rewrite N in *; lia|exact UB].
      + intros A NX. specialize (UR d A IN K NX NS). apply (TR dn' mu); [| |exact UB]; apply proj2, proj2 in LE; specialize (LE (eq_trans U4 UR)); lia.
    - intros N d IN D PA NI. apply (TR dn' m2); [unfold md in *; rewrite N in *; lia|unfold md in *; rewrite N in *; lia|].
      apply DB; auto; [apply keepDown_iff; assumption|rewrite PA; discriminate].
  Qed.
  Lemma excluding_events g d : m_action (forwardRequest w (generateExcluding (w_deps w) (w_restrictive w) (w_id w) g) g 0) = CMD_TIME_REQUEST ->
    In d (w_deps w) -> dependency d = true -> connection d <> c_PARENT -> fedID d <> g -> connection d <> c_SELF ->
    tdBefore (generateExcluding (w_deps w) (w_restrictive w) (w_id w) g) d.
  Proof.
    intros A IN D NP NG NS. unfold generateExcluding in *. pose proof (upstream_before (w_deps w) (w_restrictive w) (w_id w) g 0 d PAST IN) as B.
    set (m := generateMinTimeUpstream _ _ _ _ _) in *. clearbody m. destruct (ts_eqb (tst m) ts_error && negb _); [discriminate A|].
    unfold tdBefore, td_update in *. cbn [fst Te minDe set_tst set_next set_Te set_minDe set_TeAlt set_minFed set_sequenceCounter set_interrupted set_responseSequenceCounter set_minFedActual].
    apply B; auto. apply keepUp_iff; assumption.
  Qed.
  Lemma request_action w1 w2 x g code code' : m_action (forwardRequest w1 x g code) = m_action (forwardRequest w2 x g code').
  Proof. unfold forwardRequest, generateTimeRequest, setFlagIf. destruct (tst x); destruct (interrupted x); destruct (responseSequenceCounter x =? 0); reflexivity. Qed.
  Lemma withResponse_events m d r : eventsNotBefore m d -> eventsNotBefore (set_m_dest_id (fedID r) (withResponse m r)) d.
  Proof. unfold withResponse. destruct (_ || _); exact (fun H => H). Qed.

  (** Every time request a broker sends: the earliest event it announces is not later than the earliest event of anyone the message speaks for, and
      neither is the dependent event time; when everybody below the broker waits for a grant, a child's request also covers its siblings. *)
  Theorem C11_event_times_are_safe m : In m (snd (fwdUpdate w)) -> m_action m = CMD_TIME_REQUEST ->
    exists rcv, In rcv (w_deps w) /\ fedID rcv = m_dest_id m /\
      (forall d, In d (w_deps w) -> speaksFor (w_deps w) rcv d = true -> eventsNotBefore m d) /\
      (allAsked -> forall d, In d (w_deps w) -> sibling rcv d -> next d < maxVal -> eventsNotBefore m d).
  Proof.
    intros IN RT. unfold fwdUpdate in IN. pose proof (recompute_facts w OK PAST) as F. pose proof recompute_events as E. pose proof (recompute_frame w) as FR. cbn zeta in FR.
    destruct (recompute w) as [[[w1 u1] u2] md]. cbn [fst snd] in *.
    destruct F as (F1&F2&F3&F4&F5&F6). destruct FR as (R1&R2&R3&R4&R5&_). destruct E as [E1 E2].
    assert (SF : forall rcv d, speaksFor (w_deps w) rcv d = true -> dependency d = true /\ fedID d <> fedID rcv /\ fedID d <> invalidId /\ connection d <> c_SELF /\
       (if conn_eqb (connection rcv) c_CHILD && hasParent (w_deps w) then connection d = c_PARENT else connection d <> c_PARENT)).
    { intros rcv d H. unfold speaksFor in H. apply andb_true_iff in H. destruct H as [H H6]. apply andb_true_iff in H. destruct H as [H H5].
      apply andb_true_iff in H. destruct H as [H H4]. apply andb_true_iff in H. destruct H as [H _]. apply andb_true_iff in H. destruct H as [H1 H2].
      split; [exact H1|]. split; [lia|]. split; [lia|]. split; [intros C; rewrite C in H5; discriminate|].
      revert H6; destruct (conn_eqb (connection rcv) c_CHILD && hasParent (w_deps w)); destruct (connection d); intros H6; first [discriminate H6 | discriminate | reflexivity]. }
    apply in_app_iff in IN. destruct IN as [IN|IN].
    - destruct (u1 || u2); [|destruct IN]. set (m0 := forwardRequest w1 (w_up w1) invalidId (responseSequenceCounter (w_up w1))) in IN.
      unfold unlessIgnored in IN. destruct (m_action m0 =? CMD_IGNORE); [destruct IN|].
      unfold transmitUpstream in IN. apply in_map_iff in IN. destruct IN as (rcv & <- & IN). apply filter_In in IN. rewrite R1 in IN. destruct IN as [IN UP].
      assert (A0 : m_action m0 = CMD_TIME_REQUEST) by (cbn [m_action set_m_dest_id] in RT; rewrite (proj1 (withResponse_facts m0 rcv)) in RT; exact RT).
      exists rcv. split; [exact IN|]. split; [reflexivity|]. split.
      + intros d IND S. destruct (SF _ _ S) as (S1&S2&S4&S5&S6). apply withResponse_events, request_events; [exact A0|].
        unfold toUpstream in UP. apply andb_true_iff in UP. destruct UP as [UP _]. apply negb_true_iff in UP. rewrite UP in S6. cbn [andb] in S6.
        apply (proj1 (E1 d IND S1 S6 S4 S5)).
      + intros A d IND (S1&S2&S4&S5&S6) NX. apply withResponse_events, request_events; [exact A0|]. apply (proj1 (E1 d IND S1 S6 S4 S5)).
    - assert (EX : forall g, (g = minFed md) -> isValidId g = true ->
        In m [forwardRequest w1 (generateExcluding (w_deps w1) (w_restrictive w1) (w_id w1) g) g
              (responseSequenceCounter (generateExcluding (w_deps w1) (w_restrictive w1) (w_id w1) g))] ->
        exists rcv, In rcv (w_deps w) /\ fedID rcv = m_dest_id m /\
        (forall d, In d (w_deps w) -> speaksFor (w_deps w) rcv d = true -> eventsNotBefore m d) /\
        (allAsked -> forall d, In d (w_deps w) -> sibling rcv d -> next d < maxVal -> eventsNotBefore m d)).
      { intros g EG V [<-|[]]. rewrite R1, R3, R4 in *.
        destruct F6 as [F6|(rcv&I1&I2&I3&I4)]; [rewrite EG, F6 in V; discriminate|].
        pose proof (fun d => excluding_events g d) as Q. rewrite (request_action w w1 _ _ _ (responseSequenceCounter (generateExcluding (w_deps w) (w_restrictive w) (w_id w) g))) in Q.
        destruct (excluding_quiet w OK PAST g) as [Q1 _]. cbn zeta in Q1.
        set (x := generateExcluding (w_deps w) (w_restrictive w) (w_id w) g) in *. destruct (request_time w1 x g (responseSequenceCounter x) Q1) as (TM&_&DM).
        exists rcv. split; [exact I1|]. split; [rewrite DM, EG; exact I2|]. split.
        - intros d IND S. destruct (SF _ _ S) as (S1&S2&S4&S5&S6).
          apply request_events; [exact RT|]. apply Q; auto; [|rewrite EG, <- I2; exact S2].
          destruct (conn_eqb (connection rcv) c_CHILD && hasParent (w_deps w)) eqn:C; [|exact S6].
          apply andb_true_iff in C. destruct C as [C1 C2]. apply (parent_flag_ok w OK) in C2. apply I4 in C2. rewrite C2 in C1. discriminate.
        - intros A d IND (S1&S2&S4&S5&S6) NX. apply request_events; [exact RT|]. apply Q; auto. rewrite EG, <- I2. exact S2. }
      assert (DOWN : forall skip, In m (unlessIgnored (forwardRequest w1 (w_down w1) invalidId 0) (transmitDownstream w1 (forwardRequest w1 (w_down w1) invalidId 0) skip)) ->
        exists rcv, In rcv (w_deps w) /\ fedID rcv = m_dest_id m /\
        (forall d, In d (w_deps w) -> speaksFor (w_deps w) rcv d = true -> eventsNotBefore m d) /\
        (allAsked -> forall d, In d (w_deps w) -> sibling rcv d -> next d < maxVal -> eventsNotBefore m d)).
      { intros skip I. destruct (request_time w1 (w_down w1) invalidId 0 F2) as (TM&NE&_). set (m0 := forwardRequest w1 (w_down w1) invalidId 0) in *.
        unfold unlessIgnored in I. destruct (m_action m0 =? CMD_IGNORE); [destruct I|].
        unfold transmitDownstream in I. apply in_map_iff in I. destruct I as (rcv & <- & I). apply filter_In in I. rewrite R1 in I. destruct I as [I UP].
        assert (A0 : m_action m0 = CMD_TIME_REQUEST) by (cbn [m_action set_m_dest_id] in RT; rewrite (proj1 (withResponse_facts m0 rcv)) in RT; exact RT).
        assert (CH : conn_eqb (connection rcv) c_CHILD = true).
        { unfold toDownstream in UP. rewrite A0 in UP. cbn in UP. destruct (conn_eqb (connection rcv) c_CHILD); auto; discriminate. }
        exists rcv. split; [exact I|]. split; [reflexivity|]. split.
        - intros d IND S. destruct (SF _ _ S) as (S1&S2&S4&S5&S6). apply withResponse_events, request_events; [exact A0|].
          rewrite CH in S6. cbn [andb] in S6. destruct (w_noParent w) eqn:NP.
          + assert (HP : hasParent (w_deps w) = false) by (destruct (hasParent (w_deps w)) eqn:HP; auto; apply (parent_flag_ok w OK) in HP; congruence).
            rewrite HP in S6. apply (proj1 (proj2 (E1 d IND S1 S6 S4 S5))). reflexivity.
          + destruct F5 as [F5a F5]. destruct (hasParent (w_deps w)) eqn:HP; [|exfalso; apply (NE (or_introl A0)); auto].
            apply E2; auto.
        - intros A d IND (S1&S2&S4&S5&S6) NX. apply withResponse_events, request_events; [exact A0|].
          apply (proj2 (proj2 (E1 d IND S1 S6 S4 S5))); assumption. }
      destruct u2.
      + destruct (hasDelayed w1 && isValidId (minFed (w_down w1))) eqn:HD.
        * apply andb_true_iff in HD. destruct HD as [_ HD]. apply in_app_iff in IN. destruct IN as [IN|IN]; [eapply DOWN; exact IN|].
          apply (EX (minFed (w_down w1))); auto.
        * eapply DOWN; exact IN.
      + destruct (hasDelayed w1 && isValidId (minFed md) && w_execMode w1) eqn:HD; [|destruct IN].
        apply andb_true_iff in HD. destruct HD as [HD _]. apply andb_true_iff in HD. destruct HD as [_ HD].
        apply (EX (minFed md)); auto.
  Qed.
End Events.

(** Not vacuous: the parent asks for 20 while the children wait for 10 and 7; both children are told 20, but with events possible from 7 on. *)
Example C11_event_times_meet_hypotheses :
  let es := ex11_start ++ [B_timing (ex11_says CMD_TIME_REQUEST ex11_c2 7)] in
  let w0 := brun (fwd_init ex11_brk true) es in
  let w := fst (bstep w0 (B_timing (ex11_says CMD_TIME_REQUEST ex11_par 20))) in
  map (fun m => (m_action m, m_dest_id m, m_actionTime m, m_Te m)) (snd (bstep w0 (B_timing (ex11_says CMD_TIME_REQUEST ex11_par 20)))) =
    [(CMD_TIME_REQUEST, ex11_par, 7, 7); (CMD_TIME_REQUEST, ex11_c1, 20, 7); (CMD_TIME_REQUEST, ex11_c2, 20, 7)] /\
  map (fun d => (fedID d, connection d, tst d, next d, Te d)) (w_deps w) =
    [(ex11_c1, c_CHILD, ts_time_requested, 10, 10); (ex11_c2, c_CHILD, ts_time_requested, 7, 7); (ex11_par, c_PARENT, ts_time_requested, 20, 20)].
Proof. vm_compute. repeat split. Qed.
