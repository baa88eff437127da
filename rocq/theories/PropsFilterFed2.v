(** C36, continued: the receiving side, and the time announced by the filter federate. *)
From Coq Require Import ZArith List Lia Bool.
From Verif Require Import HTime Action Bundle MsgConv Interfaces Ids Handles Filters FilterFed PropsFilterFed.
Import ListNotations.
Local Open Scope Z_scope.

(** ** Specification *)
(** messages that arrived for a federate and were sent to a destination filter elsewhere *)
Definition destAsks (o : out) : list Z := match o with O_send m => if m_action m =? CMD_SEND_FOR_DEST_FILTER_AND_RETURN then [m_sequenceID m] else [] | _ => [] end.
Definition destStarted (owner : Z -> option Z) (e : fevent) (os : list out) : list (Z * Z) :=
  match e with F_arrive h _ => match owner h with Some g => map (fun p => (g, p)) (flat_map destAsks os) | None => [] end | _ => [] end.
Definition destBack (owner : Z -> option Z) (e : fevent) (x : Z * Z) : bool :=
  match e with F_destReturn m => match owner (m_dest_handle m) with Some g => pairEqb (g, m_sequenceID m) x | None => false end | _ => false end.
Definition destStep (owner : Z -> option Z) (w : list (Z * Z)) (x : fevent * list out) : list (Z * Z) :=
  filter (fun y => negb (destBack owner (fst x) y)) w ++ destStarted owner (fst x) (snd x).
Definition destOutstanding (owner : Z -> option Z) (t : trace) : list (Z * Z) := fold_left (destStep owner) t [].
(** a federate is held back: the last of the block and unblock commands sent to it is a block (they carry the same block number, TimeCoordinator.cpp:1359-1400) *)
Definition heldStep (g : Z) (b : bool) (o : out) : bool := match o with O_fedBlock x _ => if x =? g then true else b | O_fedUnblock x _ => if x =? g then false else b | _ => b end.
Definition heldBack (g : Z) (t : trace) : bool := fold_left (heldStep g) (flat_map snd t) false.
(** the message time the filter federate has last announced *)
Definition announceStep (a : Z) (o : out) : Z := match o with O_msgTime t => t | _ => a end.
Definition announced (t : trace) : Z := fold_left announceStep (flat_map snd t) maxVal.

(** ** Outputs that neither block nor announce *)
Definition dull (o : out) : Prop := match o with O_fedBlock _ _ | O_fedUnblock _ _ | O_msgTime _ => False | _ => True end.
Lemma dull_held g b os : Forall dull os -> fold_left (heldStep g) os b = b.
Proof. intros H. revert b. induction H as [|o os Q _ IH]; intros b; [reflexivity|]. cbn. rewrite IH. destruct o; (reflexivity || destruct Q). Qed.
Lemma dull_announced a os : Forall dull os -> fold_left announceStep os a = a.
Proof. intros H. revert a. induction H as [|o os Q _ IH]; intros a; [reflexivity|]. cbn. rewrite IH. destruct o; (reflexivity || destruct Q). Qed.
Lemma copies_dull os : Forall copies os -> Forall dull os.
Proof. intros H. eapply Forall_impl; [|exact H]. intros [] X; (exact Logic.I || destruct X). Qed.
Definition nonBlock (o : out) : Prop := match o with O_fedBlock _ _ | O_fedUnblock _ _ => False | _ => True end.
Lemma nonBlock_held g b os : Forall nonBlock os -> fold_left (heldStep g) os b = b.
Proof. intros H. revert b. induction H as [|o os Q _ IH]; intros b; [reflexivity|]. cbn. rewrite IH. destruct o; (reflexivity || destruct Q). Qed.
Lemma dull_nonBlock os : Forall dull os -> Forall nonBlock os.
Proof. intros H. eapply Forall_impl; [|exact H]. intros [] X; (exact Logic.I || destruct X). Qed.

Lemma addTimeReturn_out s p t : let '(s', o) := addTimeReturn s p t in
  Forall nonBlock o /\ fold_left announceStep o (ff_minReturn s) = ff_minReturn s' /\ ff_returns s' = ff_returns s ++ [(p, t)] /\ ff_minReturn s' = Z.min t (ff_minReturn s).
Proof. unfold addTimeReturn. destruct (Z.ltb_spec t (ff_minReturn s)); cbn; (split; [repeat constructor|split; [reflexivity|split; [reflexivity|lia]]]). Qed.
Lemma low_le r : forall a, fold_left (fun a (x : Z * Z) => if snd x <? a then snd x else a) r a <= a /\ (forall x, In x r -> fold_left (fun a (x : Z * Z) => if snd x <? a then snd x else a) r a <= snd x).
Proof.
  induction r as [|y r IH]; intros a; cbn; [split; [lia|intros x []]|]. specialize (IH (if snd y <? a then snd y else a)). destruct IH as [A B]. destruct (Z.ltb_spec (snd y) a).
  - split; [lia|]. intros x [<-|H']; [exact A|auto].
  - split; [exact A|]. intros x [<-|H']; [lia|auto].
Qed.
Lemma clearTimeReturn_out s p : (forall x, In x (ff_returns s) -> ff_minReturn s <= snd x) -> let '(s', o) := clearTimeReturn s p in
  Forall nonBlock o /\ fold_left announceStep o (ff_minReturn s) = ff_minReturn s' /\ (forall x, In x (ff_returns s') -> ff_minReturn s' <= snd x) /\
  (ff_returns s' = ff_returns s \/ exists t, ff_returns s = (p, t) :: ff_returns s').
Proof.
  intros L. unfold clearTimeReturn. destruct (ff_returns s) as [|[q t] r] eqn:R.
  - rewrite R. split; [constructor|split; [reflexivity|split; [intros x []|auto]]].
  - destruct (Z.eqb_spec q p) as [->|N].
    + cbn [ff_returns ff_minReturn withTracking]. split; [destruct (_ =? _); repeat constructor|split; [destruct (_ =? _); reflexivity|split; [|right; exists t; reflexivity]]].
      intros x H. destruct (_ =? _); [apply low_le; exact H|apply L; right; exact H].
    + split; [constructor|split; [reflexivity|]]. rewrite R. split; [exact L|auto].
Qed.
Lemma marker_out s g p t : let '(s', o) := generateProcessMarker s g p t in
  Forall nonBlock o /\ fold_left announceStep o (ff_minReturn s) = ff_minReturn s' /\ ff_returns s' = ff_returns s ++ [(p, t)] /\ ff_minReturn s' = Z.min t (ff_minReturn s).
Proof.
  unfold generateProcessMarker. set (s1 := if hasAny _ _ then _ else _). set (s2 := withTracking s1 _ _ _ _ _ _ _).
  assert (A : ff_minReturn s2 = ff_minReturn s /\ ff_returns s2 = ff_returns s) by (unfold s2, s1; destruct (hasAny _ _); split; reflexivity). destruct A as [A B].
  pose proof (addTimeReturn_out s2 p t) as H. destruct (addTimeReturn s2 p t) as [s3 o]. rewrite A, B in H. exact H.
Qed.
Lemma unblock_out s g : Forall dull (snd (coreUnblock s g)) /\ ff_minReturn (fst (coreUnblock s g)) = ff_minReturn s /\ ff_returns (fst (coreUnblock s g)) = ff_returns s.
Proof. unfold coreUnblock. cbn [fst snd]. split; [|split; reflexivity]. destruct (existsb _ _); [|constructor]. apply Forall_forall. intros o H. apply in_map_iff in H. destruct H as (d & <- & _). exact Logic.I. Qed.
Lemma accept_out s g p : (forall x, In x (ff_returns s) -> ff_minReturn s <= snd x) -> let '(s', o) := acceptProcessReturn s g p in
  Forall nonBlock o /\ fold_left announceStep o (ff_minReturn s) = ff_minReturn s' /\ (forall x, In x (ff_returns s') -> ff_minReturn s' <= snd x) /\
  (ff_returns s' = ff_returns s \/ exists t, ff_returns s = (p, t) :: ff_returns s').
Proof.
  intros L. unfold acceptProcessReturn. set (s1 := withTracking s _ _ _ _ _ _ _). set (r := if hasAny (ff_ongoing s1) g then (s1, []) else coreUnblock s1 g).
  assert (A : Forall dull (snd r) /\ ff_minReturn (fst r) = ff_minReturn s /\ ff_returns (fst r) = ff_returns s).
  { unfold r. destruct (hasAny _ _); [split; [constructor|split; reflexivity]|]. destruct (unblock_out s1 g) as (U1 & U2 & U3). split; [exact U1|split; assumption]. }
  destruct r as [s2 o1]. cbn [fst snd] in A. destruct A as (D & A & B). pose proof (clearTimeReturn_out s2 p) as C. rewrite A, B in C. specialize (C L). destruct (clearTimeReturn s2 p) as [s3 o2].
  destruct C as (C1 & C2 & C3 & C4). split; [apply Forall_app; split; [apply dull_nonBlock, D|exact C1]|]. rewrite fold_left_app, (dull_announced _ o1 D). auto.
Qed.

(** ** C36, receiving side *)
Lemma runClones_noask s h m : flat_map destAsks (runClones s h m) = [].
Proof.
  assert (H : Forall (fun o => destAsks o = []) (runClones s h m)).
  { unfold runClones. apply Forall_flat_map. apply Forall_forall. intros f _. unfold cloneOne. destruct (fi_closed f); [constructor|]. destruct (_ =? _); [|repeat constructor].
    destruct (fi_op f) as [op|]; [|constructor]. apply Forall_forall. intros o H. apply in_map_iff in H. destruct H as (g & <- & _). destruct (beq _ _); reflexivity. }
  induction H as [|o os Q _ IH]; [reflexivity|]. cbn. now rewrite Q.
Qed.
Lemma keep_dest owner e w : (forall m, e <> F_destReturn m) -> filter (fun y => negb (destBack owner e y)) w = w.
Proof. intros N. apply filter_all. intros y. destruct e; try reflexivity. destruct (N m). reflexivity. Qed.
Definition dinv (s : ff) (w : list (Z * Z)) : Prop := forall x, In x (ff_ongoingDest s) <-> In x w.
Lemma dstep_quiet s s' w e o g b : dinv s w -> ff_ongoingDest s' = ff_ongoingDest s -> (forall m, e <> F_destReturn m) -> destStarted (ff_owner s) e o = [] -> Forall nonBlock o -> b = hasAny (ff_ongoingDest s) g ->
  dinv s' (destStep (ff_owner s) w (e, o)) /\ fold_left (heldStep g) o b = hasAny (ff_ongoingDest s') g.
Proof. intros D A N E Q ->. split; [|rewrite A; apply nonBlock_held, Q]. unfold destStep. cbn [fst snd]. rewrite E, app_nil_r, keep_dest by exact N. unfold dinv. rewrite A. exact D. Qed.
(** what a step that does not concern the receiving side does *)
Lemma source_step s e s' o (w : list (Z * Z * Z)) : inv s (map fst w) -> (forall x, In x (ff_returns s) -> ff_minReturn s <= snd x) -> (forall h m, e <> F_arrive h m) -> (forall m, e <> F_destReturn m) -> fstep s e = Some (s', o) ->
  ff_ongoingDest s' = ff_ongoingDest s /\ Forall nonBlock o /\ fold_left announceStep o (ff_minReturn s) = ff_minReturn s' /\ (forall x, In x (ff_returns s') -> ff_minReturn s' <= snd x).
Proof.
  intros I L N1 N2 E. destruct e as [h m|m|h m|m|m|h c]; cbn [fstep] in E; try (now destruct (N1 h m)); try (now destruct (N2 m)).
  - set (m0 := set_m_action CMD_SEND_MESSAGE m) in E. assert (A0 : m_action m0 = CMD_SEND_MESSAGE) by reflexivity. clearbody m0. unfold sendMessage in E.
    destruct (ff_owner s h) as [g|]; [|injection E as <- <-; repeat split; auto; repeat constructor].
    destruct (processLoop _ _ _ _ m0) as [[[m1 [|]] o1]|] eqn:P; [| |discriminate].
    + destruct (processLoop_spec _ _ _ _ _ _ _ _ A0 P) as [C _]. set (tm := m_actionTime _) in E.
      pose proof (marker_inv s (map fst w) g tm I) as M. pose proof (marker_out (setCounter s (ff_counter s + 1)) g (ff_counter s) tm) as K.
      destruct (generateProcessMarker _ _ _ _) as [s2 o2]. destruct M as (_ & _ & _ & M4 & _ & _), K as (K1 & K2 & K3 & K4). injection E as <- <-. cbn [ff_minReturn ff_returns setCounter withTracking] in *.
      split; [exact M4|]. split; [apply Forall_app; split; [apply dull_nonBlock, copies_dull, C|apply Forall_app; split; [exact K1|repeat constructor]]|].
      rewrite !fold_left_app, (dull_announced _ o1 (copies_dull _ C)), K2. split; [reflexivity|]. intros x H. rewrite K3 in H. apply in_app_iff in H. rewrite K4. destruct H as [H|[<-|[]]]; [specialize (L x H); lia|cbn; lia].
    + destruct (processLoop_spec _ _ _ _ _ _ _ _ A0 P) as [C _]. injection E as <- <-. split; [reflexivity|]. split; [apply Forall_app; split; [apply dull_nonBlock, copies_dull, C|repeat constructor]|].
      rewrite fold_left_app, (dull_announced _ o1 (copies_dull _ C)). split; [reflexivity|exact L].
  - unfold filterReturn in E. destruct (ff_owner s (m_dest_handle m)) as [g|]; [|injection E as <- <-; repeat split; auto].
    destruct (existsb (pairEqb (g, m_sequenceID m)) (ff_ongoing s)) eqn:IN; [|injection E as <- <-; repeat split; auto]. apply mem_iff in IN.
    destruct (m_action m =? CMD_NULL_MESSAGE).
    + pose proof (accept_inv s (map fst w) g (m_sequenceID m) I IN) as M. pose proof (accept_out s g (m_sequenceID m) L) as K. destruct (acceptProcessReturn s g (m_sequenceID m)) as [s2 o2]. injection E as <- <-.
      destruct M as (_ & _ & M3 & _), K as (K1 & K2 & K3 & _). auto.
    + set (ii := S (Z.to_nat (m_counter m))) in E. destruct (returnLoop _ _ ii _ _) as [[[m1 b1] o1]|] eqn:P; [|discriminate].
      destruct (returnLoop_spec _ _ _ _ _ _ _ _ (eq_refl : m_action (set_m_action CMD_SEND_MESSAGE m) = CMD_SEND_MESSAGE) P) as [C _]. apply copies_dull in C.
      assert (FIN : forall (b : bool) mm, Forall dull (if b then [] else [O_main mm])) by (intros [|] mm; repeat constructor).
      destruct b1.
      * set (tm := m_actionTime _) in E. pose proof (marker_inv s (map fst w) g tm I) as M. pose proof (marker_out (setCounter s (ff_counter s + 1)) g (ff_counter s) tm) as K.
        destruct (generateProcessMarker _ _ _ _) as [s2 o2]. destruct M as (M1 & _ & _ & M4 & _ & _), K as (K1 & K2 & K3 & K4). cbn [ff_minReturn ff_returns setCounter withTracking] in *.
        assert (IN2 : In (g, m_sequenceID m) (ff_ongoing s2)) by (apply (i_on _ _ M1), in_app_iff; left; apply (i_on _ _ I); exact IN).
        assert (L2 : forall x, In x (ff_returns s2) -> ff_minReturn s2 <= snd x) by (intros x H; rewrite K3 in H; apply in_app_iff in H; rewrite K4; destruct H as [H|[<-|[]]]; [specialize (L x H); lia|cbn; lia]).
        pose proof (accept_inv s2 _ g (m_sequenceID m) M1 IN2) as A. pose proof (accept_out s2 g (m_sequenceID m) L2) as B. destruct (acceptProcessReturn s2 g (m_sequenceID m)) as [s3 o3]. injection E as <- <-.
        destruct A as (_ & _ & A3 & _), B as (B1 & B2 & B3 & _). split; [congruence|]. split; [apply Forall_app; split; [apply dull_nonBlock, C|apply Forall_app; split; [exact K1|apply Forall_app; split; [exact B1|apply dull_nonBlock, FIN]]]|].
        rewrite !fold_left_app, (dull_announced _ o1 C), K2, B2, (dull_announced _ _ (FIN _ _)). auto.
      * pose proof (accept_inv s (map fst w) g (m_sequenceID m) I IN) as A. pose proof (accept_out s g (m_sequenceID m) L) as B. destruct (acceptProcessReturn s g (m_sequenceID m)) as [s3 o3]. injection E as <- <-.
        destruct A as (_ & _ & A3 & _), B as (B1 & B2 & B3 & _). split; [exact A3|]. split; [apply Forall_app; split; [apply dull_nonBlock, C|apply Forall_app; split; [exact B1|apply dull_nonBlock, FIN]]|].
        cbn [app]. rewrite !fold_left_app, (dull_announced _ o1 C), B2, (dull_announced _ _ (FIN _ _)). auto.
  - injection E as E. unfold timingCommand in E. destruct (hasTimeBlock _ _); injection E as <- <-; repeat split; auto; repeat constructor.
  - injection E as <- <-. repeat split; auto.
Qed.
Lemma insert_any l g p f : hasAny (insertP l g p) f = hasAny l f || (f =? g).
Proof.
  apply eq_true_iff_eq. rewrite orb_true_iff, !hasAny_iff, Z.eqb_eq. split.
  - intros [q H]. apply insertP_in in H. destruct H as [H|H]; [left; eauto|right; congruence].
  - intros [[q H]| ->]; [exists q; apply insertP_in; auto|exists p; apply insertP_in; auto].
Qed.
Lemma erase_any l g p f : f <> g -> hasAny (eraseP l g p) f = hasAny l f.
Proof. intros N. apply eq_true_iff_eq. rewrite !hasAny_iff. split; intros [q H]; exists q; [apply eraseP_in in H; tauto|apply eraseP_in; split; [exact H|congruence]]. Qed.
Lemma destMarker_out s g p t f : let '(s', o) := generateDestProcessMarker s g p t in
  fold_left (heldStep f) o (hasAny (ff_ongoingDest s) f) = hasAny (insertP (ff_ongoingDest s) g p) f /\ fold_left announceStep o (ff_minReturn s) = ff_minReturn s' /\
  ((forall x, In x (ff_returns s) -> ff_minReturn s <= snd x) -> forall x, In x (ff_returns s') -> ff_minReturn s' <= snd x) /\ flat_map destAsks o = [].
Proof.
  unfold generateDestProcessMarker. set (s1 := withTracking s _ _ _ _ _ _ _). pose proof (addTimeReturn_out s1 p t) as A. pose proof (addTimeReturn_frame s1 p t) as F. unfold addTimeReturn in *.
  cbn [ff_minReturn ff_returns s1 withTracking] in *. destruct A as (A1 & A2 & A3 & A4). rewrite !fold_left_app, (nonBlock_held f _ _ A1). split; [|split; [|split]].
  - rewrite insert_any. destruct (hasAny (ff_ongoingDest s) g) eqn:H; cbn.
    + destruct (Z.eqb_spec f g); [subst; rewrite H; reflexivity|now rewrite orb_false_r].
    + rewrite (Z.eqb_sym g f). destruct (f =? g); [now rewrite orb_true_r|now rewrite orb_false_r].
  - destruct (hasAny _ _); exact A2.
  - intros L x H. destruct (Z.ltb_spec t (ff_minReturn s)); apply in_app_iff in H; (destruct H as [H|[<-|[]]]; [specialize (L x H); cbn; lia|cbn; lia]).
  - rewrite flat_map_app. destruct (hasAny _ _), (_ <? _); reflexivity.
Qed.
Lemma destAccept_out s g p f : (forall x, In x (ff_returns s) -> ff_minReturn s <= snd x) -> (exists q, In (g, q) (ff_ongoingDest s)) -> let '(s', o) := acceptDestProcessReturn s g p in
  fold_left (heldStep f) o (hasAny (ff_ongoingDest s) f) = hasAny (eraseP (ff_ongoingDest s) g p) f /\ fold_left announceStep o (ff_minReturn s) = ff_minReturn s' /\ (forall x, In x (ff_returns s') -> ff_minReturn s' <= snd x).
Proof.
  intros L HG. unfold acceptDestProcessReturn. set (s1 := withTracking s _ _ _ _ _ _ _). pose proof (clearTimeReturn_out s1 p L) as A. destruct (clearTimeReturn s1 p) as [s2 o2]. destruct A as (A1 & A2 & A3 & A4).
  cbn [ff_ongoingDest ff_minReturn s1 withTracking] in *. rewrite !fold_left_app, (nonBlock_held f _ _ A1). split; [|split; [destruct (hasAny _ _); exact A2|exact A3]].
  destruct (Z.eqb_spec g f) as [->|N].
  - apply hasAny_iff in HG. destruct (hasAny (eraseP _ _ _) f); cbn; [exact HG|rewrite Z.eqb_refl; reflexivity].
  - rewrite (erase_any (ff_ongoingDest s) g p f) by congruence. destruct (hasAny (eraseP _ _ _) g); cbn; [reflexivity|]. destruct (Z.eqb_spec g f); [contradiction|reflexivity].
Qed.
Lemma full_step s e s' o (w : list (Z * Z * Z)) dw : inv s (map fst w) -> dinv s dw -> (forall x, In x (ff_returns s) -> ff_minReturn s <= snd x) -> fstep s e = Some (s', o) ->
  dinv s' (destStep (ff_owner s) dw (e, o)) /\ (forall g, fold_left (heldStep g) o (hasAny (ff_ongoingDest s) g) = hasAny (ff_ongoingDest s') g) /\
  fold_left announceStep o (ff_minReturn s) = ff_minReturn s' /\ (forall x, In x (ff_returns s') -> ff_minReturn s' <= snd x).
Proof.
  intros I D L E.
  assert (SRC : (forall h m, e <> F_arrive h m) -> (forall m, e <> F_destReturn m) -> destStarted (ff_owner s) e o = [] ->
    dinv s' (destStep (ff_owner s) dw (e, o)) /\ (forall g, fold_left (heldStep g) o (hasAny (ff_ongoingDest s) g) = hasAny (ff_ongoingDest s') g) /\ fold_left announceStep o (ff_minReturn s) = ff_minReturn s' /\ (forall x, In x (ff_returns s') -> ff_minReturn s' <= snd x)).
  { intros N1 N2 NS. destruct (source_step _ _ _ _ _ I L N1 N2 E) as (A & B & C & F).
    split; [apply (dstep_quiet s s' dw e o 0 _ D A N2 NS B eq_refl)|]. split; [intros g; apply (dstep_quiet s s' dw e o g _ D A N2 NS B eq_refl)|auto]. }
  destruct e as [h m|m|h m|m|m|h c]; try (apply SRC; (discriminate || reflexivity)).
  - clear SRC. cbn [fstep] in E. unfold destArrive in E.
    assert (SAME : s' = s -> Forall dull o -> flat_map destAsks o = [] ->
      dinv s' (destStep (ff_owner s) dw (F_arrive h m, o)) /\ (forall g, fold_left (heldStep g) o (hasAny (ff_ongoingDest s) g) = hasAny (ff_ongoingDest s') g) /\ fold_left announceStep o (ff_minReturn s) = ff_minReturn s' /\ (forall x, In x (ff_returns s') -> ff_minReturn s' <= snd x)).
    { intros -> Q A. assert (NS : destStarted (ff_owner s) (F_arrive h m) o = []) by (cbn; rewrite A; destruct (ff_owner s h); reflexivity).
      split; [apply (dstep_quiet s s dw (F_arrive h m) o 0 _ D eq_refl ltac:(discriminate) NS (dull_nonBlock _ Q) eq_refl)|]. split; [intros g; apply dull_held, Q|]. split; [apply dull_announced, Q|exact L]. }
    destruct (ff_owner s h) as [g|] eqn:OW; [|injection E as <- <-; apply SAME; auto].
    assert (GO : forall m', Some (s, runClones s h m' ++ [O_arrive (if m_dest_id m' =? parent_broker_id then withDestination m' g h else m')]) = Some (s', o) ->
      dinv s' (destStep (ff_owner s) dw (F_arrive h m, o)) /\ (forall g, fold_left (heldStep g) o (hasAny (ff_ongoingDest s) g) = hasAny (ff_ongoingDest s') g) /\ fold_left announceStep o (ff_minReturn s) = ff_minReturn s' /\ (forall x, In x (ff_returns s') -> ff_minReturn s' <= snd x)).
    { intros m' X. injection X as <- <-. apply SAME; [reflexivity|apply Forall_app; split; [apply copies_dull, runClones_copies|repeat constructor]|]. rewrite flat_map_app, runClones_noask. reflexivity. }
    destruct (ch_dest (ff_chains s h)) as [f|]; [|apply (GO m E)]. destruct (fi_closed f); [apply (GO m E)|]. destruct (negb _).
    + set (mid := ff_counter s + 1) in E. pose proof (destMarker_frame (setCounter s mid) g mid (m_actionTime m)) as F. pose proof (destMarker_out (setCounter s mid) g mid (m_actionTime m)) as K.
      destruct (generateDestProcessMarker _ _ _ _) as [s2 o2]. injection E as <- <-. destruct F as (_ & _ & B2 & _). cbn [ff_ongoingDest ff_minReturn ff_returns setCounter withTracking] in *.
      split; [|split; [|split]].
      * unfold destStep. cbn [fst snd]. rewrite keep_dest by discriminate. unfold destStarted. rewrite OW, flat_map_app. destruct (K 0) as (_ & _ & _ & K4). rewrite K4.
        intros x. rewrite B2, insertP_in, in_app_iff, (D x). cbn. intuition.
      * intros f0. rewrite fold_left_app, B2. destruct (K f0) as (K1 & _). rewrite K1. reflexivity.
      * destruct (K 0) as (_ & K2 & _). rewrite fold_left_app, K2. reflexivity.
      * destruct (K 0) as (_ & _ & K3 & _). apply K3, L.
    + destruct (fi_op f) as [op|]; [|apply (GO m E)]. destruct (op_process op (messageOf m)) as [g'|]; [|discriminate]. destruct (beq _ _); [apply (GO _ E)|].
      injection E as <- <-. apply SAME; [reflexivity|repeat constructor|reflexivity].
  - clear SRC. cbn [fstep] in E. unfold destReturn in E.
    assert (SAME : s' = s -> o = [] -> (forall g, ff_owner s (m_dest_handle m) = Some g -> ~ In (g, m_sequenceID m) dw) ->
      dinv s' (destStep (ff_owner s) dw (F_destReturn m, o)) /\ (forall g, fold_left (heldStep g) o (hasAny (ff_ongoingDest s) g) = hasAny (ff_ongoingDest s') g) /\ fold_left announceStep o (ff_minReturn s) = ff_minReturn s' /\ (forall x, In x (ff_returns s') -> ff_minReturn s' <= snd x)).
    { intros -> -> A. split; [|split; [reflexivity|split; [reflexivity|exact L]]]. unfold destStep. cbn [fst snd destStarted]. rewrite app_nil_r. intros x. rewrite (D x), filter_In. split; [|tauto].
      intros H. split; [exact H|]. cbn. destruct (ff_owner s (m_dest_handle m)) as [g|]; [|reflexivity]. destruct (pairEqb _ x) eqn:P; [|reflexivity]. apply pairEqb_eq in P. subst x. destruct (A g eq_refl H). }
    destruct (ff_owner s (m_dest_handle m)) as [g|] eqn:OW; [|injection E as <- <-; apply SAME; auto; discriminate].
    destruct (existsb (pairEqb (g, m_sequenceID m)) (ff_ongoingDest s)) eqn:IN.
    + apply mem_iff in IN. pose proof (destAccept_frame s g (m_sequenceID m)) as F. pose proof (fun f => destAccept_out s g (m_sequenceID m) f L (ex_intro (fun q => In (g, q) (ff_ongoingDest s)) _ IN)) as K. destruct (acceptDestProcessReturn s g (m_sequenceID m)) as [s2 o2].
      destruct F as (_ & _ & B2 & _).
      assert (S2 : s' = s2) by (destruct (_ =? _); injection E as <- <-; reflexivity). subst s'.
      assert (HO : exists pre, Forall dull pre /\ o = pre ++ o2).
      { destruct (_ =? _); injection E as <-; [exists []; split; [constructor|reflexivity]|]. exists (runClones s (m_dest_handle m) m ++ [O_send (set_m_action CMD_SEND_MESSAGE m)]). split; [apply Forall_app; split; [apply copies_dull, runClones_copies|repeat constructor]|].
        now rewrite <- app_assoc. }
      destruct HO as (pre & Q & ->). split; [|split; [|split]].
      * unfold destStep. cbn [fst snd destStarted]. rewrite app_nil_r. intros x. rewrite B2, eraseP_in, filter_In, (D x). cbn. rewrite OW, negb_true_iff. split; intros [H N]; (split; [exact H|]).
        -- destruct (pairEqb _ x) eqn:P; [apply pairEqb_eq in P; congruence|reflexivity].
        -- intros ->. rewrite (proj2 (pairEqb_eq _ _) eq_refl) in N. discriminate.
      * intros f. destruct (K f) as (K1 & _). rewrite fold_left_app, (dull_held f _ pre Q), B2. exact K1.
      * destruct (K 0) as (_ & K2 & _). rewrite fold_left_app, (dull_announced _ pre Q). exact K2.
      * destruct (K 0) as (_ & _ & K3). exact K3.
    + injection E as <- <-. apply SAME; auto. intros g0 [= <-] H. apply D, mem_iff in H. congruence.
Qed.
Lemma full_run owner : forall es s s' t (w : list (Z * Z * Z)) dw, inv s (map fst w) -> dinv s dw -> (forall x, In x (ff_returns s) -> ff_minReturn s <= snd x) -> ff_owner s = owner -> frun s es = Some (s', t) ->
  dinv s' (fold_left (destStep owner) t dw) /\ (forall g, fold_left (heldStep g) (flat_map snd t) (hasAny (ff_ongoingDest s) g) = hasAny (ff_ongoingDest s') g) /\
  fold_left announceStep (flat_map snd t) (ff_minReturn s) = ff_minReturn s' /\ (forall x, In x (ff_returns s') -> ff_minReturn s' <= snd x).
Proof.
  induction es as [|e es IH]; intros s s' t w dw I D L O E; cbn [frun] in E.
  - injection E as <- <-. cbn. auto.
  - destruct (fstep s e) as [[s1 o1]|] eqn:S1; [|discriminate]. destruct (frun s1 es) as [[s2 t2]|] eqn:R; [|discriminate]. injection E as <- <-.
    destruct (fstep_inv _ _ _ _ _ I S1) as (I1 & O1 & _). destruct (full_step _ _ _ _ _ _ I D L S1) as (D1 & H1 & A1 & L1). rewrite O in *.
    destruct (IH _ _ _ _ _ I1 D1 L1 O1 R) as (D2 & H2 & A2 & L2). cbn [fold_left flat_map fst snd]. split; [exact D2|]. rewrite fold_left_app, A1. split; [|split; [exact A2|exact L2]].
    intros g. rewrite fold_left_app, H1. apply H2.
Qed.
(** a receiving federate is held back exactly while one of its messages is with a destination filter elsewhere *)
Theorem C36_receivers_wait_for_destination_filters id owner key es s t g : frun (ff_init id owner key) es = Some (s, t) ->
  (heldBack g t = true <-> exists pid, In (g, pid) (destOutstanding owner t)).
Proof.
  intros R. assert (DI : dinv (ff_init id owner key) []) by (intros x; reflexivity).
  destruct (full_run owner _ _ _ _ [] [] (init_inv36 id owner key) DI ltac:(intros x []) eq_refl R) as (D & H & _). specialize (H g). unfold heldBack. cbn [ff_ongoingDest ff_init hasAny existsb] in H. rewrite H, hasAny_iff.
  split; intros [p X]; exists p; apply D; exact X.
Qed.

(** ** C36: the announced time *)
Definition attained (s : ff) : Prop := cBigTime <= ff_minReturn s \/ exists p, In (p, ff_minReturn s) (ff_returns s).
Definition settle (mid : Z) (l : list (Z * Z)) : list (Z * Z) := match l with [] => [] | x :: r => if fst x =? mid then r else x :: r end.
Lemma low_attained r : forall a, let m := fold_left (fun a (x : Z * Z) => if snd x <? a then snd x else a) r a in m = a \/ exists p, In (p, m) r.
Proof.
  induction r as [|[p t] r IH]; intros a; cbn; [auto|]. destruct (IH (if t <? a then t else a)) as [E|[q H]]; [|right; exists q; right; exact H].
  rewrite E. destruct (t <? a); [right; exists p; left; reflexivity|left; reflexivity].
Qed.
Lemma add_attained s p t : attained s -> attained (fst (addTimeReturn s p t)).
Proof.
  unfold attained, addTimeReturn. cbn [fst ff_minReturn ff_returns withTracking]. intros H. destruct (Z.ltb_spec t (ff_minReturn s)); [right; exists p; apply in_app_iff; right; left; reflexivity|].
  destruct H as [H|[q H]]; [left; exact H|right; exists q; apply in_app_iff; left; exact H].
Qed.
Lemma clear_attained s p : attained s -> attained (fst (clearTimeReturn s p)) /\ ff_returns (fst (clearTimeReturn s p)) = settle p (ff_returns s).
Proof.
  unfold attained, clearTimeReturn. destruct (ff_returns s) as [|[q t] r] eqn:R; intros H; cbn [fst settle]; [rewrite R; auto|]. destruct (Z.eqb_spec q p) as [->|N]; cbn [fst]; [|rewrite R; auto].
  cbn [ff_minReturn ff_returns withTracking]. split; [|reflexivity]. destruct (Z.eqb_spec t (ff_minReturn s)) as [E|E].
  - pose proof (low_attained r cBigTime) as A. cbn in A. destruct A as [A|A]; [left; lia|right; exact A].
  - destruct H as [H|[q H]]; [left; exact H|]. destruct H as [H|H]; [exfalso; injection H as _ H; contradiction|right; exists q; exact H].
Qed.
Lemma marker_attained s g p t : attained s -> attained (fst (generateProcessMarker s g p t)).
Proof. intros H. unfold generateProcessMarker. apply add_attained. destruct (hasAny _ _); exact H. Qed.
Lemma accept_attained s g p : attained s -> attained (fst (acceptProcessReturn s g p)) /\ ff_returns (fst (acceptProcessReturn s g p)) = settle p (ff_returns s).
Proof.
  intros H. unfold acceptProcessReturn. set (s1 := withTracking s _ _ _ _ _ _ _).
  assert (A : exists o1, (if hasAny (ff_ongoing s1) g then (s1, []) else coreUnblock s1 g) = (if hasAny (ff_ongoing s1) g then s1 else fst (coreUnblock s1 g), o1)) by (destruct (hasAny _ _); eexists; [reflexivity|apply surjective_pairing]).
  destruct A as [o1 ->]. set (s2 := if hasAny (ff_ongoing s1) g then s1 else fst (coreUnblock s1 g)).
  assert (B : ff_minReturn s2 = ff_minReturn s /\ ff_returns s2 = ff_returns s) by (unfold s2; destruct (hasAny _ _); split; reflexivity). destruct B as [B1 B2].
  assert (H2 : attained s2) by (unfold attained; rewrite B1, B2; exact H). clearbody s2. pose proof (clear_attained s2 p H2) as C. destruct (clearTimeReturn s2 p) as [s3 o2]. cbn [fst] in *. rewrite B2 in C. exact C.
Qed.
(** what a step of a history without destination filters elsewhere does to the list of awaited times *)
Lemma returns_step s e s' o (w : list (Z * Z * Z)) : inv s (map fst w) -> attained s -> ff_ongoingDest s = [] -> destStarted (ff_owner s) e o = [] -> fstep s e = Some (s', o) ->
  ff_ongoingDest s' = [] /\ attained s' /\
  let l := ff_returns s ++ map (fun x => (snd (fst x), snd x)) (started (ff_owner s) e o) in
  ff_returns s' = match e with F_return m => match ff_owner s (m_dest_handle m) with Some g => if existsb (pairEqb (g, m_sequenceID m)) (map fst w) then settle (m_sequenceID m) l else l | None => l end | _ => l end.
Proof.
  intros I A OD DS E.
  assert (MEM : forall x, existsb (pairEqb x) (ff_ongoing s) = existsb (pairEqb x) (map fst w)) by (intros x; apply eq_true_iff_eq; rewrite !mem_iff; apply (i_on _ _ I)).
  assert (SAME : forall l, s' = s -> l = [] -> ff_ongoingDest s' = [] /\ attained s' /\ ff_returns s' = ff_returns s ++ map (fun x : Z * Z * Z => (snd (fst x), snd x)) l) by (intros l -> ->; cbn; rewrite app_nil_r; auto).
  destruct e as [h m|m|h m|m|m|h c]; cbn [fstep] in E.
  - set (m0 := set_m_action CMD_SEND_MESSAGE m) in E. assert (A0 : m_action m0 = CMD_SEND_MESSAGE) by reflexivity. clearbody m0. unfold sendMessage in E. unfold started, federateOf. cbn [endpointOf].
    destruct (ff_owner s h) as [g|]; [|injection E as <- <-; apply SAME; reflexivity].
    destruct (processLoop _ _ _ _ m0) as [[[m1 [|]] o1]|] eqn:P; [| |discriminate].
    + destruct (processLoop_spec _ _ _ _ _ _ _ _ A0 P) as [C [T _]]. specialize (T eq_refl). set (tm := m_actionTime _) in E. assert (TM : tm = m_actionTime m1) by reflexivity.
      pose proof (marker_inv s (map fst w) g tm I) as M. pose proof (marker_out (setCounter s (ff_counter s + 1)) g (ff_counter s) tm) as K. pose proof (marker_attained (setCounter s (ff_counter s + 1)) g (ff_counter s) tm A) as AT.
      destruct (generateProcessMarker _ _ _ _) as [s2 o2]. destruct M as (_ & _ & _ & M4 & _ & Q), K as (_ & _ & K3 & _). injection E as <- <-. cbn [ff_returns setCounter withTracking fst] in *.
      split; [congruence|split; [exact AT|]]. rewrite K3, !flat_asks, (quiet_asks o1), (quiet_asks o2); [|exact Q|apply copies_quiet, C].
      cbn [app flat_map asks m_action set_m_sequenceID]. rewrite T. cbn; rewrite ?TM; reflexivity.
    + destruct (processLoop_spec _ _ _ _ _ _ _ _ A0 P) as [C [_ T]]. injection E as <- <-. apply SAME; [reflexivity|]. rewrite flat_asks, (quiet_asks o1) by (apply copies_quiet, C). cbn [flat_map asks app].
      destruct (Z.eqb_spec (m_action m1) CMD_SEND_FOR_FILTER_AND_RETURN) as [X|X]; [specialize (T X); discriminate|reflexivity].
  - unfold filterReturn in E. unfold started, federateOf. cbn [endpointOf]. destruct (ff_owner s (m_dest_handle m)) as [g|]; [|injection E as <- <-; apply SAME; reflexivity].
    rewrite MEM in E. destruct (existsb (pairEqb (g, m_sequenceID m)) (map fst w)) eqn:IN; [|injection E as <- <-; apply SAME; reflexivity].
    rewrite <- MEM in IN. apply mem_iff in IN. destruct (m_action m =? CMD_NULL_MESSAGE).
    + pose proof (accept_inv s (map fst w) g (m_sequenceID m) I IN) as M. pose proof (accept_attained s g (m_sequenceID m) A) as K. destruct (acceptProcessReturn s g (m_sequenceID m)) as [s2 o2]. injection E as <- <-.
      destruct M as (_ & _ & M3 & _ & M5 & _), K as (K1 & K2). cbn [fst] in *. rewrite notMain_asks by exact M5. cbn [map]. rewrite app_nil_r. split; [congruence|split; assumption].
    + set (ii := S (Z.to_nat (m_counter m))) in E. destruct (returnLoop _ _ ii _ _) as [[[m1 b1] o1]|] eqn:P; [|discriminate].
      destruct (returnLoop_spec _ _ _ _ _ _ _ _ (eq_refl : m_action (set_m_action CMD_SEND_MESSAGE m) = CMD_SEND_MESSAGE) P) as [C T]. destruct b1.
      * apply proj1 in T. specialize (T eq_refl). set (tm := m_actionTime _) in E. assert (TM : tm = m_actionTime m1) by reflexivity.
        pose proof (marker_inv s (map fst w) g tm I) as M. pose proof (marker_out (setCounter s (ff_counter s + 1)) g (ff_counter s) tm) as K. pose proof (marker_attained (setCounter s (ff_counter s + 1)) g (ff_counter s) tm A) as AT.
        destruct (generateProcessMarker _ _ _ _) as [s2 o2]. destruct M as (M1 & _ & _ & M4 & _ & Q), K as (_ & _ & K3 & _). cbn [ff_returns setCounter withTracking fst] in *.
        assert (IN2 : In (g, m_sequenceID m) (ff_ongoing s2)) by (apply (i_on _ _ M1), in_app_iff; left; apply (i_on _ _ I); exact IN).
        pose proof (accept_inv s2 _ g (m_sequenceID m) M1 IN2) as B. pose proof (accept_attained s2 g (m_sequenceID m) AT) as D. destruct (acceptProcessReturn s2 g (m_sequenceID m)) as [s3 o3]. destruct B as (_ & _ & B3 & _ & B5 & _), D as (D1 & D2). cbn [fst] in *.
        cbn [withSource m_action set_m_source_handle set_m_source_id set_m_sequenceID] in E. rewrite T in E. replace (CMD_SEND_FOR_FILTER_AND_RETURN =? CMD_IGNORE) with false in E by reflexivity. injection E as <- <-.
        split; [congruence|split; [exact D1|]]. rewrite D2, K3, !flat_asks, (quiet_asks o1), (quiet_asks o2), (notMain_asks o3); [|exact B5|exact Q|apply copies_quiet, C].
        cbn [app flat_map asks m_action withSource set_m_source_handle set_m_source_id set_m_sequenceID]. rewrite T. cbn; rewrite ?TM; reflexivity.
      * pose proof (accept_inv s (map fst w) g (m_sequenceID m) I IN) as M. pose proof (accept_attained s g (m_sequenceID m) A) as K. destruct (acceptProcessReturn s g (m_sequenceID m)) as [s2 o2]. injection E as <- <-.
        destruct M as (_ & _ & M3 & _ & M5 & _), K as (K1 & K2). cbn [fst] in *. rewrite !flat_asks, (quiet_asks o1), (notMain_asks o2); [|exact M5|apply copies_quiet, C].
        assert (Z0 : flat_map asks (if m_action m1 =? CMD_IGNORE then [] else [O_main m1]) = []).
        { destruct (m_action m1 =? CMD_IGNORE); [reflexivity|]. cbn [flat_map asks app]. destruct (Z.eqb_spec (m_action m1) CMD_SEND_FOR_FILTER_AND_RETURN) as [X|X]; [|reflexivity]. apply T in X. discriminate. }
        rewrite Z0. cbn [app flat_map map]. rewrite app_nil_r. split; [congruence|split; assumption].
  - unfold destArrive in E. cbn [destStarted] in DS.
    assert (NOASK : forall os s1, Forall quiet os -> s1 = s -> Some (s1, os) = Some (s', o) -> ff_ongoingDest s' = [] /\ attained s' /\ ff_returns s' = ff_returns s ++ map (fun x : Z * Z * Z => (snd (fst x), snd x)) (started (ff_owner s) (F_arrive h m) o)).
    { intros os s1 Q -> X. injection X as <- <-. apply SAME; [reflexivity|]. unfold started. rewrite (quiet_asks os Q). destruct (federateOf _ _); reflexivity. }
    destruct (ff_owner s h) as [g|]; [|apply (NOASK _ _ (Forall_nil _) eq_refl E)].
    assert (QC : forall m', Forall quiet (runClones s h m' ++ [O_arrive (if m_dest_id m' =? parent_broker_id then withDestination m' g h else m')])) by (intros m'; apply Forall_app; split; [apply copies_quiet, runClones_copies|repeat constructor]).
    destruct (ch_dest (ff_chains s h)) as [f|]; [|apply (NOASK _ _ (QC m) eq_refl E)]. destruct (fi_closed f); [apply (NOASK _ _ (QC m) eq_refl E)|]. destruct (negb _).
    + exfalso. destruct (generateDestProcessMarker _ _ _ _) as [s2 o2]. injection E as <- <-. rewrite flat_map_app, map_app in DS. apply app_eq_nil in DS. destruct DS as [_ DS]. discriminate.
    + destruct (fi_op f) as [op|]; [|apply (NOASK _ _ (QC m) eq_refl E)]. destruct (op_process op (messageOf m)) as [g'|]; [|discriminate]. destruct (beq _ _); [apply (NOASK _ _ (QC _) eq_refl E)|].
      apply (NOASK [O_deliver (assignMessage g' m)] s); [repeat constructor|reflexivity|exact E].
  - unfold destReturn in E. rewrite OD in E. cbn [existsb] in E.
    assert (X : s' = s /\ o = []) by (destruct (ff_owner s (m_dest_handle m)); injection E as <- <-; auto). destruct X as [-> ->]. apply SAME; [reflexivity|]. unfold started. destruct (federateOf _ _); reflexivity.
  - injection E as E. unfold timingCommand in E. unfold started. cbn [federateOf endpointOf]. destruct (hasTimeBlock _ _); injection E as <- <-; [cbn; rewrite app_nil_r; auto|apply SAME; reflexivity].
  - injection E as <- <-. cbn [started]. unfold started. cbn [flat_map map]. destruct (federateOf _ _); cbn; rewrite app_nil_r; auto.
Qed.
(** a process that starts has a number not used before *)
Lemma started_fresh s e s' o (w : list (Z * Z * Z)) : inv s (map fst w) -> fstep s e = Some (s', o) ->
  started (ff_owner s) e o = [] \/ exists g tm, started (ff_owner s) e o = [(g, ff_counter s, tm)].
Proof.
  intros I E. assert (NO : flat_map asks o = [] -> started (ff_owner s) e o = [] \/ exists g tm, started (ff_owner s) e o = [(g, ff_counter s, tm)]) by (intros A; left; unfold started; rewrite A; destruct (federateOf _ _); reflexivity).
  destruct e as [h m|m|h m|m|m|h c]; cbn [fstep] in E.
  - set (m0 := set_m_action CMD_SEND_MESSAGE m) in E. assert (A0 : m_action m0 = CMD_SEND_MESSAGE) by reflexivity. clearbody m0. unfold sendMessage in E.
    destruct (ff_owner s h) as [g|] eqn:OW; [|left; unfold started, federateOf; cbn [endpointOf]; rewrite OW; reflexivity].
    destruct (processLoop _ _ _ _ m0) as [[[m1 [|]] o1]|] eqn:P; [| |discriminate].
    + destruct (processLoop_spec _ _ _ _ _ _ _ _ A0 P) as [C [T _]]. specialize (T eq_refl). set (tm := m_actionTime _) in E.
      pose proof (marker_inv s (map fst w) g tm I) as M. destruct (generateProcessMarker _ _ _ _) as [s2 o2]. destruct M as (_ & _ & _ & _ & _ & Q). injection E as <- <-.
      right. exists g, (m_actionTime m1). unfold started, federateOf. cbn [endpointOf]. rewrite OW, !flat_asks, (quiet_asks o1), (quiet_asks o2); [|exact Q|apply copies_quiet, C].
      cbn [app flat_map asks m_action set_m_sequenceID]. rewrite T. reflexivity.
    + destruct (processLoop_spec _ _ _ _ _ _ _ _ A0 P) as [C [_ T]]. injection E as <- <-. apply NO. rewrite flat_asks, (quiet_asks o1) by (apply copies_quiet, C). cbn [flat_map asks app].
      destruct (Z.eqb_spec (m_action m1) CMD_SEND_FOR_FILTER_AND_RETURN) as [X|X]; [specialize (T X); discriminate|reflexivity].
  - unfold filterReturn in E. destruct (ff_owner s (m_dest_handle m)) as [g|] eqn:OW; [|injection E as <- <-; auto].
    destruct (existsb (pairEqb (g, m_sequenceID m)) (ff_ongoing s)) eqn:IN; [|injection E as <- <-; auto]. apply mem_iff in IN. destruct (m_action m =? CMD_NULL_MESSAGE).
    + pose proof (accept_inv s (map fst w) g (m_sequenceID m) I IN) as M. destruct (acceptProcessReturn s g (m_sequenceID m)) as [s2 o2]. injection E as <- <-.
      destruct M as (_ & _ & M3 & _ & M5 & _). apply NO, notMain_asks, M5.
    + set (ii := S (Z.to_nat (m_counter m))) in E. destruct (returnLoop _ _ ii _ _) as [[[m1 b1] o1]|] eqn:P; [|discriminate].
      destruct (returnLoop_spec _ _ _ _ _ _ _ _ (eq_refl : m_action (set_m_action CMD_SEND_MESSAGE m) = CMD_SEND_MESSAGE) P) as [C T]. destruct b1.
      * apply proj1 in T. specialize (T eq_refl). set (tm := m_actionTime _) in E.
        pose proof (marker_inv s (map fst w) g tm I) as M. destruct (generateProcessMarker _ _ _ _) as [s2 o2]. destruct M as (M1 & _ & _ & M4 & _ & Q).
        assert (IN2 : In (g, m_sequenceID m) (ff_ongoing s2)) by (apply (i_on _ _ M1), in_app_iff; left; apply (i_on _ _ I); exact IN).
        pose proof (accept_inv s2 _ g (m_sequenceID m) M1 IN2) as B. destruct (acceptProcessReturn s2 g (m_sequenceID m)) as [s3 o3]. destruct B as (_ & _ & B3 & _ & B5 & _).
        cbn [withSource m_action set_m_source_handle set_m_source_id set_m_sequenceID] in E. rewrite T in E. replace (CMD_SEND_FOR_FILTER_AND_RETURN =? CMD_IGNORE) with false in E by reflexivity. injection E as <- <-.
        right. exists g, (m_actionTime m1). unfold started, federateOf. cbn [endpointOf]. rewrite OW, !flat_asks, (quiet_asks o1), (quiet_asks o2), (notMain_asks o3); [|exact B5|exact Q|apply copies_quiet, C].
        cbn [app flat_map asks m_action withSource set_m_source_handle set_m_source_id set_m_sequenceID]. rewrite T. reflexivity.
      * pose proof (accept_inv s (map fst w) g (m_sequenceID m) I IN) as M. destruct (acceptProcessReturn s g (m_sequenceID m)) as [s2 o2]. injection E as <- <-. destruct M as (_ & _ & M3 & _ & M5 & _).
        apply NO. rewrite !flat_asks, (quiet_asks o1), (notMain_asks o2); [|exact M5|apply copies_quiet, C]. cbn [app flat_map].
        destruct (m_action m1 =? CMD_IGNORE); [reflexivity|]. cbn [flat_map asks app]. destruct (Z.eqb_spec (m_action m1) CMD_SEND_FOR_FILTER_AND_RETURN) as [X|X]; [|reflexivity]. apply T in X. discriminate.
  - unfold destArrive in E. destruct (ff_owner s h) as [g|]; [|injection E as <- <-; auto].
    assert (QC : forall m', Forall quiet (runClones s h m' ++ [O_arrive (if m_dest_id m' =? parent_broker_id then withDestination m' g h else m')])) by (intros m'; apply Forall_app; split; [apply copies_quiet, runClones_copies|repeat constructor]).
    destruct (ch_dest (ff_chains s h)) as [f|]; [|injection E as <- <-; apply NO, quiet_asks, QC]. destruct (fi_closed f); [injection E as <- <-; apply NO, quiet_asks, QC|]. destruct (negb _).
    + pose proof (destMarker_frame (setCounter s (ff_counter s + 1)) g (ff_counter s + 1) (m_actionTime m)) as F. destruct (generateDestProcessMarker _ _ _ _) as [s2 o2]. destruct F as (_ & _ & _ & _ & _ & _ & Q).
      injection E as <- <-. apply NO. rewrite flat_asks, (quiet_asks o2 Q). reflexivity.
    + destruct (fi_op f) as [op|]; [|injection E as <- <-; apply NO, quiet_asks, QC]. destruct (op_process op (messageOf m)) as [g'|]; [|discriminate]. destruct (beq _ _); injection E as <- <-; apply NO; [apply quiet_asks; apply (QC (assignMessage g' m))|reflexivity].
  - left. unfold started. unfold destReturn in E. destruct (ff_owner s (m_dest_handle m)) as [g|] eqn:OW; [|injection E as <- <-; destruct (federateOf _ _); reflexivity].
    unfold federateOf. cbn [endpointOf]. rewrite OW. destruct (existsb _ _); [|injection E as <- <-; reflexivity].
    pose proof (destAccept_frame s g (m_sequenceID m)) as F. destruct (acceptDestProcessReturn s g (m_sequenceID m)) as [s2 o2]. destruct F as (_ & _ & _ & _ & _ & _ & Q).
    destruct (_ =? _); injection E as <- <-; [rewrite (quiet_asks o2 Q); reflexivity|]. rewrite flat_asks, (quiet_asks (runClones s (m_dest_handle m) m)) by (apply copies_quiet, runClones_copies). cbn [flat_map asks app]. rewrite (quiet_asks o2 Q). reflexivity.
  - left. unfold started. reflexivity.
  - injection E as <- <-. auto.
Qed.
Definition pidOf (x : Z * Z * Z) : Z := snd (fst x).
Definition entry (x : Z * Z * Z) : Z * Z := (snd (fst x), snd x).
(** the answers come back in the order of the questions *)
Definition answersFirst (owner : Z -> option Z) (w : list (Z * Z * Z)) (e : fevent) : Prop :=
  forall x, In x w -> comesBack owner e x = true -> exists r, w = x :: r.
Fixpoint inOrder (owner : Z -> option Z) (w : list (Z * Z * Z)) (t : trace) : Prop :=
  match t with [] => True | x :: r => answersFirst owner w (fst x) /\ inOrder owner (outstandingStep owner w x) r end.

Lemma pids_step s e s' o (w : list (Z * Z * Z)) : inv s (map fst w) -> NoDup (map pidOf w) -> fstep s e = Some (s', o) -> NoDup (map pidOf (outstandingStep (ff_owner s) w (e, o))).
Proof.
  intros I N E. unfold outstandingStep. cbn [fst snd].
  assert (N1 : NoDup (map pidOf (filter (fun y => negb (comesBack (ff_owner s) e y)) w))).
  { clear I E. induction w as [|y w IH]; [constructor|]. cbn in N. inversion N as [|? ? N1 N2]; subst. cbn. destruct (negb _); [|apply IH, N2]. cbn. constructor; [|apply IH, N2]. intros H. apply N1. apply in_map_iff in H. destruct H as (z & Ez & H). apply filter_In in H. apply in_map_iff. exists z. tauto. }
  destruct (started_fresh _ _ _ _ _ I E) as [-> | (g & tm & ->)]; [now rewrite app_nil_r|]. rewrite map_app. cbn [map pidOf fst snd].
  rewrite <- (rev_involutive (_ ++ [ff_counter s])). apply NoDup_rev. rewrite rev_app_distr. cbn. constructor; [|apply NoDup_rev, N1]. rewrite <- in_rev. intros H. apply in_map_iff in H. destruct H as (z & Ez & H). apply filter_In in H. destruct H as [H _].
  assert (IN : In (fst z) (ff_ongoing s)) by (apply (i_on _ _ I), in_map, H). apply (i_lt _ _ I) in IN. unfold pidOf in Ez. lia.
Qed.
Lemma same_pid (w : list (Z * Z * Z)) x y : NoDup (map pidOf w) -> In x w -> In y w -> pidOf x = pidOf y -> x = y.
Proof.
  intros N. induction w as [|z w IH]; intros A B E; [destruct A|]. cbn in N. inversion N as [|? ? N1 N2]; subst. destruct A as [A|A], B as [B|B]; subst; auto.
  - exfalso. apply N1. rewrite E. apply in_map, B.
  - exfalso. apply N1. rewrite <- E. apply in_map, A.
Qed.
Lemma holds_step s e s' o (w : list (Z * Z * Z)) : inv s (map fst w) -> NoDup (map pidOf w) -> attained s -> ff_ongoingDest s = [] -> destStarted (ff_owner s) e o = [] ->
  (forall x, In x w -> In (entry x) (ff_returns s)) -> fstep s e = Some (s', o) -> forall x, In x (outstandingStep (ff_owner s) w (e, o)) -> In (entry x) (ff_returns s').
Proof.
  intros I N A OD DS H E x X. destruct (returns_step _ _ _ _ _ I A OD DS E) as (_ & _ & R). cbv zeta in R. unfold outstandingStep in X. cbn [fst snd] in X. apply in_app_iff in X.
  set (l := ff_returns s ++ _) in R.
  assert (L : In (entry x) l). { apply in_app_iff. destruct X as [X|X]; [left; apply filter_In in X; apply H, X|right; apply in_map with (f := fun x => (snd (fst x), snd x)) in X; exact X]. }
  clearbody l. destruct e as [h m|m|h m|m|m|h c]; try (rewrite R; exact L). destruct (ff_owner s (m_dest_handle m)) as [g|] eqn:OW; [|rewrite R; exact L].
  destruct (existsb _ _) eqn:EX; [|rewrite R; exact L]. apply mem_iff, in_map_iff in EX. destruct EX as (z & Ez & Z0). rewrite R. unfold settle. destruct l as [|[p t] r]; [destruct L|]. cbn [fst].
  destruct (Z.eqb_spec p (m_sequenceID m)) as [->|NE]; [|exact L]. destruct L as [L|L]; [exfalso|exact L]. unfold entry in L. injection L as L1 L2.
  destruct X as [X|X].
  - apply filter_In in X. destruct X as [X CB]. assert (x = z) by (apply (same_pid w); auto; unfold pidOf; rewrite <- L1, Ez; reflexivity). subst z. cbn in CB. rewrite OW in CB. rewrite Ez in CB. cbn in CB. rewrite !Z.eqb_refl in CB. discriminate.
  - destruct (started_fresh _ _ _ _ _ I E) as [Q|(g' & tm & Q)]; rewrite Q in X; [destruct X|]. destruct X as [<-|[]]. cbn in L1.
    assert (IN : In (fst z) (ff_ongoing s)) by (apply (i_on _ _ I), in_map, Z0). apply (i_lt _ _ I) in IN. rewrite Ez in IN. cbn in IN. lia.
Qed.
Lemma exact_step s e s' o (w : list (Z * Z * Z)) : inv s (map fst w) -> NoDup (map pidOf w) -> attained s -> ff_ongoingDest s = [] -> destStarted (ff_owner s) e o = [] -> answersFirst (ff_owner s) w e ->
  ff_returns s = map entry w -> fstep s e = Some (s', o) -> ff_returns s' = map entry (outstandingStep (ff_owner s) w (e, o)).
Proof.
  intros I N A OD DS AF H E. destruct (returns_step _ _ _ _ _ I A OD DS E) as (_ & _ & R). cbv zeta in R. unfold outstandingStep. cbn [fst snd]. rewrite H in R.
  assert (KEEP : forall (st : list (Z * Z * Z)), (forall y, In y w -> comesBack (ff_owner s) e y = false) -> map entry (filter (fun y => negb (comesBack (ff_owner s) e y)) w ++ st) = map entry w ++ map (fun x => (snd (fst x), snd x)) st).
  { intros st K. rewrite map_app. f_equal. f_equal. clear -K. induction w as [|y w IH]; [reflexivity|]. cbn. rewrite (K y (or_introl eq_refl)). cbn. rewrite IH; [reflexivity|]. intros z Hz. apply K. right. exact Hz. }
  destruct e as [h m|m|h m|m|m|h c]; try (rewrite R, KEEP; [reflexivity|intros y _; reflexivity]).
  destruct (ff_owner s (m_dest_handle m)) as [g|] eqn:OW; [|rewrite R, KEEP; [reflexivity|intros y _; cbn; now rewrite OW]].
  destruct (existsb _ _) eqn:EX.
  - apply mem_iff, in_map_iff in EX. destruct EX as (z & Ez & Z0). destruct (AF z Z0) as [r ->]; [cbn; rewrite OW, Ez; cbn; rewrite !Z.eqb_refl; reflexivity|].
    rewrite R. cbn [map app settle fst]. unfold entry at 1 2. cbn [fst]. rewrite Ez. cbn [snd]. rewrite Z.eqb_refl. cbn [filter]. cbn [comesBack]. rewrite OW, Ez. cbn [fst snd]. rewrite !Z.eqb_refl. cbn [negb andb].
    rewrite map_app. f_equal. symmetry. f_equal. cbn in N. inversion N as [|? ? N1 N2]; subst. clear -N1 Ez OW. induction r as [|y r IH]; [reflexivity|]. cbn.
    destruct (snd (fst y) =? m_sequenceID m) eqn:Q; [exfalso; apply N1; left; unfold pidOf; rewrite Ez; apply Z.eqb_eq in Q; exact Q|]. rewrite andb_false_r. cbn. f_equal. apply IH. intros H. apply N1. right. exact H.
  - rewrite R, KEEP; [reflexivity|]. intros y Hy. cbn. rewrite OW. destruct (_ && _) eqn:Q; [|reflexivity]. exfalso. apply andb_true_iff in Q. destruct Q as [Q1 Q2]. apply Z.eqb_eq in Q1, Q2.
    assert (existsb (pairEqb (g, m_sequenceID m)) (map fst w) = true); [|congruence]. apply mem_iff, in_map_iff. exists y. split; [|exact Hy]. destruct y as [[a b] c]. cbn in *. congruence.
Qed.
Lemma holds_run owner : forall es s s' t (w : list (Z * Z * Z)), inv s (map fst w) -> NoDup (map pidOf w) -> attained s -> ff_ongoingDest s = [] -> ff_owner s = owner ->
  (forall e os, In (e, os) t -> destStarted owner e os = []) -> frun s es = Some (s', t) ->
  attained s' /\ ((forall x, In x w -> In (entry x) (ff_returns s)) -> forall x, In x (fold_left (outstandingStep owner) t w) -> In (entry x) (ff_returns s')) /\
  (inOrder owner w t -> ff_returns s = map entry w -> ff_returns s' = map entry (fold_left (outstandingStep owner) t w)).
Proof.
  induction es as [|e es IH]; intros s s' t w I N A OD O DS E; cbn [frun] in E.
  - injection E as <- <-. cbn. auto.
  - destruct (fstep s e) as [[s1 o1]|] eqn:S1; [|discriminate]. destruct (frun s1 es) as [[s2 t2]|] eqn:R; [|discriminate]. injection E as <- <-.
    destruct (fstep_inv _ _ _ _ _ I S1) as (I1 & O1 & _). assert (DS1 : destStarted (ff_owner s) e o1 = []) by (rewrite O; apply DS; left; reflexivity).
    destruct (returns_step _ _ _ _ _ I A OD DS1 S1) as (OD1 & A1 & _). pose proof (pids_step _ _ _ _ _ I N S1) as N1. rewrite O in *.
    destruct (IH _ _ _ _ I1 N1 A1 OD1 O1 ltac:(intros e' os' H; apply DS; right; exact H) R) as (P1 & P2 & P3). split; [exact P1|]. cbn [fold_left inOrder]. split.
    + intros H. apply P2. pose proof (holds_step _ _ _ _ _ I N A OD ltac:(rewrite O; exact DS1) H S1) as K. rewrite O in K. exact K.
    + intros [AF IO] H. apply P3; [exact IO|]. pose proof (exact_step _ _ _ _ _ I N A OD ltac:(rewrite O; exact DS1) ltac:(rewrite O; exact AF) H S1) as K. rewrite O in K. exact K.
Qed.
(** while a message is with a filter elsewhere the filter federate announces no later message time than the message's (histories without destination filters elsewhere) *)
Theorem C36_announced_time_holds id owner key es s t : frun (ff_init id owner key) es = Some (s, t) -> (forall e os, In (e, os) t -> destStarted owner e os = []) ->
  forall g pid tm, In (g, pid, tm) (outstanding owner t) -> announced t <= tm.
Proof.
  intros R DS g pid tm X. assert (DI : dinv (ff_init id owner key) []) by (intros x; reflexivity).
  destruct (full_run owner _ _ _ _ [] [] (init_inv36 id owner key) DI ltac:(intros x []) eq_refl R) as (_ & _ & AN & L). unfold announced. change maxVal with (ff_minReturn (ff_init id owner key)). rewrite AN.
  destruct (holds_run owner _ _ _ _ [] (init_inv36 id owner key) ltac:(constructor) ltac:(left; vm_compute; discriminate) eq_refl eq_refl DS R) as (_ & H & _).
  apply (H ltac:(intros x []) _) in X. apply L in X. exact X.
Qed.
(** and when the answers come back in the order of the questions, the announced time is that of a message still outstanding or none at all *)
Theorem C36_hold_removed_when_returns_are_in_order id owner key es s t : frun (ff_init id owner key) es = Some (s, t) -> (forall e os, In (e, os) t -> destStarted owner e os = []) -> inOrder owner [] t ->
  cBigTime <= announced t \/ exists g pid, In (g, pid, announced t) (outstanding owner t).
Proof.
  intros R DS IO. assert (DI : dinv (ff_init id owner key) []) by (intros x; reflexivity).
  destruct (full_run owner _ _ _ _ [] [] (init_inv36 id owner key) DI ltac:(intros x []) eq_refl R) as (_ & _ & AN & L). unfold announced. change maxVal with (ff_minReturn (ff_init id owner key)). rewrite AN.
  destruct (holds_run owner _ _ _ _ [] (init_inv36 id owner key) ltac:(constructor) ltac:(left; vm_compute; discriminate) eq_refl eq_refl DS R) as (A & _ & H). specialize (H IO eq_refl).
  destruct A as [A|[p A]]; [left; exact A|right]. rewrite H in A. apply in_map_iff in A. destruct A as ([[g q] tm] & E & A). unfold entry in E. cbn in E. injection E as <- <-. exists g, q. exact A.
Qed.

(** ** Concrete histories: endpoint 1 of federate 7 has two source filters elsewhere, endpoint 2 of federate 8 a destination filter elsewhere *)
Definition exOwner (h : Z) : option Z := if h =? 1 then Some 7 else if h =? 2 then Some 8 else None.
Definition exSystem : ff := ff_init 100 exOwner (fun _ => []).
Definition exFar (h : Z) : filt := mkFilt 200 h false false None.
Definition exSource : fevent := F_chain 1 (mkChain [exFar 5; exFar 6] None []).
Definition exDest : fevent := F_chain 2 (mkChain [] (Some (exFar 9)) []).
Definition exMsg (t : Z) : amsg := set_m_strings [[1]; [2]; [2]; [1]] (set_m_actionTime t (fresh CMD_SEND_MESSAGE)).
Definition exBack (h pid : Z) : amsg := set_m_dest_handle h (set_m_sequenceID pid (set_m_strings [[1]; [2]; [2]; [1]] (set_m_actionTime 10 (fresh CMD_FILTER_RESULT)))).
Definition exRequest : amsg := set_m_source_id 7 (set_m_actionTime 12 (fresh CMD_TIME_REQUEST)).
Definition traceOf (es : list fevent) : trace := match frun exSystem es with Some (_, t) => t | None => [] end.
(** federate 7 sends two messages and asks for time; the first answer releases nothing, the second releases the request *)
Example C36_not_vacuous :
  let es := [exSource; F_send 1 (exMsg 10); F_send 1 (exMsg 20); F_timing exRequest] in
  outstanding exOwner (traceOf es) = [(7, 54, 10); (7, 55, 20)] /\ announced (traceOf es) = 10 /\ passedOn 7 (traceOf es) = [] /\
  let es := es ++ [F_return (exBack 1 54)] in
  outstanding exOwner (traceOf es) = [(7, 55, 20)] /\ announced (traceOf es) = 20 /\ passedOn 7 (traceOf es) = [] /\ inOrder exOwner [] (traceOf es) /\
  let es := es ++ [F_return (exBack 1 55)] in
  outstanding exOwner (traceOf es) = [] /\ announced (traceOf es) = cBigTime /\ passedOn 7 (traceOf es) = [exRequest] /\ forallb (fun x => match destStarted exOwner (fst x) (snd x) with [] => true | _ => false end) (traceOf es) = true.
Proof. vm_compute. repeat split; try (intros x H; repeat destruct H as [H|H]; subst; try discriminate; try destruct H; eexists; reflexivity). Qed.
Example C36_destination_not_vacuous :
  let es := [exDest; F_arrive 2 (exMsg 10)] in
  destOutstanding exOwner (traceOf es) = [(8, 55)] /\ heldBack 8 (traceOf es) = true /\ heldBack 7 (traceOf es) = false /\
  let es := es ++ [F_destReturn (exBack 2 55)] in destOutstanding exOwner (traceOf es) = [] /\ heldBack 8 (traceOf es) = false.
Proof. vm_compute. repeat split. Qed.
(** when answers overtake each other the announced time stays at that of a message that has long been answered *)
Theorem C36_hold_outlives_answers_refuted : exists es s t, frun exSystem es = Some (s, t) /\ outstanding exOwner t = [] /\ destOutstanding exOwner t = [] /\ announced t = 20.
Proof.
  eexists [exSource; F_send 1 (exMsg 10); F_send 1 (exMsg 20); F_return (exBack 1 55); F_return (exBack 1 54)], _, _. split; [vm_compute; reflexivity|]. vm_compute. auto.
Qed.
(** a message at time 10 is still with a destination filter elsewhere and the announced time is 20: both sides number their processes from one counter in different ways *)
Theorem C36_destination_hold_lost_refuted : exists es s t m, frun exSystem es = Some (s, t) /\ destOutstanding exOwner t = [(8, 55)] /\
  In (O_send m) (flat_map snd t) /\ m_action m = CMD_SEND_FOR_DEST_FILTER_AND_RETURN /\ m_sequenceID m = 55 /\ m_actionTime m = 10 /\ announced t = 20.
Proof.
  eexists [exSource; exDest; F_arrive 2 (exMsg 10); F_send 1 (exMsg 20); F_return (exBack 1 55)], _, _, _. split; [vm_compute; reflexivity|]. split; [vm_compute; reflexivity|].
  split; [vm_compute; right; right; left; reflexivity|]. vm_compute. auto.
Qed.
