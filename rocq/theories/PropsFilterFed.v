(** C36: a message in filter processing holds back time until it returns. *)
From Coq Require Import ZArith List Lia Bool.
From Verif Require Import HTime Action Bundle MsgConv Interfaces Ids Handles Filters FilterFed.
Import ListNotations.
Local Open Scope Z_scope.

(** ** Specification, on histories: what has been sent to filters elsewhere and has not come back *)
Definition trace := list (fevent * list out).
(** the endpoint an event is about *)
Definition endpointOf (e : fevent) : option Z := match e with F_send h _ | F_arrive h _ | F_chain h _ => Some h | F_return m | F_destReturn m => Some (m_dest_handle m) | F_timing _ => None end.
Definition federateOf (owner : Z -> option Z) (e : fevent) : option Z := match endpointOf e with Some h => owner h | None => None end.
(** messages that leave and must come back: federate, process, time of the message *)
Definition asks (o : out) : list (Z * Z) := match o with O_main m => if m_action m =? CMD_SEND_FOR_FILTER_AND_RETURN then [(m_sequenceID m, m_actionTime m)] else [] | _ => [] end.
Definition started (owner : Z -> option Z) (e : fevent) (os : list out) : list (Z * Z * Z) :=
  match federateOf owner e with Some g => map (fun x => (g, fst x, snd x)) (flat_map asks os) | None => [] end.
Definition comesBack (owner : Z -> option Z) (e : fevent) (x : Z * Z * Z) : bool :=
  match e with F_return m => match owner (m_dest_handle m) with Some g => (fst (fst x) =? g) && (snd (fst x) =? m_sequenceID m) | None => false end | _ => false end.
Definition outstandingStep (owner : Z -> option Z) (w : list (Z * Z * Z)) (x : fevent * list out) : list (Z * Z * Z) :=
  filter (fun y => negb (comesBack owner (fst x) y)) w ++ started owner (fst x) (snd x).
Definition outstanding (owner : Z -> option Z) (t : trace) : list (Z * Z * Z) := fold_left (outstandingStep owner) t [].
Definition waits (owner : Z -> option Z) (t : trace) (g : Z) : Prop := exists pid tm, In (g, pid, tm) (outstanding owner t).
(** the timing commands of a federate: issued, and passed on *)
Definition issued (g : Z) (t : trace) : list amsg := flat_map (fun x => match fst x with F_timing m => if m_source_id m =? g then [m] else [] | _ => [] end) t.
Definition passedOne (g : Z) (os : list out) : list amsg := flat_map (fun o => match o with O_timing m => if m_source_id m =? g then [m] else [] | _ => [] end) os.
Definition passedOn (g : Z) (t : trace) : list amsg := flat_map (fun x => passedOne g (snd x)) t.

(** ** Lists *)
Lemma pairEqb_eq a b : pairEqb a b = true <-> a = b.
Proof. destruct a, b. unfold pairEqb. cbn. rewrite andb_true_iff, !Z.eqb_eq. split; [intros [-> ->]; reflexivity|intros E; injection E; auto]. Qed.
Lemma mem_iff l x : existsb (pairEqb x) l = true <-> In x l.
Proof. rewrite existsb_exists. split; [intros (y & I & E); apply pairEqb_eq in E; now subst|intros I; exists x; split; [assumption|now apply pairEqb_eq]]. Qed.
Lemma insertP_in l g p x : In x (insertP l g p) <-> In x l \/ x = (g, p).
Proof. unfold insertP. destruct (existsb _ l) eqn:E; [apply mem_iff in E; split; [auto|intros [H| ->]; auto]|]. rewrite in_app_iff. cbn. intuition. Qed.
Lemma eraseP_in l g p x : In x (eraseP l g p) <-> In x l /\ x <> (g, p).
Proof. unfold eraseP. rewrite filter_In, negb_true_iff. split; intros [H N]; (split; [exact H|]); [intros ->; rewrite (proj2 (pairEqb_eq _ _) eq_refl) in N; discriminate|]. destruct (pairEqb (g, p) x) eqn:E; [apply pairEqb_eq in E; congruence|reflexivity]. Qed.
Lemma hasAny_iff l g : hasAny l g = true <-> exists p, In (g, p) l.
Proof. unfold hasAny. rewrite existsb_exists. split; [intros ([a b] & I & E); apply Z.eqb_eq in E; cbn in E; subst; eauto|intros [p I]; exists (g, p); split; [exact I|apply Z.eqb_refl]]. Qed.
Lemma hasAny_false l g : hasAny l g = false <-> forall p, ~ In (g, p) l.
Proof.
  split; [intros E p I; assert (hasAny l g = true) by (apply hasAny_iff; eauto); congruence|].
  intros N. destruct (hasAny l g) eqn:E; [|reflexivity]. apply hasAny_iff in E. destruct E as [p I]. destruct (N p I).
Qed.

(** ** Invariant of the tracking tables *)
Record inv (s : ff) (w : list (Z * Z)) : Prop := mkInv {
  i_on : forall x, In x (ff_ongoing s) <-> In x w;
  i_lt : forall x, In x (ff_ongoing s) -> snd x < ff_counter s;
  i_nd : NoDup (map fst (ff_blocks s));
  i_bl : forall g c, In (g, c) (ff_blocks s) -> c = if hasAny (ff_ongoing s) g then 1 else 0;
  i_has : forall g, hasAny (ff_ongoing s) g = true -> In g (map fst (ff_blocks s));
  i_del : forall g m, In (g, m) (ff_delayed s) -> hasAny (ff_ongoing s) g = true /\ m_source_id m = g }.
Lemma inv_blocked s w g : inv s w -> hasTimeBlock s g = hasAny (ff_ongoing s) g.
Proof.
  intros I. unfold hasTimeBlock. destruct (List.find (fun b => fst b =? g) (ff_blocks s)) as [[a c]|] eqn:F.
  - apply find_some in F. destruct F as [F E]. apply Z.eqb_eq in E. cbn in E. subst a. cbn. rewrite (i_bl _ _ I _ _ F). destruct (hasAny _ g); reflexivity.
  - destruct (hasAny (ff_ongoing s) g) eqn:H; [|reflexivity]. exfalso. apply (i_has _ _ I) in H. apply in_map_iff in H. destruct H as ([a c] & E & IN). cbn in E. subst a.
    apply (find_none _ _ F) in IN. cbn in IN. rewrite Z.eqb_refl in IN. discriminate.
Qed.
(** what stays the same *)
Definition sameFrame (s s' : ff) : Prop := ff_id s' = ff_id s /\ ff_owner s' = ff_owner s /\ ff_key s' = ff_key s /\ ff_chains s' = ff_chains s.
Lemma sameFrame_trans a b c : sameFrame a b -> sameFrame b c -> sameFrame a c.
Proof. unfold sameFrame. intuition congruence. Qed.
Definition quiet (o : out) : Prop := match o with O_main _ | O_timing _ => False | _ => True end.
Lemma addTimeReturn_frame s p t : let '(s', o) := addTimeReturn s p t in
  sameFrame s s' /\ ff_ongoing s' = ff_ongoing s /\ ff_ongoingDest s' = ff_ongoingDest s /\ ff_counter s' = ff_counter s /\ ff_blocks s' = ff_blocks s /\ ff_delayed s' = ff_delayed s /\ Forall quiet o.
Proof. unfold addTimeReturn. repeat split. destruct (_ <? _); repeat constructor. Qed.
Lemma clearTimeReturn_frame s p : let '(s', o) := clearTimeReturn s p in
  sameFrame s s' /\ ff_ongoing s' = ff_ongoing s /\ ff_ongoingDest s' = ff_ongoingDest s /\ ff_counter s' = ff_counter s /\ ff_blocks s' = ff_blocks s /\ ff_delayed s' = ff_delayed s /\ Forall quiet o.
Proof. unfold clearTimeReturn. destruct (ff_returns s) as [|[q t] r]; [repeat split; constructor|]. destruct (q =? p); [|repeat split; constructor]. repeat split. destruct (_ =? _); repeat constructor. Qed.
Lemma quiet_passed g os : Forall quiet os -> passedOne g os = [].
Proof. induction 1 as [|o os Q _ IH]; [reflexivity|]. unfold passedOne in *. cbn. rewrite IH, app_nil_r. destruct o; (reflexivity || destruct Q). Qed.
Lemma quiet_asks os : Forall quiet os -> flat_map asks os = [].
Proof. induction 1 as [|o os Q _ IH]; [reflexivity|]. cbn. rewrite IH, app_nil_r. destruct o; (reflexivity || destruct Q). Qed.
Lemma inv_ext s s' w : ff_ongoing s' = ff_ongoing s -> ff_counter s <= ff_counter s' -> ff_blocks s' = ff_blocks s -> ff_delayed s' = ff_delayed s -> inv s w -> inv s' w.
Proof.
  intros A B C D [I1 I2 I3 I4 I5 I6]. constructor; rewrite ?A, ?C, ?D; auto. intros x H. specialize (I2 x H). lia.
Qed.

Lemma marker_inv s w g t : inv s w -> let '(s', o) := generateProcessMarker (setCounter s (ff_counter s + 1)) g (ff_counter s) t in
  inv s' (w ++ [(g, ff_counter s)]) /\ sameFrame s s' /\ ff_delayed s' = ff_delayed s /\ ff_ongoingDest s' = ff_ongoingDest s /\ ff_counter s' = ff_counter s + 1 /\ Forall quiet o.
Proof.
  intros I. unfold generateProcessMarker. cbn [ff_ongoing setCounter withTracking].
  set (s1 := if hasAny (ff_ongoing s) g then setCounter s (ff_counter s + 1) else coreBlock (setCounter s (ff_counter s + 1)) g).
  assert (F1 : sameFrame s s1 /\ ff_ongoing s1 = ff_ongoing s /\ ff_delayed s1 = ff_delayed s /\ ff_ongoingDest s1 = ff_ongoingDest s /\ ff_counter s1 = ff_counter s + 1) by (unfold s1; destruct (hasAny _ _); repeat split).
  destruct F1 as (F1 & A1 & A2 & A3 & A4).
  set (s2 := withTracking s1 _ _ _ _ _ _ _). pose proof (addTimeReturn_frame s2 (ff_counter s) t) as F. destruct (addTimeReturn s2 (ff_counter s) t) as [s3 o].
  destruct F as (F2 & B1 & B2 & B3 & B4 & B5 & Q). cbn [ff_ongoing ff_delayed ff_ongoingDest ff_counter ff_blocks s2 withTracking] in *.
  split; [|repeat split; try exact Q; destruct F1 as (? & ? & ? & ?), F2 as (? & ? & ? & ?); cbn in *; congruence].
  assert (ON : forall x, In x (ff_ongoing s3) <-> In x (ff_ongoing s) \/ x = (g, ff_counter s)) by (intros x; rewrite B1, insertP_in, A1; reflexivity).
  assert (HA : forall f, hasAny (ff_ongoing s3) f = hasAny (ff_ongoing s) f || (f =? g)).
  { intros f. apply eq_true_iff_eq. rewrite orb_true_iff, !hasAny_iff, Z.eqb_eq. split.
    - intros [p H]. apply ON in H. destruct H as [H|H]; [left; eauto|right; congruence].
    - intros [[p H]| ->]; [exists p; apply ON; auto|exists (ff_counter s); apply ON; auto]. }
  constructor.
  - intros x. rewrite ON, (i_on _ _ I), in_app_iff. cbn. intuition.
  - intros x H. apply ON in H. rewrite B3, A4. destruct H as [H| ->]; [pose proof (i_lt _ _ I x H); lia|cbn; lia].
  - rewrite B4. unfold s1. destruct (hasAny (ff_ongoing s) g) eqn:H; [apply I|]. unfold coreBlock. cbn [ff_blocks withTracking setCounter].
    destruct (hasAny (ff_blocks s) g) eqn:HB.
    + rewrite map_map. erewrite map_ext; [apply (i_nd _ _ I)|]. intros [a c]. cbn. destruct (a =? g); reflexivity.
    + rewrite map_app. cbn. rewrite <- (rev_involutive (map fst (ff_blocks s) ++ [g])). apply NoDup_rev. rewrite rev_app_distr. cbn. constructor; [|apply NoDup_rev, (i_nd _ _ I)].
      rewrite <- in_rev. intros Q'. apply in_map_iff in Q'. destruct Q' as ([a c] & E & IN). cbn in E. subst a. apply (proj1 (hasAny_false _ _) HB c IN).
  - intros f c H. rewrite B4 in H. rewrite HA. unfold s1 in H. destruct (hasAny (ff_ongoing s) g) eqn:HG.
    + cbn in H. rewrite (i_bl _ _ I _ _ H). destruct (Z.eqb_spec f g); [subst; rewrite HG; reflexivity|rewrite orb_false_r; reflexivity].
    + unfold coreBlock in H. cbn [ff_blocks withTracking setCounter] in H. destruct (hasAny (ff_blocks s) g) eqn:HB.
      * apply in_map_iff in H. destruct H as ([a b] & E & IN). cbn in E. pose proof (i_bl _ _ I _ _ IN) as V. destruct (Z.eqb_spec a g); injection E as <- <-.
        -- subst a. rewrite Z.eqb_refl, orb_true_r. rewrite HG in V. lia.
        -- destruct (Z.eqb_spec a g); [contradiction|]. rewrite orb_false_r. exact V.
      * apply in_app_iff in H. destruct H as [H|[E|[]]].
        -- pose proof (i_bl _ _ I _ _ H) as V. destruct (Z.eqb_spec f g); [|rewrite orb_false_r; exact V]. subst f. exfalso. apply (proj1 (hasAny_false _ _) HB c H).
        -- injection E as <- <-. rewrite Z.eqb_refl, orb_true_r. reflexivity.
  - intros f. rewrite HA, orb_true_iff, Z.eqb_eq. rewrite B4. unfold s1. intros H. destruct (hasAny (ff_ongoing s) g) eqn:HG.
    + cbn. apply (i_has _ _ I). destruct H as [H| ->]; assumption.
    + unfold coreBlock. cbn [ff_blocks withTracking setCounter]. destruct (hasAny (ff_blocks s) g) eqn:HB.
      * rewrite map_map. erewrite map_ext; [|intros [a c]; cbn; instantiate (1 := fst); destruct (a =? g); reflexivity].
        destruct H as [H| ->]; [apply (i_has _ _ I); exact H|]. apply hasAny_iff in HB. destruct HB as [p HB]. apply in_map_iff. exists (g, p). auto.
      * rewrite map_app, in_app_iff. destruct H as [H| ->]; [left; apply (i_has _ _ I); exact H|right; left; reflexivity].
  - intros f m H. rewrite B5, A2 in H. destruct (i_del _ _ I _ _ H) as [P1 P2]. rewrite HA, P1. auto.
Qed.
Definition heldOf (s : ff) (g : Z) : list amsg := map snd (filter (fun d => fst d =? g) (ff_delayed s)).
Lemma passed_timing l f : (forall g m, In (g, m) l -> m_source_id m = g) ->
  passedOne f (map (fun d : Z * amsg => O_timing (snd d)) l) = map snd (filter (fun d => fst d =? f) l).
Proof.
  induction l as [|[a m] l IH]; intros H; [reflexivity|]. unfold passedOne in *. cbn. rewrite IH by (intros g x I; apply (H g x); right; exact I).
  rewrite (H a m (or_introl eq_refl)). destruct (a =? f); reflexivity.
Qed.
Lemma filter_filter_same (l : list (Z * amsg)) f g : filter (fun d => fst d =? f) (filter (fun d => fst d =? g) l) = if f =? g then filter (fun d => fst d =? f) l else [].
Proof.
  induction l as [|[a m] l IH]; [destruct (f =? g); reflexivity|]. cbn. destruct (Z.eqb_spec f g) as [->|N].
  - destruct (a =? g) eqn:E; cbn; rewrite ?E, IH; reflexivity.
  - destruct (Z.eqb_spec a g); cbn; [|exact IH]. subst a. destruct (Z.eqb_spec g f); [congruence|exact IH].
Qed.
Lemma filter_filter_neg (l : list (Z * amsg)) f g : filter (fun d => fst d =? f) (filter (fun d => negb (fst d =? g)) l) = if f =? g then [] else filter (fun d => fst d =? f) l.
Proof.
  induction l as [|[a m] l IH]; [destruct (f =? g); reflexivity|]. cbn. destruct (Z.eqb_spec f g) as [->|N].
  - destruct (a =? g) eqn:E; cbn; rewrite ?E; exact IH.
  - destruct (Z.eqb_spec a g); cbn; [subst a; destruct (Z.eqb_spec g f); [congruence|exact IH]|]. rewrite IH. reflexivity.
Qed.
Definition notMain (o : out) : Prop := match o with O_main _ => False | _ => True end.
Lemma accept_inv s w g mid : inv s w -> In (g, mid) (ff_ongoing s) -> let '(s', o) := acceptProcessReturn s g mid in
  inv s' (filter (fun x => negb (pairEqb (g, mid) x)) w) /\ sameFrame s s' /\ ff_ongoingDest s' = ff_ongoingDest s /\ ff_counter s' = ff_counter s /\ Forall notMain o /\
  forall f, heldOf s f = passedOne f o ++ heldOf s' f.
Proof.
  intros I IN. unfold acceptProcessReturn.
  set (s1 := withTracking s _ _ _ _ _ _ _). cbn [ff_ongoing s1 withTracking].
  set (on := eraseP (ff_ongoing s) g mid) in *.
  assert (ON : forall x, In x on <-> In x (ff_ongoing s) /\ x <> (g, mid)) by (intros; apply eraseP_in).
  assert (W : forall x, In x on <-> In x (filter (fun x => negb (pairEqb (g, mid) x)) w)).
  { intros x. rewrite ON, (i_on _ _ I), filter_In, negb_true_iff. split; intros [A B]; (split; [exact A|]).
    - destruct (pairEqb (g, mid) x) eqn:E; [apply pairEqb_eq in E; congruence|reflexivity].
    - intros ->. rewrite (proj2 (pairEqb_eq _ _) eq_refl) in B. discriminate. }
  assert (OTH : forall f, f <> g -> hasAny on f = hasAny (ff_ongoing s) f).
  { intros f N. apply eq_true_iff_eq. rewrite !hasAny_iff. split; intros [p H]; exists p; [apply ON in H; tauto|apply ON; split; [exact H|congruence]]. }
  assert (GON : hasAny (ff_ongoing s) g = true) by (apply hasAny_iff; eauto).
  set (r := if hasAny on g then (s1, []) else coreUnblock s1 g).
  assert (R : let '(s2, o) := r in
     inv s2 (filter (fun x => negb (pairEqb (g, mid) x)) w) /\ sameFrame s s2 /\ ff_ongoingDest s2 = ff_ongoingDest s /\ ff_counter s2 = ff_counter s /\ Forall notMain o /\
     forall f, heldOf s f = passedOne f o ++ heldOf s2 f).
  { unfold r. destruct (hasAny on g) eqn:G.
    - split; [|repeat split; constructor]. constructor; cbn [s1 withTracking ff_ongoing ff_counter ff_blocks ff_delayed].
      + exact W.
      + intros x H. apply ON in H. apply (i_lt _ _ I), H.
      + apply I.
      + intros f c H. rewrite (i_bl _ _ I _ _ H). destruct (Z.eq_dec f g) as [->|N]; [rewrite G, GON; reflexivity|rewrite OTH by exact N; reflexivity].
      + intros f H. apply (i_has _ _ I). destruct (Z.eq_dec f g) as [->|N]; [exact GON|rewrite OTH in H by exact N; exact H].
      + intros f m H. destruct (i_del _ _ I _ _ H) as [A B]. split; [|exact B]. destruct (Z.eq_dec f g) as [->|N]; [exact G|rewrite OTH by exact N; exact A].
    - unfold coreUnblock. cbn [s1 withTracking ff_blocks ff_delayed ff_ongoing ff_ongoingDest ff_returns ff_minReturn ff_counter].
      assert (FREE : existsb (fun b => (fst b =? g) && (snd b - 1 <=? 0)) (ff_blocks s) = true).
      { apply existsb_exists. pose proof (i_has _ _ I g GON) as H. apply in_map_iff in H. destruct H as ([a c] & E & H). cbn in E. subst a. exists (g, c). split; [exact H|].
        rewrite (i_bl _ _ I _ _ H), GON. cbn. rewrite Z.eqb_refl. reflexivity. }
      rewrite FREE. split; [|split; [repeat split|split; [reflexivity|split; [reflexivity|split]]]].
      + constructor; cbn [ff_ongoing ff_counter ff_blocks ff_delayed withTracking].
        * exact W.
        * intros x H. apply ON in H. apply (i_lt _ _ I), H.
        * rewrite map_map. erewrite map_ext; [apply (i_nd _ _ I)|]. intros [a c]. cbn. destruct (a =? g); reflexivity.
        * intros f c H. apply in_map_iff in H. destruct H as ([a b] & E & IN'). cbn in E. pose proof (i_bl _ _ I _ _ IN') as V. destruct (Z.eqb_spec a g); injection E as <- <-.
          -- subst a. rewrite G. rewrite GON in V. lia.
          -- rewrite OTH by assumption. exact V.
        * intros f H. rewrite map_map. erewrite map_ext; [|intros [a c]; cbn; instantiate (1 := fst); destruct (a =? g); reflexivity].
          apply (i_has _ _ I). destruct (Z.eq_dec f g) as [->|N]; [exact GON|rewrite OTH in H by exact N; exact H].
        * intros f m H. apply filter_In in H. destruct H as [H N]. cbn in N. destruct (i_del _ _ I _ _ H) as [A B]. split; [|exact B]. rewrite OTH; [exact A|]. intros ->. rewrite Z.eqb_refl in N. discriminate.
      + apply Forall_forall. intros o H. apply in_map_iff in H. destruct H as (d & <- & _). exact Logic.I.
      + intros f. unfold heldOf. cbn [ff_delayed withTracking]. rewrite passed_timing.
        * rewrite filter_filter_same, filter_filter_neg. destruct (f =? g); cbn; rewrite ?app_nil_r; reflexivity.
        * intros a m H. apply filter_In in H. apply (i_del _ _ I a m), H. }
  destruct r as [s2 o1]. pose proof (clearTimeReturn_frame s2 mid) as F. destruct (clearTimeReturn s2 mid) as [s3 o2].
  destruct F as (F & B1 & B2 & B3 & B4 & B5 & Q). destruct R as (R1 & R2 & R3 & R4 & R5 & R6).
  split; [apply (inv_ext s2); auto; lia|]. split; [eapply sameFrame_trans; eassumption|]. split; [congruence|]. split; [congruence|].
  split; [apply Forall_app; split; [exact R5|]; apply Forall_forall; intros o H; pose proof (proj1 (Forall_forall _ _) Q o H) as X; destruct o; (exact Logic.I || destruct X)|].
  intros f. unfold passedOne in *. rewrite flat_map_app. fold (passedOne f o2). rewrite (quiet_passed f o2 Q), app_nil_r. unfold heldOf in *. rewrite B5. apply R6.
Qed.
(** ** The loops produce no timing output and ask for a return exactly when the flag says so *)
Definition copies (o : out) : Prop := match o with O_deliver _ | O_send _ => True | _ => False end.
Lemma copies_quiet os : Forall copies os -> Forall quiet os.
Proof. intros H. eapply Forall_impl; [|exact H]. intros [] X; (exact X || destruct X). Qed.
Lemma execute_spec self m f m' b o : executeFilter self m f = Some (m', b, o) ->
  Forall copies o /\ (b = true -> m_action m = CMD_SEND_MESSAGE -> m_action m' = CMD_SEND_MESSAGE) /\ (b = false -> m_action m = CMD_SEND_MESSAGE -> m_action m' = CMD_IGNORE \/ m_action m' = CMD_SEND_MESSAGE).
Proof.
  unfold executeFilter. destruct (fi_core f =? self).
  - destruct (fi_op f) as [op|]; [|discriminate]. destruct (fi_cloning f).
    + intros E. injection E as <- <- <-. repeat split; auto; try discriminate. apply Forall_forall. intros x H. apply in_map_iff in H. destruct H as (g & <- & _). exact Logic.I.
    + destruct (op_process op (messageOf m)); intros E; injection E as <- <- <-; repeat split; auto; try discriminate.
  - destruct (fi_cloning f); intros E; injection E as <- <- <-; repeat split; auto; try discriminate. repeat constructor.
Qed.
Definition loopSpec (m' : amsg) (b : bool) (o : list out) : Prop :=
  Forall copies o /\ (b = true <-> m_action m' = CMD_SEND_FOR_FILTER_AND_RETURN).
Lemma processLoop_spec self size fs : forall ii m m' b o, m_action m = CMD_SEND_MESSAGE -> processLoop self size ii fs m = Some (m', b, o) -> loopSpec m' b o.
Proof.
  unfold loopSpec. induction fs as [|f r IH]; cbn [processLoop]; intros ii m m' b o A E.
  - injection E as <- <- <-. rewrite A. split; [constructor|split; discriminate].
  - destruct (fi_closed f); [eapply IH; eassumption|].
    destruct (executeFilter self m f) as [[[m1 b1] o1]|] eqn:X; [|discriminate]. destruct (execute_spec _ _ _ _ _ _ X) as (C & T & N). destruct b1.
    + destruct (processLoop self size (S ii) r m1) as [[[m2 b2] o2]|] eqn:Y; [|discriminate]. injection E as <- <- <-.
      destruct (IH _ _ _ _ _ (T eq_refl A) Y) as [C2 Z2]. split; [apply Forall_app; auto|exact Z2].
    + destruct (Z.eqb_spec (m_action m1) CMD_IGNORE) as [I|I].
      * injection E as <- <- <-. rewrite I. split; [exact C|split; discriminate].
      * destruct (ii <? size - 1)%nat; injection E as <- <- <-; (split; [exact C|]); cbn; split; (reflexivity || discriminate).
Qed.
Lemma returnLoop_spec self size fs : forall ii m m' b o, m_action m = CMD_SEND_MESSAGE -> returnLoop self size ii fs m = Some (m', b, o) -> loopSpec m' b o.
Proof.
  unfold loopSpec. induction fs as [|f r IH]; cbn [returnLoop]; intros ii m m' b o A E.
  - injection E as <- <- <-. rewrite A. split; [constructor|split; discriminate].
  - destruct (fi_closed f); [eapply IH; eassumption|].
    destruct (executeFilter self m f) as [[[m1 b1] o1]|] eqn:X; [|discriminate]. destruct (execute_spec _ _ _ _ _ _ X) as (C & T & N). destruct b1.
    + destruct (returnLoop self size (S ii) r m1) as [[[m2 b2] o2]|] eqn:Y; [|discriminate]. injection E as <- <- <-.
      destruct (IH _ _ _ _ _ (T eq_refl A) Y) as [C2 Z2]. split; [apply Forall_app; auto|exact Z2].
    + destruct (Z.eqb_spec (m_action m1) CMD_IGNORE) as [I|I].
      * injection E as <- <- <-. rewrite I. split; [exact C|split; discriminate].
      * destruct (ii <? size - 1)%nat; injection E as <- <- <-; (split; [exact C|]); cbn; split; (reflexivity || discriminate).
Qed.
Lemma inv_cong s w w' : (forall x, In x w <-> In x w') -> inv s w -> inv s w'.
Proof. intros E [I1 I2 I3 I4 I5 I6]. constructor; auto. intros x. rewrite I1. apply E. Qed.
Definition issuedOne (f : Z) (e : fevent) : list amsg := match e with F_timing m => if m_source_id m =? f then [m] else [] | _ => [] end.
Lemma filter_all {A} (p : A -> bool) l : (forall y, p y = true) -> filter p l = l.
Proof. intros H. induction l as [|y l IH]; [reflexivity|]. cbn. now rewrite H, IH. Qed.
Lemma keep_all owner e w : (forall m, e <> F_return m) -> filter (fun y => negb (comesBack owner e y)) w = w.
Proof. intros N. induction w as [|y w IH]; [reflexivity|]. cbn [filter]. replace (comesBack owner e y) with false by (destruct e; try reflexivity; destruct (N m); reflexivity). cbn. now rewrite IH. Qed.
Lemma comesBack_pair owner m g w : owner (m_dest_handle m) = Some g ->
  forall x, In x (map fst (filter (fun y => negb (comesBack owner (F_return m) y)) w)) <-> In x (filter (fun x => negb (pairEqb (g, m_sequenceID m) x)) (map fst w)).
Proof.
  intros O x. rewrite filter_In, !in_map_iff. unfold comesBack. rewrite O. split.
  - intros (y & <- & H). apply filter_In in H. destruct H as [H N]. split; [exists y; auto|]. destruct y as [[a b] c]. unfold pairEqb in *. cbn in *. rewrite (Z.eqb_sym g a), (Z.eqb_sym _ b). exact N.
  - intros [(y & <- & H) N]. exists y. split; [reflexivity|]. apply filter_In. split; [exact H|]. destruct y as [[a b] c]. unfold pairEqb in *. cbn in *. rewrite (Z.eqb_sym a g), (Z.eqb_sym b). exact N.
Qed.
Lemma flat_asks o1 o2 : flat_map asks (o1 ++ o2) = flat_map asks o1 ++ flat_map asks o2.
Proof. apply flat_map_app. Qed.
Lemma passedOne_app f o1 o2 : passedOne f (o1 ++ o2) = passedOne f o1 ++ passedOne f o2.
Proof. apply flat_map_app. Qed.
Lemma notMain_asks os : Forall notMain os -> flat_map asks os = [].
Proof. induction 1 as [|o os Q _ IH]; [reflexivity|]. cbn. rewrite IH, app_nil_r. destruct o; (reflexivity || destruct Q). Qed.
Lemma runClones_copies s h m : Forall copies (runClones s h m).
Proof.
  unfold runClones. apply Forall_flat_map. apply Forall_forall. intros f _. unfold cloneOne. destruct (fi_closed f); [constructor|]. destruct (_ =? _); [|repeat constructor].
  destruct (fi_op f) as [op|]; [|constructor]. apply Forall_forall. intros o H. apply in_map_iff in H. destruct H as (g & <- & _). destruct (beq _ _); exact Logic.I.
Qed.
Lemma destAccept_frame s g p : let '(s', o) := acceptDestProcessReturn s g p in
  sameFrame s s' /\ ff_ongoing s' = ff_ongoing s /\ ff_ongoingDest s' = eraseP (ff_ongoingDest s) g p /\ ff_counter s' = ff_counter s /\ ff_blocks s' = ff_blocks s /\ ff_delayed s' = ff_delayed s /\ Forall quiet o.
Proof.
  unfold acceptDestProcessReturn. set (s1 := withTracking s _ _ _ _ _ _ _). pose proof (clearTimeReturn_frame s1 p) as F. destruct (clearTimeReturn s1 p) as [s2 o2]. destruct F as (F & B1 & B2 & B3 & B4 & B5 & Q).
  repeat split; try (now destruct F as (? & ? & ? & ?)); auto. apply Forall_app. split; [|exact Q]. destruct (hasAny _ _); repeat constructor.
Qed.
Lemma destMarker_frame s g p t : let '(s', o) := generateDestProcessMarker s g p t in
  sameFrame s s' /\ ff_ongoing s' = ff_ongoing s /\ ff_ongoingDest s' = insertP (ff_ongoingDest s) g p /\ ff_counter s' = ff_counter s /\ ff_blocks s' = ff_blocks s /\ ff_delayed s' = ff_delayed s /\ Forall quiet o.
Proof.
  unfold generateDestProcessMarker. set (s1 := withTracking s _ _ _ _ _ _ _). pose proof (addTimeReturn_frame s1 p t) as F. destruct (addTimeReturn s1 p t) as [s2 o2]. destruct F as (F & B1 & B2 & B3 & B4 & B5 & Q).
  repeat split; try (now destruct F as (? & ? & ? & ?)); auto. apply Forall_app. split; [|exact Q]. destruct (hasAny _ _); repeat constructor.
Qed.
(** steps that do not concern source filtering or timing *)
Lemma quiet_step s s' w e o : inv s (map fst w) -> (forall m, e <> F_return m) -> (forall m, e <> F_timing m) -> ff_owner s' = ff_owner s ->
  ff_ongoing s' = ff_ongoing s -> ff_counter s <= ff_counter s' -> ff_blocks s' = ff_blocks s -> ff_delayed s' = ff_delayed s -> flat_map asks o = [] -> (forall f, passedOne f o = []) ->
  inv s' (map fst (outstandingStep (ff_owner s) w (e, o))) /\ ff_owner s' = ff_owner s /\ (forall f, heldOf s f ++ issuedOne f e = passedOne f o ++ heldOf s' f).
Proof.
  intros I N1 N2 O A B C D Q P. split; [|split; [exact O|]].
  - unfold outstandingStep, started. cbn [fst snd]. rewrite Q, keep_all by exact N1. destruct (federateOf _ e); cbn [map]; rewrite app_nil_r; apply (inv_ext s); auto.
  - intros f. rewrite P. unfold heldOf. rewrite D. destruct e; cbn; rewrite ?app_nil_r; auto. destruct (N2 m). reflexivity.
Qed.
Lemma fstep_inv s w e s' o : inv s (map fst w) -> fstep s e = Some (s', o) ->
  inv s' (map fst (outstandingStep (ff_owner s) w (e, o))) /\ ff_owner s' = ff_owner s /\ (forall f, heldOf s f ++ issuedOne f e = passedOne f o ++ heldOf s' f).
Proof.
  intros I E. destruct e as [h m|m|h m|m|m|h c]; cbn [fstep] in E.
  - (* send *)
    set (m0 := set_m_action CMD_SEND_MESSAGE m) in E. assert (A0 : m_action m0 = CMD_SEND_MESSAGE) by reflexivity. clearbody m0. unfold sendMessage in E.
    destruct (ff_owner s h) as [g|] eqn:OW.
    + destruct (processLoop (ff_id s) (length (ch_source (ff_chains s h))) 0 (ch_source (ff_chains s h)) m0) as [[[m1 [|]] o1]|] eqn:L; [| |discriminate].
      * destruct (processLoop_spec _ _ _ _ _ _ _ _ A0 L) as [C [T _]]. specialize (T eq_refl).
        pose proof (marker_inv s (map fst w) g (m_actionTime (set_m_sequenceID (ff_counter s) m1)) I) as M. destruct (generateProcessMarker _ _ _ _) as [s2 o2].
        destruct M as (M1 & M2 & M3 & M4 & M5 & Q). injection E as <- <-. split; [|split; [apply M2|]].
        -- unfold outstandingStep, started, federateOf. cbn [fst snd endpointOf]. rewrite OW, keep_all by discriminate. rewrite !flat_asks, (quiet_asks o1), (quiet_asks o2); [|exact Q|apply copies_quiet, C].
           cbn [app flat_map asks m_action set_m_sequenceID]. rewrite T. cbn. rewrite map_app. exact M1.
        -- intros f. cbn [issuedOne]. rewrite app_nil_r, !passedOne_app, (quiet_passed f o1), (quiet_passed f o2); [|exact Q|apply copies_quiet, C]. unfold heldOf. rewrite M3. reflexivity.
      * destruct (processLoop_spec _ _ _ _ _ _ _ _ A0 L) as [C [_ T]]. injection E as <- <-. apply quiet_step; try (discriminate || reflexivity || exact I || lia).
        -- rewrite flat_asks, (quiet_asks o1) by (apply copies_quiet, C). cbn [flat_map asks app]. destruct (Z.eqb_spec (m_action m1) CMD_SEND_FOR_FILTER_AND_RETURN) as [X|X]; [specialize (T X); discriminate|reflexivity].
        -- intros f. rewrite passedOne_app, (quiet_passed f o1) by (apply copies_quiet, C). reflexivity.
    + injection E as <- <-. split; [|split; [reflexivity|intros f; cbn; now rewrite app_nil_r]].
      unfold outstandingStep, started, federateOf. cbn [fst snd endpointOf]. rewrite OW, app_nil_r, keep_all by discriminate. exact I.
  - (* return *)
    unfold filterReturn in E. destruct (ff_owner s (m_dest_handle m)) as [g|] eqn:OW.
    + pose proof (comesBack_pair _ m g w OW) as CB.
      destruct (existsb (pairEqb (g, m_sequenceID m)) (ff_ongoing s)) eqn:IN.
      * apply mem_iff in IN. pose proof (i_lt _ _ I _ IN) as LT. cbn in LT.
        destruct (m_action m =? CMD_NULL_MESSAGE).
        -- pose proof (accept_inv s (map fst w) g (m_sequenceID m) I IN) as M. destruct (acceptProcessReturn s g (m_sequenceID m)) as [s2 o2]. injection E as <- <-.
           destruct M as (M1 & M2 & M3 & M4 & M5 & M6). split; [|split; [apply M2|intros f; cbn; rewrite app_nil_r; apply M6]].
           unfold outstandingStep, started, federateOf. cbn [fst snd endpointOf]. rewrite OW, notMain_asks by exact M5. cbn [map]. rewrite app_nil_r. eapply inv_cong; [|exact M1]. intros x. symmetry. apply CB.
        -- set (ii := S (Z.to_nat (m_counter m))) in E. destruct (returnLoop _ _ ii _ _) as [[[m1 b1] o1]|] eqn:L; [|discriminate].
           destruct (returnLoop_spec _ _ _ _ _ _ _ _ (eq_refl : m_action (set_m_action CMD_SEND_MESSAGE m) = CMD_SEND_MESSAGE) L) as [C T]. destruct b1.
           ++ apply proj1 in T. specialize (T eq_refl).
              pose proof (marker_inv s (map fst w) g (m_actionTime (withSource (set_m_sequenceID (ff_counter s) m1) g (m_dest_handle m))) I) as M. destruct (generateProcessMarker _ _ _ _) as [s2 o2].
              destruct M as (M1 & M2 & M3 & M4 & M5 & Q).
              assert (IN2 : In (g, m_sequenceID m) (ff_ongoing s2)) by (apply (i_on _ _ M1), in_app_iff; left; apply (i_on _ _ I); exact IN).
              pose proof (accept_inv s2 _ g (m_sequenceID m) M1 IN2) as K. destruct (acceptProcessReturn s2 g (m_sequenceID m)) as [s3 o3]. destruct K as (K1 & K2 & K3 & K4 & K5 & K6).
              cbn [withSource m_action set_m_source_handle set_m_source_id set_m_sequenceID] in E. rewrite T in E. cbn [Z.eqb] in E.
              replace (CMD_SEND_FOR_FILTER_AND_RETURN =? CMD_IGNORE) with false in E by reflexivity. injection E as <- <-.
              split; [|split; [destruct K2 as (_ & -> & _), M2 as (_ & -> & _); reflexivity|]].
              ** unfold outstandingStep, started, federateOf. cbn [fst snd endpointOf]. rewrite OW, !flat_asks, (quiet_asks o1), (quiet_asks o2), (notMain_asks o3); [|exact K5|exact Q|apply copies_quiet, C].
                 cbn [app flat_map asks m_action withSource set_m_source_handle set_m_source_id set_m_sequenceID]. rewrite T. cbn [Z.eqb app map fst]. replace (CMD_SEND_FOR_FILTER_AND_RETURN =? CMD_SEND_FOR_FILTER_AND_RETURN) with true by reflexivity. cbn [app map fst]. rewrite map_app. eapply inv_cong; [|exact K1]. intros x.
                 rewrite in_app_iff, CB, !filter_In, in_app_iff. cbn [map fst In]. split; [intros [[H|[H|[]]] N]; [left; auto|right; left; exact H]|].
                 intros [[H N]|[H|[]]]; [auto|]. split; [auto|]. subst x. apply negb_true_iff. destruct (pairEqb _ _) eqn:P; [|reflexivity]. apply pairEqb_eq in P. injection P as P. exfalso. apply Z.lt_irrefl with (x := m_sequenceID m). rewrite P at 2. exact LT.
              ** intros f. cbn [issuedOne]. rewrite app_nil_r, !passedOne_app, (quiet_passed f o1), (quiet_passed f o2); [|exact Q|apply copies_quiet, C]. cbn [app]. unfold passedOne at 2. cbn [flat_map]. rewrite app_nil_r.
                 specialize (K6 f). unfold heldOf in *. rewrite M3 in K6. exact K6.
           ++ pose proof (accept_inv s (map fst w) g (m_sequenceID m) I IN) as M. destruct (acceptProcessReturn s g (m_sequenceID m)) as [s2 o2]. injection E as <- <-.
              destruct M as (M1 & M2 & M3 & M4 & M5 & M6). split; [|split; [apply M2|]].
              ** unfold outstandingStep, started, federateOf. cbn [fst snd endpointOf]. rewrite OW, !flat_asks, (quiet_asks o1), (notMain_asks o2); [|exact M5|apply copies_quiet, C].
                 assert (Z0 : flat_map asks (if m_action m1 =? CMD_IGNORE then [] else [O_main m1]) = []).
                 { destruct (m_action m1 =? CMD_IGNORE); [reflexivity|]. cbn [flat_map asks app]. destruct (Z.eqb_spec (m_action m1) CMD_SEND_FOR_FILTER_AND_RETURN) as [X|X]; [|reflexivity]. apply T in X. discriminate. }
                 rewrite Z0. cbn [app flat_map map]. rewrite app_nil_r. eapply inv_cong; [|exact M1]. intros x. symmetry. apply CB.
              ** intros f. cbn [issuedOne]. rewrite app_nil_r, !passedOne_app, (quiet_passed f o1) by (apply copies_quiet, C).
                 assert (Z0 : passedOne f (if m_action m1 =? CMD_IGNORE then [] else [O_main m1]) = []) by (destruct (m_action m1 =? CMD_IGNORE); reflexivity).
                 rewrite Z0. cbn [app passedOne flat_map]. rewrite app_nil_r. apply M6.
      * injection E as <- <-. split; [|split; [reflexivity|intros f; cbn; now rewrite app_nil_r]].
        unfold outstandingStep, started, federateOf. cbn [fst snd endpointOf flat_map map]. rewrite OW. cbn. rewrite app_nil_r. eapply inv_cong; [|exact I]. intros x. rewrite CB, filter_In.
        split; [|tauto]. intros H. split; [exact H|]. apply negb_true_iff. destruct (pairEqb _ x) eqn:P; [|reflexivity]. apply pairEqb_eq in P. subst x. apply (i_on _ _ I), mem_iff in H. congruence.
    + injection E as <- <-. split; [|split; [reflexivity|intros f; cbn; now rewrite app_nil_r]].
      unfold outstandingStep, started, federateOf. cbn [fst snd endpointOf]. rewrite OW, app_nil_r. eapply inv_cong; [|exact I]. intros x.
      replace (filter (fun y => negb (comesBack (ff_owner s) (F_return m) y)) w) with w; [reflexivity|].
      symmetry. apply filter_all. intros y. unfold comesBack. now rewrite OW.
  - (* arrival *)
    unfold destArrive in E. destruct (ff_owner s h) as [g|] eqn:OW; [|injection E as <- <-; apply quiet_step; try (discriminate || reflexivity || exact I || lia)].
    assert (GO : forall m', Some (s, runClones s h m' ++ [O_arrive (if m_dest_id m' =? parent_broker_id then withDestination m' g h else m')]) = Some (s', o) ->
       inv s' (map fst (outstandingStep (ff_owner s) w (F_arrive h m, o))) /\ ff_owner s' = ff_owner s /\ (forall f, heldOf s f ++ issuedOne f (F_arrive h m) = passedOne f o ++ heldOf s' f)).
    { intros m' X. injection X as <- <-. apply quiet_step; try (discriminate || reflexivity || exact I || lia).
      - rewrite flat_asks, (quiet_asks (runClones s h m')) by (apply copies_quiet, runClones_copies). reflexivity.
      - intros f. rewrite passedOne_app, (quiet_passed f (runClones s h m')) by (apply copies_quiet, runClones_copies). reflexivity. }
    destruct (ch_dest (ff_chains s h)) as [f|]; [|apply (GO m E)]. destruct (fi_closed f); [apply (GO m E)|]. destruct (negb _).
    + pose proof (destMarker_frame (setCounter s (ff_counter s + 1)) g (ff_counter s + 1) (m_actionTime m)) as F. destruct (generateDestProcessMarker _ _ _ _) as [s2 o2]. injection E as <- <-.
      destruct F as (F & B1 & B2 & B3 & B4 & B5 & Q). apply quiet_step; try (discriminate || exact I); auto.
      * apply F.
      * rewrite B3. cbn. lia.
      * rewrite flat_asks, (quiet_asks o2 Q). reflexivity.
      * intros x. rewrite passedOne_app, (quiet_passed x o2 Q). reflexivity.
    + destruct (fi_op f) as [op|]; [|apply (GO m E)]. destruct (op_process op (messageOf m)) as [g'|]; [|discriminate]. destruct (beq _ _); [apply (GO _ E)|].
      injection E as <- <-. apply quiet_step; try (discriminate || reflexivity || exact I || lia).
  - (* destination return *)
    unfold destReturn in E. destruct (ff_owner s (m_dest_handle m)) as [g|]; [|injection E as <- <-; apply quiet_step; try (discriminate || reflexivity || exact I || lia)].
    destruct (existsb _ _); [|injection E as <- <-; apply quiet_step; try (discriminate || reflexivity || exact I || lia)].
    pose proof (destAccept_frame s g (m_sequenceID m)) as F. destruct (acceptDestProcessReturn s g (m_sequenceID m)) as [s2 o2]. destruct F as (F & B1 & B2 & B3 & B4 & B5 & Q).
    destruct (m_action m =? CMD_NULL_DEST_MESSAGE); injection E as <- <-; apply quiet_step; try (discriminate || exact I); auto; try apply F; try lia.
    + apply quiet_asks, Q.
    + intros f. apply quiet_passed, Q.
    + rewrite flat_asks, (quiet_asks (runClones s (m_dest_handle m) m)) by (apply copies_quiet, runClones_copies). cbn [flat_map asks app]. apply (quiet_asks o2 Q).
    + intros f. rewrite passedOne_app, (quiet_passed f (runClones s (m_dest_handle m) m)) by (apply copies_quiet, runClones_copies). cbn [app]. unfold passedOne at 1. cbn [flat_map app]. fold (passedOne f o2). apply quiet_passed, Q.
  - (* timing *)
    injection E as E. unfold timingCommand in E. rewrite (inv_blocked _ _ _ I) in E. unfold outstandingStep, started. cbn [fst snd federateOf endpointOf]. rewrite app_nil_r, keep_all by discriminate.
    destruct (hasAny (ff_ongoing s) (m_source_id m)) eqn:H; injection E as <- <-.
    + split; [|split; [reflexivity|]].
      * destruct I as [I1 I2 I3 I4 I5 I6]. constructor; cbn [ff_ongoing ff_counter ff_blocks ff_delayed withTracking]; auto. intros f x X. apply in_app_iff in X. destruct X as [X|[X|[]]]; [auto|]. injection X as <- <-. auto.
      * intros f. unfold heldOf. cbn [ff_delayed withTracking passedOne flat_map issuedOne app]. rewrite filter_app, map_app. cbn. destruct (m_source_id m =? f); reflexivity.
    + split; [exact I|split; [reflexivity|]]. intros f. cbn [issuedOne passedOne flat_map]. rewrite app_nil_r. destruct (Z.eqb_spec (m_source_id m) f) as [X|X]; [|apply app_nil_r].
      assert (HN : heldOf s f = []).
      { unfold heldOf. destruct (filter (fun d => fst d =? f) (ff_delayed s)) as [|[a x] l] eqn:FL; [reflexivity|exfalso].
        assert (IN : In (a, x) (filter (fun d => fst d =? f) (ff_delayed s))) by (rewrite FL; left; reflexivity). apply filter_In in IN. destruct IN as [IN EQ]. cbn in EQ. apply Z.eqb_eq in EQ. subst a.
        destruct (i_del _ _ I _ _ IN) as [Y _]. congruence. }
      rewrite HN. reflexivity.
  - injection E as <- <-. apply quiet_step; try (discriminate || reflexivity || exact I || lia).
Qed.

Lemma frun_inv owner : forall es s s' t w, inv s (map fst w) -> ff_owner s = owner -> frun s es = Some (s', t) ->
  inv s' (map fst (fold_left (outstandingStep owner) t w)) /\ ff_owner s' = owner /\ forall f, heldOf s f ++ issued f t = passedOn f t ++ heldOf s' f.
Proof.
  induction es as [|e es IH]; intros s s' t w I O E; cbn [frun] in E.
  - injection E as <- <-. cbn. split; [exact I|split; [exact O|intros f; now rewrite app_nil_r]].
  - destruct (fstep s e) as [[s1 o1]|] eqn:S1; [|discriminate]. destruct (frun s1 es) as [[s2 t2]|] eqn:R; [|discriminate]. injection E as <- <-.
    destruct (fstep_inv _ _ _ _ _ I S1) as (I1 & O1 & H1). rewrite O in *. destruct (IH _ _ _ _ I1 O1 R) as (I2 & O2 & H2). split; [exact I2|split; [exact O2|]].
    intros f. unfold issued, passedOn in *. cbn [flat_map fst snd]. specialize (H1 f). specialize (H2 f). unfold issuedOne in H1. rewrite app_assoc, H1, <- !app_assoc. f_equal. exact H2.
Qed.
Lemma init_inv36 id owner key : inv (ff_init id owner key) (map fst ([] : list (Z * Z * Z))).
Proof. constructor; cbn; try (intros; tauto); try constructor; try discriminate. Qed.

(** ** C36, source side: while something is outstanding for the federate its timing commands stay in the core; otherwise they go on at once *)
Theorem C36_timing_commands_wait_for_filters id owner key es s t : frun (ff_init id owner key) es = Some (s, t) ->
  forall m, exists s' o, fstep s (F_timing m) = Some (s', o) /\
    (waits owner t (m_source_id m) -> o = []) /\ (~ waits owner t (m_source_id m) -> o = [O_timing m] /\ s' = s).
Proof.
  intros R m. destruct (frun_inv owner _ _ _ _ [] (init_inv36 id owner key) eq_refl R) as (I & O & _).
  assert (W : hasAny (ff_ongoing s) (m_source_id m) = true <-> waits owner t (m_source_id m)).
  { rewrite hasAny_iff. unfold waits. split.
    - intros [p H]. apply (i_on _ _ I) in H. apply in_map_iff in H. destruct H as ([[a b] c] & E & H). injection E as -> ->. eauto.
    - intros (p & tm & H). exists p. apply (i_on _ _ I), in_map_iff. exists (m_source_id m, p, tm). auto. }
  cbn [fstep]. unfold timingCommand. rewrite (inv_blocked _ _ _ I). destruct (hasAny _ _) eqn:E; eexists; eexists; (split; [reflexivity|split; intros H]).
  - reflexivity.
  - exfalso. apply H, W. reflexivity.
  - exfalso. apply W in H. discriminate.
  - auto.
Qed.
(** nothing is lost, duplicated or reordered: what was issued is what was passed on followed by what is held, and nothing is held unless a message is outstanding *)
Theorem C36_held_commands_are_released_in_order id owner key es s t g : frun (ff_init id owner key) es = Some (s, t) ->
  exists held, issued g t = passedOn g t ++ held /\ (~ waits owner t g -> held = []).
Proof.
  intros R. destruct (frun_inv owner _ _ _ _ [] (init_inv36 id owner key) eq_refl R) as (I & O & H). exists (heldOf s g). split; [rewrite <- (H g); reflexivity|].
  intros N. unfold heldOf. destruct (filter (fun d => fst d =? g) (ff_delayed s)) as [|[a x] l] eqn:FL; [reflexivity|exfalso].
  assert (IN : In (a, x) (filter (fun d => fst d =? g) (ff_delayed s))) by (rewrite FL; left; reflexivity). apply filter_In in IN. destruct IN as [IN EQ]. cbn in EQ. apply Z.eqb_eq in EQ. subst a.
  destruct (i_del _ _ I _ _ IN) as [Y _]. apply hasAny_iff in Y. destruct Y as [p Y]. apply (i_on _ _ I) in Y. apply in_map_iff in Y. destruct Y as ([[a b] c] & E & Y). injection E as -> ->. apply N. exists p, c. exact Y.
Qed.
