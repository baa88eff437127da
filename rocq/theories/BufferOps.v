(** * Payload buffers: the effect of each operation on the contents *)
From Coq Require Import ZArith Bool List Lia PeanoNat.
From Verif Require Import Buffer BufferProofs.
Import ListNotations.

Definition keeps (o : oid) (m m' : mem) : Prop := forall p, p <> o -> text m' p = text m p.
Lemma others_text o m m' : Inv m -> Inv m' -> others o m m' -> keeps o m m'.
Proof. intros I I' O p NE. rewrite !text_view by assumption. rewrite (O p NE). reflexivity. Qed.
Lemma others2_text o s m m' : Inv m -> Inv m' -> others2 o s m m' -> forall p, p <> o -> p <> s -> text m' p = text m p.
Proof. intros I I' O p A B. rewrite !text_view by assumption. rewrite (O p A B). reflexivity. Qed.

Lemma firstn_firstn_le {A} a b (l : list A) : a <= b -> firstn a (firstn b l) = firstn a l.
Proof. intros H. rewrite firstn_firstn. f_equal. lia. Qed.
Lemma firstn_eq_le {A} a b (l r : list A) : a <= b -> firstn b l = firstn b r -> firstn a l = firstn a r.
Proof. intros H E. rewrite <- (firstn_firstn_le a b l H), E. apply firstn_firstn_le, H. Qed.

(** an operation on object [o] which may throw *)
Definition outcome (o : oid) (m : mem) (v : vw) (n : nat) (r : res) (P : mem -> vw -> Prop) : Prop :=
  (v_cap v < n /\ ((bigSize < Z.of_nat n)%Z \/ v_locked v = true) /\ r = Some (m, true)) \/
  (exists m' v', r = ok m' /\ Inv m' /\ others o m m' /\ view m' o = Some v' /\ v_locked v' = v_locked v /\ P m' v' /\
     (v_cap v < n -> (Z.of_nat n <= bigSize)%Z /\ v_locked v = false)).

Lemma resize_ok J m o v n : Inv m -> view m o = Some v ->
  outcome o m v n (resize J o n m) (fun m' v' => v_size v' = n /\ firstn (Nat.min (v_size v) n) (v_raw v') = firstn (Nat.min (v_size v) n) (v_raw v) /\ v_cap v <= v_cap v').
Proof.
  intros I V. unfold resize. destruct (reserve_ok J m o v n I V) as [(A & B & E)|(m1 & v1 & E & I1 & O1 & V1 & S1 & L1 & C1 & F1 & CC & SM & BG)]; rewrite E.
  - left. tauto.
  - right. cbn [andThen ok]. destruct (size_ok m1 o v1 n I1 V1 C1) as (m2 & E2 & I2 & O2 & V2). rewrite E2.
    exists m2. eexists. split; [reflexivity|]. split; [exact I2|]. split; [exact (others_trans _ _ _ _ O1 O2)|]. split; [exact V2|]. cbn.
    split; [exact L1|]. split; [|exact BG]. split; [reflexivity|]. split; [|exact CC]. apply (firstn_eq_le _ (v_size v)); [lia|exact F1].
Qed.
Lemma resizeFill_ok J m o v n z : Inv m -> view m o = Some v ->
  outcome o m v n (resizeFill J o n z m) (fun m' v' => v_size v' = n /\ firstn n (v_raw v') = firstn n (firstn (v_size v) (v_raw v)) ++ repeat z (n - v_size v)).
Proof.
  intros I V. unfold resizeFill. destruct (view_raw _ _ _ I V) as (R0 & Z0 & _).
  destruct (reserve_ok J m o v n I V) as [(A & B & E)|(m1 & v1 & E & I1 & O1 & V1 & S1 & L1 & C1 & F1 & CC & SM & BG)]; rewrite E; [left; tauto|].
  right. cbn [andThen ok]. destruct (view_live _ _ _ V1) as (x1 & X1). destruct (live_view _ _ _ I1 X1) as (v1' & V1' & SX & _).
  rewrite V1 in V1'. injection V1' as <-. destruct (view_raw _ _ _ I1 V1) as (R1 & Z1 & _).
  unfold withObj. rewrite X1, <- SX. destruct (Nat.ltb_spec (v_size v1) n) as [LT|GE].
  - pose proof (store_ok m1 o v1 (v_size v1) (repeat z (n - v_size v1)) I1 V1) as ST. rewrite repeat_length in ST. destruct ST as (m2 & E2 & I2 & O2 & V2); [lia|].
    unfold store, withObj in E2. rewrite X1 in E2. destruct (wr m1 (b_heap x1) (v_size v1) (repeat z (n - v_size v1))) as [m2'|] eqn:W; [|discriminate].
    cbn [obind] in E2. injection E2 as ->. cbn [obind]. destruct (size_ok m2 o _ n I2 V2) as (m3 & E3 & I3 & O3 & V3); [exact C1|]. rewrite E3.
    eexists; eexists. split; [reflexivity|]. split; [exact I3|]. split; [exact (others_trans _ _ _ _ O1 (others_trans _ _ _ _ O2 O3))|]. split; [exact V3|]. cbn.
    split; [exact L1|]. split; [|exact BG]. split; [reflexivity|].
    unfold splice. rewrite repeat_length. rewrite app_assoc. rewrite firstn_app_exact.
    + rewrite S1. rewrite F1. f_equal. rewrite (firstn_all2 (firstn (v_size v) (v_raw v))) by (rewrite firstn_length; lia). reflexivity.
    + rewrite app_length, firstn_length, repeat_length. lia.
  - cbn [obind]. destruct (size_ok m1 o _ n I1 V1) as (m3 & E3 & I3 & O3 & V3); [exact C1|]. rewrite E3.
    eexists; eexists. split; [reflexivity|]. split; [exact I3|]. split; [exact (others_trans _ _ _ _ O1 O3)|]. split; [exact V3|]. cbn.
    split; [exact L1|]. split; [|exact BG]. split; [reflexivity|]. replace (n - v_size v) with 0 by lia. cbn [repeat]. rewrite app_nil_r, firstn_firstn_le by lia.
    apply (firstn_eq_le _ (v_size v)); [lia|exact F1].
Qed.
Lemma assign_ok J m o v d : Inv m -> view m o = Some v ->
  outcome o m v (length d) (assign J o d m) (fun m' v' => v_size v' = length d /\ firstn (length d) (v_raw v') = d).
Proof.
  intros I V. unfold assign. destruct (resize_ok J m o v (length d) I V) as [(A & B & E)|(m1 & v1 & E & I1 & O1 & V1 & L1 & (S1 & F1 & C1) & BG)]; rewrite E; [left; tauto|].
  right. cbn [andThen ok]. destruct (view_raw _ _ _ I1 V1) as (R1 & Z1 & _). destruct (store_ok m1 o v1 0 d I1 V1) as (m2 & E2 & I2 & O2 & V2); [cbn; lia|]. rewrite E2.
  eexists; eexists. split; [reflexivity|]. split; [exact I2|]. split; [exact (others_trans _ _ _ _ O1 O2)|]. split; [exact V2|]. cbn. split; [exact L1|]. split; [|exact BG].
  split; [exact S1|]. apply firstn_app_exact. reflexivity.
Qed.
Lemma append_ok J m o v d : Inv m -> view m o = Some v ->
  outcome o m v (v_size v + length d) (append J o d m) (fun m' v' => v_size v' = v_size v + length d /\ firstn (v_size v + length d) (v_raw v') = firstn (v_size v) (v_raw v) ++ d).
Proof.
  intros I V. unfold append, withObj. destruct (view_live _ _ _ V) as (x & X). destruct (live_view _ _ _ I X) as (v0 & V0 & SX & _). rewrite V in V0. injection V0 as <-. rewrite X, <- SX.
  destruct (view_raw _ _ _ I V) as (R0 & Z0 & _).
  destruct (resize_ok J m o v (v_size v + length d) I V) as [(A & B & E)|(m1 & v1 & E & I1 & O1 & V1 & L1 & (S1 & F1 & C1) & BG)]; rewrite E; [left; tauto|].
  right. cbn [andThen ok]. destruct (view_raw _ _ _ I1 V1) as (R1 & Z1 & _). destruct (store_ok m1 o v1 (v_size v) d I1 V1) as (m2 & E2 & I2 & O2 & V2); [lia|]. rewrite E2.
  eexists; eexists. split; [reflexivity|]. split; [exact I2|]. split; [exact (others_trans _ _ _ _ O1 O2)|]. split; [exact V2|]. cbn. split; [exact L1|]. split; [|exact BG].
  split; [exact S1|]. unfold splice. rewrite app_assoc, firstn_app_exact.
  - f_equal. replace (Nat.min (v_size v) (v_size v + length d)) with (v_size v) in F1 by lia. exact F1.
  - rewrite app_length, firstn_length. lia.
Qed.
(** a block which is live stays readable when another object is resized *)
Lemma others_rd o m m' s y v : Inv m -> Inv m' -> others o m m' -> s <> o -> m_objs m s = Some y -> view m s = Some v -> m_objs m' s = Some y -> rd m' (b_heap y) 0 (b_size y) = Some (firstn (v_size v) (v_raw v)).
Proof.
  intros I I' O NE Y V Y'. destruct (live_view _ _ _ I Y) as (v0 & V0 & SX & _). rewrite V in V0. injection V0 as <-. rewrite <- SX.
  destruct (view_raw _ _ _ I V). apply (rd_ok m' s y v); [exact I'|exact Y'|rewrite (O s NE); exact V|lia].
Qed.
(** resizing [o] leaves the members of the others as they are *)
Lemma resize_objs J o n m m' : resize J o n m = ok m' -> forall p, p <> o -> m_objs m' p = m_objs m p.
Proof.
  intros E p NE. unfold resize in E. destruct (reserve J o n m) as [[m1 [|]]|] eqn:R; cbn [andThen] in E; try discriminate.
  assert (H1 : m_objs m1 p = m_objs m p).
  { unfold reserve, withObj in R. destruct (m_objs m o) as [x|] eqn:X; [|discriminate]. destruct (b_cap x <? n); [|injection R as <-; reflexivity].
    destruct (_ || _); [discriminate|]. unfold alloc in R. set (a := mkMem _ _ _ _) in R. destruct (rd a (b_heap x) 0 (b_size x)) as [d|]; [|discriminate]. cbn [obind] in R.
    cbn [wr] in R. destruct (m_blks a (m_next m)) as [l|]; [|discriminate]. destruct (_ <=? _); [|discriminate]. cbn [obind] in R.
    set (a2 := setBlk _ _ _) in R. assert (A2 : m_objs a2 = m_objs m) by reflexivity. clearbody a2.
    assert (Q : forall a3, (if b_alloc x && negb (b_span x) then free a2 (b_heap x) else Some a2) = Some a3 -> m_objs a3 = m_objs m).
    { intros a3 F. destruct (_ && _); [|congruence]. unfold free in F. destruct (b_heap x); [discriminate|]. destruct (m_blks a2 b); [|discriminate]. injection F as <-. exact A2. }
    destruct (if b_alloc x && negb (b_span x) then free a2 (b_heap x) else Some a2) as [a3|] eqn:F; [|discriminate]. cbn [obind] in R. specialize (Q a3 eq_refl).
    unfold setB, withObj in R. rewrite Q, X in R. injection R as <-. rewrite setObj_other by exact NE. rewrite Q. reflexivity. }
  unfold setB, withObj in E. destruct (m_objs m1 o); [|discriminate]. injection E as <-. rewrite setObj_other by exact NE. exact H1.
Qed.
Lemma copy_ok J m o s v w : Inv m -> o <> s -> view m o = Some v -> view m s = Some w ->
  outcome o m v (v_size w) (copy J o s m) (fun m' v' => v_size v' = v_size w /\ firstn (v_size w) (v_raw v') = firstn (v_size w) (v_raw w)).
Proof.
  intros I NE V W. unfold copy. destruct (Nat.eqb_spec o s) as [E|_]; [contradiction|]. unfold withObj.
  destruct (view_live _ _ _ W) as (y & Y). destruct (live_view _ _ _ I Y) as (w0 & W0 & SY & _). rewrite W in W0. injection W0 as <-. rewrite Y. rewrite <- SY.
  destruct (view_raw _ _ _ I W) as (RW & ZW & _).
  destruct (resize_ok J m o v (v_size w) I V) as [(A & B & E)|(m1 & v1 & E & I1 & O1 & V1 & L1 & (S1 & F1 & C1) & BG)]; rewrite E; [left; tauto|].
  right. cbn [andThen ok]. rewrite SY. rewrite (others_rd o m m1 s y w I I1 O1 (not_eq_sym NE) Y W); [|rewrite (resize_objs J o (v_size w) m m1 E); [exact Y|congruence]]. cbn [obind].
  destruct (view_raw _ _ _ I1 V1) as (R1 & Z1 & _).
  destruct (store_ok m1 o v1 0 (firstn (v_size w) (v_raw w)) I1 V1) as (m2 & E2 & I2 & O2 & V2); [rewrite firstn_length; lia|]. rewrite E2.
  eexists; eexists. split; [reflexivity|]. split; [exact I2|]. split; [exact (others_trans _ _ _ _ O1 O2)|]. split; [exact V2|]. cbn. split; [exact L1|]. split; [|rewrite <- SY; exact BG].
  rewrite <- SY. split; [exact S1|]. unfold splice. cbn [firstn app]. apply firstn_app_exact. rewrite firstn_length. lia.
Qed.
Lemma popBack_ok m o v : Inv m -> view m o = Some v -> exists m', popBack o m = ok m' /\ Inv m' /\ others o m m' /\ view m' o = Some (mkV (v_raw v) (v_size v - 1) (v_cap v) (v_alloc v) (v_span v) (v_locked v)).
Proof.
  intros I V. destruct (view_raw _ _ _ I V) as (R & Z & _). destruct (view_live _ _ _ V) as (x & X). destruct (live_view _ _ _ I X) as (v0 & V0 & SX & _). rewrite V in V0. injection V0 as <-.
  destruct (size_ok m o v (v_size v - 1) I V) as (m' & E & R'); [lia|]. exists m'. split; [|exact R'].
  unfold popBack, setB, withObj in *. rewrite X in *. rewrite <- SX. exact E.
Qed.
Lemma nullTerminate_ok J m o v : Inv m -> view m o = Some v ->
  outcome o m v (v_size v + 1) (nullTerminate J o m) (fun m' v' => v_size v' = v_size v /\ firstn (v_size v) (v_raw v') = firstn (v_size v) (v_raw v)).
Proof.
  intros I V. unfold nullTerminate, withObj. destruct (view_live _ _ _ V) as (x & X). destruct (live_view _ _ _ I X) as (v0 & V0 & SX & CX & _). rewrite V in V0. injection V0 as <-. rewrite X, <- SX, <- CX.
  destruct (view_raw _ _ _ I V) as (R & Z & _). destruct (Nat.ltb_spec (v_size v) (v_cap v)) as [LT|GE].
  - right. destruct (store_ok m o v (v_size v) [0%Z] I V) as (m' & E & I' & O' & V'); [cbn; lia|]. rewrite E. eexists; eexists. split; [reflexivity|]. split; [exact I'|]. split; [exact O'|]. split; [exact V'|].
    cbn. split; [reflexivity|]. split; [|lia]. split; [reflexivity|]. unfold splice. apply firstn_app_exact. rewrite firstn_length. lia.
  - destruct (append_ok J m o v [0%Z] I V) as [(A & B & E)|(m1 & v1 & E & I1 & O1 & V1 & L1 & (S1 & F1) & BG)]; rewrite E; [left; tauto|]. right. cbn [andThen ok].
    destruct (popBack_ok m1 o v1 I1 V1) as (m2 & E2 & I2 & O2 & V2). rewrite E2. eexists; eexists. split; [reflexivity|]. split; [exact I2|]. split; [exact (others_trans _ _ _ _ O1 O2)|]. split; [exact V2|].
    cbn [v_locked v_size v_raw]. split; [exact L1|]. split; [|exact BG]. cbn [length] in *. split; [lia|].
    rewrite <- (firstn_firstn_le (v_size v) (v_size v + 1)) by lia. rewrite F1. apply firstn_app_exact. rewrite firstn_length. lia.
Qed.
(** appending a part of itself, when the block is not replaced by the resize or the old bytes are inline *)
Lemma rd_at m o x v i n : Inv m -> m_objs m o = Some x -> view m o = Some v -> i + n <= v_cap v -> rd m (b_heap x) i n = Some (firstn n (skipn i (v_raw v))).
Proof.
  intros I X V N. destruct (live_view m o x I X) as (v' & V' & _ & _ & _ & _ & _ & B). rewrite V in V'. injection V' as <-.
  destruct (view_raw m o v I V) as (R & Z & _). unfold rd. rewrite B. destruct (Nat.leb_spec (i + n) (length (v_raw v))); [reflexivity|lia].
Qed.
Lemma skipn_firstn_in {A} i n k (l r : list A) : i + n <= k -> firstn k l = firstn k r -> firstn n (skipn i l) = firstn n (skipn i r).
Proof.
  intros H E. assert (forall t : list A, firstn n (skipn i t) = firstn n (skipn i (firstn k t))) as Q.
  { intros t. rewrite skipn_firstn_comm. rewrite firstn_firstn. f_equal. lia. }
  rewrite (Q l), (Q r), E. reflexivity.
Qed.
Lemma setObj_in m o f x : m_objs m o = Some x -> b_in (f x) = b_in x -> bytesOf (setObj o (Some (f x)) m) (PIn o) = bytesOf m (PIn o).
Proof. intros X E. cbn [bytesOf]. rewrite setObj_same, X, E. reflexivity. Qed.
(** resizing keeps the inline bytes *)
Lemma resize_inline J o n m m' : resize J o n m = ok m' -> bytesOf m' (PIn o) = bytesOf m (PIn o).
Proof.
  intros E. unfold resize in E. destruct (reserve J o n m) as [[m1 [|]]|] eqn:R; cbn [andThen] in E; try discriminate.
  assert (H1 : bytesOf m1 (PIn o) = bytesOf m (PIn o)).
  { unfold reserve, withObj in R. destruct (m_objs m o) as [x|] eqn:X; [|discriminate]. destruct (b_cap x <? n); [|injection R as <-; reflexivity].
    destruct (_ || _); [discriminate|]. unfold alloc in R. set (a := mkMem _ _ _ _) in R. destruct (rd a (b_heap x) 0 (b_size x)) as [d|]; [|discriminate]. cbn [obind] in R.
    cbn [wr] in R. destruct (m_blks a (m_next m)) as [l|]; [|discriminate]. destruct (_ <=? _); [|discriminate]. cbn [obind] in R.
    set (a2 := setBlk _ _ _) in R. assert (A2 : m_objs a2 = m_objs m) by reflexivity. clearbody a2.
    assert (Q : forall a3, (if b_alloc x && negb (b_span x) then free a2 (b_heap x) else Some a2) = Some a3 -> m_objs a3 = m_objs m).
    { intros a3 F. destruct (_ && _); [|congruence]. unfold free in F. destruct (b_heap x); [discriminate|]. destruct (m_blks a2 b); [|discriminate]. injection F as <-. exact A2. }
    destruct (if b_alloc x && negb (b_span x) then free a2 (b_heap x) else Some a2) as [a3|] eqn:F; [|discriminate]. cbn [obind] in R. specialize (Q a3 eq_refl).
    unfold setB, withObj in R. rewrite Q, X in R. injection R as <-. cbn [bytesOf]. rewrite setObj_same, X. reflexivity. }
  unfold setB, withObj in E. destruct (m_objs m1 o) as [x1|] eqn:X1; [|discriminate]. injection E as <-. rewrite <- H1. apply setObj_in; [exact X1|reflexivity].
Qed.
Lemma resize_small J o n m x : m_objs m o = Some x -> n <= b_cap x -> resize J o n m = ok (setObj o (Some (sizeB n x)) m).
Proof. intros X N. unfold resize, reserve, withObj. rewrite X. destruct (Nat.ltb_spec (b_cap x) n); [lia|]. cbn [andThen ok]. unfold setB, withObj. rewrite X. reflexivity. Qed.
Lemma appendSelf_ok J m o v i n : Inv m -> view m o = Some v -> i + n <= v_size v -> (v_alloc v = false \/ v_size v + n <= v_cap v) ->
  outcome o m v (v_size v + n) (appendSelf J o i n m) (fun m' v' => v_size v' = v_size v + n /\
    firstn (v_size v + n) (v_raw v') = firstn (v_size v) (v_raw v) ++ firstn n (skipn i (firstn (v_size v) (v_raw v)))).
Proof.
  intros I V IN SAFE. unfold appendSelf, withObj. destruct (view_live _ _ _ V) as (x & X). destruct (live_view _ _ _ I X) as (v0 & V0 & SX & CX & AX & _ & _ & BX). rewrite V in V0. injection V0 as <-. rewrite X, <- SX.
  destruct (view_raw _ _ _ I V) as (R0 & Z0 & _).
  assert (DD : firstn n (skipn i (firstn (v_size v) (v_raw v))) = firstn n (skipn i (v_raw v))).
  { apply (skipn_firstn_in i n (v_size v)); [exact IN|]. apply firstn_firstn_le. lia. }
  destruct (resize_ok J m o v (v_size v + n) I V) as [(A & B & E)|(m1 & v1 & E & I1 & O1 & V1 & L1 & (S1 & F1 & C1) & BG)].
  { rewrite E. left. tauto. }
  assert (RD : rd m1 (b_heap x) i n = Some (firstn n (skipn i (v_raw v)))).
  { destruct (Nat.le_gt_cases (v_size v + n) (v_cap v)) as [FIT|BIG].
    - rewrite (resize_small J o (v_size v + n) m x X) in E by lia. injection E as <-.
      assert (BE : bytesOf (setObj o (Some (sizeB (v_size v + n) x)) m) (b_heap x) = Some (v_raw v)).
      { destruct (b_heap x) as [q|c]; [|exact BX]. destruct (Nat.eq_dec q o) as [->|NE]; [rewrite setObj_in by (exact X || reflexivity); exact BX|]. cbn [bytesOf] in *. rewrite setObj_other by exact NE. exact BX. }
      unfold rd. rewrite BE. destruct (Nat.leb_spec (i + n) (length (v_raw v))); [reflexivity|lia].
    - destruct SAFE as [AL|FIT]; [|lia]. destruct (i_well _ I _ _ X) as (_ & _ & W1 & _). rewrite AX in AL. destruct (W1 AL) as [E1 _]. rewrite E1 in *.
      unfold rd. rewrite (resize_inline J o _ m m1 E), BX. destruct (Nat.leb_spec (i + n) (length (v_raw v))); [reflexivity|lia]. }
  rewrite E. right. cbn [andThen ok]. rewrite RD. cbn [obind]. set (d := firstn n (skipn i (v_raw v))). assert (DL : length d = n) by (unfold d; rewrite firstn_length, skipn_length; lia).
  destruct (view_raw _ _ _ I1 V1) as (R1 & Z1 & _). destruct (store_ok m1 o v1 (v_size v) d I1 V1) as (m2 & E2 & I2 & O2 & V2); [lia|]. rewrite E2.
  eexists; eexists. split; [reflexivity|]. split; [exact I2|]. split; [exact (others_trans _ _ _ _ O1 O2)|]. split; [exact V2|]. cbn. split; [exact L1|]. split; [|exact BG].
  split; [exact S1|]. rewrite DD. fold d. unfold splice. rewrite app_assoc, firstn_app_exact.
  - f_equal. replace (Nat.min (v_size v) (v_size v + n)) with (v_size v) in F1 by lia. exact F1.
  - rewrite app_length, firstn_length. lia.
Qed.

(** ** taking over memory of the program, and giving memory to it *)
Lemma adopt_ok J m o v span d cap : Inv m -> view m o = Some v -> length d <= cap ->
  exists m', adopt J span o d cap m = ok m' /\ Inv m' /\ others o m m' /\ text m' o = Some d.
Proof.
  intros I V LD. destruct (view_live _ _ _ V) as (x & X). destruct (i_well _ I _ _ X) as (LI & _ & _ & W2).
  unfold adopt, foreign. set (b := m_next m). set (m1 := mkMem _ _ _ _). unfold withObj. assert (X1 : m_objs m1 o = Some x) by exact X. rewrite X1.
  assert (K1 : forall c, c <> b -> m_blks m1 c = m_blks m c) by (intros c NE; apply fupd_other, NE).
  assert (DR : exists m3, (if b_alloc x && negb (b_span x) then free m1 (b_heap x) else Some m1) = Some m3 /\ m_objs m3 = m_objs m /\ m_next m3 = S (m_next m) /\ m_user m3 = fupd (m_user m) b span /\
    (forall c, c <> b -> ~ owns m o c -> m_blks m3 c = m_blks m c) /\ (forall c, owns m o c -> m_blks m3 c = None) /\ m_blks m3 b = Some (d ++ junk J b (cap - length d))).
  { destruct (b_alloc x) eqn:AL; [destruct (b_span x) eqn:SPX|]; cbn [andb negb].
    - exists m1. repeat split; auto. { intros c (y & Y & _ & _ & SP'). congruence. } apply fupd_same.
    - destruct (W2 eq_refl) as (c & l & E & K & LE & U). assert (CB : c <> b) by (apply alive_next; [exact I|congruence]). rewrite E. cbn [free]. rewrite K1, K by exact CB.
      eexists. split; [reflexivity|]. repeat split; auto.
      + intros c' NE NO. cbn. rewrite fupd_other; [apply K1, NE|]. intros ->. apply NO. exists x. tauto.
      + intros c' (y & Y & _ & E' & _). assert (c' = c) by congruence. subst. cbn. apply fupd_same.
      + cbn. rewrite fupd_other by congruence. apply fupd_same.
    - exists m1. repeat split; auto. { intros c (y & Y & AL' & _). congruence. } apply fupd_same. }
  destruct DR as (m3 & -> & O3 & N3 & U3 & K3 & D3 & B3). cbn [obind]. unfold setB, withObj. rewrite O3, X.
  set (x' := mkSB (b_in x) (length d) cap (PBlk b) span false true (b_err x)).
  destruct (rehouse m o x m3 b x' I X O3 N3 eq_refl K3 D3) as [IV OT]; try reflexivity; try assumption.
  { intros c NE. rewrite U3. apply fupd_other, NE. } { eexists. split; [exact B3|]. rewrite app_length, junk_length. cbn [x' b_cap]. lia. }
  { cbn [x' b_span]. rewrite U3. apply fupd_same. }
  eexists. split; [reflexivity|]. split; [exact IV|]. split; [exact OT|]. rewrite text_view by exact IV. unfold view. rewrite setObj_same. unfold viewB. cbn [x' b_heap bytesOf setObj m_blks].
  rewrite B3. cbn. rewrite firstn_app_exact by reflexivity. reflexivity.
Qed.
Lemma release_ok m o v : Inv m -> view m o = Some v ->
  exists m', release o m = ok m' /\ Inv m' /\ others o m m' /\ text m' o = (if v_alloc v then Some [] else text m o).
Proof.
  intros I V. destruct (view_live _ _ _ V) as (x & X). destruct (live_view _ _ _ I X) as (v0 & V0 & SX & CX & AX & _ & _ & BX). rewrite V in V0. injection V0 as <-.
  unfold release, withObj. rewrite X, AX. destruct (b_alloc x) eqn:AL; [|exists m; split; [reflexivity|]; split; [exact I|]; split; [apply others_refl|reflexivity]].
  destruct (i_well _ I _ _ X) as (LI & _ & _ & W2). destruct (W2 AL) as (b & l & E & K & LE & U). rewrite E. eexists. split; [reflexivity|]. set (m' := mkMem _ _ _ _).
  assert (XO : m_objs m' o = Some (mkSB (b_in x) 0 64 (PIn o) false false false (b_err x))) by apply fupd_same.
  assert (NH : forall c, ~ holds m' o c) by (intros c (y & Y & A & _); rewrite XO in Y; injection Y as <-; discriminate).
  assert (HB : holds m o b) by (exists x; tauto).
  destruct (reshuffle m m' o o I) as [I' O'].
  - intros p NE _. apply fupd_other, NE.
  - apply (i_next _ I).
  - intros p c NE _ H. split; [reflexivity|]. cbn [m' m_user]. apply fupd_other. intros ->. apply NE, (i_alone _ I p o b H HB).
  - intros y Y. rewrite XO in Y. injection Y as <-. split; [exact LI|]. split; [cbn; lia|]. split; [split; reflexivity|discriminate].
  - intros y Y. rewrite XO in Y. injection Y as <-. split; [exact LI|]. split; [cbn; lia|]. split; [split; reflexivity|discriminate].
  - intros c H. destruct (NH c H).
  - intros c H. destruct (NH c H).
  - reflexivity.
  - intros c C UC. cbn [m' m_blks m_user] in *. assert (CB : c <> b) by (intros ->; rewrite fupd_same in UC; discriminate). rewrite fupd_other in UC by exact CB.
    destruct (i_owned _ I c C UC) as (p & OW). right. right. exists p. assert (p <> o). { intros ->. destruct OW as (y & Y & _ & E' & _). congruence. } tauto.
  - split; [exact I'|]. split; [intros p NE; apply O'; exact NE|]. rewrite text_view by exact I'. unfold view. rewrite XO. unfold viewB. cbn [b_heap bytesOf]. rewrite XO. reflexivity.
Qed.

(** ** moving *)
Lemma moveNew_ok m o s y : Inv m -> m_objs m o = None -> m_objs m s = Some y ->
  exists m', moveNew o s m = ok m' /\ Inv m' /\ others2 o s m m' /\ text m' o = text m s /\ text m' s = Some [].
Proof.
  intros I X Y. assert (NE : o <> s) by congruence. destruct (create_ok m o I X) as (I1 & O1 & V1). set (m1 := create o m) in *.
  assert (X1 : m_objs m1 o = Some (fresh o zeros64)) by apply setObj_same. assert (Y1 : m_objs m1 s = Some y) by (unfold m1, create; rewrite setObj_other by congruence; exact Y).
  assert (NOW : forall c, ~ owns m1 o c) by (intros c (z & Z & A & _); rewrite X1 in Z; injection Z as <-; discriminate).
  assert (TS : text m1 s = text m s) by (apply (others_text o m m1 I I1 O1); congruence).
  destruct (i_well _ I _ _ Y) as (LY & SZ & W1 & W2).
  assert (FIN : forall m' xf, m_objs m' o = Some xf -> m_objs m' s = Some (mkSB (b_in y) 0 64 (PIn s) (b_span y) (b_locked y) false (b_err y)) ->
     (forall p, p <> o -> p <> s -> m_objs m' p = m_objs m1 p) -> m_blks m' = m_blks m1 -> m_next m' = m_next m1 -> m_user m' = m_user m1 ->
     length (b_in xf) = 64 -> b_size xf = b_size y -> b_alloc xf = b_alloc y ->
     (b_alloc y = true -> b_heap xf = b_heap y /\ b_cap xf = b_cap y /\ b_span xf = b_span y) ->
     (b_alloc y = false -> b_heap xf = PIn o /\ b_cap xf = 64 /\ firstn (b_size y) (b_in xf) = firstn (b_size y) (b_in y)) ->
     Inv m' /\ others2 o s m m' /\ text m' o = text m s /\ text m' s = Some []).
  { intros m' xf M1 M2 M3 M4 M5 M6 A1 A2 A3 A4 A5. destruct (transfer m1 o s (fresh o zeros64) y m' xf _ I1 NE X1 Y1 M1 M2 M3 M5 M6) as (R1 & R2 & R3 & R4);
      try reflexivity; try assumption.
    - intros c _. congruence.
    - intros c OW. destruct (NOW c OW).
    - split; [exact R1|]. split; [|split; [congruence|exact R4]]. intros p P1 P2. rewrite (R2 p P1 P2). apply O1, P1. }
  unfold moveNew, withObj. rewrite Y. fold m1. destruct (b_alloc y) eqn:AL.
  - eexists. split; [reflexivity|]. eapply FIN.
    + rewrite setObj_other by congruence. apply setObj_same.
    + apply setObj_same.
    + intros p P1 P2. rewrite !setObj_other by congruence. reflexivity.
    + reflexivity.
    + reflexivity.
    + reflexivity.
    + reflexivity.
    + reflexivity.
    + reflexivity.
    + intros _; repeat split.
    + discriminate.
  - destruct (W1 eq_refl) as [E CP]. assert (RD : rd m1 (b_heap y) 0 (b_size y) = Some (firstn (b_size y) (b_in y))).
    { rewrite E. unfold rd. cbn [bytesOf]. rewrite Y1. cbn [plus skipn]. destruct (Nat.leb_spec (b_size y) (length (b_in y))); [reflexivity|lia]. }
    rewrite RD. cbn [obind]. cbn [wr]. rewrite X1. cbn [fresh b_in]. assert (FL : length (firstn (b_size y) (b_in y)) = b_size y) by (rewrite firstn_length; lia).
    rewrite FL. change (length zeros64) with 64. destruct (Nat.leb_spec (0 + b_size y) 64); [|lia]. cbn [obind]. unfold setB, withObj. rewrite setObj_same. cbn [andThen ok].
    eexists. split; [reflexivity|]. eapply FIN.
    + rewrite setObj_other by congruence. apply setObj_same.
    + apply setObj_same.
    + intros p P1 P2. rewrite !setObj_other by congruence. reflexivity.
    + reflexivity.
    + reflexivity.
    + reflexivity.
    + cbn [sizeB setIn b_in]. rewrite splice_length; [reflexivity|]. rewrite FL. change (length zeros64) with 64. lia.
    + reflexivity.
    + reflexivity.
    + discriminate.
    + intros _. split; [reflexivity|]. split; [reflexivity|]. cbn [sizeB setIn b_in]. unfold splice. cbn [firstn app]. apply firstn_app_exact. exact FL.
Qed.
Lemma setB_eq o f m x : m_objs m o = Some x -> setB o f m = ok (setObj o (Some (f x)) m).
Proof. intros X. unfold setB, withObj. rewrite X. reflexivity. Qed.
(** moving to another object which is not locked *)
Lemma move_ok J m o s x y : Inv m -> o <> s -> m_objs m o = Some x -> m_objs m s = Some y -> b_locked x = false ->
  exists m', move J o s m = ok m' /\ Inv m' /\ others2 o s m m' /\ text m' o = text m s /\ text m' s = Some [].
Proof.
  intros I NE X Y LK. destruct (i_well _ I _ _ X) as (LX & SX & WX1 & WX2). destruct (i_well _ I _ _ Y) as (LY & SZ & W1 & W2).
  unfold move, withObj. rewrite X, Y, LK.
  assert (PE : b_alloc x && ptrEq (b_heap y) (b_heap x) = false).
  { destruct (b_alloc x) eqn:AL; [|reflexivity]. cbn [andb]. destruct (WX2 eq_refl) as (b & l & E & _). rewrite E. destruct (b_heap y) as [q|c] eqn:H; [reflexivity|]. cbn [ptrEq].
    destruct (Nat.eqb_spec c b) as [->|]; [|reflexivity]. exfalso. apply NE. apply (i_alone _ I o s b); [exists x; tauto|]. exists y. split; [exact Y|]. split; [|exact H].
    destruct (b_alloc y) eqn:AY; [reflexivity|]. destruct (W1 eq_refl). congruence. }
  rewrite PE. destruct (dropped_ok m o x I X) as (m1 & D & O1 & N1 & U1 & B1 & B2 & B3). unfold dropped in D. rewrite D. cbn [obind].
  assert (X1 : m_objs m1 o = Some x) by congruence. assert (Y1 : m_objs m1 s = Some y) by congruence.
  assert (FIN : forall m' xf yf, m_objs m' o = Some xf -> m_objs m' s = Some yf ->
     (forall p, p <> o -> p <> s -> m_objs m' p = m_objs m1 p) -> m_blks m' = m_blks m1 -> m_next m' = m_next m1 -> m_user m' = m_user m1 ->
     length (b_in xf) = 64 -> b_size xf = b_size y -> b_alloc xf = b_alloc y ->
     (b_alloc y = true -> b_heap xf = b_heap y /\ b_cap xf = b_cap y /\ b_span xf = b_span y) ->
     (b_alloc y = false -> b_heap xf = PIn o /\ b_cap xf = 64 /\ firstn (b_size y) (b_in xf) = firstn (b_size y) (b_in y)) ->
     length (b_in yf) = 64 -> b_size yf = 0 -> b_alloc yf = false -> b_heap yf = PIn s -> b_cap yf = 64 ->
     Inv m' /\ others2 o s m m' /\ text m' o = text m s /\ text m' s = Some []).
  { intros m' xf yf M1 M2 M3 M4 M5 M6 A1 A2 A3 A4 A5 A6 A7 A8 A9 A10. apply (transfer m o s x y m' xf yf I NE X Y M1 M2); try assumption; try congruence.
    - intros p P1 P2. rewrite M3 by assumption. congruence.
    - intros c C. rewrite M4. apply B2, C.
    - intros c C. rewrite M4. apply B3, C. }
  destruct (b_alloc y) eqn:AL.
  - rewrite (setB_eq o _ m1 x X1). cbn [andThen ok]. erewrite setB_eq by apply setObj_same. cbn [andThen ok].
    erewrite setB_eq by (rewrite !setObj_other by congruence; exact Y1). eexists. split; [reflexivity|]. eapply FIN.
    + rewrite setObj_other by congruence. apply setObj_same.
    + apply setObj_same.
    + intros p P1 P2. rewrite !setObj_other by congruence. reflexivity.
    + reflexivity.
    + reflexivity.
    + reflexivity.
    + exact LX.
    + reflexivity.
    + reflexivity.
    + intros _; repeat split.
    + discriminate.
    + exact LY.
    + reflexivity.
    + reflexivity.
    + reflexivity.
    + reflexivity.
  - destruct (W1 eq_refl) as [E CP]. assert (RD : rd m1 (b_heap y) 0 (b_size y) = Some (firstn (b_size y) (b_in y))).
    { rewrite E. unfold rd. cbn [bytesOf]. rewrite Y1. cbn [plus skipn]. destruct (Nat.leb_spec (b_size y) (length (b_in y))); [reflexivity|lia]. }
    rewrite RD. cbn [obind wr]. rewrite X1. assert (FL : length (firstn (b_size y) (b_in y)) = b_size y) by (rewrite firstn_length; lia).
    rewrite FL, LX. destruct (Nat.leb_spec (0 + b_size y) 64); [|lia]. cbn [obind]. erewrite setB_eq by apply setObj_same. cbn [andThen ok].
    erewrite setB_eq by apply setObj_same. cbn [andThen ok]. erewrite setB_eq by (rewrite !setObj_other by congruence; exact Y1). eexists. split; [reflexivity|]. eapply FIN.
    + rewrite setObj_other by congruence. apply setObj_same.
    + apply setObj_same.
    + intros p P1 P2. rewrite !setObj_other by congruence. reflexivity.
    + reflexivity.
    + reflexivity.
    + reflexivity.
    + cbn [lockB sizeB storeB setIn b_in]. rewrite splice_length; [exact LX|]. rewrite FL. lia.
    + reflexivity.
    + reflexivity.
    + discriminate.
    + intros _. split; [reflexivity|]. split; [reflexivity|]. cbn [lockB sizeB storeB setIn b_in]. unfold splice. cbn [firstn app]. apply firstn_app_exact. exact FL.
    + exact LY.
    + reflexivity.
    + reflexivity.
    + reflexivity.
    + reflexivity.
Qed.
(** moving to itself *)
Lemma move_self J m o x : Inv m -> m_objs m o = Some x -> b_locked x = false -> exists m', move J o o m = ok m' /\ Inv m' /\ others o m m' /\ (text m' o = text m o \/ text m' o = Some []).
Proof.
  intros I X LK. destruct (i_well _ I _ _ X) as (LX & SX & WX1 & WX2). unfold move, withObj. rewrite X, LK. destruct (b_alloc x) eqn:AL.
  - destruct (WX2 eq_refl) as (b & l & E & K & LE & U). rewrite E. cbn [ptrEq andb]. rewrite Nat.eqb_refl. rewrite (setB_eq o _ m x X). eexists. split; [reflexivity|].
    set (x' := mkSB _ _ _ _ _ _ _ _). assert (I' : Inv (setObj o (Some x') m)).
    { apply (inv_setObj m o x); try reflexivity; try assumption; cbn [x' b_cap b_size]; destruct (b_span x); try reflexivity; exact SX. }
    split; [exact I'|]. split; [intros p NE; apply view_setObj_other; assumption|]. left. rewrite !text_view by assumption. unfold view. rewrite setObj_same, X. unfold viewB.
    cbn [x' b_heap]. rewrite E. cbn [bytesOf setObj m_blks]. rewrite K. reflexivity.
  - destruct (WX1 eq_refl) as [E CP]. cbn [andb obind]. assert (RD : rd m (b_heap x) 0 (b_size x) = Some (firstn (b_size x) (b_in x))).
    { rewrite E. unfold rd. cbn [bytesOf]. rewrite X. cbn [plus skipn]. destruct (Nat.leb_spec (b_size x) (length (b_in x))); [reflexivity|lia]. }
    rewrite RD. cbn [obind wr]. rewrite X. assert (FL : length (firstn (b_size x) (b_in x)) = b_size x) by (rewrite firstn_length; lia).
    rewrite FL, LX. destruct (Nat.leb_spec (0 + b_size x) 64); [|lia]. cbn [obind]. erewrite setB_eq by apply setObj_same. cbn [andThen ok].
    erewrite setB_eq by apply setObj_same. cbn [andThen ok]. erewrite setB_eq by apply setObj_same. eexists. split; [reflexivity|].
    set (x' := mkSB _ _ _ _ _ _ _ _). set (m' := setObj o (Some x') _).
    assert (XO : m_objs m' o = Some x') by apply setObj_same. assert (OT : forall p, p <> o -> m_objs m' p = m_objs m p) by (intros p NE; unfold m'; rewrite !setObj_other by exact NE; reflexivity).
    assert (WL : wellB m' o x'). { split; [cbn [x' lockB sizeB storeB setIn b_in]; rewrite splice_length; [exact LX|rewrite FL; lia]|]. split; [cbn; lia|]. split; [split; reflexivity|discriminate]. }
    assert (NH : forall c, ~ holds m' o c) by (intros c (z & Z & A & _); rewrite XO in Z; injection Z as <-; discriminate).
    destruct (reshuffle m m' o o I) as [I' O'].
    + intros p P1 _. apply OT, P1.
    + apply (i_next _ I).
    + intros p c _ _ _. split; reflexivity.
    + intros z Z. assert (z = x') by congruence. subst. exact WL.
    + intros z Z. assert (z = x') by congruence. subst. exact WL.
    + intros c H'. destruct (NH c H').
    + intros c H'. destruct (NH c H').
    + reflexivity.
    + intros c C U. right. right. destruct (i_owned _ I c C U) as (p & OW). exists p. assert (p <> o) by (intros ->; destruct OW as (z & Z & A & _); congruence). tauto.
    + split; [exact I'|]. split; [intros p P; apply O'; exact P|]. right. rewrite text_view by exact I'. unfold view. rewrite XO. unfold viewB. cbn [x' b_heap bytesOf]. rewrite XO. reflexivity.
Qed.

(** ** exchanging *)
Lemma exchange m o s x y m' xf yf : Inv m -> o <> s -> m_objs m o = Some x -> m_objs m s = Some y ->
  m_objs m' o = Some xf -> m_objs m' s = Some yf -> (forall p, p <> o -> p <> s -> m_objs m' p = m_objs m p) ->
  m_next m' = m_next m -> m_user m' = m_user m -> m_blks m' = m_blks m ->
  length (b_in xf) = 64 -> length (b_in yf) = 64 -> b_size xf = b_size y -> b_size yf = b_size x -> b_alloc xf = b_alloc y -> b_alloc yf = b_alloc x ->
  (b_alloc y = true -> b_heap xf = b_heap y /\ b_cap xf = b_cap y /\ b_span xf = b_span y) ->
  (b_alloc y = false -> b_heap xf = PIn o /\ b_cap xf = 64 /\ firstn (b_size y) (b_in xf) = firstn (b_size y) (b_in y)) ->
  (b_alloc x = true -> b_heap yf = b_heap x /\ b_cap yf = b_cap x /\ b_span yf = b_span x) ->
  (b_alloc x = false -> b_heap yf = PIn s /\ b_cap yf = 64 /\ firstn (b_size x) (b_in yf) = firstn (b_size x) (b_in x)) ->
  Inv m' /\ others2 o s m m' /\ text m' o = text m s /\ text m' s = text m o.
Proof.
  intros I NE X Y XF YF OB NX US BK LX LY SX SY AX AY TYA TYI TXA TXI.
  destruct (i_well _ I _ _ X) as (LIX & SZX & WX1 & WX2). destruct (i_well _ I _ _ Y) as (LIY & SZY & WY1 & WY2).
  assert (HO : forall c, holds m' o c -> holds m s c).
  { intros c (z & Z & A & E). assert (z = xf) by congruence. subst z. rewrite AX in A. destruct (TYA A) as (E' & _). exists y. rewrite <- E'. tauto. }
  assert (HS : forall c, holds m' s c -> holds m o c).
  { intros c (z & Z & A & E). assert (z = yf) by congruence. subst z. rewrite AY in A. destruct (TXA A) as (E' & _). exists x. rewrite <- E'. tauto. }
  assert (WO : wellB m' o xf).
  { split; [exact LX|]. rewrite SX. destruct (b_alloc y) eqn:AL.
    - destruct (TYA eq_refl) as (E & C & SP). rewrite C. split; [exact SZY|]. split; [congruence|]. intros _. destruct (WY2 eq_refl) as (b & l & E' & K & LE & U).
      exists b, l. rewrite BK, US, SP. split; [congruence|]. tauto.
    - destruct (TYI eq_refl) as (E & C & _). destruct (WY1 eq_refl) as [_ CY']. rewrite C. split; [lia|]. split; [tauto|congruence]. }
  assert (WS : wellB m' s yf).
  { split; [exact LY|]. rewrite SY. destruct (b_alloc x) eqn:AL.
    - destruct (TXA eq_refl) as (E & C & SP). rewrite C. split; [exact SZX|]. split; [congruence|]. intros _. destruct (WX2 eq_refl) as (b & l & E' & K & LE & U).
      exists b, l. rewrite BK, US, SP. split; [congruence|]. tauto.
    - destruct (TXI eq_refl) as (E & C & _). destruct (WX1 eq_refl) as [_ CY']. rewrite C. split; [lia|]. split; [tauto|congruence]. }
  destruct (reshuffle m m' o s I OB) as [I' O'].
  - intros c C. rewrite NX. apply (i_next _ I). congruence.
  - intros p c N1 N2 H. rewrite US, BK. split; reflexivity.
  - intros z Z. assert (z = xf) by congruence. subst. exact WO.
  - intros z Z. assert (z = yf) by congruence. subst. exact WS.
  - intros c H p N1 N2 H'. apply N2. apply (i_alone _ I p s c H' (HO c H)).
  - intros c H p N1 N2 H'. apply N1. apply (i_alone _ I p o c H' (HS c H)).
  - intros c H H'. symmetry. apply (i_alone _ I s o c (HO c H) (HS c H')).
  - intros c C U. rewrite US in U. rewrite BK in C. destruct (i_owned _ I c C U) as (p & OW). destruct (Nat.eq_dec p s) as [->|N2]; [|destruct (Nat.eq_dec p o) as [->|N1]].
    + left. destruct OW as (z & Z & A & E & SP). assert (z = y) by congruence. subst z. destruct (TYA A) as (E1 & E2 & E3). exists xf. rewrite AX, E1, E3. tauto.
    + right. left. destruct OW as (z & Z & A & E & SP). assert (z = x) by congruence. subst z. destruct (TXA A) as (E1 & E2 & E3). exists yf. rewrite AY, E1, E3. tauto.
    + right. right. exists p. tauto.
  - split; [exact I'|]. split; [exact O'|]. rewrite !text_view by assumption. unfold view. rewrite XF, Y, YF, X. unfold viewB. split.
    + destruct (b_alloc y) eqn:AL.
      * destruct (TYA eq_refl) as (E & C & SP). destruct (WY2 eq_refl) as (b & l & E' & K & LE & U). rewrite E, E'. cbn [bytesOf]. rewrite BK, K. cbn. rewrite SX. reflexivity.
      * destruct (TYI eq_refl) as (E & C & FI). destruct (WY1 eq_refl) as [E' _]. rewrite E, E'. cbn [bytesOf]. rewrite XF, Y. cbn. rewrite SX, FI. reflexivity.
    + destruct (b_alloc x) eqn:AL.
      * destruct (TXA eq_refl) as (E & C & SP). destruct (WX2 eq_refl) as (b & l & E' & K & LE & U). rewrite E, E'. cbn [bytesOf]. rewrite BK, K. cbn. rewrite SY. reflexivity.
      * destruct (TXI eq_refl) as (E & C & FI). destruct (WX1 eq_refl) as [E' _]. rewrite E, E'. cbn [bytesOf]. rewrite YF, X. cbn. rewrite SY, FI. reflexivity.
Qed.
Lemma swap_ok m o s x y : Inv m -> m_objs m o = Some x -> m_objs m s = Some y -> (o = s \/ b_alloc x = true \/ b_alloc y = false) ->
  exists m', swap o s m = ok m' /\ Inv m' /\ others2 o s m m' /\ text m' o = text m s /\ text m' s = text m o.
Proof.
  intros I X Y SAFE. destruct (i_well _ I _ _ X) as (LX & SX & WX1 & WX2). destruct (i_well _ I _ _ Y) as (LY & SZ & W1 & W2).
  unfold swap, withObj. rewrite X, Y. destruct (Nat.eqb_spec o s) as [->|NE]; [exists m; split; [reflexivity|]; split; [exact I|]; split; [intros p _ _; reflexivity|split; reflexivity]|].
  destruct SAFE as [E|SAFE]; [contradiction|]. destruct (b_alloc y) eqn:AY, (b_alloc x) eqn:AX; cbn [andb].
  - eexists. split; [reflexivity|]. apply (exchange m o s x y _ (mkSB (b_in x) (b_size y) (b_cap y) (b_heap y) (b_span y) (b_locked x) true (b_err x)) (mkSB (b_in y) (b_size x) (b_cap x) (b_heap x) (b_span x) (b_locked y) true (b_err y)) I NE X Y);
      try reflexivity; try assumption; try congruence; try discriminate.
    1: (rewrite setObj_other by congruence; apply setObj_same).
    1: apply setObj_same.
    1: (intros p P1 P2; rewrite !setObj_other by congruence; reflexivity).
    all: cbn; intuition congruence.
  - destruct SAFE; discriminate.
  - destruct (W1 eq_refl) as [EY CY]. assert (FL : length (firstn (b_size y) (b_in y)) = b_size y) by (rewrite firstn_length; lia).
    rewrite (setB_eq s _ m y Y). cbn [andThen ok]. erewrite setB_eq by (rewrite setObj_other by congruence; exact X). cbn [andThen ok].
    set (y1 := storeB (b_heap x) (b_cap x) (b_span x) true y). set (x1 := storeB (PIn o) 64 false false x). set (m1 := setObj o (Some x1) _).
    assert (Y1 : m_objs m1 s = Some y1) by (unfold m1; rewrite setObj_other by congruence; apply setObj_same). assert (X1 : m_objs m1 o = Some x1) by apply setObj_same.
    assert (RD : rd m1 (PIn s) 0 (b_size y) = Some (firstn (b_size y) (b_in y))).
    { unfold rd. cbn [bytesOf]. rewrite Y1. cbn [plus skipn y1 storeB b_in]. destruct (Nat.leb_spec (b_size y) (length (b_in y))); [reflexivity|lia]. }
    rewrite RD. cbn [obind wr]. rewrite X1. cbn [x1 storeB b_in]. rewrite FL, LX. destruct (Nat.leb_spec (0 + b_size y) 64); [|lia]. cbn [obind].
    erewrite setB_eq by (rewrite setObj_other by congruence; exact Y1). cbn [andThen ok]. erewrite setB_eq by (rewrite setObj_other by congruence; apply setObj_same). eexists. split; [reflexivity|].
    eapply (exchange m o s x y _ _ _ I NE X Y).
    + apply setObj_same.
    + rewrite setObj_other by congruence. apply setObj_same.
    + intros p P1 P2. unfold m1. rewrite !setObj_other by congruence. reflexivity.
    + reflexivity.
    + reflexivity.
    + reflexivity.
    + cbn [sizeB setIn storeB b_in]. rewrite splice_length; [exact LX|]. rewrite FL. lia.
    + exact LY.
    + reflexivity.
    + reflexivity.
    + cbn. congruence.
    + cbn. congruence.
    + congruence.
    + intros _. split; [reflexivity|]. split; [reflexivity|]. cbn [sizeB setIn storeB b_in]. unfold splice. cbn [firstn app]. apply firstn_app_exact. exact FL.
    + intros _. repeat split.
    + congruence.
  - destruct (W1 eq_refl) as [EY CY]. destruct (WX1 eq_refl) as [EX CX].
    eexists. split; [reflexivity|]. apply (exchange m o s x y _ (mkSB (b_in y) (b_size y) (b_cap x) (b_heap x) (b_span x) (b_locked x) false (b_err x)) (mkSB (b_in x) (b_size x) (b_cap y) (b_heap y) (b_span y) (b_locked y) false (b_err y)) I NE X Y);
      try reflexivity; try assumption; try congruence; try discriminate.
    1: (rewrite setObj_other by congruence; apply setObj_same).
    1: apply setObj_same.
    1: (intros p P1 P2; rewrite !setObj_other by congruence; reflexivity).
    all: cbn; intuition congruence.
Qed.
