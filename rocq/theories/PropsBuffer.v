(** * C25: payload buffers behave like byte strings *)
From Coq Require Import ZArith Bool List Lia PeanoNat.
From Verif Require Import Buffer BufferProofs BufferOps.
Import ListNotations.

(** ** Specification *)
(** what a program may write: objects are created once and used while they exist; memory handed to a buffer is as long as
    stated; single bytes are written inside the contents *)
Definition textLen (m : mem) (o : oid) : nat := match text m o with Some t => length t | None => 0 end.
Definition allowed (p : op) (m : mem) : Prop :=
  match p with
  | New o | NewFrom o _ | NewSize o _ | NewFill o _ _ => ~ live m o
  | CopyNew o s | MoveNew o s => ~ live m o /\ live m s
  | Copy o s | Move o s | Swap o s => live m o /\ live m s
  | AppendSelf o i n => live m o /\ i + n <= textLen m o
  | SetByte o i _ => live m o /\ i < textLen m o
  | SpanAssign o d cap | MoveAssign o d cap => live m o /\ length d <= cap
  | Destroy o | Assign o _ | Append o _ | PopBack o | NullTerminate o | Clear o | Resize o _ | ResizeFill o _ _
  | Reserve o _ | Lock o _ | Release o => live m o
  end.
(** the two uses which are broken (refuted below): exchanging a buffer with inline bytes with one on the heap, called on the
    former; and appending a part of a heap buffer to itself beyond its capacity *)
Definition broken (p : op) (m : mem) : Prop :=
  match p with
  | Swap o s => o <> s /\ onHeap m o = false /\ onHeap m s = true
  | AppendSelf o i n => onHeap m o = true /\ capacity m o < textLen m o + n
  | _ => False
  end.
(** only the string of [o] changes, to [t] *)
Definition only (o : oid) (t : option (list Z)) (m m' : mem) : Prop := text m' o = t /\ forall p, p <> o -> text m' p = text m p.
Definition both (o : oid) (t : option (list Z)) (s : oid) (u : option (list Z)) (m m' : mem) : Prop :=
  text m' o = t /\ text m' s = u /\ forall p, p <> o -> p <> s -> text m' p = text m p.
(** what each operation does to strings *)
Definition effect (p : op) (m m' : mem) : Prop :=
  match p with
  | New o => only o (Some []) m m'
  | NewFrom o d | Assign o d | SpanAssign o d _ | MoveAssign o d _ => only o (Some d) m m'
  | NewSize o n => exists d, length d = n /\ only o (Some d) m m'
  | NewFill o n v => only o (Some (repeat v n)) m m'
  | CopyNew o s | Copy o s => only o (text m s) m m'
  | MoveNew o s => both o (text m s) s (Some []) m m'
  | Destroy o => only o None m m'
  | Move o s =>
      if isLocked m o then only o (text m s) m m' \/ only o (text m o) m m'      (* a copy, which may fail silently *)
      else if Nat.eqb o s then only o (text m o) m m' \/ only o (Some []) m m'   (* onto itself: kept or emptied *)
      else both o (text m s) s (Some []) m m'
  | Swap o s => both o (text m s) s (text m o) m m'
  | Append o d => exists t, text m o = Some t /\ only o (Some (t ++ d)) m m'
  | AppendSelf o i n => exists t, text m o = Some t /\ only o (Some (t ++ firstn n (skipn i t))) m m'
  | PopBack o => exists t, text m o = Some t /\ only o (Some (removelast t)) m m'
  | NullTerminate o | Reserve o _ | Lock o _ => only o (text m o) m m'
  | Clear o => only o (Some []) m m'
  | Resize o n => exists t d, text m o = Some t /\ length d = n - length t /\ only o (Some (firstn n t ++ d)) m m'
  | ResizeFill o n v => exists t, text m o = Some t /\ only o (Some (firstn n t ++ repeat v (n - length t))) m m'
  | SetByte o i v => exists t, text m o = Some t /\ only o (Some (firstn i t ++ v :: skipn (S i) t)) m m'
  | Release o => only o (if onHeap m o then Some [] else text m o) m m'
  end.
(** the bytes the operation needs room for in which buffer *)
Definition needs (p : op) (m : mem) : option (oid * nat) :=
  match p with
  | NewFrom o d | Assign o d => Some (o, length d)
  | NewSize o n | NewFill o n _ | Resize o n | ResizeFill o n _ | Reserve o n => Some (o, n)
  | CopyNew o s | Copy o s => Some (o, textLen m s)
  | Append o d => Some (o, textLen m o + length d)
  | AppendSelf o _ n => Some (o, textLen m o + n)
  | NullTerminate o => Some (o, textLen m o + 1)
  | _ => None
  end.
(** the states a program can reach *)
Inductive reach (J : bid -> nat -> Z) : mem -> Prop :=
| r_start : reach J empty
| r_step m p m' thrown : reach J m -> allowed p m -> ~ broken p m -> step J p m = Some (m', thrown) -> reach J m'.

(** ** Proofs *)
Lemma inv_empty : Inv empty.
Proof. split; cbn; try congruence. intros o p b (x & X & _). discriminate. Qed.
Lemma live_obj m o : live m o -> exists x, m_objs m o = Some x.
Proof. unfold live. destruct (m_objs m o); [eauto|congruence]. Qed.
Lemma live_viewE m o : Inv m -> live m o -> exists x v, m_objs m o = Some x /\ view m o = Some v /\ text m o = Some (firstn (v_size v) (v_raw v)) /\ textLen m o = v_size v /\
  capacity m o = v_cap v /\ isLocked m o = v_locked v /\ onHeap m o = v_alloc v.
Proof.
  intros I L. destruct (live_obj m o L) as (x & X). destruct (live_view m o x I X) as (v & V & A & B & C & D & E & F). exists x, v.
  assert (T : text m o = Some (firstn (v_size v) (v_raw v))) by (rewrite text_view by exact I; rewrite V; reflexivity).
  destruct (view_raw m o v I V) as (R & Z & _). unfold textLen, capacity, isLocked, onHeap. rewrite T, X. rewrite firstn_length. repeat split; auto; lia.
Qed.
Lemma only_view o m m' v : Inv m -> Inv m' -> others o m m' -> view m' o = Some v -> only o (Some (firstn (v_size v) (v_raw v))) m m'.
Proof. intros I I' O V. split; [rewrite text_view by exact I'; rewrite V; reflexivity|]. apply others_text; assumption. Qed.
Definition good (p : op) (m : mem) (r : res) : Prop :=
  (exists m', r = Some (m', false) /\ Inv m' /\ effect p m m') \/
  (exists m', r = Some (m', true) /\ Inv m' /\ (forall o, text m' o = text m o) /\ (forall o, live m' o <-> live m o) /\
     exists o n, needs p m = Some (o, n) /\ ((bigSize < Z.of_nat n)%Z \/ (capacity m o < n /\ isLocked m o = true))).
(** an operation on a live object that may throw *)
Lemma good_outcome p m o v n r P : Inv m -> view m o = Some v -> capacity m o = v_cap v -> isLocked m o = v_locked v -> outcome o m v n r P -> needs p m = Some (o, n) ->
  (forall m' v', Inv m' -> others o m m' -> view m' o = Some v' -> P m' v' -> effect p m m') -> good p m r.
Proof.
  intros I V C L [(A & B & E)|(m' & v' & E & I' & O' & V' & _ & PP & _)] N K.
  - right. exists m. split; [exact E|]. split; [exact I|]. split; [reflexivity|]. split; [tauto|]. exists o, n. split; [exact N|]. destruct B as [B|B]; [left; exact B|right]. split; congruence.
  - left. exists m'. split; [exact E|]. split; [exact I'|]. exact (K m' v' I' O' V' PP).
Qed.
Lemma text_none m o : m_objs m o = None -> text m o = None. Proof. intros X. unfold text. rewrite X. reflexivity. Qed.
(** a constructor that may throw *)
Lemma good_construct p m o n r P : Inv m -> m_objs m o = None -> outcome o (create o m) (mkV zeros64 0 64 false false false) n r P -> needs p m = Some (o, n) ->
  (forall m' v', Inv m' -> others o m m' -> view m' o = Some v' -> P m' v' -> effect p m m') -> good p m (construct o r).
Proof.
  intros I X OUT N K. destruct (create_ok m o I X) as (I1 & O1 & V1). destruct OUT as [(A & B & E)|(m' & v' & E & I' & O' & V' & _ & PP & _)].
  - right. rewrite E. cbn [construct]. destruct (destroy_ok (create o m) o (fresh o zeros64) I1) as (m2 & D & I2 & O2 & N2); [apply setObj_same|].
    assert (E2 : m2 = setObj o None (create o m)). { unfold destroy, withObj in D. unfold create at 1 in D. rewrite setObj_same in D. cbn [fresh b_alloc andb negb obind] in D. unfold ok in D. congruence. }
    exists m2. split; [rewrite E2; reflexivity|]. split; [exact I2|]. split; [|split].
    + intros q. destruct (Nat.eq_dec q o) as [->|NE]; [rewrite !text_none by assumption; reflexivity|]. rewrite (others_text o _ _ I1 I2 O2 q NE). apply (others_text o _ _ I I1 O1 q NE).
    + intros q. unfold live. destruct (Nat.eq_dec q o) as [->|NE]; [rewrite N2, X; tauto|]. rewrite E2. unfold create. rewrite !setObj_other by exact NE. tauto.
    + exists o, n. split; [exact N|]. left. destruct B as [B|B]; [exact B|]. discriminate.
  - left. rewrite E. cbn [construct]. exists m'. split; [reflexivity|]. split; [exact I'|]. apply (K m' v' I'); [exact (others_trans _ _ _ _ O1 O')|exact V'|exact PP].
Qed.
Lemma good_plain p m r m' : r = ok m' -> Inv m' -> effect p m m' -> good p m r.
Proof. intros E I K. left. exists m'. tauto. Qed.
Lemma not_live m o : ~ live m o -> m_objs m o = None.
Proof. unfold live. destruct (m_objs m o); [intros H; exfalso; apply H; congruence|reflexivity]. Qed.
Lemma skipn_S {A} i (l : list A) x r : skipn i l = x :: r -> skipn (S i) l = r.
Proof. revert l. induction i as [|i IH]; intros l E; [destruct l; cbn in *; congruence|]. destruct l as [|a l]; [discriminate|]. cbn in E. exact (IH l E). Qed.

Lemma step_good J p m : Inv m -> allowed p m -> ~ broken p m -> good p m (step J p m).
Proof.
  intros I AL NB. destruct p as [o|o d|o n|o n z|o s|o s|o|o s|o s|o s|o d|o d|o i n|o|o|o|o n|o n z|o n|o l|o i z|o d cap|o d cap|o]; cbn [step allowed] in *.
  - apply not_live in AL. destruct (create_ok m o I AL) as (I1 & O1 & V1). apply (good_plain _ _ _ (create o m)); [reflexivity|exact I1|]. exact (only_view o m _ _ I I1 O1 V1).
  - apply not_live in AL. destruct (create_ok m o I AL) as (I1 & O1 & V1). eapply good_construct; [exact I|exact AL|apply (assign_ok J _ _ _ d I1 V1)|reflexivity|].
    cbn beta. intros m' v' I' O' V' (S' & F). cbn [effect]. pose proof (only_view o m m' v' I I' O' V') as K. rewrite S', F in K. exact K.
  - apply not_live in AL. destruct (create_ok m o I AL) as (I1 & O1 & V1). eapply good_construct; [exact I|exact AL|apply (resize_ok J _ _ _ n I1 V1)|reflexivity|].
    cbn beta. intros m' v' I' O' V' (S' & F & _). cbn [effect]. pose proof (only_view o m m' v' I I' O' V') as K. exists (firstn (v_size v') (v_raw v')). split; [|exact K].
    destruct (view_raw _ _ _ I' V'). rewrite firstn_length. lia.
  - apply not_live in AL. destruct (create_ok m o I AL) as (I1 & O1 & V1). eapply good_construct; [exact I|exact AL|apply (resizeFill_ok J _ _ _ n z I1 V1)|reflexivity|].
    cbn beta. intros m' v' I' O' V' (S' & F). cbn [effect]. pose proof (only_view o m m' v' I I' O' V') as K. rewrite S', F in K. cbn [v_size v_raw firstn] in K.
    rewrite firstn_nil, Nat.sub_0_r in K. exact K.
  - destruct AL as [AL LS]. apply not_live in AL. destruct (create_ok m o I AL) as (I1 & O1 & V1). destruct (live_viewE m s I LS) as (y & w & Y & W & TS & TL & _).
    assert (NE : o <> s) by congruence. assert (W1 : view (create o m) s = Some w) by (rewrite (O1 s) by congruence; exact W).
    eapply good_construct; [exact I|exact AL|apply (copy_ok J _ o s _ w I1 NE V1 W1)|cbn [needs]; rewrite TL; reflexivity|].
    cbn beta. intros m' v' I' O' V' (S' & F). cbn [effect]. pose proof (only_view o m m' v' I I' O' V') as K. rewrite S', F in K. rewrite TS. exact K.
  - destruct AL as [AL LS]. apply not_live in AL. destruct (live_obj m s LS) as (y & Y). destruct (moveNew_ok m o s y I AL Y) as (m' & E & I' & O' & T1 & T2).
    apply (good_plain _ _ _ m' E I'). split; [exact T1|]. split; [exact T2|]. apply others2_text; assumption.
  - destruct (live_obj m o AL) as (x & X). destruct (destroy_ok m o x I X) as (m' & E & I' & O' & N'). apply (good_plain _ _ _ m' E I'). split; [apply text_none, N'|apply others_text; assumption].
  - destruct AL as [LO LS]. destruct (live_viewE m o I LO) as (x & v & X & V & TO & TLO & CO & LK & HE). destruct (live_viewE m s I LS) as (y & w & Y & W & TS & TL & _).
    destruct (Nat.eq_dec o s) as [->|NE].
    + apply (good_plain _ _ _ m); [unfold copy; rewrite Nat.eqb_refl; reflexivity|exact I|]. split; auto.
    + eapply good_outcome; [exact I|exact V|exact CO|exact LK|apply (copy_ok J _ o s v w I NE V W)|cbn [needs]; rewrite TL; reflexivity|].
      cbn beta. intros m' v' I' O' V' (S' & F). cbn [effect]. pose proof (only_view o m m' v' I I' O' V') as K. rewrite S', F in K. rewrite TS. exact K.
  - destruct AL as [LO LS]. destruct (live_viewE m o I LO) as (x & v & X & V & TO & TLO & CO & LK & HE). destruct (live_viewE m s I LS) as (y & w & Y & W & TS & TL & _).
    assert (LX : isLocked m o = b_locked x) by (unfold isLocked; rewrite X; reflexivity). cbn [effect].
    destruct (b_locked x) eqn:LB.
    + assert (EM : move J o s m = match copy J o s m with Some (m', true) => setB o (errB 2) m' | r => r end) by (unfold move, withObj; rewrite X, Y, LB; reflexivity). rewrite EM.
      destruct (Nat.eq_dec o s) as [->|NE].
      * unfold copy. rewrite Nat.eqb_refl. apply (good_plain _ _ _ m); [reflexivity|exact I|]. cbn [effect]. rewrite LX. left. split; auto.
      * destruct (copy_ok J m o s v w I NE V W) as [(A & B & E)|(m' & v' & E & I' & O' & V' & _ & (S' & F) & _)]; rewrite E.
        -- destruct (err_ok m o v 2 I V) as (m' & E' & I' & O' & V'). rewrite E'. apply (good_plain _ _ _ m'); [reflexivity|exact I'|]. cbn [effect]. rewrite LX. right. rewrite TO. exact (only_view o m m' v I I' O' V').
        -- apply (good_plain _ _ _ m'); [reflexivity|exact I'|]. cbn [effect]. rewrite LX. left. pose proof (only_view o m m' v' I I' O' V') as K. rewrite S', F in K. rewrite TS. exact K.
    + destruct (Nat.eq_dec o s) as [->|NE].
      * destruct (move_self J m s x I X LB) as (m' & E & I' & O' & T). apply (good_plain _ _ _ m' E I'). cbn [effect]. rewrite LX, Nat.eqb_refl.
        pose proof (others_text s m m' I I' O') as K. destruct T as [T|T]; [left|right]; split; assumption.
      * destruct (move_ok J m o s x y I NE X Y LB) as (m' & E & I' & O' & T1 & T2). apply (good_plain _ _ _ m' E I'). cbn [effect]. rewrite LX. destruct (Nat.eqb_spec o s) as [EQ|_]; [contradiction|].
        split; [exact T1|]. split; [exact T2|]. apply others2_text; assumption.
  - destruct AL as [LO LS]. destruct (live_viewE m o I LO) as (x & v & X & V & TO & TLO & CO & LK & HE). destruct (live_viewE m s I LS) as (y & w & Y & W & TS & TL & _ & _ & HS).
    destruct (swap_ok m o s x y I X Y) as (m' & E & I' & O' & T1 & T2).
    { unfold onHeap in *. cbn [broken] in NB. unfold onHeap in NB. rewrite X, Y in NB. destruct (Nat.eq_dec o s); [left; assumption|right]. destruct (b_alloc x); [left; reflexivity|]. destruct (b_alloc y); [|right; reflexivity]. exfalso. apply NB. auto. }
    apply (good_plain _ _ _ m' E I'). split; [exact T1|]. split; [exact T2|]. apply others2_text; assumption.
  - destruct (live_viewE m o I AL) as (x & v & X & V & TO & TLO & CO & LK & HE). eapply good_outcome; [exact I|exact V|exact CO|exact LK|apply (assign_ok J _ _ _ d I V)|reflexivity|].
    cbn beta. intros m' v' I' O' V' (S' & F). cbn [effect]. pose proof (only_view o m m' v' I I' O' V') as K. rewrite S', F in K. exact K.
  - destruct (live_viewE m o I AL) as (x & v & X & V & TO & TLO & CO & LK & HE). eapply good_outcome; [exact I|exact V|exact CO|exact LK|apply (append_ok J _ _ _ d I V)|cbn [needs]; rewrite TLO; reflexivity|].
    cbn beta. intros m' v' I' O' V' (S' & F). cbn [effect]. pose proof (only_view o m m' v' I I' O' V') as K. rewrite S', F in K. eexists. split; [exact TO|exact K].
  - destruct AL as [AL IN]. destruct (live_viewE m o I AL) as (x & v & X & V & TO & TLO & CO & LK & HE). rewrite TLO in IN. cbn [broken] in NB. rewrite HE, CO, TLO in NB.
    eapply good_outcome; [exact I|exact V|exact CO|exact LK|apply (appendSelf_ok J _ _ _ i n I V IN)|cbn [needs]; rewrite TLO; reflexivity|].
    { destruct (v_alloc v); [right|left; reflexivity]. apply Nat.nlt_ge. intros Z. apply NB. auto. }
    cbn beta. intros m' v' I' O' V' (S' & F). cbn [effect]. pose proof (only_view o m m' v' I I' O' V') as K. rewrite S', F in K. eexists. split; [exact TO|exact K].
  - destruct (live_viewE m o I AL) as (x & v & X & V & TO & TLO & CO & LK & HE). destruct (popBack_ok m o v I V) as (m' & E & I' & O' & V'). apply (good_plain _ _ _ m' E I').
    cbn [effect]. pose proof (only_view o m m' _ I I' O' V') as K. cbn [v_size v_raw] in K. eexists. split; [exact TO|]. rewrite removelast_firstn_len, firstn_length. destruct (view_raw _ _ _ I V) as (R & Z & _).
    rewrite firstn_firstn_le by lia. replace (Nat.min (v_size v) (length (v_raw v))) with (v_size v) by lia. rewrite <- Nat.sub_1_r. exact K.
  - destruct (live_viewE m o I AL) as (x & v & X & V & TO & TLO & CO & LK & HE). eapply good_outcome; [exact I|exact V|exact CO|exact LK|apply (nullTerminate_ok J _ _ _ I V)|cbn [needs]; rewrite TLO; reflexivity|].
    cbn beta. intros m' v' I' O' V' (S' & F). cbn [effect]. pose proof (only_view o m m' v' I I' O' V') as K. rewrite S', F in K. rewrite TO. exact K.
  - destruct (live_viewE m o I AL) as (x & v & X & V & TO & TLO & CO & LK & HE). destruct (size_ok m o v 0 I V) as (m' & E & I' & O' & V'); [lia|]. apply (good_plain _ _ _ m' E I'). exact (only_view o m m' _ I I' O' V').
  - destruct (live_viewE m o I AL) as (x & v & X & V & TO & TLO & CO & LK & HE). eapply good_outcome; [exact I|exact V|exact CO|exact LK|apply (resize_ok J _ _ _ n I V)|reflexivity|].
    cbn beta. intros m' v' I' O' V' (S' & F & _). cbn [effect]. pose proof (only_view o m m' v' I I' O' V') as K. rewrite S' in K. eexists. exists (skipn (v_size v) (firstn n (v_raw v'))).
    destruct (view_raw _ _ _ I V) as (R0 & Z0 & _). destruct (view_raw _ _ _ I' V') as (R & Z & _). split; [exact TO|]. split; [rewrite skipn_length, !firstn_length; lia|].
    replace (firstn n (firstn (v_size v) (v_raw v)) ++ skipn (v_size v) (firstn n (v_raw v'))) with (firstn n (v_raw v')); [exact K|].
    rewrite <- (firstn_skipn (v_size v) (firstn n (v_raw v'))) at 1. f_equal. rewrite !firstn_firstn. rewrite F. f_equal. lia.
  - destruct (live_viewE m o I AL) as (x & v & X & V & TO & TLO & CO & LK & HE). destruct (view_raw _ _ _ I V) as (R0 & Z0 & _). eapply good_outcome; [exact I|exact V|exact CO|exact LK|apply (resizeFill_ok J _ _ _ n z I V)|reflexivity|].
    cbn beta. intros m' v' I' O' V' (S' & F). cbn [effect]. pose proof (only_view o m m' v' I I' O' V') as K. rewrite S', F in K. eexists. split; [exact TO|]. rewrite (firstn_length (v_size v)). replace (Nat.min (v_size v) (length (v_raw v))) with (v_size v) by lia. exact K.
  - destruct (live_viewE m o I AL) as (x & v & X & V & TO & TLO & CO & LK & HE). destruct (reserve_ok J m o v n I V) as [(A & B & E)|(m' & v' & E & I' & O' & V' & S' & L' & C' & F & _)]; rewrite E.
    + right. exists m. split; [reflexivity|]. split; [exact I|]. split; [reflexivity|]. split; [tauto|]. exists o, n. split; [reflexivity|]. destruct B as [B|B]; [left; exact B|right]. split; congruence.
    + apply (good_plain _ _ _ m'); [reflexivity|exact I'|]. cbn [effect]. pose proof (only_view o m m' v' I I' O' V') as K. rewrite S', F in K. rewrite TO. exact K.
  - destruct (live_viewE m o I AL) as (x & v & X & V & TO & TLO & CO & LK & HE). destruct (lock_ok m o v l I V) as (m' & E & I' & O' & V'). apply (good_plain _ _ _ m' E I'). cbn [effect]. rewrite TO. exact (only_view o m m' _ I I' O' V').
  - destruct AL as [AL IN]. destruct (live_viewE m o I AL) as (x & v & X & V & TO & TLO & CO & LK & HE). rewrite TLO in IN. destruct (view_raw _ _ _ I V) as (R & Z & _).
    destruct (store_ok m o v i [z] I V) as (m' & E & I' & O' & V'); [cbn; lia|]. apply (good_plain _ _ _ m' E I'). cbn [effect]. pose proof (only_view o m m' _ I I' O' V') as K. cbn [v_size v_raw] in K.
    eexists. split; [exact TO|]. unfold splice in K. cbn [length] in K. rewrite firstn_app, firstn_firstn, firstn_length in K.
    replace (Nat.min (v_size v) i) with i in K by lia. replace (v_size v - Nat.min i (length (v_raw v))) with (S (v_size v - S i)) in K by lia. cbn [app firstn] in K.
    rewrite firstn_firstn_le by lia. replace (i + 1) with (S i) in K by lia. rewrite skipn_firstn_comm. exact K.
  - destruct AL as [AL LD]. destruct (live_viewE m o I AL) as (x & v & X & V & _). destruct (adopt_ok J m o v true d cap I V LD) as (m' & E & I' & O' & T). apply (good_plain _ _ _ m' E I'). split; [exact T|apply others_text; assumption].
  - destruct AL as [AL LD]. destruct (live_viewE m o I AL) as (x & v & X & V & _). destruct (adopt_ok J m o v false d cap I V LD) as (m' & E & I' & O' & T). apply (good_plain _ _ _ m' E I'). split; [exact T|apply others_text; assumption].
  - destruct (live_viewE m o I AL) as (x & v & X & V & TO & TLO & CO & LK & HE). destruct (release_ok m o v I V) as (m' & E & I' & O' & T). apply (good_plain _ _ _ m' E I'). cbn [effect]. rewrite HE. split; [exact T|apply others_text; assumption].
Qed.
Lemma reach_inv J m : reach J m -> Inv m.
Proof.
  induction 1 as [|m p m' th _ IH AL NB E]; [apply inv_empty|]. destruct (step_good J p m IH AL NB) as [(m1 & E1 & I1 & _)|(m1 & E1 & I1 & _)]; congruence.
Qed.

(** ** C25 *)
(** Every operation, in every state a program can reach, is defined (no byte outside a live block or object is touched, no
    block is freed twice) and changes the contents of the buffers exactly as the same operation on strings would; if it
    throws std::bad_alloc nothing has changed. *)
Theorem C25_buffers_are_strings J m p : reach J m -> allowed p m -> ~ broken p m ->
  exists m' thrown, step J p m = Some (m', thrown) /\ if thrown then forall o, text m' o = text m o else effect p m m'.
Proof.
  intros R AL NB. destruct (step_good J p m (reach_inv J m R) AL NB) as [(m' & E & _ & K)|(m' & E & _ & K & _)]; exists m'; eexists; split; eauto.
Qed.
Print Assumptions C25_buffers_are_strings.
(** It throws only when it needs more than 2^40 bytes, or more than the capacity of a locked buffer. *)
Theorem C25_fails_only_when_full J m p m' : reach J m -> allowed p m -> ~ broken p m -> step J p m = Some (m', true) ->
  exists o n, needs p m = Some (o, n) /\ ((2 ^ 40 < Z.of_nat n)%Z \/ (capacity m o < n /\ isLocked m o = true)).
Proof.
  intros R AL NB E. destruct (step_good J p m (reach_inv J m R) AL NB) as [(m1 & E1 & _)|(m1 & E1 & _ & _ & _ & K)]; [congruence|exact K].
Qed.
Print Assumptions C25_fails_only_when_full.
(** Every existing buffer has contents, and two buffers never have their bytes in the same place. *)
Theorem C25_storage_is_separate J m : reach J m ->
  (forall o, live m o -> exists t, text m o = Some t /\ length t <= capacity m o) /\
  forall o p, live m o -> live m p -> o <> p -> dataPtr m o <> dataPtr m p.
Proof.
  intros R. pose proof (reach_inv J m R) as I. split.
  - intros o L. destruct (live_viewE m o I L) as (x & v & X & V & TO & TLO & CO & _). eexists. split; [exact TO|]. destruct (view_raw _ _ _ I V). rewrite firstn_length, CO. lia.
  - intros o p LO LP NE E. destruct (live_obj m o LO) as (x & X). destruct (live_obj m p LP) as (y & Y). unfold dataPtr in E. rewrite X, Y in E.
    destruct (i_well _ I _ _ X) as (_ & _ & N & A). destruct (i_well _ I _ _ Y) as (_ & _ & N' & A'). apply NE.
    destruct (b_alloc x) eqn:AX, (b_alloc y) eqn:AY.
    + destruct (A eq_refl) as (b & l & E1 & _). apply (i_alone _ I o p b); [exists x|exists y]; repeat split; try assumption; congruence.
    + destruct (A eq_refl) as (b & l & E1 & _), (N' eq_refl) as [E2 _]. congruence.
    + destruct (A' eq_refl) as (b & l & E1 & _), (N eq_refl) as [E2 _]. congruence.
    + destruct (N eq_refl) as [E1 _], (N' eq_refl) as [E2 _]. congruence.
Qed.
Print Assumptions C25_storage_is_separate.
(** No memory is lost: a block which is not the program's is the storage of an existing buffer; when no buffer exists any more
    all blocks left are the program's. *)
Theorem C25_no_memory_lost J m b : reach J m -> m_blks m b <> None -> m_user m b = false -> exists o, live m o /\ dataPtr m o = Some (PBlk b).
Proof.
  intros R B U. destruct (i_owned _ (reach_inv J m R) b B U) as (o & x & X & _ & E & _). exists o. unfold live, dataPtr. rewrite X. split; congruence.
Qed.
Print Assumptions C25_no_memory_lost.

(** ** What is broken *)
Fixpoint run (J : bid -> nat -> Z) (l : list op) (m : mem) : option mem :=
  match l with [] => Some m | p :: r => match step J p m with Some (m', _) => run J r m' | None => None end end.
(** Exchanging an inline buffer with a heap buffer (called on the inline one) leaves the other one pointing into the first:
    when the first is destroyed the contents of the other are gone, and touching them is undefined. *)
Definition J0 (b : bid) (i : nat) : Z := 0%Z.
Theorem C25_swap_shares_storage_refuted J m o s : Inv m -> live m o -> live m s -> broken (Swap o s) m ->
  exists m', step J (Swap o s) m = Some (m', false) /\ dataPtr m' s = Some (PIn o).
Proof.
  intros I LO LS (NE & HO & HS). destruct (live_obj m o LO) as (x & X). destruct (live_obj m s LS) as (y & Y). unfold onHeap in *. rewrite X in HO. rewrite Y in HS.
  destruct (i_well _ I _ _ X) as (LX & SX & WX1 & _). destruct (WX1 HO) as [EX CX].
  cbn [step]. unfold swap, withObj. rewrite X, Y, HO, HS. destruct (Nat.eqb_spec o s) as [|_]; [contradiction|]. cbn [andb].
  rewrite (setB_eq o _ m x X). cbn [andThen ok]. erewrite setB_eq by (rewrite setObj_other by congruence; exact Y). cbn [andThen ok].
  set (x1 := storeB _ _ _ _ x). set (y1 := storeB _ _ _ _ y). set (m1 := setObj s (Some y1) _). assert (X1 : m_objs m1 o = Some x1) by (unfold m1; rewrite setObj_other by congruence; apply setObj_same).
  assert (Y1 : m_objs m1 s = Some y1) by apply setObj_same.
  assert (RD : rd m1 (PIn o) 0 (b_size x) = Some (firstn (b_size x) (b_in x))).
  { unfold rd. cbn [bytesOf]. rewrite X1. cbn [plus skipn x1 storeB b_in]. destruct (Nat.leb_spec (b_size x) (length (b_in x))); [reflexivity|lia]. }
  rewrite RD. cbn [obind wr]. rewrite X1. cbn [x1 storeB b_in]. assert (FL : length (firstn (b_size x) (b_in x)) = b_size x) by (rewrite firstn_length; lia). rewrite FL, LX.
  destruct (Nat.leb_spec (0 + b_size x) 64); [|lia]. cbn [obind]. erewrite setB_eq by (rewrite setObj_other by congruence; exact Y1). cbn [andThen ok].
  erewrite setB_eq by (rewrite setObj_other by congruence; apply setObj_same). eexists. split; [reflexivity|]. unfold dataPtr. rewrite setObj_other by congruence. rewrite setObj_same. reflexivity.
Qed.
Print Assumptions C25_swap_shares_storage_refuted.
Theorem C25_swap_then_destroy_refuted :
  exists l m', run J0 l empty = Some m' /\ live m' 1 /\ text m' 1 = None /\ l = [NewFrom 0 [7%Z]; NewFill 1 100 9%Z; Swap 0 1; Destroy 0].
Proof. do 2 eexists. split; [|split; [|split; [|reflexivity]]]; [vm_compute; reflexivity|vm_compute; discriminate|vm_compute; reflexivity]. Qed.
Print Assumptions C25_swap_then_destroy_refuted.
(** Appending a part of a heap buffer to itself reads the freed block when it has to grow. *)
Theorem C25_append_self_refuted : run J0 [NewFill 0 100 9%Z; AppendSelf 0 0 50] empty = None.
Proof. vm_compute. reflexivity. Qed.
Print Assumptions C25_append_self_refuted.

(** ** A concrete history *)
Definition next (p : op) (m : mem) : mem := match step J0 p m with Some (m', _) => m' | None => m end.
Lemma reach_next p m : reach J0 m -> allowed p m -> ~ broken p m -> reach J0 (next p m).
Proof.
  intros R A B. unfold next. destruct (C25_buffers_are_strings J0 m p R A B) as (m' & th & E & _). rewrite E. exact (r_step J0 m p m' th R A B E).
Qed.
Definition history : mem :=
  next (Swap 1 0) (next (Append 1 [5%Z]) (next (PopBack 1) (next (MoveNew 1 2) (next (Append 0 [4; 4]%Z) (next (NewFill 2 70 9%Z) (next (NewFrom 0 [1; 2; 3]%Z) empty)))))).
Example C25_concrete :
  reach J0 history /\ text history 1 = Some [1; 2; 3; 4; 4]%Z /\ text history 0 = Some (repeat 9%Z 69 ++ [5%Z]) /\ text history 2 = Some [] /\ onHeap history 0 = true /\ onHeap history 1 = false.
Proof.
  split; [|vm_compute; repeat split].
  unfold history. repeat apply reach_next; try apply r_start; vm_compute; try (intros []; fail); try (split; discriminate); try discriminate; try tauto;
    try (intros H; apply H; reflexivity); try (split; [intros H; apply H; reflexivity|discriminate]); intros (_ & Z & _); discriminate.
Qed.
