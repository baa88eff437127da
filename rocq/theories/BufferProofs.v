(** * Payload buffers: invariant and the effect of each primitive *)
From Coq Require Import ZArith Bool List Lia PeanoNat.
From Verif Require Import Buffer.
Import ListNotations.

(** what a buffer is, seen from outside: its storage, size, capacity and flags *)
Record vw := mkV { v_raw : list Z; v_size : nat; v_cap : nat; v_alloc : bool; v_span : bool; v_locked : bool }.
Definition viewB (m : mem) (x : sb) : option vw :=
  match bytesOf m (b_heap x) with Some l => Some (mkV l (b_size x) (b_cap x) (b_alloc x) (b_span x) (b_locked x)) | None => None end.
Definition view (m : mem) (o : oid) : option vw := match m_objs m o with Some x => viewB m x | None => None end.

Definition wellB (m : mem) (o : oid) (x : sb) : Prop :=
  length (b_in x) = 64 /\ b_size x <= b_cap x /\
  (b_alloc x = false -> b_heap x = PIn o /\ b_cap x = 64) /\
  (b_alloc x = true -> exists b l, b_heap x = PBlk b /\ m_blks m b = Some l /\ length l = b_cap x /\ (b_span x = false -> m_user m b = false)).
Definition holds (m : mem) (o : oid) (b : bid) : Prop := exists x, m_objs m o = Some x /\ b_alloc x = true /\ b_heap x = PBlk b.
Definition owns (m : mem) (o : oid) (b : bid) : Prop := exists x, m_objs m o = Some x /\ b_alloc x = true /\ b_heap x = PBlk b /\ b_span x = false.
Record Inv (m : mem) : Prop := {
  i_well : forall o x, m_objs m o = Some x -> wellB m o x;
  i_alone : forall o p b, holds m o b -> holds m p b -> o = p;
  i_next : forall b, m_blks m b <> None -> b < m_next m;
  i_owned : forall b, m_blks m b <> None -> m_user m b = false -> exists o, owns m o b }.

Lemma fupd_same {A} (f : nat -> A) k v : fupd f k v k = v. Proof. unfold fupd. rewrite Nat.eqb_refl. reflexivity. Qed.
Lemma fupd_other {A} (f : nat -> A) k v p : p <> k -> fupd f k v p = f p.
Proof. intros H. unfold fupd. destruct (Nat.eqb_spec p k); [contradiction|reflexivity]. Qed.

Lemma view_raw m o v : Inv m -> view m o = Some v -> length (v_raw v) = v_cap v /\ v_size v <= v_cap v /\ (v_alloc v = false -> v_cap v = 64).
Proof.
  intros I V. unfold view, viewB in V. destruct (m_objs m o) as [x|] eqn:X; [|discriminate].
  destruct (i_well _ I _ _ X) as (L & S' & N & A). destruct (bytesOf m (b_heap x)) as [l|] eqn:B; [|discriminate].
  injection V as <-. cbn. split; [|split; [exact S'|intros E; apply N in E; tauto]].
  destruct (b_alloc x) eqn:AL.
  - destruct (A eq_refl) as (b & l' & E & K & LE & _). rewrite E in B. cbn in B. congruence.
  - destruct (N eq_refl) as [E C]. rewrite E in B. cbn in B. rewrite X in B. congruence.
Qed.
Lemma live_view m o x : Inv m -> m_objs m o = Some x -> exists v, view m o = Some v /\ v_size v = b_size x /\ v_cap v = b_cap x /\ v_alloc v = b_alloc x /\ v_span v = b_span x /\ v_locked v = b_locked x /\ bytesOf m (b_heap x) = Some (v_raw v).
Proof.
  intros I X. unfold view, viewB. rewrite X. destruct (i_well _ I _ _ X) as (L & S' & N & A).
  assert (E : exists l, bytesOf m (b_heap x) = Some l).
  { destruct (b_alloc x) eqn:AL.
    - destruct (A eq_refl) as (b & l' & E & K & _). rewrite E. cbn. eauto.
    - destruct (N eq_refl) as [E _]. rewrite E. cbn. rewrite X. eauto. }
  destruct E as [l E]. rewrite E. eexists. split; [reflexivity|]. cbn. tauto.
Qed.
Lemma view_live m o v : view m o = Some v -> exists x, m_objs m o = Some x.
Proof. unfold view. destruct (m_objs m o); [eauto|discriminate]. Qed.
Lemma text_view m o : Inv m -> text m o = match view m o with Some v => Some (firstn (v_size v) (v_raw v)) | None => None end.
Proof.
  intros I. unfold text, view. destruct (m_objs m o) as [x|] eqn:X; [|reflexivity].
  destruct (live_view m o x I X) as (v & V & S' & C & A & SP & LK & B). unfold view in V. rewrite X in V. rewrite V.
  destruct (view_raw m o v I) as (R & SZ & _). { unfold view. rewrite X. exact V. }
  unfold rd. rewrite B. cbn [plus skipn]. rewrite <- S'. destruct (Nat.leb_spec (v_size v) (length (v_raw v))); [reflexivity|lia].
Qed.

(** changing one object's members *)
Lemma setObj_same o x m : m_objs (setObj o x m) o = x. Proof. apply fupd_same. Qed.
Lemma setObj_other o x m p : p <> o -> m_objs (setObj o x m) p = m_objs m p. Proof. apply fupd_other. Qed.

(** an object which keeps its storage: size, lock, error, or the inline bytes of an object whose bytes are inline *)
Lemma inv_setObj m o x x' : Inv m -> m_objs m o = Some x -> b_heap x' = b_heap x -> b_alloc x' = b_alloc x -> b_span x' = b_span x -> b_cap x' = b_cap x ->
  length (b_in x') = 64 -> b_size x' <= b_cap x' -> Inv (setObj o (Some x') m).
Proof.
  intros I X H A S' C L Z. split.
  - intros p y Y. destruct (Nat.eq_dec p o) as [->|NE].
    + rewrite setObj_same in Y. injection Y as <-. destruct (i_well _ I _ _ X) as (_ & _ & N & B). split; [exact L|]. split; [exact Z|].
      rewrite A, H, C, S'. split; [exact N|exact B].
    + rewrite setObj_other in Y by exact NE. exact (i_well _ I _ _ Y).
  - assert (Q : forall p b, holds (setObj o (Some x') m) p b -> holds m p b).
    { intros p b (y & Y & AL & E). destruct (Nat.eq_dec p o) as [->|NE].
      - rewrite setObj_same in Y. injection Y as <-. exists x. rewrite <- A, <- H. tauto.
      - rewrite setObj_other in Y by exact NE. exists y. tauto. }
    intros p q b P P'. apply (i_alone _ I p q b); apply Q; assumption.
  - exact (i_next _ I).
  - intros b B U. destruct (i_owned _ I b B U) as (p & y & Y & AL & E & SP). exists p. destruct (Nat.eq_dec p o) as [->|NE].
    + exists x'. rewrite setObj_same. assert (y = x) by congruence. subst y. rewrite A, H, S'. tauto.
    + exists y. rewrite setObj_other by exact NE. tauto.
Qed.
(** the storage of the others is not touched by a change of this object *)
Lemma view_setObj_other m o x' p : Inv m -> p <> o -> view (setObj o x' m) p = view m p.
Proof.
  intros I NE. unfold view. rewrite setObj_other by exact NE. destruct (m_objs m p) as [y|] eqn:Y; [|reflexivity].
  unfold viewB. destruct (i_well _ I _ _ Y) as (_ & _ & N & A). destruct (b_alloc y) eqn:AL.
  - destruct (A eq_refl) as (b & l & E & _). rewrite E. reflexivity.
  - destruct (N eq_refl) as [E _]. rewrite E. cbn [bytesOf]. rewrite setObj_other by exact NE. reflexivity.
Qed.
Definition others (o : oid) (m m' : mem) : Prop := forall p, p <> o -> view m' p = view m p.
Lemma others_refl o m : others o m m. Proof. intros p _. reflexivity. Qed.
Lemma others_trans o m1 m2 m3 : others o m1 m2 -> others o m2 m3 -> others o m1 m3.
Proof. intros A B p NE. rewrite (B p NE). apply A, NE. Qed.

(** ** the primitives *)
Lemma size_ok m o v n : Inv m -> view m o = Some v -> n <= v_cap v ->
  exists m', setB o (sizeB n) m = ok m' /\ Inv m' /\ others o m m' /\ view m' o = Some (mkV (v_raw v) n (v_cap v) (v_alloc v) (v_span v) (v_locked v)).
Proof.
  intros I V N. destruct (view_live m o v V) as (x & X). destruct (live_view m o x I X) as (v' & V' & S' & C & A & SP & LK & B).
  rewrite V in V'. injection V' as <-. unfold setB, withObj. rewrite X. eexists. split; [reflexivity|]. destruct (i_well _ I _ _ X) as (L & _).
  split; [apply (inv_setObj m o x); try reflexivity; [exact I|exact X|exact L|cbn; lia]|]. split; [intros p NE; apply view_setObj_other; assumption|].
  unfold view. rewrite setObj_same. unfold viewB. cbn [sizeB b_heap b_size b_cap b_alloc b_span b_locked].
  assert (E : bytesOf (setObj o (Some (sizeB n x)) m) (b_heap x) = Some (v_raw v)).
  { destruct (b_heap x) as [q|b] eqn:E; cbn [bytesOf] in *.
    - destruct (Nat.eq_dec q o) as [->|NE]; [rewrite setObj_same; rewrite X in B; exact B|rewrite setObj_other by exact NE; exact B].
    - exact B. }
  rewrite E. congruence.
Qed.
Lemma lock_ok m o v l : Inv m -> view m o = Some v ->
  exists m', setB o (lockB l) m = ok m' /\ Inv m' /\ others o m m' /\ view m' o = Some (mkV (v_raw v) (v_size v) (v_cap v) (v_alloc v) (v_span v) l).
Proof.
  intros I V. destruct (view_live m o v V) as (x & X). destruct (live_view m o x I X) as (v' & V' & S' & C & A & SP & LK & B).
  rewrite V in V'. injection V' as <-. unfold setB, withObj. rewrite X. eexists. split; [reflexivity|]. destruct (i_well _ I _ _ X) as (L & Z & _).
  split; [apply (inv_setObj m o x); try reflexivity; [exact I|exact X|exact L|exact Z]|]. split; [intros p NE; apply view_setObj_other; assumption|].
  unfold view. rewrite setObj_same. unfold viewB. cbn [lockB b_heap b_size b_cap b_alloc b_span b_locked].
  assert (E : bytesOf (setObj o (Some (lockB l x)) m) (b_heap x) = Some (v_raw v)).
  { destruct (b_heap x) as [q|b] eqn:E; cbn [bytesOf] in *.
    - destruct (Nat.eq_dec q o) as [->|NE]; [rewrite setObj_same; rewrite X in B; exact B|rewrite setObj_other by exact NE; exact B].
    - exact B. }
  rewrite E. congruence.
Qed.
Lemma err_ok m o v e : Inv m -> view m o = Some v -> exists m', setB o (errB e) m = ok m' /\ Inv m' /\ others o m m' /\ view m' o = Some v.
Proof.
  intros I V. destruct (view_live m o v V) as (x & X). destruct (live_view m o x I X) as (v' & V' & S' & C & A & SP & LK & B).
  rewrite V in V'. injection V' as <-. unfold setB, withObj. rewrite X. eexists. split; [reflexivity|]. destruct (i_well _ I _ _ X) as (L & Z & _).
  split; [apply (inv_setObj m o x); try reflexivity; [exact I|exact X|exact L|exact Z]|]. split; [intros p NE; apply view_setObj_other; assumption|].
  unfold view. rewrite setObj_same. unfold viewB. cbn [errB b_heap b_size b_cap b_alloc b_span b_locked].
  assert (E : bytesOf (setObj o (Some (errB e x)) m) (b_heap x) = Some (v_raw v)).
  { destruct (b_heap x) as [q|b] eqn:E; cbn [bytesOf] in *.
    - destruct (Nat.eq_dec q o) as [->|NE]; [rewrite setObj_same; rewrite X in B; exact B|rewrite setObj_other by exact NE; exact B].
    - exact B. }
  rewrite E. destruct v; cbn in *; congruence.
Qed.

Lemma splice_length off d l : off + length d <= length l -> length (splice off d l) = length l.
Proof. intros H. unfold splice. rewrite !app_length, firstn_length, skipn_length. lia. Qed.
Lemma setBlk_same b l m : m_blks (setBlk b l m) b = l. Proof. apply fupd_same. Qed.
Lemma setBlk_other b l m c : c <> b -> m_blks (setBlk b l m) c = m_blks m c. Proof. apply fupd_other. Qed.

(** overwriting the block of an object *)
Lemma inv_setBlk m b l l' : Inv m -> m_blks m b = Some l -> length l' = length l -> Inv (setBlk b (Some l') m).
Proof.
  intros I B L. split.
  - intros o x X. destruct (i_well _ I o x X) as (A1 & A2 & A3 & A4). split; [exact A1|]. split; [exact A2|]. split; [exact A3|].
    intros AL. destruct (A4 AL) as (c & k & E & K & LK & U). exists c. destruct (Nat.eq_dec c b) as [->|NE].
    + exists l'. rewrite setBlk_same. split; [exact E|]. split; [reflexivity|]. split; [|exact U]. congruence.
    + exists k. rewrite setBlk_other by exact NE. tauto.
  - exact (i_alone _ I).
  - intros c C. destruct (Nat.eq_dec c b) as [->|NE]; [apply (i_next _ I); congruence|]. rewrite setBlk_other in C by exact NE. exact (i_next _ I _ C).
  - intros c C U. apply (i_owned _ I c); [|exact U]. destruct (Nat.eq_dec c b) as [->|NE]; [congruence|]. rewrite setBlk_other in C by exact NE. exact C.
Qed.
Lemma store_ok m o v off d : Inv m -> view m o = Some v -> off + length d <= v_cap v ->
  exists m', store o off d m = ok m' /\ Inv m' /\ others o m m' /\ view m' o = Some (mkV (splice off d (v_raw v)) (v_size v) (v_cap v) (v_alloc v) (v_span v) (v_locked v)).
Proof.
  intros I V N. destruct (view_live m o v V) as (x & X). destruct (live_view m o x I X) as (v' & V' & S' & C & A & SP & LK & B).
  rewrite V in V'. injection V' as <-. destruct (view_raw m o v I V) as (R & Z & _). destruct (i_well _ I _ _ X) as (L & Z' & W1 & W2).
  unfold store, withObj. rewrite X. destruct (b_alloc x) eqn:AL.
  - destruct (W2 eq_refl) as (b & l & E & K & LE & U). rewrite E in *. cbn [wr bytesOf] in *. rewrite K. assert (l = v_raw v) by congruence. subst l.
    destruct (Nat.leb_spec (off + length d) (length (v_raw v))); [|lia]. cbn [obind]. eexists. split; [reflexivity|].
    split; [apply (inv_setBlk m b (v_raw v)); [exact I|exact K|apply splice_length; lia]|]. split.
    + intros p NE. unfold view. cbn [m_objs setBlk]. destruct (m_objs m p) as [y|] eqn:Y; [|reflexivity]. unfold viewB.
      destruct (i_well _ I _ _ Y) as (_ & _ & N' & A'). destruct (b_alloc y) eqn:AL'.
      * destruct (A' eq_refl) as (c & k & E' & K' & _). rewrite E'. cbn [bytesOf]. rewrite setBlk_other; [reflexivity|].
        intros ->. apply NE. apply (i_alone _ I p o b); [exists y|exists x]; tauto.
      * destruct (N' eq_refl) as [E' _]. rewrite E'. reflexivity.
    + unfold view. cbn [m_objs setBlk]. rewrite X. unfold viewB. rewrite E. cbn [bytesOf].
      change (fupd (m_blks m) b (Some (splice off d (v_raw v))) b) with (m_blks (setBlk b (Some (splice off d (v_raw v))) m) b). rewrite setBlk_same. congruence.
  - destruct (W1 eq_refl) as [E CP]. rewrite E in *. cbn [wr bytesOf] in *. rewrite X in *. assert (b_in x = v_raw v) by congruence.
    destruct (Nat.leb_spec (off + length d) (length (b_in x))); [|lia]. cbn [obind]. eexists. split; [reflexivity|].
    split; [apply (inv_setObj m o x); try reflexivity; [exact I|exact X| |exact Z']; cbn; rewrite splice_length; lia|].
    split; [intros p NE; apply view_setObj_other; assumption|].
    unfold view. rewrite setObj_same. unfold viewB. cbn [setIn b_heap b_size b_cap b_alloc b_span b_locked]. rewrite E. cbn [bytesOf].
    rewrite setObj_same. cbn [setIn b_in]. congruence.
Qed.
Lemma rd_ok m o x v n : Inv m -> m_objs m o = Some x -> view m o = Some v -> n <= v_cap v -> rd m (b_heap x) 0 n = Some (firstn n (v_raw v)).
Proof.
  intros I X V N. destruct (live_view m o x I X) as (v' & V' & _ & _ & _ & _ & _ & B). rewrite V in V'. injection V' as <-.
  destruct (view_raw m o v I V) as (R & Z & _). unfold rd. rewrite B. cbn [plus skipn]. destruct (Nat.leb_spec n (length (v_raw v))); [reflexivity|lia].
Qed.
Lemma junk_length J b n : length (junk J b n) = n. Proof. unfold junk. rewrite map_length, seq_length. reflexivity. Qed.
(** blocks *)
Lemma alive_next m b : Inv m -> m_blks m b <> None -> b <> m_next m. Proof. intros I B E. pose proof (i_next _ I b B). lia. Qed.

(** giving an object another storage: its old block (if it owned one) is freed, [b] is a block no object holds *)
Definition given (o : oid) (b : bid) (x' : sb) (m : mem) : mem := setObj o (Some x') m.
(** dropping the storage of an object *)
Definition dropped (m : mem) (x : sb) : option mem := if b_alloc x && negb (b_span x) then free m (b_heap x) else Some m.
(** the parts of the invariant which do not look at object [o] *)
Record InvBut (o : oid) (m : mem) : Prop := {
  j_well : forall p x, p <> o -> m_objs m p = Some x -> wellB m p x;
  j_alone : forall p q b, p <> o -> q <> o -> holds m p b -> holds m q b -> p = q;
  j_next : forall b, m_blks m b <> None -> b < m_next m }.
Lemma inv_but m o : Inv m -> InvBut o m.
Proof. intros I. split; [intros; apply I; assumption|intros p q b _ _; apply I|apply I]. Qed.
Lemma view_frame m m' p : (forall x, m_objs m p = Some x -> wellB m p x) -> m_objs m' p = m_objs m p -> (forall b, holds m p b -> m_blks m' b = m_blks m b) -> view m' p = view m p.
Proof.
  intros W O B. unfold view. rewrite O. destruct (m_objs m p) as [y|] eqn:Y; [|reflexivity]. unfold viewB.
  destruct (W y eq_refl) as (_ & _ & N & A). destruct (b_alloc y) eqn:AL.
  - destruct (A eq_refl) as (b & l & E & K & _). rewrite E. cbn [bytesOf]. rewrite B; [reflexivity|]. exists y. tauto.
  - destruct (N eq_refl) as [E _]. rewrite E. cbn [bytesOf]. rewrite O, Y. reflexivity.
Qed.
(** dropping: only the object's own block disappears *)
Lemma dropped_ok m o x : Inv m -> m_objs m o = Some x -> exists m', dropped m x = Some m' /\ m_objs m' = m_objs m /\ m_next m' = m_next m /\ m_user m' = m_user m /\
  (forall b, m_blks m' b = m_blks m b \/ owns m o b /\ m_blks m' b = None) /\ (forall b, ~ owns m o b -> m_blks m' b = m_blks m b) /\
  (forall b, owns m o b -> m_blks m' b = None).
Proof.
  intros I X. unfold dropped. destruct (i_well _ I _ _ X) as (_ & _ & _ & A). destruct (b_alloc x) eqn:AL; [destruct (b_span x) eqn:SP|]; cbn [andb negb].
  - exists m. repeat split; auto. intros b (y & Y & _ & _ & SP'). congruence.
  - destruct (A eq_refl) as (b & l & E & K & _). rewrite E. cbn [free]. rewrite K. eexists. split; [reflexivity|]. cbn [setBlk m_objs m_next m_user].
    split; [reflexivity|]. split; [reflexivity|]. split; [reflexivity|]. split; [|split].
    + intros c. destruct (Nat.eq_dec c b) as [->|NE]; [right; split; [exists x; tauto|apply setBlk_same]|left; apply setBlk_other, NE].
    + intros c C. apply setBlk_other. intros ->. apply C. exists x. tauto.
    + intros c (y & Y & _ & E' & _). assert (c = b) by congruence. subst c. apply setBlk_same.
  - exists m. repeat split; auto. intros b (y & Y & AL' & _). congruence.
Qed.
Lemma holds_owner m o p b : Inv m -> owns m o b -> holds m p b -> p = o.
Proof. intros I (x & X & A & E & _) H. apply (i_alone _ I p o b H). exists x. tauto. Qed.

(** ** moving an object to a new block: the general step *)
Lemma rehouse m o x m1 b x' : Inv m -> m_objs m o = Some x ->
  (* [m1]: after dropping the old storage and obtaining block [b] *)
  m_objs m1 = m_objs m -> m_next m1 = S (m_next m) -> b = m_next m ->
  (forall c, c <> b -> ~ owns m o c -> m_blks m1 c = m_blks m c) -> (forall c, owns m o c -> m_blks m1 c = None) ->
  (forall c, c <> b -> m_user m1 c = m_user m c) ->
  (exists l, m_blks m1 b = Some l /\ length l = b_cap x') -> b_alloc x' = true -> b_heap x' = PBlk b -> (m_user m1 b = b_span x') ->
  length (b_in x') = 64 -> b_size x' <= b_cap x' ->
  Inv (setObj o (Some x') m1) /\ others o m (setObj o (Some x') m1).
Proof.
  intros I X O NX Eb K D U (l & Bl & Ll) AL H US LI SZ.
  assert (OTH : forall p y c, p <> o -> m_objs m p = Some y -> b_alloc y = true -> b_heap y = PBlk c -> m_blks m1 c = m_blks m c /\ c <> b).
  { intros p y c NE Y AL' H'. assert (C : m_blks m c <> None). { destruct (i_well _ I _ _ Y) as (_ & _ & _ & A). destruct (A AL') as (c' & k & E' & K' & _). assert (c' = c) by congruence. subst. congruence. }
    assert (c <> b) by (rewrite Eb; apply (alive_next m c I C)). split; [|assumption].
    apply K; [assumption|]. intros OW. apply NE. apply (holds_owner m o p c I OW). exists y. tauto. }
  assert (Q : forall p c, holds (setObj o (Some x') m1) p c -> p = o /\ c = b \/ p <> o /\ holds m p c /\ c <> b).
  { intros p c (y & Y & AL' & H'). destruct (Nat.eq_dec p o) as [->|NE].
    - left. rewrite setObj_same in Y. split; [reflexivity|]. congruence.
    - right. rewrite setObj_other in Y by exact NE. rewrite O in Y. split; [exact NE|]. split; [exists y; tauto|]. apply (OTH p y c NE Y AL' H'). }
  split; [split|].
  - intros p y Y. destruct (Nat.eq_dec p o) as [->|NE].
    + rewrite setObj_same in Y. injection Y as <-. split; [exact LI|]. split; [exact SZ|]. split; [congruence|]. intros _. exists b, l.
      split; [exact H|]. split; [exact Bl|]. split; [exact Ll|]. intros SP. cbn [setObj m_user]. congruence.
    + rewrite setObj_other in Y by exact NE. rewrite O in Y. destruct (i_well _ I _ _ Y) as (A1 & A2 & A3 & A4). split; [exact A1|]. split; [exact A2|]. split; [exact A3|].
      intros AL'. destruct (A4 AL') as (c & k & E' & K' & LE' & US'). destruct (OTH p y c NE Y AL' E') as [OE ON]. exists c, k. cbn [setObj m_blks m_user].
      rewrite OE, U by exact ON. tauto.
  - intros p q c P P'. destruct (Q p c P) as [[P1 P2]|(NP & HP & CB)], (Q q c P') as [[P3 P4]|(NQ & HQ & CB')]; try congruence. apply (i_alone _ I p q c HP HQ).
  - intros c C. cbn [setObj m_blks m_next] in *. rewrite NX. destruct (Nat.eq_dec c b) as [->|NE]; [lia|].
    enough (Q' : m_blks m c <> None) by (pose proof (i_next _ I c Q'); lia).
    intros Z. apply C. rewrite K; [exact Z|exact NE|]. intros OW. pose proof (D c OW). congruence.
  - intros c C US'. cbn [setObj m_blks m_user] in *. destruct (Nat.eq_dec c b) as [->|NE].
    + exists o, x'. rewrite setObj_same. repeat split; try assumption. congruence.
    + assert (NO : ~ owns m o c) by (intros OW; apply C; exact (D c OW)). rewrite K in C by assumption. rewrite U in US' by exact NE.
      destruct (i_owned _ I c C US') as (p & OW). assert (NP : p <> o) by (intros ->; contradiction). exists p. destruct OW as (y & Y & R).
      exists y. rewrite setObj_other by exact NP. rewrite O. tauto.
  - intros p NE. apply view_frame; [apply I| |].
    + rewrite setObj_other by exact NE. rewrite O. reflexivity.
    + intros c (y & Y & AL' & H'). cbn [setObj m_blks]. apply (OTH p y c NE Y AL' H').
Qed.

Lemma firstn_app_exact {A} n (l r : list A) : length l = n -> firstn n (l ++ r) = l.
Proof. intros <-. rewrite firstn_app, firstn_all, Nat.sub_diag. cbn. apply app_nil_r. Qed.
(** SmallBuffer.hpp reserve *)
Lemma reserve_ok J m o v n : Inv m -> view m o = Some v ->
  (v_cap v < n /\ ((bigSize < Z.of_nat n)%Z \/ v_locked v = true) /\ reserve J o n m = Some (m, true)) \/
  (exists m' v', reserve J o n m = ok m' /\ Inv m' /\ others o m m' /\ view m' o = Some v' /\ v_size v' = v_size v /\ v_locked v' = v_locked v /\
     n <= v_cap v' /\ firstn (v_size v) (v_raw v') = firstn (v_size v) (v_raw v) /\ v_cap v <= v_cap v' /\ (n <= v_cap v -> m' = m) /\
     (v_cap v < n -> (Z.of_nat n <= bigSize)%Z /\ v_locked v = false)).
Proof.
  intros I V. destruct (view_live m o v V) as (x & X). destruct (live_view m o x I X) as (v' & V' & S' & C & A & SP & LK & B).
  rewrite V in V'. injection V' as <-. destruct (view_raw m o v I V) as (R & Z & _). destruct (i_well _ I _ _ X) as (L & Z' & W1 & W2).
  unfold reserve, withObj. rewrite X, <- C, <- LK. destruct (Nat.ltb_spec (v_cap v) n) as [LT|GE].
  2:{ right. exists m, v. split; [reflexivity|]. split; [exact I|]. split; [apply others_refl|]. split; [exact V|]. repeat split; auto; lia. }
  destruct (Z.ltb_spec bigSize (Z.of_nat n)) as [BG|BG]; [left; cbn [orb]; auto|]. destruct (v_locked v) eqn:LV; [left; cbn [orb]; auto|]. right. cbn [orb].
  unfold alloc. set (b := m_next m). set (m1 := mkMem _ _ _ _).
  assert (RD : rd m1 (b_heap x) 0 (b_size x) = Some (firstn (v_size v) (v_raw v))).
  { assert (BE : bytesOf m1 (b_heap x) = Some (v_raw v)).
    { destruct (b_heap x) as [q|c] eqn:E; [exact B|]. cbn [bytesOf m1 m_blks] in *. rewrite fupd_other; [exact B|]. apply alive_next; [exact I|congruence]. }
    unfold rd. rewrite BE. cbn [plus skipn]. rewrite <- S'. destruct (Nat.leb_spec (v_size v) (length (v_raw v))); [reflexivity|lia]. }
  rewrite RD. cbn [obind]. set (d := firstn (v_size v) (v_raw v)). assert (DL : length d = v_size v) by (unfold d; rewrite firstn_length; lia).
  cbn [wr]. cbn [m1 m_blks]. rewrite fupd_same. rewrite junk_length. destruct (Nat.leb_spec (0 + length d) (n + 8)); [|lia]. cbn [obind].
  set (m2 := setBlk b (Some (splice 0 d (junk J b (n + 8)))) m1).
  assert (SPL : splice 0 d (junk J b (n + 8)) = d ++ skipn (length d) (junk J b (n + 8))) by reflexivity.
  assert (SPN : length (splice 0 d (junk J b (n + 8))) = n + 8) by (rewrite splice_length; rewrite junk_length; lia).
  (* dropping the old storage *)
  assert (DR : exists m3, (if b_alloc x && negb (b_span x) then free m2 (b_heap x) else Some m2) = Some m3 /\ m_objs m3 = m_objs m /\ m_next m3 = S (m_next m) /\ m_user m3 = fupd (m_user m) b false /\
    (forall c, c <> b -> ~ owns m o c -> m_blks m3 c = m_blks m c) /\ (forall c, owns m o c -> m_blks m3 c = None) /\ m_blks m3 b = Some (splice 0 d (junk J b (n + 8)))).
  { assert (K2 : forall c, c <> b -> m_blks m2 c = m_blks m c).
    { intros c NE. unfold m2. rewrite setBlk_other by exact NE. unfold m1. cbn. apply fupd_other, NE. }
    destruct (b_alloc x) eqn:AL; [destruct (b_span x) eqn:SPX|]; cbn [andb negb].
    - exists m2. repeat split; auto. { intros c (y & Y & _ & _ & SP'). congruence. } apply setBlk_same.
    - destruct (W2 eq_refl) as (c & l & E & K & LE & U). assert (CB : c <> b) by (apply alive_next; [exact I|congruence]). rewrite E. cbn [free]. rewrite K2, K by exact CB.
      eexists. split; [reflexivity|]. repeat split; auto.
      + intros c' NE NO. cbn. rewrite fupd_other; [apply K2, NE|]. intros ->. apply NO. exists x. tauto.
      + intros c' (y & Y & _ & E' & _). assert (c' = c) by congruence. subst. cbn. apply fupd_same.
      + cbn. rewrite fupd_other by congruence. apply fupd_same.
    - exists m2. repeat split; auto. { intros c (y & Y & AL' & _). congruence. } apply setBlk_same. }
  destruct DR as (m3 & -> & O3 & N3 & U3 & K3 & D3 & B3). cbn [obind]. unfold setB, withObj. rewrite O3, X. 
  set (x' := storeB (PBlk b) (n + 8) false true x).
  destruct (rehouse m o x m3 b x' I X O3 N3 eq_refl K3 D3) as [IV OT]; try reflexivity; try assumption.
  { intros c NE. rewrite U3. apply fupd_other, NE. } { eexists. split; [exact B3|]. exact SPN. }
  { cbn [x' storeB b_span]. rewrite U3. apply fupd_same. }
  { cbn [x' storeB b_cap b_size]. lia. }
  eexists. exists (mkV (splice 0 d (junk J b (n + 8))) (v_size v) (n + 8) true false (v_locked v)).
  split; [reflexivity|]. split; [exact IV|]. split; [exact OT|]. split.
  { unfold view. rewrite setObj_same. unfold viewB. cbn [x' storeB b_heap bytesOf setObj m_blks]. rewrite B3. cbn. congruence. }
  cbn. repeat split; auto; try lia. apply (firstn_app_exact (v_size v) d); exact DL.
Qed.

(** ** Rearranging the storage of two objects *)
Definition others2 (o s : oid) (m m' : mem) : Prop := forall p, p <> o -> p <> s -> view m' p = view m p.
Lemma reshuffle m m' o s : Inv m ->
  (forall p, p <> o -> p <> s -> m_objs m' p = m_objs m p) ->
  (forall c, m_blks m' c <> None -> c < m_next m') ->
  (forall p c, p <> o -> p <> s -> holds m p c -> m_blks m' c = m_blks m c /\ m_user m' c = m_user m c) ->
  (forall x, m_objs m' o = Some x -> wellB m' o x) -> (forall y, m_objs m' s = Some y -> wellB m' s y) ->
  (forall c, holds m' o c -> forall p, p <> o -> p <> s -> ~ holds m p c) -> (forall c, holds m' s c -> forall p, p <> o -> p <> s -> ~ holds m p c) ->
  (forall c, holds m' o c -> holds m' s c -> o = s) ->
  (forall c, m_blks m' c <> None -> m_user m' c = false -> owns m' o c \/ owns m' s c \/ exists p, p <> o /\ p <> s /\ owns m p c) ->
  Inv m' /\ others2 o s m m'.
Proof.
  intros I OB NX BK WO WS HO HS OS LEAK.
  assert (H' : forall p c, p <> o -> p <> s -> (holds m' p c <-> holds m p c)) by (intros p c A B; unfold holds; rewrite (OB p A B); tauto).
  split; [split|].
  - intros p x X. destruct (Nat.eq_dec p o) as [->|NO]; [auto|]. destruct (Nat.eq_dec p s) as [->|NS]; [auto|].
    rewrite OB in X by assumption. destruct (i_well _ I _ _ X) as (A1 & A2 & A3 & A4). split; [exact A1|]. split; [exact A2|]. split; [exact A3|].
    intros AL. destruct (A4 AL) as (c & l & E & K & LE & U). exists c, l. destruct (BK p c NO NS) as [B1 B2]; [exists x; tauto|]. rewrite B1, B2. tauto.
  - intros p q c P Q.
    destruct (Nat.eq_dec p o) as [->|NO].
    + destruct (Nat.eq_dec q o) as [->|NQ]; [reflexivity|]. destruct (Nat.eq_dec q s) as [->|NQ2]; [exact (OS c P Q)|].
      exfalso. apply (HO c P q NQ NQ2). apply H'; assumption.
    + destruct (Nat.eq_dec p s) as [->|NS].
      * destruct (Nat.eq_dec q o) as [->|NQ]; [symmetry; exact (OS c Q P)|]. destruct (Nat.eq_dec q s) as [->|NQ2]; [reflexivity|].
        exfalso. apply (HS c P q NQ NQ2). apply H'; assumption.
      * destruct (Nat.eq_dec q o) as [->|NQ]; [exfalso; apply (HO c Q p NO NS); apply H'; assumption|].
        destruct (Nat.eq_dec q s) as [->|NQ2]; [exfalso; apply (HS c Q p NO NS); apply H'; assumption|].
        apply (i_alone _ I p q c); apply H'; assumption.
  - exact NX.
  - intros c C U. destruct (LEAK c C U) as [L|[L|(p & A & B & L)]]; [exists o; exact L|exists s; exact L|]. exists p. destruct L as (x & X & R). exists x. rewrite OB by assumption. tauto.
  - intros p A B. apply view_frame; [apply I|apply OB; assumption|]. intros c C. apply (BK p c A B C).
Qed.
Lemma owns_holds m o c : owns m o c -> holds m o c. Proof. intros (x & X & A & E & _). exists x. tauto. Qed.
Lemma holds_block m o c : Inv m -> holds m o c -> exists l, m_blks m c = Some l.
Proof. intros I (x & X & A & E). destruct (i_well _ I _ _ X) as (_ & _ & _ & W). destruct (W A) as (b & l & E' & K & _). assert (b = c) by congruence. subst. eauto. Qed.

(** creation and destruction *)
Lemma create_ok m o : Inv m -> m_objs m o = None -> Inv (create o m) /\ others o m (create o m) /\ view (create o m) o = Some (mkV zeros64 0 64 false false false).
Proof.
  intros I X. assert (NH : forall c, ~ holds (create o m) o c). { intros c (x & Y & A & _). unfold create in Y. rewrite setObj_same in Y. injection Y as <-. discriminate. }
  destruct (reshuffle m (create o m) o o I) as [I' O'].
  - intros p NE _. apply setObj_other, NE.
  - apply (i_next _ I).
  - intros p c _ _ _. split; reflexivity.
  - intros x Y. unfold create in Y. rewrite setObj_same in Y. injection Y as <-. split; [reflexivity|]. split; [cbn; lia|]. split; [split; reflexivity|discriminate].
  - intros x Y. unfold create in Y. rewrite setObj_same in Y. injection Y as <-. split; [reflexivity|]. split; [cbn; lia|]. split; [split; reflexivity|discriminate].
  - intros c H. destruct (NH c H).
  - intros c H. destruct (NH c H).
  - reflexivity.
  - intros c C U. right. right. destruct (i_owned _ I c C U) as (p & OW). exists p. assert (p <> o) by (intros ->; destruct OW as (x & Y & _); congruence). tauto.
  - split; [exact I'|]. split; [intros p NE; apply O'; exact NE|]. unfold view, create. rewrite setObj_same. unfold viewB, fresh. cbn [b_heap bytesOf]. rewrite setObj_same. reflexivity.
Qed.
Lemma destroy_ok m o x : Inv m -> m_objs m o = Some x -> exists m', destroy o m = ok m' /\ Inv m' /\ others o m m' /\ m_objs m' o = None.
Proof.
  intros I X. unfold destroy, withObj. rewrite X. destruct (dropped_ok m o x I X) as (m1 & D & O1 & N1 & U1 & B1 & B2 & B3). unfold dropped in D. rewrite D. cbn [obind].
  eexists. split; [reflexivity|]. assert (NH : forall c, ~ holds (setObj o None m1) o c) by (intros c (y & Y & _); rewrite setObj_same in Y; discriminate).
  destruct (reshuffle m (setObj o None m1) o o I) as [I' O'].
  - intros p NE _. rewrite setObj_other by exact NE. congruence.
  - intros c C. cbn [setObj m_blks m_next] in *. rewrite N1. apply (i_next _ I). destruct (B1 c) as [E|[_ E]]; congruence.
  - intros p c NE _ H. cbn [setObj m_blks m_user]. rewrite U1. split; [|reflexivity]. apply B2. intros OW. apply NE. apply (holds_owner m o p c I OW H).
  - intros y Y. rewrite setObj_same in Y. discriminate.
  - intros y Y. rewrite setObj_same in Y. discriminate.
  - intros c H. destruct (NH c H).
  - intros c H. destruct (NH c H).
  - reflexivity.
  - intros c C U. cbn [setObj m_blks m_user] in *. rewrite U1 in U. right. right. assert (NO : ~ owns m o c) by (intros OW; apply C, B3, OW).
    rewrite (B2 c NO) in C. destruct (i_owned _ I c C U) as (p & OW). exists p. assert (p <> o) by (intros ->; contradiction). tauto.
  - split; [exact I'|]. split; [intros p NE; apply O'; exact NE|]. apply setObj_same.
Qed.

(** ** one object taking the storage of another, which is emptied *)
Lemma transfer m o s x y m' xf yf : Inv m -> o <> s -> m_objs m o = Some x -> m_objs m s = Some y ->
  m_objs m' o = Some xf -> m_objs m' s = Some yf -> (forall p, p <> o -> p <> s -> m_objs m' p = m_objs m p) ->
  m_next m' = m_next m -> m_user m' = m_user m ->
  (forall c, ~ owns m o c -> m_blks m' c = m_blks m c) -> (forall c, owns m o c -> m_blks m' c = None) ->
  length (b_in xf) = 64 -> b_size xf = b_size y -> b_alloc xf = b_alloc y ->
  (b_alloc y = true -> b_heap xf = b_heap y /\ b_cap xf = b_cap y /\ b_span xf = b_span y) ->
  (b_alloc y = false -> b_heap xf = PIn o /\ b_cap xf = 64 /\ firstn (b_size y) (b_in xf) = firstn (b_size y) (b_in y)) ->
  length (b_in yf) = 64 -> b_size yf = 0 -> b_alloc yf = false -> b_heap yf = PIn s -> b_cap yf = 64 ->
  Inv m' /\ others2 o s m m' /\ text m' o = text m s /\ text m' s = Some [].
Proof.
  intros I NE X Y XF YF OB NX US KEEP GONE LX SX AX TA TI LY SY AY HY CY.
  destruct (i_well _ I _ _ X) as (_ & _ & WX1 & WX2). destruct (i_well _ I _ _ Y) as (LIY & SZY & WY1 & WY2).
  assert (HS : forall c, holds m s c -> ~ owns m o c) by (intros c H OW; apply NE; symmetry; apply (holds_owner m o s c I OW H)).
  assert (NHS : forall c, ~ holds m' s c) by (intros c (z & Z & A & _); congruence).
  assert (HO : forall c, holds m' o c -> holds m s c).
  { intros c (z & Z & A & E). assert (z = xf) by congruence. subst z. rewrite AX in A. destruct (TA A) as (E' & _). exists y. rewrite <- E'. tauto. }
  assert (WO : wellB m' o xf).
  { split; [exact LX|]. rewrite SX. destruct (b_alloc y) eqn:AL.
    - destruct (TA eq_refl) as (E & C & SP). rewrite C. split; [exact SZY|]. split; [congruence|]. intros _. destruct (WY2 eq_refl) as (b & l & E' & K & LE & U).
      exists b, l. rewrite KEEP by (apply HS; exists y; tauto). rewrite US, SP. split; [congruence|]. tauto.
    - destruct (TI eq_refl) as (E & C & _). destruct (WY1 eq_refl) as [_ CY']. rewrite C. split; [lia|]. split; [tauto|congruence]. }
  assert (WS : wellB m' s yf) by (split; [exact LY|]; split; [lia|]; split; [tauto|congruence]).
  destruct (reshuffle m m' o s I OB) as [I' O'].
  - intros c C. rewrite NX. apply (i_next _ I). intros Z. apply C. destruct (m_objs m o) eqn:Q; [|discriminate].
    rewrite KEEP; [exact Z|]. intros OW. destruct (holds_block m o c I (owns_holds _ _ _ OW)) as [l L]. congruence.
  - intros p c N1 N2 H. rewrite US. split; [|reflexivity]. apply KEEP. intros OW. apply N1. apply (holds_owner m o p c I OW H).
  - intros z Z. assert (z = xf) by congruence. subst. exact WO.
  - intros z Z. assert (z = yf) by congruence. subst. exact WS.
  - intros c H p N1 N2 H'. apply N2. apply (i_alone _ I p s c H' (HO c H)).
  - intros c H. destruct (NHS c H).
  - intros c _ H. destruct (NHS c H).
  - intros c C U. rewrite US in U. assert (NO : ~ owns m o c) by (intros OW; apply C, GONE, OW). rewrite (KEEP c NO) in C.
    destruct (i_owned _ I c C U) as (p & OW). destruct (Nat.eq_dec p s) as [->|N2].
    + left. destruct OW as (z & Z & A & E & SP). assert (z = y) by congruence. subst z. destruct (TA A) as (E1 & E2 & E3). exists xf. rewrite AX, E1, E3. tauto.
    + right. right. exists p. assert (p <> o) by (intros ->; contradiction). tauto.
  - split; [exact I'|]. split; [exact O'|]. split.
    + rewrite !text_view by assumption. unfold view. rewrite XF, Y. unfold viewB. destruct (b_alloc y) eqn:AL.
      * destruct (TA eq_refl) as (E & C & SP). destruct (WY2 eq_refl) as (b & l & E' & K & LE & U). rewrite E, E'. cbn [bytesOf].
        rewrite KEEP by (apply HS; exists y; tauto). rewrite K. cbn. rewrite SX. reflexivity.
      * destruct (TI eq_refl) as (E & C & FI). destruct (WY1 eq_refl) as [E' _]. rewrite E, E'. cbn [bytesOf]. rewrite XF, Y. cbn. rewrite SX, FI. reflexivity.
    + rewrite text_view by assumption. unfold view. rewrite YF. unfold viewB. rewrite HY. cbn [bytesOf]. rewrite YF. cbn. rewrite SY. reflexivity.
Qed.
