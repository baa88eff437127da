(** C43: every active filter of a sending endpoint is applied to a message exactly once, in the order of the chain, wherever the filters live. *)
From Coq Require Import ZArith List Lia Bool.
From Verif Require Import HTime Action Bundle MsgConv Interfaces Ids Handles Filters FilterFed PropsFilterFed.
Import ListNotations.
Local Open Scope Z_scope.

(** ** Specification *)
(** what one filter does to the message: nothing when it is closed, when it only makes copies, or when no operator was given *)
Definition effect (f : filt) (g : message) : option message :=
  if fi_closed f || fi_cloning f then Some g else match fi_op f with Some op => op_process op g | None => Some g end.
(** the filters one after the other; a dropped message stays dropped *)
Fixpoint through (fs : list filt) (g : message) : option message := match fs with [] => Some g | f :: r => match effect f g with Some g => through r g | None => None end end.
(** the filter itself: the core [self] knows its own filters, [real] are those of the other cores *)
Definition realOf (self : Z) (real : Z -> Z -> filt) (f : filt) : filt := if fi_core f =? self then f else real (fi_core f) (fi_handle f).
(** what must not happen at the sending core while message [x] of endpoint [h] is away: a change of the chain or another answer with its number *)
Definition undisturbed (owner : Z -> option Z) (h : Z) (x : amsg) (e : fevent) : Prop :=
  (forall c, e <> F_chain h c) /\ (forall m, e = F_return m -> owner (m_dest_handle m) = owner h -> m_sequenceID m <> m_sequenceID x).
(** The journey of command [x], sent by the core in state [s], to its end: the message handed over for delivery, or [None] when it is dropped.
    Between a departure and the answer the sending core may process any events. *)
Inductive journey (real : Z -> Z -> filt) (h : Z) : ff -> amsg -> option message -> Prop :=
| J_arrives s x : m_action x = CMD_SEND_MESSAGE -> journey real h s x (Some (messageOf x))
| J_dropped s x : m_action x = CMD_IGNORE -> journey real h s x None
| J_last s x y r : m_action x = CMD_SEND_FOR_FILTER -> In (O_main y) (filterHere (m_dest_id x) (real (m_dest_id x) (m_dest_handle x)) x) -> journey real h s y r -> journey real h s x r
| J_last_drops s x : m_action x = CMD_SEND_FOR_FILTER -> (forall y, ~ In (O_main y) (filterHere (m_dest_id x) (real (m_dest_id x) (m_dest_handle x)) x)) -> journey real h s x None
| J_back s x y es s1 t s2 o z r : m_action x = CMD_SEND_FOR_FILTER_AND_RETURN -> In (O_main y) (filterHere (m_dest_id x) (real (m_dest_id x) (m_dest_handle x)) x) ->
    frun s es = Some (s1, t) -> Forall (undisturbed (ff_owner s) h x) es -> ff_owner s (m_dest_handle y) = Some (m_dest_id y) ->
    fstep s1 (F_return y) = Some (s2, o) -> In (O_main z) o -> journey real h s2 z r -> journey real h s x r
| J_back_drops s x y es s1 t s2 o : m_action x = CMD_SEND_FOR_FILTER_AND_RETURN -> In (O_main y) (filterHere (m_dest_id x) (real (m_dest_id x) (m_dest_handle x)) x) ->
    frun s es = Some (s1, t) -> Forall (undisturbed (ff_owner s) h x) es -> ff_owner s (m_dest_handle y) = Some (m_dest_id y) ->
    fstep s1 (F_return y) = Some (s2, o) -> (forall z, ~ In (O_main z) o) -> journey real h s x None.

(** the chains for which the program does this *)
Record sound (self : Z) (real : Z -> Z -> filt) (fs : list filt) : Prop := mkSound {
  so_len : Z.of_nat (length fs) <= 65536;
  so_open : Forall (fun f => fi_closed f = false) fs;
  so_op : Forall (fun f => fi_core f = self -> fi_op f <> None) fs;
  so_real : Forall (fun f => fi_core f <> self -> fi_cloning (real (fi_core f) (fi_handle f)) = fi_cloning f) fs;
  so_first : forall pre f post, fs = pre ++ f :: post -> fi_core f <> self -> fi_cloning f = false -> post <> [] ->
    Forall (fun a => fi_core a = self -> fi_cloning a = true) pre \/ exists a, In a pre /\ fi_core a <> self /\ fi_cloning a = false }.

(** ** One leg of the journey *)
Lemma through_app a b g : through (a ++ b) g = match through a g with Some g => through b g | None => None end.
Proof. revert g. induction a as [|f a IH]; intros g; [reflexivity|]. cbn. destruct (effect f g); [apply IH|reflexivity]. Qed.
Definition leg (self : Z) (real : Z -> Z -> filt) (ii : nat) (rest : list filt) (m m' : amsg) (b : bool) : Prop :=
  (m_action m' = CMD_SEND_MESSAGE /\ b = false /\ through (map (realOf self real) rest) (messageOf m) = Some (messageOf m')) \/
  (m_action m' = CMD_IGNORE /\ b = false /\ through (map (realOf self real) rest) (messageOf m) = None) \/
  (exists pre f post, rest = pre ++ f :: post /\ fi_core f <> self /\ fi_cloning f = false /\ through (map (realOf self real) pre) (messageOf m) = Some (messageOf m') /\
     m_dest_id m' = fi_core f /\ m_dest_handle m' = fi_handle f /\ Forall (fun a => fi_core a = self \/ fi_cloning a = true) pre /\
     ((b = true /\ post <> [] /\ m_action m' = CMD_SEND_FOR_FILTER_AND_RETURN /\ m_counter m' = Z.of_nat (ii + length pre) mod 65536) \/ (b = false /\ post = [] /\ m_action m' = CMD_SEND_FOR_FILTER)) /\
     (Forall (fun a => fi_core a = self -> fi_cloning a = true) pre -> m_source_id m' = m_source_id m /\ m_source_handle m' = m_source_handle m)).
Lemma leg_cons self real ii f rest m m1 m' b : fi_closed f = false -> m_action m1 = CMD_SEND_MESSAGE -> effect (realOf self real f) (messageOf m) = Some (messageOf m1) -> (fi_core f = self \/ fi_cloning f = true) ->
  ((fi_core f = self -> fi_cloning f = true) -> m_source_id m1 = m_source_id m /\ m_source_handle m1 = m_source_handle m) ->
  leg self real (S ii) rest m1 m' b -> leg self real ii (f :: rest) m m' b.
Proof.
  intros O A E L SRC [(A1 & B1 & T)|[(A1 & B1 & T)|(pre & f' & post & -> & N & NC & T & D1 & D2 & LO & W & S)]].
  - left. split; [exact A1|split; [exact B1|]]. cbn. rewrite E. exact T.
  - right; left. split; [exact A1|split; [exact B1|]]. cbn. rewrite E. exact T.
  - right; right. exists (f :: pre), f', post. split; [reflexivity|]. split; [exact N|split; [exact NC|]]. split; [cbn; rewrite E; exact T|]. split; [exact D1|split; [exact D2|]]. split; [constructor; assumption|].
    split.
    + destruct W as [(B & P & W & C)|W]; [left|right; exact W]. split; [exact B|split; [exact P|split; [exact W|]]]. rewrite C. f_equal. cbn [length]. lia.
    + intros H. inversion H as [|? ? H1 H2]; subst. destruct (SRC H1) as [S1 S2]. destruct (S H2) as [S3 S4]. split; congruence.
Qed.
Lemma effect_local self real f op : fi_core f = self -> fi_closed f = false -> fi_op f = Some op -> forall g, effect (realOf self real f) g = if fi_cloning f then Some g else op_process op g.
Proof. intros C O P g. unfold effect, realOf. rewrite C, Z.eqb_refl, O, P. destruct (fi_cloning f); reflexivity. Qed.
Lemma effect_copy self real f g : fi_core f <> self -> fi_cloning (real (fi_core f) (fi_handle f)) = true -> effect (realOf self real f) g = Some g.
Proof. intros N C. unfold effect, realOf. destruct (Z.eqb_spec (fi_core f) self); [contradiction|]. rewrite C, orb_true_r. reflexivity. Qed.

Section Loops.
Variables (self : Z) (real : Z -> Z -> filt).
Definition good (f : filt) : Prop := fi_closed f = false /\ (fi_core f = self -> fi_op f <> None) /\ (fi_core f <> self -> fi_cloning (real (fi_core f) (fi_handle f)) = fi_cloning f).
Lemma last_test ii size (rest : list filt) f : size = (ii + length (f :: rest))%nat -> (ii <? size - 1)%nat = true <-> rest <> [].
Proof. intros ->. cbn [length]. rewrite Nat.ltb_lt. destruct rest; cbn [length]; [split; [lia|congruence]|split; [discriminate|lia]]. Qed.
(** the first filter of the rest *)
Lemma first_spec f m m1 b1 o1 : good f -> m_action m = CMD_SEND_MESSAGE -> executeFilter self m f = Some (m1, b1, o1) ->
  (b1 = true /\ m_action m1 = CMD_SEND_MESSAGE /\ effect (realOf self real f) (messageOf m) = Some (messageOf m1) /\ (fi_core f = self \/ fi_cloning f = true) /\
     ((fi_core f = self -> fi_cloning f = true) -> m_source_id m1 = m_source_id m /\ m_source_handle m1 = m_source_handle m)) \/
  (b1 = false /\ m_action m1 = CMD_IGNORE /\ effect (realOf self real f) (messageOf m) = None) \/
  (b1 = false /\ m_action m1 = CMD_SEND_MESSAGE /\ fi_core f <> self /\ fi_cloning f = false /\ m1 = withDestination m (fi_core f) (fi_handle f)).
Proof.
  intros (O & P & R) A E. unfold executeFilter in E. destruct (Z.eqb_spec (fi_core f) self) as [C|C].
  - destruct (fi_op f) as [op|] eqn:OP; [|destruct (P C eq_refl)]. pose proof (effect_local self real f op C O OP (messageOf m)) as EF. destruct (fi_cloning f) eqn:CL.
    + injection E as <- <- <-. left. auto 8.
    + destruct (op_process op (messageOf m)) as [g|]; injection E as <- <- <-.
      * left. split; [reflexivity|split; [reflexivity|]]. split; [rewrite EF, C42_message_survives; reflexivity|]. split; [auto|]. intros H. specialize (H C). discriminate.
      * right; left. auto.
  - destruct (fi_cloning f) eqn:CL; injection E as <- <- <-.
    + left. split; [reflexivity|split; [exact A|]]. split; [apply effect_copy; [exact C|rewrite R by exact C; reflexivity]|]. auto.
    + right; right. auto 8.
Qed.
Lemma processLoop_leg size rest : forall ii m m' b o, size = (ii + length rest)%nat -> Forall good rest -> m_action m = CMD_SEND_MESSAGE -> processLoop self size ii rest m = Some (m', b, o) -> leg self real ii rest m m' b.
Proof.
  induction rest as [|f rest IH]; intros ii m m' b o SZ G A E; cbn [processLoop] in E.
  - injection E as <- <- <-. left. auto.
  - inversion G as [|? ? G1 G2]; subst. destruct (G1) as (O & _). rewrite O in E. destruct (executeFilter self m f) as [[[m1 b1] o1]|] eqn:X; [|discriminate].
    destruct (first_spec f m m1 b1 o1 G1 A X) as [(-> & A1 & EF & LO & SR)|[(-> & A1 & EF)|(-> & A1 & N & NC & M1)]].
    + destruct (processLoop self (ii + length (f :: rest)) (S ii) rest m1) as [[[m2 b2] o2]|] eqn:Y; [|discriminate]. injection E as <- <- <-. eapply leg_cons; eauto. eapply IH; [| | |exact Y]; auto. cbn. lia.
    + rewrite A1 in E. cbn [Z.eqb] in E. replace (CMD_IGNORE =? CMD_IGNORE) with true in E by reflexivity. injection E as <- <- <-. right; left. split; [exact A1|split; [reflexivity|]]. cbn. rewrite EF. reflexivity.
    + rewrite A1 in E. replace (CMD_SEND_MESSAGE =? CMD_IGNORE) with false in E by reflexivity. right; right. exists [], f, rest. split; [reflexivity|split; [exact N|split; [exact NC|]]].
      pose proof (last_test ii _ rest f eq_refl) as LT. destruct (ii <? _)%nat; injection E as <- <- <-; subst m1.
      * split; [reflexivity|split; [reflexivity|split; [reflexivity|split; [constructor|]]]]. split; [left|intros _; split; reflexivity]. split; [reflexivity|split; [apply LT; reflexivity|split; [reflexivity|]]]. rewrite Nat.add_0_r. reflexivity.
      * split; [reflexivity|split; [reflexivity|split; [reflexivity|split; [constructor|]]]]. split; [right|intros _; split; reflexivity]. split; [reflexivity|]. split; [|reflexivity]. destruct rest; [reflexivity|]. exfalso. assert (false = true) by (apply LT; discriminate). discriminate.
Qed.
Lemma returnLoop_leg size rest : forall ii m m' b o, size = (ii + length rest)%nat -> Forall good rest -> m_action m = CMD_SEND_MESSAGE -> returnLoop self size ii rest m = Some (m', b, o) -> leg self real ii rest m m' b.
Proof.
  induction rest as [|f rest IH]; intros ii m m' b o SZ G A E; cbn [returnLoop] in E.
  - injection E as <- <- <-. left. auto.
  - inversion G as [|? ? G1 G2]; subst. destruct (G1) as (O & _). rewrite O in E. destruct (executeFilter self m f) as [[[m1 b1] o1]|] eqn:X; [|discriminate].
    destruct (first_spec f m m1 b1 o1 G1 A X) as [(-> & A1 & EF & LO & SR)|[(-> & A1 & EF)|(-> & A1 & N & NC & M1)]].
    + destruct (returnLoop self (ii + length (f :: rest)) (S ii) rest m1) as [[[m2 b2] o2]|] eqn:Y; [|discriminate]. injection E as <- <- <-. eapply leg_cons; eauto. eapply IH; [| | |exact Y]; auto. cbn. lia.
    + rewrite A1 in E. replace (CMD_IGNORE =? CMD_IGNORE) with true in E by reflexivity. injection E as <- <- <-. right; left. split; [exact A1|split; [reflexivity|]]. cbn. rewrite EF. reflexivity.
    + rewrite A1 in E. replace (CMD_SEND_MESSAGE =? CMD_IGNORE) with false in E by reflexivity. right; right. exists [], f, rest. split; [reflexivity|split; [exact N|split; [exact NC|]]].
      pose proof (last_test ii _ rest f eq_refl) as LT. destruct (ii <? _)%nat; injection E as <- <- <-; subst m1.
      * split; [reflexivity|split; [reflexivity|split; [reflexivity|split; [constructor|]]]]. split; [left|intros _; split; reflexivity]. split; [reflexivity|split; [apply LT; reflexivity|split; [reflexivity|]]]. rewrite Nat.add_0_r. reflexivity.
      * split; [reflexivity|split; [reflexivity|split; [reflexivity|split; [constructor|]]]]. split; [right|intros _; split; reflexivity]. split; [reflexivity|]. split; [|reflexivity]. destruct rest; [reflexivity|]. exfalso. assert (false = true) by (apply LT; discriminate). discriminate.
Qed.
Lemma execute_some f m : good f -> executeFilter self m f <> None.
Proof. intros (_ & P & _). unfold executeFilter. destruct (Z.eqb_spec (fi_core f) self) as [C|C]; [|destruct (fi_cloning f); discriminate]. destruct (fi_op f) as [op|]; [|destruct (P C eq_refl)]. destruct (fi_cloning f); [discriminate|]. destruct (op_process _ _); discriminate. Qed.
Lemma processLoop_some size rest : forall ii m, Forall good rest -> processLoop self size ii rest m <> None.
Proof.
  induction rest as [|f rest IH]; intros ii m G; cbn [processLoop]; [discriminate|]. inversion G as [|? ? G1 G2]; subst. destruct (fi_closed f); [apply IH, G2|]. pose proof (execute_some f m G1) as X.
  destruct (executeFilter self m f) as [[[m1 [|]] o1]|]; [| |congruence].
  - pose proof (IH (S ii) m1 G2) as Y. destruct (processLoop self size (S ii) rest m1) as [[[? ?] ?]|]; [discriminate|congruence].
  - destruct (_ =? _); [discriminate|]. destruct (_ <? _)%nat; discriminate.
Qed.
Lemma returnLoop_some size rest : forall ii m, Forall good rest -> returnLoop self size ii rest m <> None.
Proof.
  induction rest as [|f rest IH]; intros ii m G; cbn [returnLoop]; [discriminate|]. inversion G as [|? ? G1 G2]; subst. destruct (fi_closed f); [apply IH, G2|]. pose proof (execute_some f m G1) as X.
  destruct (executeFilter self m f) as [[[m1 [|]] o1]|]; [| |congruence].
  - pose proof (IH (S ii) m1 G2) as Y. destruct (returnLoop self size (S ii) rest m1) as [[[? ?] ?]|]; [discriminate|congruence].
  - destruct (_ =? _); [discriminate|]. destruct (_ <? _)%nat; discriminate.
Qed.
End Loops.

(** ** The whole journey *)
Lemma fstep_keeps s e s' o h : fstep s e = Some (s', o) -> (forall c, e <> F_chain h c) -> ff_id s' = ff_id s /\ ff_chains s' h = ff_chains s h.
Proof.
  assert (MK : forall a g p tm, ff_id (fst (generateProcessMarker a g p tm)) = ff_id a /\ ff_chains (fst (generateProcessMarker a g p tm)) = ff_chains a) by (intros; unfold generateProcessMarker; cbn [fst addTimeReturn]; destruct (hasAny _ _); split; reflexivity).
  assert (CL : forall a p, ff_id (fst (clearTimeReturn a p)) = ff_id a /\ ff_chains (fst (clearTimeReturn a p)) = ff_chains a) by (intros a p; unfold clearTimeReturn; destruct (ff_returns a) as [|[q t] r]; [auto|]; destruct (q =? p); auto).
  assert (AC : forall a g p, ff_id (fst (acceptProcessReturn a g p)) = ff_id a /\ ff_chains (fst (acceptProcessReturn a g p)) = ff_chains a).
  { intros a g p. unfold acceptProcessReturn. set (a1 := withTracking a _ _ _ _ _ _ _). set (r := if hasAny (ff_ongoing a1) g then _ else _).
    assert (R : ff_id (fst r) = ff_id a /\ ff_chains (fst r) = ff_chains a) by (unfold r; destruct (hasAny _ _); split; reflexivity). destruct r as [a2 o2]. pose proof (CL a2 p) as C. destruct (clearTimeReturn a2 p) as [a3 o3]. cbn [fst] in *. destruct R, C. split; congruence. }
  intros E N. destruct e as [h' m|m|h' m|m|m|h' c]; cbn [fstep] in E.
  - unfold sendMessage in E. destruct (ff_owner s h') as [g|]; [|injection E as <- <-; auto]. destruct (processLoop _ _ _ _ _) as [[[m1 [|]] o1]|]; [| |discriminate].
    + match type of E with context [generateProcessMarker ?a ?b ?c ?d] => pose proof (MK a b c d) as K; destruct (generateProcessMarker a b c d) as [s2 o2] end. injection E as <- <-. cbn in K. destruct K as [-> ->]. auto.
    + injection E as <- <-. auto.
  - unfold filterReturn in E. destruct (ff_owner s (m_dest_handle m)) as [g|]; [|injection E as <- <-; auto]. destruct (existsb _ _); [|injection E as <- <-; auto]. destruct (m_action m =? CMD_NULL_MESSAGE).
    + pose proof (AC s g (m_sequenceID m)) as K. destruct (acceptProcessReturn s g (m_sequenceID m)) as [s2 o2]. injection E as <- <-. cbn in K. destruct K as [-> ->]. auto.
    + destruct (returnLoop _ _ _ _ _) as [[[m1 [|]] o1]|]; [| |discriminate].
      * match type of E with context [generateProcessMarker ?a ?b ?c ?d] => pose proof (MK a b c d) as K; destruct (generateProcessMarker a b c d) as [s2 o2] end.
        pose proof (AC s2 g (m_sequenceID m)) as L. destruct (acceptProcessReturn s2 g (m_sequenceID m)) as [s3 o3]. injection E as <- <-. cbn in K, L. destruct K as [K1 K2], L as [-> ->]. rewrite K1, K2. auto.
      * pose proof (AC s g (m_sequenceID m)) as K. destruct (acceptProcessReturn s g (m_sequenceID m)) as [s2 o2]. injection E as <- <-. cbn in K. destruct K as [-> ->]. auto.
  - unfold destArrive in E. destruct (ff_owner s h') as [g|]; [|injection E as <- <-; auto]. destruct (ch_dest _) as [f|]; [|injection E as <- <-; auto]. destruct (fi_closed f); [injection E as <- <-; auto|]. destruct (negb _).
    + pose proof (destMarker_frame (setCounter s (ff_counter s + 1)) g (ff_counter s + 1) (m_actionTime m)) as F. destruct (generateDestProcessMarker _ _ _ _) as [s2 o2]. injection E as <- <-. destruct F as ((F1 & _ & _ & F2) & _). rewrite F1, F2. auto.
    + destruct (fi_op f) as [op|]; [|injection E as <- <-; auto]. destruct (op_process _ _); [|discriminate]. destruct (beq _ _); injection E as <- <-; auto.
  - unfold destReturn in E. destruct (ff_owner s (m_dest_handle m)) as [g|]; [|injection E as <- <-; auto]. destruct (existsb _ _); [|injection E as <- <-; auto].
    pose proof (destAccept_frame s g (m_sequenceID m)) as F. destruct (acceptDestProcessReturn _ _ _) as [s2 o2]. destruct F as ((F1 & _ & _ & F2) & _). destruct (_ =? _); injection E as <- <-; rewrite F1, F2; auto.
  - injection E as E. unfold timingCommand in E. destruct (hasTimeBlock _ _); injection E as <- <-; auto.
  - injection E as <- <-. split; [reflexivity|]. cbn. destruct (Z.eqb_spec h h') as [->|]; [destruct (N c); reflexivity|reflexivity].
Qed.

Section Journey.
Variables (real : Z -> Z -> filt) (self h g : Z) (fs : list filt).
Hypothesis SO : sound self real fs.
(** the core is in a reachable state, endpoint [h] belongs to federate [g] and has the chain [fs] *)
Definition home (s : ff) : Prop := (exists w : list (Z * Z * Z), inv s (map fst w)) /\ ff_owner s h = Some g /\ ff_id s = self /\ ch_source (ff_chains s h) = fs.
Lemma fs_good : Forall (good self real) fs.
Proof. destruct SO as [_ A B C _]. rewrite Forall_forall in *. intros f H. split; [auto|split; [intros X; apply (B f H X)|intros X; apply (C f H X)]]. Qed.
(** a command on its way, and what will become of it *)
Definition inFlight (s : ff) (x : amsg) (target : option message) : Prop := home s /\
  ((m_action x = CMD_SEND_MESSAGE /\ target = Some (messageOf x)) \/ (m_action x = CMD_IGNORE /\ target = None) \/
   (exists pre f, fs = pre ++ [f] /\ fi_core f <> self /\ fi_cloning f = false /\ m_action x = CMD_SEND_FOR_FILTER /\ m_dest_id x = fi_core f /\ m_dest_handle x = fi_handle f /\ target = effect (realOf self real f) (messageOf x)) \/
   (exists pre f post, fs = pre ++ f :: post /\ fi_core f <> self /\ fi_cloning f = false /\ m_action x = CMD_SEND_FOR_FILTER_AND_RETURN /\ m_dest_id x = fi_core f /\ m_dest_handle x = fi_handle f /\
      m_counter x = Z.of_nat (length pre) /\ m_source_id x = g /\ m_source_handle x = h /\ In (g, m_sequenceID x) (ff_ongoing s) /\ target = through (map (realOf self real) (f :: post)) (messageOf x))).
Lemma frun_home es : forall s s' t x, frun s es = Some (s', t) -> Forall (undisturbed (ff_owner s) h x) es -> home s -> In (g, m_sequenceID x) (ff_ongoing s) -> home s' /\ In (g, m_sequenceID x) (ff_ongoing s') /\ ff_owner s' = ff_owner s.
Proof.
  induction es as [|e es IH]; intros s s' t x E U H IN; cbn [frun] in E.
  - injection E as <- <-. auto.
  - destruct (fstep s e) as [[s1 o1]|] eqn:S1; [|discriminate]. destruct (frun s1 es) as [[s2 t2]|] eqn:R; [|discriminate]. injection E as <- <-.
    inversion U as [|? ? [U1 U2] U3]; subst. destruct H as ((w & I) & O & ID & CH). destruct (fstep_inv _ _ _ _ _ I S1) as (I1 & O1 & _). destruct (fstep_keeps _ _ _ _ h S1 U1) as [K1 K2].
    destruct (IH s1 s2 t2 x R) as (A & B & C).
    + rewrite O1. exact U3.
    + split; [eexists; exact I1|]. rewrite O1, K1, K2. auto.
    + apply (i_on _ _ I1). apply (i_on _ _ I) in IN. apply in_map_iff in IN. destruct IN as (z & Ez & IN). apply in_map_iff. exists z. split; [exact Ez|]. unfold outstandingStep. apply in_app_iff. left. apply filter_In. split; [exact IN|].
      apply negb_true_iff. cbn [fst]. destruct e as [| m | | | |]; try reflexivity. cbn. destruct (ff_owner s (m_dest_handle m)) as [g'|] eqn:OW; [|reflexivity]. rewrite Ez. cbn. destruct (Z.eqb_spec g g') as [->|]; [|reflexivity]. cbn.
      destruct (Z.eqb_spec (m_sequenceID x) (m_sequenceID m)) as [Q|]; [|reflexivity]. exfalso. apply (U2 m eq_refl); [rewrite OW, O; reflexivity|auto].
    + split; [exact A|split; [exact B|]]. rewrite C. exact O1.
Qed.
Lemma messageOf_ext a b : m_strings a = m_strings b -> m_actionTime a = m_actionTime b -> m_flags a = m_flags b -> m_messageID a = m_messageID b -> m_payload a = m_payload b -> messageOf a = messageOf b.
Proof. intros E1 E2 E3 E4 E5. unfold messageOf. rewrite E1, E2, E3, E4, E5. reflexivity. Qed.
Lemma only_main y : forall z, In (O_main z) [O_main y] <-> z = y.
Proof. intros z. split; [intros [Q|[]]; injection Q as Q; symmetry; exact Q|intros ->; left; reflexivity]. Qed.
Lemma filterHere_last f x : m_action x = CMD_SEND_FOR_FILTER -> fi_cloning f = false ->
  match effect f (messageOf x) with
  | None => forall y, ~ In (O_main y) (filterHere (m_dest_id x) f x)
  | Some gm => exists y, (forall z, In (O_main z) (filterHere (m_dest_id x) f x) <-> z = y) /\ m_action y = CMD_SEND_MESSAGE /\ messageOf y = gm end.
Proof.
  intros A NC. unfold filterHere, effect. rewrite A, NC, orb_false_r. change (CMD_SEND_FOR_FILTER =? CMD_SEND_FOR_DEST_FILTER_AND_RETURN) with false. change (CMD_SEND_FOR_FILTER =? CMD_SEND_FOR_FILTER_AND_RETURN) with false. cbn [orb negb andb].
  destruct (fi_closed f); [|destruct (fi_op f) as [op|]; [|]].
  - eexists. split; [apply only_main|split; reflexivity].
  - destruct (op_process op (messageOf x)) as [gm|]; [|cbn; auto]. rewrite andb_false_r. pose proof (C42_message_survives gm) as K. assert (K2 : m_action (commandOf gm) = CMD_SEND_MESSAGE) by reflexivity. revert K K2. generalize (commandOf gm). intros c K K2. cbn [app]. eexists. split; [apply only_main|split; [exact K2|rewrite <- K; apply messageOf_ext; reflexivity]].
  - eexists. split; [apply only_main|split; reflexivity].
Qed.
Lemma filterHere_back f x : m_action x = CMD_SEND_FOR_FILTER_AND_RETURN -> fi_cloning f = false ->
  exists y, (forall z, In (O_main z) (filterHere (m_dest_id x) f x) <-> z = y) /\ m_dest_id y = m_source_id x /\ m_dest_handle y = m_source_handle x /\ m_sequenceID y = m_sequenceID x /\ m_counter y = m_counter x /\
  match effect f (messageOf x) with None => m_action y = CMD_NULL_MESSAGE | Some gm => m_action y = CMD_FILTER_RESULT /\ messageOf y = gm end.
Proof.
  intros A NC. unfold filterHere, effect. rewrite A, NC, orb_false_r. change (CMD_SEND_FOR_FILTER_AND_RETURN =? CMD_SEND_FOR_DEST_FILTER_AND_RETURN) with false. change (CMD_SEND_FOR_FILTER_AND_RETURN =? CMD_SEND_FOR_FILTER_AND_RETURN) with true. cbn [orb negb andb].
  destruct (fi_closed f); [|destruct (fi_op f) as [op|]; [|]].
  - eexists. split; [apply only_main|]. repeat (split; [reflexivity|]). split; reflexivity.
  - destruct (op_process op (messageOf x)) as [gm|]; rewrite ?andb_false_r; [pose proof (C42_message_survives gm) as K; revert K; generalize (commandOf gm); intros c K|]; cbn [app]; (eexists; split; [apply only_main|]); repeat (split; [reflexivity|]).
    + rewrite <- K; apply messageOf_ext; reflexivity.
    + reflexivity.
  - eexists. split; [apply only_main|]. repeat (split; [reflexivity|]). split; reflexivity.
Qed.
Lemma notMain_in os z : Forall notMain os -> ~ In (O_main z) os.
Proof. intros H I. rewrite Forall_forall in H. apply (H _ I). Qed.
Lemma copies_notMain os : Forall copies os -> Forall notMain os.
Proof. intros H. eapply Forall_impl; [|exact H]. intros [] X; (exact Logic.I || destruct X). Qed.
Lemma quiet_notMain os : Forall quiet os -> Forall notMain os.
Proof. intros H. eapply Forall_impl; [|exact H]. intros [] X; (exact Logic.I || destruct X). Qed.
(** the answer of a filter elsewhere is taken up by the rest of the chain *)
Lemma answer_step s pre f post y : home s -> fs = pre ++ f :: post -> m_dest_handle y = h -> In (g, m_sequenceID y) (ff_ongoing s) -> m_counter y = Z.of_nat (length pre) ->
  (m_action y = CMD_NULL_MESSAGE \/ m_action y = CMD_FILTER_RESULT) ->
  exists s' o, fstep s (F_return y) = Some (s', o) /\
    match (if m_action y =? CMD_NULL_MESSAGE then None else through (map (realOf self real) post) (messageOf y)) with
    | None => (forall z, ~ In (O_main z) o) \/ exists z, (forall z', In (O_main z') o <-> z' = z) /\ inFlight s' z None /\ (length post > 0)%nat /\ forall a b c, fs = a ++ b :: c -> m_counter z = Z.of_nat (length a) -> m_action z = CMD_SEND_FOR_FILTER_AND_RETURN -> (length c < length post)%nat
    | Some gm => exists z, (forall z', In (O_main z') o <-> z' = z) /\ inFlight s' z (Some gm) /\ forall a b c, fs = a ++ b :: c -> m_counter z = Z.of_nat (length a) -> m_action z = CMD_SEND_FOR_FILTER_AND_RETURN -> (length c < length post)%nat
    end.
Proof.
  intros ((w & I) & O & ID & CH) FS DH IN CT AC. cbn [fstep]. unfold filterReturn. rewrite DH, O. rewrite (proj2 (mem_iff _ _) IN).
  assert (HOME : forall s1, (exists w' : list (Z * Z), inv s1 w') -> sameFrame s s1 -> home s1).
  { intros s1 [w' I'] (F1 & F2 & F3 & F4). split; [exists (map (fun x => (x, 0)) w'); rewrite map_map, map_id; exact I'|]. rewrite F2, F1, F4. auto. }
  destruct (Z.eqb_spec (m_action y) CMD_NULL_MESSAGE) as [NUL|NUL].
  - pose proof (accept_inv s (map fst w) g (m_sequenceID y) I IN) as M. destruct (acceptProcessReturn s g (m_sequenceID y)) as [s2 o2]. destruct M as (_ & _ & _ & _ & M5 & _). exists s2, o2. split; [reflexivity|]. left. intros z. apply notMain_in, M5.
  - rewrite CT, Nat2Z.id, CH, ID. assert (SK : skipn (S (length pre)) fs = post) by (rewrite FS; replace (S (length pre)) with (length (pre ++ [f])) by (rewrite app_length; cbn; lia); replace (pre ++ f :: post) with ((pre ++ [f]) ++ post) by (rewrite <- app_assoc; reflexivity); rewrite skipn_app, skipn_all, Nat.sub_diag; reflexivity).
    rewrite SK. assert (GD : Forall (good self real) post) by (pose proof fs_good as G; rewrite FS in G; apply Forall_app in G; destruct G as [_ G]; inversion G; assumption).
    assert (SZ : length fs = (S (length pre) + length post)%nat) by (rewrite FS, app_length; cbn; lia).
    destruct (returnLoop self (length fs) (S (length pre)) post (set_m_action CMD_SEND_MESSAGE y)) as [[[m1 b1] o1]|] eqn:L; [|exfalso; exact (returnLoop_some self real _ _ _ _ GD L)].
    pose proof (returnLoop_leg self real _ _ _ _ _ _ _ SZ GD (eq_refl : m_action (set_m_action CMD_SEND_MESSAGE y) = CMD_SEND_MESSAGE) L) as LEG.
    destruct (returnLoop_spec _ _ _ _ _ _ _ _ (eq_refl : m_action (set_m_action CMD_SEND_MESSAGE y) = CMD_SEND_MESSAGE) L) as [C _]. apply copies_notMain in C.
    unfold leg in LEG. change (messageOf (set_m_action CMD_SEND_MESSAGE y)) with (messageOf y) in LEG.
    (* when nothing must come back again *)
    assert (DONE : b1 = false -> exists s' o3, acceptProcessReturn s g (m_sequenceID y) = (s', o3) /\ Forall notMain o3 /\ home s').
    { intros _. pose proof (accept_inv s (map fst w) g (m_sequenceID y) I IN) as M. destruct (acceptProcessReturn s g (m_sequenceID y)) as [s2 o2]. destruct M as (M1 & M2 & _ & _ & M5 & _). exists s2, o2. split; [reflexivity|split; [exact M5|apply HOME; [eexists; exact M1|exact M2]]]. }
    destruct LEG as [(A1 & -> & T)|[(A1 & -> & T)|(pre2 & f2 & post2 & E2 & N2 & NC2 & T & D1 & D2 & _ & W & _)]].
    + destruct (DONE eq_refl) as (s' & o3 & AE & NM & HM). rewrite AE. eexists s', _. split; [reflexivity|]. rewrite T. exists m1. split; [|split; [split; [exact HM|left; auto]|]].
      * intros z'. rewrite A1. change (CMD_SEND_MESSAGE =? CMD_IGNORE) with false. cbn [app]. rewrite !in_app_iff. cbn [In]. split; [intros [X|[X|[X|[]]]]; [destruct (notMain_in _ _ C X)|destruct (notMain_in _ _ NM X)|congruence]|intros ->; auto].
      * intros a b c _ _ X. rewrite A1 in X. discriminate.
    + destruct (DONE eq_refl) as (s' & o3 & AE & NM & HM). rewrite AE. eexists s', _. split; [reflexivity|]. rewrite T. left. intros z. rewrite A1. change (CMD_IGNORE =? CMD_IGNORE) with true. cbn [app]. rewrite !in_app_iff. cbn [In]. intros [X|[X|[]]]; [destruct (notMain_in _ _ C X)|destruct (notMain_in _ _ NM X)].
    + assert (FS2 : fs = (pre ++ f :: pre2) ++ f2 :: post2) by (rewrite FS, E2, <- app_assoc; reflexivity).
      destruct W as [(-> & P2 & A1 & C1)|(-> & -> & A1)].
      * set (m2 := withSource (set_m_sequenceID (ff_counter s) m1) g h). pose proof (marker_inv s (map fst w) g (m_actionTime m2) I) as M. destruct (generateProcessMarker _ _ _ _) as [s2 o2]. destruct M as (M1 & M2 & _ & _ & _ & Q).
        assert (IN2 : In (g, m_sequenceID y) (ff_ongoing s2)) by (apply (i_on _ _ M1), in_app_iff; left; apply (i_on _ _ I); exact IN).
        pose proof (accept_inv s2 _ g (m_sequenceID y) M1 IN2) as B. destruct (acceptProcessReturn s2 g (m_sequenceID y)) as [s3 o3]. destruct B as (B1 & B2 & _ & _ & B5 & _).
        eexists s3, _. split; [reflexivity|]. assert (A2 : m_action m2 = CMD_SEND_FOR_FILTER_AND_RETURN) by exact A1. assert (S2 : m_sequenceID m2 = ff_counter s) by reflexivity.
        assert (HM : home s3) by (apply HOME; [eexists; exact B1|eapply sameFrame_trans; eassumption]).
        assert (UNI : forall z', In (O_main z') (o1 ++ o2 ++ o3 ++ (if m_action m2 =? CMD_IGNORE then [] else [O_main m2])) <-> z' = m2).
        { intros z'. rewrite A2. change (CMD_SEND_FOR_FILTER_AND_RETURN =? CMD_IGNORE) with false. rewrite !in_app_iff. cbn [In]. split; [intros [X|[X|[X|[X|[]]]]]; [destruct (notMain_in _ _ C X)|destruct (notMain_in _ _ (quiet_notMain _ Q) X)|destruct (notMain_in _ _ B5 X)|congruence]|intros ->; auto 6]. }
        assert (CT2 : m_counter m2 = Z.of_nat (length (pre ++ f :: pre2))).
        { change (m_counter m2) with (m_counter m1). rewrite C1, app_length. cbn [length]. rewrite Z.mod_small; [f_equal; lia|]. destruct SO as [SL _ _ _ _]. split; [lia|]. rewrite FS2, app_length in SL. rewrite app_length in SL. cbn [length] in SL. lia. }
        assert (FL : inFlight s3 m2 (through (map (realOf self real) (f2 :: post2)) (messageOf m1))).
        { split; [exact HM|]. right; right; right. exists (pre ++ f :: pre2), f2, post2. split; [exact FS2|split; [exact N2|split; [exact NC2|split; [exact A2|split; [exact D1|split; [exact D2|split; [exact CT2|split; [reflexivity|split; [reflexivity|split; [|reflexivity]]]]]]]]]].
          apply (i_on _ _ B1), filter_In. split; [apply in_app_iff; right; left; rewrite S2; reflexivity|]. apply negb_true_iff. destruct (pairEqb _ _) eqn:P; [|reflexivity]. apply pairEqb_eq in P. injection P as P. pose proof (i_lt _ _ I _ IN) as LT. cbn in LT. exfalso. assert (X : m_sequenceID y = ff_counter s) by exact P. rewrite X in LT. exact (Z.lt_irrefl _ LT). }
        assert (TH : through (map (realOf self real) post) (messageOf y) = through (map (realOf self real) (f2 :: post2)) (messageOf m1)) by (rewrite E2, map_app, through_app, T; reflexivity).
        assert (LEN : forall a b c, fs = a ++ b :: c -> m_counter m2 = Z.of_nat (length a) -> m_action m2 = CMD_SEND_FOR_FILTER_AND_RETURN -> (length c < length post)%nat).
        { intros a b c FA CA _. rewrite CT2 in CA. apply Nat2Z.inj in CA. assert (LL : length fs = length fs) by reflexivity. rewrite FS2 in LL at 1. rewrite FA in LL. rewrite !app_length in LL. cbn [length] in LL. rewrite app_length in CA. cbn [length] in CA. rewrite E2, app_length. cbn [length]. lia. }
        rewrite TH. destruct (through (map (realOf self real) (f2 :: post2)) (messageOf m1)) as [gm|]; [exists m2; auto|]. right. exists m2. split; [exact UNI|split; [exact FL|split; [|exact LEN]]]. rewrite E2, app_length. cbn. lia.
      * destruct (DONE eq_refl) as (s' & o3 & AE & NM & HM). rewrite AE. eexists s', _. split; [reflexivity|].
        assert (UNI : forall z', In (O_main z') (o1 ++ [] ++ o3 ++ (if m_action m1 =? CMD_IGNORE then [] else [O_main m1])) <-> z' = m1).
        { intros z'. rewrite A1. change (CMD_SEND_FOR_FILTER =? CMD_IGNORE) with false. cbn [app]. rewrite !in_app_iff. cbn [In]. split; [intros [X|[X|[X|[]]]]; [destruct (notMain_in _ _ C X)|destruct (notMain_in _ _ NM X)|congruence]|intros ->; auto]. }
        assert (TH : through (map (realOf self real) post) (messageOf y) = effect (realOf self real f2) (messageOf m1)) by (rewrite E2, map_app, through_app, T; cbn; destruct (effect _ _); reflexivity).
        assert (FL : inFlight s' m1 (effect (realOf self real f2) (messageOf m1))) by (split; [exact HM|]; right; right; left; exists (pre ++ f :: pre2), f2; auto 10).
        assert (LEN : forall a b c, fs = a ++ b :: c -> m_counter m1 = Z.of_nat (length a) -> m_action m1 = CMD_SEND_FOR_FILTER_AND_RETURN -> (length c < length post)%nat) by (intros a b c _ _ X; rewrite A1 in X; discriminate).
        rewrite TH. destruct (effect (realOf self real f2) (messageOf m1)) as [gm|]; [exists m1; auto|]. right. exists m1. split; [exact UNI|split; [exact FL|split; [|exact LEN]]]. rewrite E2, app_length. cbn. lia.
Qed.
Lemma real_filter f : fi_core f <> self -> real (fi_core f) (fi_handle f) = realOf self real f.
Proof. intros N. unfold realOf. destruct (Z.eqb_spec (fi_core f) self); [contradiction|reflexivity]. Qed.
Lemma real_cloning f : In f fs -> fi_core f <> self -> fi_cloning (realOf self real f) = fi_cloning f.
Proof. intros H N. rewrite <- real_filter by exact N. destruct SO as [_ _ _ R _]. rewrite Forall_forall in R. apply R; assumption. Qed.
Lemma journey_outcome s x r : journey real h s x r -> forall target, inFlight s x target -> r = target.
Proof.
  induction 1 as [s x A|s x A|s x y r A Y J IH|s x A Y|s x y es s1 t s2 o z r A Y R U OW ST Z0 J IH|s x y es s1 t s2 o A Y R U OW ST Z0]; intros target [HM [[A' T]|[[A' T]|[(pre & f & FS & N & NC & A' & D1 & D2 & T)|(pre & f & post & FS & N & NC & A' & D1 & D2 & CT & S1' & S2' & IN & T)]]]]; rewrite A' in A; try discriminate A; try (subst target; reflexivity).
  - assert (INF : In f fs) by (rewrite FS; apply in_app_iff; right; left; reflexivity).
    pose proof (filterHere_last (realOf self real f) x A' ltac:(rewrite real_cloning; assumption)) as F. rewrite D1, D2, real_filter in Y by exact N. rewrite D1 in F. subst target. destruct (effect _ _) as [gm|]; [|destruct (F _ Y)].
    destruct F as (y' & F & AY & MY). apply F in Y. subst y'. apply IH. split; [exact HM|left]. split; [exact AY|congruence].
  - assert (INF : In f fs) by (rewrite FS; apply in_app_iff; right; left; reflexivity).
    pose proof (filterHere_last (realOf self real f) x A' ltac:(rewrite real_cloning; assumption)) as F. rewrite D1, D2, real_filter in Y by exact N. rewrite D1 in F. subst target. destruct (effect _ _) as [gm|]; [|reflexivity].
    destruct F as (y' & F & _). exfalso. apply (Y y'), F. reflexivity.
  - assert (INF : In f fs) by (rewrite FS; apply in_app_iff; right; left; reflexivity).
    destruct (filterHere_back (realOf self real f) x A' ltac:(rewrite real_cloning; assumption)) as (y' & F & Y1 & Y2 & Y3 & Y4 & EF). rewrite D1 in F. rewrite D1, D2, real_filter in Y by exact N. apply F in Y. subst y'.
    destruct (frun_home _ _ _ _ _ R U HM IN) as (HM1 & IN1 & _).
    destruct (answer_step s1 pre f post y HM1 FS ltac:(congruence) ltac:(rewrite Y3; exact IN1) ltac:(congruence) ltac:(destruct (effect _ _); [right; apply EF|left; exact EF])) as (s2' & o' & ST' & ANS).
    rewrite ST' in ST. injection ST as -> ->. cbn [map through] in T. destruct (effect (realOf self real f) (messageOf x)) as [gm|].
    + destruct EF as [AY MY]. rewrite AY, MY in ANS. change (CMD_FILTER_RESULT =? CMD_NULL_MESSAGE) with false in ANS. destruct (through (map (realOf self real) post) gm) as [gf|].
      * destruct ANS as (z' & UNI & FL & _). apply UNI in Z0. subst z'. subst target. apply IH, FL.
      * destruct ANS as [NO|(z' & UNI & FL & _)]; [destruct (NO _ Z0)|]. apply UNI in Z0. subst z'. subst target. apply IH, FL.
    + rewrite EF in ANS. change (CMD_NULL_MESSAGE =? CMD_NULL_MESSAGE) with true in ANS. subst target. destruct ANS as [NO|(z' & UNI & FL & _)]; [destruct (NO _ Z0)|]. apply UNI in Z0. subst z'. apply IH, FL.
  - assert (INF : In f fs) by (rewrite FS; apply in_app_iff; right; left; reflexivity).
    destruct (filterHere_back (realOf self real f) x A' ltac:(rewrite real_cloning; assumption)) as (y' & F & Y1 & Y2 & Y3 & Y4 & EF). rewrite D1 in F. rewrite D1, D2, real_filter in Y by exact N. apply F in Y. subst y'.
    destruct (frun_home _ _ _ _ _ R U HM IN) as (HM1 & IN1 & _).
    destruct (answer_step s1 pre f post y HM1 FS ltac:(congruence) ltac:(rewrite Y3; exact IN1) ltac:(congruence) ltac:(destruct (effect _ _); [right; apply EF|left; exact EF])) as (s2' & o' & ST' & ANS).
    rewrite ST' in ST. injection ST as -> ->. cbn [map through] in T. destruct (effect (realOf self real f) (messageOf x)) as [gm|]; [|congruence].
    destruct EF as [AY MY]. rewrite AY, MY in ANS. change (CMD_FILTER_RESULT =? CMD_NULL_MESSAGE) with false in ANS. destruct (through (map (realOf self real) post) gm) as [gf|]; [|congruence].
    destruct ANS as (z' & UNI & _). exfalso. apply (Z0 z'), UNI. reflexivity.
Qed.
Lemma send_step s m : home s -> m_source_id m = g -> m_source_handle m = h ->
  exists s1 o x, fstep s (F_send h m) = Some (s1, o) /\ (forall z, In (O_main z) o <-> z = x) /\ inFlight s1 x (through (map (realOf self real) fs) (messageOf m)).
Proof.
  intros ((w & I) & O & ID & CH) MG MH. cbn [fstep]. set (m0 := set_m_action CMD_SEND_MESSAGE m). unfold sendMessage. rewrite O, CH, ID.
  assert (HOME : forall s1, (exists w' : list (Z * Z), inv s1 w') -> sameFrame s s1 -> home s1).
  { intros s1 [w' I'] (F1 & F2 & F3 & F4). split; [exists (map (fun x => (x, 0)) w'); rewrite map_map, map_id; exact I'|]. rewrite F2, F1, F4. auto. }
  destruct (processLoop self (length fs) 0 fs m0) as [[[m1 b1] o1]|] eqn:L; [|exfalso; exact (processLoop_some self real _ _ _ _ fs_good L)].
  pose proof (processLoop_leg self real (length fs) fs 0 m0 m1 b1 o1 eq_refl fs_good eq_refl L) as LEG. destruct (processLoop_spec self (length fs) fs 0 m0 m1 b1 o1 eq_refl L) as [C _]. apply copies_notMain in C.
  unfold leg in LEG. change (messageOf m0) with (messageOf m) in LEG. change (m_source_id m0) with (m_source_id m) in LEG. change (m_source_handle m0) with (m_source_handle m) in LEG.
  assert (HM : home s) by (split; [exists w; exact I|auto]).
  assert (UNI : forall z, In (O_main z) (o1 ++ [O_main m1]) <-> z = m1) by (intros z; rewrite in_app_iff; cbn; split; [intros [X|[X|[]]]; [destruct (notMain_in _ _ C X)|congruence]|intros ->; auto]).
  destruct LEG as [(A1 & -> & T)|[(A1 & -> & T)|(pre & f & post & FS & N & NC & T & D1 & D2 & LO & W & SRC)]].
  - exists s, (o1 ++ [O_main m1]), m1. split; [reflexivity|split; [exact UNI|]]. split; [exact HM|left; auto].
  - exists s, (o1 ++ [O_main m1]), m1. split; [reflexivity|split; [exact UNI|]]. split; [exact HM|right; left; auto].
  - destruct W as [(-> & P2 & A1 & C1)|(-> & -> & A1)].
    + set (m2 := set_m_sequenceID (ff_counter s) m1). pose proof (marker_inv s (map fst w) g (m_actionTime m2) I) as M. destruct (generateProcessMarker _ _ _ _) as [s2 o2]. destruct M as (M1 & M2 & _ & _ & _ & Q).
      exists s2, (o1 ++ o2 ++ [O_main m2]), m2. split; [reflexivity|]. split; [intros z; rewrite !in_app_iff; cbn [In]; split; [intros [X|[X|[X|[]]]]; [destruct (notMain_in _ _ C X)|destruct (notMain_in _ _ (quiet_notMain _ Q) X)|congruence]|intros ->; auto]|].
      split; [apply HOME; [eexists; exact M1|exact M2]|]. right; right; right. exists pre, f, post.
      assert (SRC2 : m_source_id m1 = g /\ m_source_handle m1 = h).
      { destruct (so_first _ _ _ SO pre f post FS N NC P2) as [F|(a & INA & NA & CA)]; [destruct (SRC F); split; congruence|]. rewrite Forall_forall in LO. destruct (LO a INA) as [X|X]; [contradiction|congruence]. }
      split; [exact FS|split; [exact N|split; [exact NC|split; [exact A1|split; [exact D1|split; [exact D2|split]]]]]].
      * change (m_counter m2) with (m_counter m1). rewrite C1. cbn [Nat.add]. rewrite Z.mod_small; [reflexivity|]. pose proof (so_len _ _ _ SO) as SL. rewrite FS, app_length in SL. cbn [length] in SL. lia.
      * split; [apply SRC2|split; [apply SRC2|split]]; [apply (i_on _ _ M1), in_app_iff; right; left; reflexivity|]. change (messageOf m2) with (messageOf m1). rewrite FS, map_app, through_app, T. reflexivity.
    + exists s, (o1 ++ [O_main m1]), m1. split; [reflexivity|split; [exact UNI|]]. split; [exact HM|]. right; right; left. exists pre, f. split; [exact FS|]. repeat (split; [assumption|]). rewrite FS, map_app, through_app, T. cbn. destruct (effect _ _); reflexivity.
Qed.
(** every journey has an end *)
Lemma journey_exists n : forall s x target, inFlight s x target -> (forall a b c, fs = a ++ b :: c -> m_counter x = Z.of_nat (length a) -> m_action x = CMD_SEND_FOR_FILTER_AND_RETURN -> (length c < n)%nat) -> exists r, journey real h s x r.
Proof.
  induction n as [n IH] using lt_wf_ind. intros s x target FL LEN. pose proof FL as [HM [[A' T]|[[A' T]|[(pre & f & FS & N & NC & A' & D1 & D2 & T)|(pre & f & post & FS & N & NC & A' & D1 & D2 & CT & S1' & S2' & IN & T)]]]].
  - exists (Some (messageOf x)). apply J_arrives, A'.
  - exists None. apply J_dropped, A'.
  - assert (INF : In f fs) by (rewrite FS; apply in_app_iff; right; left; reflexivity).
    pose proof (filterHere_last (realOf self real f) x A' ltac:(rewrite real_cloning; assumption)) as F. destruct (effect _ _) as [gm|].
    + destruct F as (y & F & AY & MY). exists (Some (messageOf y)). apply (J_last _ _ _ _ y); [exact A'| |apply J_arrives, AY]. rewrite D2, D1, real_filter by exact N. rewrite <- D1. apply F. reflexivity.
    + exists None. apply J_last_drops; [exact A'|]. rewrite D2, D1, real_filter by exact N. rewrite <- D1. exact F.
  - assert (INF : In f fs) by (rewrite FS; apply in_app_iff; right; left; reflexivity). specialize (LEN pre f post FS CT A').
    destruct (filterHere_back (realOf self real f) x A' ltac:(rewrite real_cloning; assumption)) as (y & F & Y1 & Y2 & Y3 & Y4 & EF).
    assert (Y : In (O_main y) (filterHere (m_dest_id x) (real (m_dest_id x) (m_dest_handle x)) x)) by (rewrite D2, D1, real_filter by exact N; rewrite <- D1; apply F; reflexivity).
    destruct (answer_step s pre f post y HM FS ltac:(congruence) ltac:(rewrite Y3; exact IN) ltac:(congruence) ltac:(destruct (effect _ _); [right; apply EF|left; exact EF])) as (s2 & o & ST & ANS).
    assert (OW : ff_owner s (m_dest_handle y) = Some (m_dest_id y)) by (destruct HM as (_ & O & _); rewrite Y2, S2', O, Y1, S1'; reflexivity).
    assert (NEXT : forall z tg, In (O_main z) o -> inFlight s2 z tg -> (forall a b c, fs = a ++ b :: c -> m_counter z = Z.of_nat (length a) -> m_action z = CMD_SEND_FOR_FILTER_AND_RETURN -> (length c < length post)%nat) -> exists r, journey real h s x r).
    { intros z tg Z0 FZ LZ. destruct (IH (length post) LEN s2 z tg FZ LZ) as [r J]. exists r. apply (J_back _ _ s x y [] s [] s2 o z r); auto. }
    destruct (if m_action y =? CMD_NULL_MESSAGE then None else _) as [gm|].
    + destruct ANS as (z & UNI & FZ & LZ). apply (NEXT z (Some gm)); auto. apply UNI. reflexivity.
    + destruct ANS as [NO|(z & UNI & FZ & _ & LZ)]; [exists None; apply (J_back_drops _ _ s x y [] s [] s2 o); auto|]. apply (NEXT z None); auto. apply UNI. reflexivity.
Qed.
End Journey.
Lemma frun_id : forall es s s' t, frun s es = Some (s', t) -> ff_id s' = ff_id s.
Proof.
  induction es as [|e es IH]; intros s s' t E; cbn [frun] in E; [injection E as <- <-; reflexivity|].
  destruct (fstep s e) as [[s1 o1]|] eqn:S1; [|discriminate]. destruct (frun s1 es) as [[s2 t2]|] eqn:R; [|discriminate]. injection E as <- <-. rewrite (IH _ _ _ R).
  apply (fstep_keeps s e s1 o1 (match e with F_chain h _ => h + 1 | _ => 0 end) S1). intros c H. destruct e as [| | | | |h0 c0]; try discriminate H. injection H as H _. lia.
Qed.

(** ** C43 *)
Theorem C43_filters_applied_once_in_order real id owner key es0 s t0 h g m s1 o x r :
  frun (ff_init id owner key) es0 = Some (s, t0) -> owner h = Some g -> sound id real (ch_source (ff_chains s h)) -> m_source_id m = g -> m_source_handle m = h ->
  fstep s (F_send h m) = Some (s1, o) -> In (O_main x) o -> journey real h s1 x r ->
  r = through (map (realOf id real) (ch_source (ff_chains s h))) (messageOf m).
Proof.
  intros R OW SO MG MH ST X J. destruct (frun_inv owner _ _ _ _ [] (init_inv36 id owner key) eq_refl R) as (I & O & _). pose proof (frun_id _ _ _ _ R) as ID. cbn in ID.
  assert (HM : home id h g (ch_source (ff_chains s h)) s) by (split; [eexists; exact I|]; rewrite O; auto).
  destruct (send_step real id h g _ SO s m HM MG MH) as (s1' & o' & x' & ST' & UNI & FL). rewrite ST in ST'. injection ST' as <- <-. apply UNI in X. subst x'. exact (journey_outcome real id h g _ SO _ _ _ J _ FL).
Qed.
Theorem C43_every_message_reaches_its_end real id owner key es0 s t0 h g m :
  frun (ff_init id owner key) es0 = Some (s, t0) -> owner h = Some g -> sound id real (ch_source (ff_chains s h)) -> m_source_id m = g -> m_source_handle m = h ->
  exists s1 o x r, fstep s (F_send h m) = Some (s1, o) /\ In (O_main x) o /\ journey real h s1 x r.
Proof.
  intros R OW SO MG MH. destruct (frun_inv owner _ _ _ _ [] (init_inv36 id owner key) eq_refl R) as (I & O & _). pose proof (frun_id _ _ _ _ R) as ID. cbn in ID.
  assert (HM : home id h g (ch_source (ff_chains s h)) s) by (split; [eexists; exact I|]; rewrite O; auto).
  destruct (send_step real id h g _ SO s m HM MG MH) as (s1 & o & x & ST & UNI & FL).
  destruct (journey_exists real id h g _ SO (S (length (ch_source (ff_chains s h)))) s1 x _ FL) as [r J]; [|exists s1, o, x, r; split; [exact ST|split; [apply UNI; reflexivity|exact J]]].
  intros a b c E _ _. rewrite E, app_length. cbn. lia.
Qed.

(** ** Concrete chains *)
Definition exOwner43 (h : Z) : option Z := if h =? 1 then Some 7 else if h =? 2 then Some 8 else None.
Definition exHome : ff := ff_init 100 exOwner43 (fun _ => []).
Definition later (d : Z) : operator := plainOp (fun g => Some (withTime (g_time g + d) g)).
Definition twice : operator := plainOp (fun g => Some (withTime (2 * g_time g) g)).
(** at other cores: a filter adds its handle to the time *)
Definition exReal (c h : Z) : filt := mkFilt c h false false (Some (later h)).
Definition far (h : Z) : filt := mkFilt 200 h false false None.
Definition near : filt := mkFilt 100 3 false false (Some twice).
Definition exOut : amsg := set_m_source_id 7 (set_m_source_handle 1 (set_m_strings [[1]; [2]; [2]; [1]] (set_m_actionTime 10 (fresh CMD_SEND_MESSAGE)))).
Definition exChain : list filt := [far 5; near; far 6].
Example C43_not_vacuous : sound 100 exReal exChain /\ frun exHome [F_chain 1 (mkChain exChain None [])] <> None /\
  option_map g_time (through (map (realOf 100 exReal) exChain) (messageOf exOut)) = Some 36.
Proof.
  split; [|split; [vm_compute; discriminate|reflexivity]]. constructor; [vm_compute; discriminate|repeat constructor|repeat constructor; cbn; discriminate|repeat constructor|].
  intros pre f post E N C P. destruct pre as [|a [|b [|c pre]]]; cbn in E.
  - left. constructor.
  - injection E as <- <- <-. cbn in N. destruct N. reflexivity.
  - injection E as <- <- <- <-. destruct P. reflexivity.
  - injection E as <- <- <- E. destruct pre; discriminate.
Qed.
(** a journey computed, with nothing else happening meanwhile *)
Fixpoint mains (os : list out) : list amsg := match os with [] => [] | O_main m :: r => m :: mains r | _ :: r => mains r end.
Lemma mains_in os x : In x (mains os) -> In (O_main x) os.
Proof. induction os as [|o os IH]; [intros []|]. destruct o; cbn; try (intros H; right; apply IH; exact H). intros [->|H]; [left; reflexivity|right; apply IH; exact H]. Qed.
Fixpoint walk (n : nat) (real : Z -> Z -> filt) (s : ff) (x : amsg) : option message :=
  match n with
  | O => None
  | S n =>
      if m_action x =? CMD_SEND_MESSAGE then Some (messageOf x)
      else match mains (filterHere (m_dest_id x) (real (m_dest_id x) (m_dest_handle x)) x) with
           | y :: _ =>
               if m_action x =? CMD_SEND_FOR_FILTER then walk n real s y
               else if m_action x =? CMD_SEND_FOR_FILTER_AND_RETURN then
                 match ff_owner s (m_dest_handle y) with
                 | Some g => if g =? m_dest_id y then match fstep s (F_return y) with Some (s2, o) => match mains o with z :: _ => walk n real s2 z | [] => None end | None => None end else None
                 | None => None end
               else None
           | [] => None end
  end.
Lemma walk_journey real h n : forall s x g, walk n real s x = Some g -> journey real h s x (Some g).
Proof.
  induction n as [|n IH]; intros s x g E; [discriminate|]. cbn [walk] in E. destruct (Z.eqb_spec (m_action x) CMD_SEND_MESSAGE) as [A|_]; [injection E as <-; apply J_arrives, A|].
  destruct (mains (filterHere _ _ _)) as [|y ys] eqn:M; [discriminate|]. assert (Y : In (O_main y) (filterHere (m_dest_id x) (real (m_dest_id x) (m_dest_handle x)) x)) by (apply mains_in; rewrite M; left; reflexivity).
  destruct (Z.eqb_spec (m_action x) CMD_SEND_FOR_FILTER) as [A|_]; [exact (J_last _ _ _ _ _ _ A Y (IH _ _ _ E))|].
  destruct (Z.eqb_spec (m_action x) CMD_SEND_FOR_FILTER_AND_RETURN) as [A|_]; [|discriminate]. destruct (ff_owner s (m_dest_handle y)) as [g'|] eqn:OW; [|discriminate]. destruct (Z.eqb_spec g' (m_dest_id y)) as [->|]; [|discriminate].
  destruct (fstep s (F_return y)) as [[s2 o]|] eqn:ST; [|discriminate]. destruct (mains o) as [|z zs] eqn:MO; [discriminate|]. assert (Z0 : In (O_main z) o) by (apply mains_in; rewrite MO; left; reflexivity).
  apply (J_back real h s x y [] s [] s2 o z (Some g)); auto.
Qed.
Definition exState (fs : list filt) : ff := setChain exHome 1 (mkChain fs None []).
Definition exSent (fs : list filt) : ff * list out := match fstep (exState fs) (F_send 1 exOut) with Some r => r | None => (exHome, []) end.
Definition exFirst (fs : list filt) : amsg := nth 0 (mains (snd (exSent fs))) exOut.
Example C43_end_is_reached : exists g, journey exReal 1 (fst (exSent exChain)) (exFirst exChain) (Some g) /\ g_time g = 36.
Proof.
  destruct (walk 9 exReal (fst (exSent exChain)) (exFirst exChain)) as [g|] eqn:W; [|vm_compute in W; discriminate]. exists g. split; [apply (walk_journey _ _ 9), W|].
  assert (option_map g_time (walk 9 exReal (fst (exSent exChain)) (exFirst exChain)) = Some 36) as E by (vm_compute; reflexivity). rewrite W in E. injection E as E. exact E.
Qed.
(** a closed filter in front of filters elsewhere makes the next one act twice: 10 + 5 + 5 + 6 instead of 10 + 5 + 6 *)
Definition exClosed : list filt := [mkFilt 200 4 false true None; far 5; far 6].
Theorem C43_closed_filter_refuted : exists s t s1 o x g, frun exHome [F_chain 1 (mkChain exClosed None [])] = Some (s, t) /\ fstep s (F_send 1 exOut) = Some (s1, o) /\ In (O_main x) o /\ journey exReal 1 s1 x (Some g) /\
  g_time g = 26 /\ option_map g_time (through (map (realOf 100 exReal) [far 5; far 6]) (messageOf exOut)) = Some 21.
Proof.
  destruct (walk 9 exReal (fst (exSent exClosed)) (exFirst exClosed)) as [g|] eqn:W; [|vm_compute in W; discriminate].
  exists (exState exClosed), [(F_chain 1 (mkChain exClosed None []), [])], (fst (exSent exClosed)), (snd (exSent exClosed)), (exFirst exClosed), g.
  split; [reflexivity|]. split; [unfold exSent; destruct (fstep (exState exClosed) (F_send 1 exOut)) as [[a b]|] eqn:F; [reflexivity|vm_compute in F; discriminate]|].
  split; [apply mains_in; vm_compute; left; reflexivity|]. split; [apply (walk_journey _ _ 9), W|]. split; [|reflexivity].
  assert (option_map g_time (walk 9 exReal (fst (exSent exClosed)) (exFirst exClosed)) = Some 26) as E by (vm_compute; reflexivity). rewrite W in E. injection E as E. exact E.
Qed.
(** after a local filter the message that must come back carries no sender any more: the answer is addressed to nobody, and the federate waits for ever *)
Definition exLost : list filt := [near; far 5; far 6].
Theorem C43_lost_answer_refuted : exists s t s1 o x, frun exHome [F_chain 1 (mkChain exLost None [])] = Some (s, t) /\ fstep s (F_send 1 exOut) = Some (s1, o) /\ In (O_main x) o /\
  waits exOwner43 (t ++ [(F_send 1 exOut, o)]) 7 /\ (forall y, In (O_main y) (filterHere (m_dest_id x) (exReal (m_dest_id x) (m_dest_handle x)) x) -> exOwner43 (m_dest_handle y) = None /\ m_dest_id y <> 7).
Proof.
  exists (exState exLost), [(F_chain 1 (mkChain exLost None []), [])], (fst (exSent exLost)), (snd (exSent exLost)), (exFirst exLost).
  split; [reflexivity|]. split; [unfold exSent; destruct (fstep (exState exLost) (F_send 1 exOut)) as [[a b]|] eqn:F; [reflexivity|vm_compute in F; discriminate]|].
  split; [apply mains_in; vm_compute; left; reflexivity|]. split; [exists 54, 20; vm_compute; left; reflexivity|].
  assert (B : forallb (fun k => match k with O_main y => match exOwner43 (m_dest_handle y) with None => negb (m_dest_id y =? 7) | Some _ => false end | _ => true end)
    (filterHere (m_dest_id (exFirst exLost)) (exReal (m_dest_id (exFirst exLost)) (m_dest_handle (exFirst exLost))) (exFirst exLost)) = true) by (vm_compute; reflexivity).
  intros y H. rewrite forallb_forall in B. specialize (B _ H). cbv beta iota in B. destruct (exOwner43 (m_dest_handle y)); [discriminate|]. split; [reflexivity|]. apply negb_true_iff, Z.eqb_neq in B. exact B.
Qed.
(** a filter of the sending core without an operator, or a destination filter of the receiving core that drops the message: the program dereferences a null pointer *)
Theorem C43_no_operator_crash_refuted : fstep (exState [mkFilt 100 3 false false None]) (F_send 1 exOut) = None.
Proof. reflexivity. Qed.
Theorem C43_dropping_destination_filter_crash_refuted : let f := mkFilt 100 3 false false (Some (plainOp (fun _ => None))) in
  forall m, fstep (setChain exHome 2 (mkChain [] (Some f) [])) (F_arrive 2 m) = None.
Proof. intros f m. reflexivity. Qed.
