(** * C26: identifiers never collide;  C30: flags are independent *)
From Coq Require Import ZArith Bool List Lia.
From Verif Require Import HTime Action Ids.
Import ListNotations.
Open Scope Z_scope.

(** ** C26 *)
Definition i32 (z : Z) : Prop := - 2 ^ 31 <= z < 2 ^ 31.
Lemma toI32_id z : i32 z -> toI32 z = z.
Proof. unfold i32, toI32. intros H. rewrite Z.mod_small; lia. Qed.
Lemma toU64_low z : Z.land (toU64 z) 0xFFFFFFFF = z mod 2 ^ 32.
Proof.
  change 0xFFFFFFFF with (Z.ones 32). rewrite Z.land_ones by lia. unfold toU64. rewrite <- Znumtheory.Zmod_div_mod; [reflexivity|lia|lia|]. exists (2 ^ 32). reflexivity.
Qed.
Lemma toU64_high z : toU64 (Z.shiftl (toU64 z) 32) = (z mod 2 ^ 32) * 2 ^ 32.
Proof.
  rewrite Z.shiftl_mul_pow2 by lia. unfold toU64. change (2 ^ 64) with (2 ^ 32 * 2 ^ 32). rewrite Z.mul_mod_distr_r by lia. f_equal.
  rewrite <- Znumtheory.Zmod_div_mod; [reflexivity|lia|lia|]. exists (2 ^ 32). reflexivity.
Qed.
Lemma i32_mod a b : i32 a -> i32 b -> a mod 2 ^ 32 = b mod 2 ^ 32 -> a = b.
Proof. unfold i32. intros A B E. Z.to_euclidean_division_equations. lia. Qed.
Lemma handleKey_val f h : handleKey f h = (f mod 2 ^ 32) * 2 ^ 32 + h mod 2 ^ 32.
Proof.
  unfold handleKey. rewrite toU64_low, toU64_high. unfold toU64. apply Z.mod_small. pose proof (Z.mod_pos_bound f (2 ^ 32) ltac:(lia)). pose proof (Z.mod_pos_bound h (2 ^ 32) ltac:(lia)). lia.
Qed.
(** The 64 bit key of an interface distinguishes any two interfaces, and is equal exactly when the handles compare equal. *)
Theorem C26_keys_distinguish_handles f h f' h' : i32 f -> i32 h -> i32 f' -> i32 h' -> (handleKey f h = handleKey f' h' <-> f = f' /\ h = h').
Proof.
  intros A B C D. split; [|intros [-> ->]; reflexivity]. rewrite !handleKey_val. intros E.
  pose proof (Z.mod_pos_bound h (2 ^ 32) ltac:(lia)). pose proof (Z.mod_pos_bound h' (2 ^ 32) ltac:(lia)).
  assert (f mod 2 ^ 32 = f' mod 2 ^ 32) by nia. split; apply i32_mod; try assumption; lia.
Qed.
Print Assumptions C26_keys_distinguish_handles.
Lemma handleEq_iff a b : handleEq a b = true <-> a = b.
Proof.
  unfold handleEq. rewrite andb_true_iff, !Z.eqb_eq. destruct a, b; cbn [fst snd]. split; [intros [-> ->]; reflexivity|intros E; injection E; auto].
Qed.
Lemma handleLt_iff a b : handleLt a b = true <-> fst a < fst b \/ fst a = fst b /\ snd a < snd b.
Proof.
  unfold handleLt. destruct (Z.ltb_spec (fst a) (fst b)); [split; [lia|reflexivity]|]. destruct (Z.eqb_spec (fst a) (fst b)); cbn [negb].
  - rewrite Z.ltb_lt. lia.
  - split; [discriminate|lia].
Qed.
Theorem C26_comparisons a b c :
  (handleEq a b = true <-> a = b) /\ handleLt a a = false /\ (handleLt a b = true -> handleLt b c = true -> handleLt a c = true) /\
  (a <> b -> handleLt a b = true \/ handleLt b a = true) /\ (handleLt a b = true -> handleLt b a = false).
Proof.
  split; [apply handleEq_iff|]. split; [apply not_true_is_false; rewrite handleLt_iff; lia|]. split; [rewrite !handleLt_iff; lia|]. split.
  - intros N. rewrite !handleLt_iff. destruct a as [a1 a2], b as [b1 b2]. cbn [fst snd]. assert (a1 <> b1 \/ a2 <> b2) by (destruct (Z.eq_dec a1 b1), (Z.eq_dec a2 b2); subst; auto). lia.
  - intros H. apply not_true_is_false. rewrite handleLt_iff in *. lia.
Qed.
Print Assumptions C26_comparisons.

(** everything that gets a global id *)
Inductive entity :=
| Root
| Broker (k : Z)                 (* a core or broker: slot in the root's table *)
| Federate (k prio : Z)          (* a federate: slot and requested priority *)
| Special (b : entity) (slot : Z)  (* the internal federates (filters, translators, time monitor) of the root or a broker *).
Definition limit : Z := 2 ^ 26.
Definition legal (e : entity) : Prop :=
  match e with
  | Root => True
  | Broker k => 0 <= k < limit
  | Federate k prio => 0 <= k < limit /\ 0 <= prio < 2 ^ 16
  | Special b slot => 0 <= slot < 3 /\ match b with Root => True | Broker k => 0 <= k < limit | _ => False end
  end.
Fixpoint idOf (e : entity) : Z :=
  match e with
  | Root => rootId
  | Broker k => newBrokerId k
  | Federate k prio => newFederateId k prio
  | Special b slot => getSpecialFederateId (idOf b) slot
  end.
Lemma broker_val k : 0 <= k < limit -> newBrokerId k = k + brokerShift.
Proof. unfold limit, newBrokerId, brokerShift. intros H. apply toI32_id. unfold i32. lia. Qed.
Lemma fed_val k p : 0 <= k < limit -> newFederateId k p = k + fedShift + (if (0 <? p) && (p <=? 16) then p * priorityBlock else 0).
Proof.
  unfold limit, newFederateId, fedShift, priorityBlock. intros H. destruct (Z.ltb_spec 0 p), (Z.leb_spec p 16); cbn [andb]; rewrite toI32_id; try reflexivity; unfold i32; lia.
Qed.
Lemma special_root s : 0 <= s < 3 -> getSpecialFederateId rootId s = brokerShift - s - 1.
Proof. intros H. unfold getSpecialFederateId. rewrite Z.eqb_refl. cbn [negb]. apply toI32_id. unfold i32, brokerShift. lia. Qed.
Lemma special_broker k s : 0 <= k < limit -> 0 <= s < 3 -> getSpecialFederateId (newBrokerId k) s = brokerShift - 3 * (k + 2) + s.
Proof.
  intros K H. unfold getSpecialFederateId. rewrite broker_val by exact K. assert (E : (k + brokerShift =? rootId) = false) by (apply Z.eqb_neq; unfold brokerShift, rootId; lia).
  rewrite E. cbn [negb]. rewrite toI32_id; [lia|]. unfold i32, brokerShift, limit in *. lia.
Qed.
(** Up to 2^26 brokers and cores and 2^26 federates, of any priorities, all these ids are different. *)
(** the priority groups: 1 to 16 ask for a group; anything else is the common group *)
Definition group (p : Z) : Z := if (0 <? p) && (p <=? 16) then p else 0.
Lemma group_range p : 0 <= group p <= 16.
Proof. unfold group. destruct (Z.ltb_spec 0 p), (Z.leb_spec p 16); cbn [andb]; lia. Qed.
Lemma fed_group k p : 0 <= k < limit -> newFederateId k p = k + fedShift + group p * priorityBlock.
Proof. intros H. rewrite fed_val by exact H. unfold group. destruct ((0 <? p) && (p <=? 16)); lia. Qed.
(** which part of the id space an entity uses: number, position *)
Definition place (e : entity) : Z * Z :=
  match e with
  | Root => (0, 0) | Broker k => (1, k) | Federate k p => (2, k + group p * priorityBlock)
  | Special Root s => (3, s) | Special (Broker k) s => (4, 3 * k + (2 - s)) | Special _ _ => (5, 0)
  end.
Lemma place_id e : legal e -> idOf e = match fst (place e) with 0 => 1 | 1 => brokerShift + snd (place e) | 2 => fedShift + snd (place e) | 3 => brokerShift - 1 - snd (place e) | _ => brokerShift - 4 - snd (place e) end /\ 0 <= snd (place e) /\ 0 <= fst (place e) <= 4 /\
  (fst (place e) = 0 -> snd (place e) = 0) /\ (fst (place e) = 1 -> snd (place e) < limit) /\ (fst (place e) = 2 -> snd (place e) < 1600000000 + limit) /\ (fst (place e) = 3 -> snd (place e) < 3) /\ (fst (place e) = 4 -> snd (place e) < 3 * limit + 3).
Proof.
  intros L. destruct e as [|k|k p|b s]; cbn [legal idOf place fst snd] in *.
  - repeat split; try reflexivity; lia.
  - rewrite broker_val by exact L. repeat split; lia.
  - destruct L as [L _]. rewrite fed_group by exact L. pose proof (group_range p). unfold priorityBlock in *. repeat split; lia.
  - destruct L as [S' L]. destruct b as [|k| |]; try contradiction; cbn [idOf fst snd].
    + rewrite special_root by exact S'. repeat split; lia.
    + rewrite special_broker by assumption. repeat split; lia.
Qed.
Theorem C26_ids_are_distinct e e' : legal e -> legal e' -> idOf e = idOf e' ->
  e = e' \/ exists k p p', e = Federate k p /\ e' = Federate k p'.
Proof.
  intros L L' E. assert (P : place e = place e').
  { destruct (place_id e L) as (I & B & F & R0 & R1 & R2 & R3 & R4), (place_id e' L') as (I' & B' & F' & R0' & R1' & R2' & R3' & R4'). rewrite I, I' in E. clear I I' L L'.
    destruct (place e) as [n x], (place e') as [n' x']. cbn [fst snd] in *. unfold brokerShift, fedShift, limit in *.
    assert (C : n = 0 \/ n = 1 \/ n = 2 \/ n = 3 \/ n = 4) by lia. assert (C' : n' = 0 \/ n' = 1 \/ n' = 2 \/ n' = 3 \/ n' = 4) by lia.
    destruct C as [->|[->|[->|[->| ->]]]], C' as [->|[->|[->|[->| ->]]]]; cbv beta iota in E; try (f_equal; lia); exfalso; lia. }
  (* only ids of the same kind are left *)
  destruct e as [|k|k p|b s], e' as [|k'|k' p'|b' s']; cbn [place legal] in *; try discriminate; try (left; congruence);
    try (destruct b as [|kb| |]; try discriminate; tauto); try (destruct b' as [|kb'| |]; try discriminate; tauto).
  - right. assert (E' : k + group p * priorityBlock = k' + group p' * priorityBlock) by congruence. destruct L as [L _], L' as [L' _]. unfold limit, priorityBlock in *.
    pose proof (group_range p). pose proof (group_range p'). assert (k = k') by lia. subst. exists k', p, p'. split; reflexivity.
  - left. destruct L as [S1 L], L' as [S2 L']. destruct b as [|kb| |], b' as [|kb'| |]; try discriminate; try contradiction; [congruence|].
    assert (E' : 3 * kb + (2 - s) = 3 * kb' + (2 - s')) by congruence. assert (kb = kb' /\ s = s') as [-> ->] by lia. reflexivity.
Qed.
Print Assumptions C26_ids_are_distinct.
(** No slot is used twice, so two federates differ: the remaining case of the theorem above is one federate. *)
Theorem C26_federates_are_distinct k p k' p' : legal (Federate k p) -> legal (Federate k' p') -> k <> k' -> newFederateId k p <> newFederateId k' p'.
Proof. intros L L' N E. destruct (C26_ids_are_distinct _ _ L L' E) as [H|(a & b & c & H1 & H2)]; congruence. Qed.
Print Assumptions C26_federates_are_distinct.
(** They are recognised for what they are, and are valid ids. *)
Lemma isFederate_iff g : isFederate g = true <-> fedShift <= g < brokerShift.
Proof. unfold isFederate. rewrite andb_true_iff, Z.leb_le, Z.ltb_lt. reflexivity. Qed.
Lemma isBroker_iff g : isBroker g = true <-> brokerShift <= g \/ g = 1.
Proof. unfold isBroker. rewrite orb_true_iff, Z.leb_le, Z.eqb_eq. reflexivity. Qed.
Theorem C26_ids_are_classified e : legal e ->
  isFederate (idOf e) = match e with Root | Broker _ => false | Federate _ _ | Special _ _ => true end /\
  isBroker (idOf e) = negb (isFederate (idOf e)) /\ isValid (idOf e) = true /\ 0 < idOf e < 2 ^ 31.
Proof.
  intros L. assert (R : match e with Root => idOf e = 1 | Broker _ => brokerShift <= idOf e < 2 ^ 31 | _ => fedShift <= idOf e < brokerShift end).
  { destruct (place_id e L) as (I & B & F & R0 & R1 & R2 & R3 & R4). destruct e as [|k|k p|b s]; [| | |destruct L as [_ L]; destruct b as [|k| |]; try contradiction];
      cbn [place fst snd] in *; rewrite I; unfold brokerShift, fedShift, limit in *; lia. }
  assert (V : 0 < idOf e < 2 ^ 31) by (unfold brokerShift, fedShift in R; destruct e; lia).
  assert (F : isFederate (idOf e) = match e with Root | Broker _ => false | Federate _ _ | Special _ _ => true end).
  { destruct e; first [apply isFederate_iff; exact R|apply not_true_is_false; rewrite isFederate_iff; unfold brokerShift, fedShift in *; lia]. }
  assert (G : isBroker (idOf e) = match e with Root | Broker _ => true | Federate _ _ | Special _ _ => false end).
  { destruct e; first [apply isBroker_iff; unfold brokerShift in *; lia|apply not_true_is_false; rewrite isBroker_iff; unfold brokerShift, fedShift in *; lia]. }
  split; [exact F|]. split; [rewrite F, G; destruct e; reflexivity|]. split; [|exact V].
  unfold isValid. rewrite andb_true_iff, !negb_true_iff, !Z.eqb_neq. unfold invalidId, invalidHandle. lia.
Qed.
Print Assumptions C26_ids_are_classified.
(** Without the limit there are collisions: a federate of the highest priority has the id of an internal federate of broker
    92972372, and federate 100000000 that of the first federate of the next priority. *)
Theorem C26_limits_are_needed_refuted :
  idOf (Federate 0 16) = idOf (Special (Broker 92972372) 2) /\ idOf (Federate 100000000 1) = idOf (Federate 0 2).
Proof. split; vm_compute; reflexivity. Qed.
Print Assumptions C26_limits_are_needed_refuted.
(** Routes: the type and the index of a route are recovered from its id. *)
Theorem C26_routes code index code' index' : 0 <= code < 128 -> 0 <= index < 2 ^ 24 -> 0 <= code' < 128 -> 0 <= index' < 2 ^ 24 ->
  getRouteTypeCode (generateRouteId code index) = code /\ (generateRouteId code index = generateRouteId code' index' -> code = code' /\ index = index') /\
  generateRouteId code index <> invalidRoute.
Proof.
  intros A B C D. assert (V : forall c i, 0 <= c < 128 -> 0 <= i < 2 ^ 24 -> generateRouteId c i = c * 2 ^ 24 + i).
  { intros c i H H'. unfold generateRouteId. rewrite toI32_id; [lia|]. unfold i32. lia. }
  rewrite !V by assumption. split; [|split].
  - unfold getRouteTypeCode. rewrite Z.shiftr_div_pow2 by lia. rewrite Z.add_comm, Z.div_add by lia. rewrite Z.div_small by lia. lia.
  - intros E. lia.
  - unfold invalidRoute. lia.
Qed.
Print Assumptions C26_routes.
Example C26_concrete : legal (Federate 7 3) /\ legal (Special (Broker 2) 1) /\ idOf (Federate 7 3) = 300131079 /\ idOf (Special (Broker 2) 1) = 1879048181 /\ idOf (Broker 2) = 1879048194.
Proof. unfold legal, limit. repeat split; lia. Qed.

(** ** C30 *)
Definition flagWord (w : Z) : Prop := 0 <= w < 2 ^ 16.
Definition flagIndex (f : Z) : Prop := 0 <= f < 16.
Lemma mask_val f : flagIndex f -> mask f = 2 ^ f.
Proof.
  unfold flagIndex, mask, toU16. intros H. rewrite Z.shiftl_mul_pow2 by lia. rewrite Z.mul_1_l. apply Z.mod_small. split; [apply Z.pow_nonneg; lia|]. apply Z.pow_lt_mono_r; lia.
Qed.
Lemma check_bit w f : flagIndex f -> checkActionFlag w f = Z.testbit w f.
Proof.
  intros H. unfold checkActionFlag. rewrite mask_val by exact H. unfold flagIndex in H. destruct (Z.testbit w f) eqn:E.
  - destruct (Z.eqb_spec (Z.land w (2 ^ f)) 0) as [Z0|]; [|reflexivity]. exfalso. apply (f_equal (fun z => Z.testbit z f)) in Z0. rewrite Z.land_spec, E, Z.pow2_bits_true, Z.bits_0 in Z0 by lia. discriminate.
  - destruct (Z.eqb_spec (Z.land w (2 ^ f)) 0) as [|N]; [reflexivity|]. exfalso. apply N. apply Z.bits_inj'. intros n Hn. rewrite Z.land_spec, Z.bits_0.
    destruct (Z.eq_dec n f) as [->|NE]; [rewrite E; reflexivity|]. rewrite Z.pow2_bits_false by lia. apply andb_false_r.
Qed.
Lemma set_bit w f n : flagIndex f -> 0 <= n -> Z.testbit (setActionFlag w f) n = (Z.testbit w n || (n =? f)).
Proof. intros H N. unfold setActionFlag. rewrite mask_val by exact H. unfold flagIndex in H. rewrite Z.lor_spec. f_equal. rewrite Z.pow2_bits_eqb by lia. rewrite Z.eqb_sym. reflexivity. Qed.
Lemma clear_bit w f n : flagWord w -> flagIndex f -> 0 <= n -> Z.testbit (clearActionFlag w f) n = (Z.testbit w n && negb (n =? f)).
Proof.
  intros W H N. unfold clearActionFlag, toU16. rewrite Z.land_spec. destruct (Z.ltb_spec n 16) as [L|L].
  - f_equal. rewrite Z.mod_pow2_bits_low by lia. rewrite Z.lnot_spec by lia. rewrite Z.shiftl_mul_pow2, Z.mul_1_l, Z.pow2_bits_eqb by (unfold flagIndex in H; lia). rewrite (Z.eqb_sym f n). reflexivity.
  - rewrite Z.mod_pow2_bits_high by lia. rewrite andb_false_r. symmetry. apply andb_false_iff. left. unfold flagWord in W. destruct (Z.eq_dec w 0) as [->|NZ]; [apply Z.bits_0|]. apply Z.bits_above_log2; [lia|].
    enough (Z.log2 w < 16) by lia. apply Z.log2_lt_pow2; lia.
Qed.
Lemma word_or w f : flagWord w -> flagIndex f -> flagWord (setActionFlag w f).
Proof.
  unfold flagWord. intros W H. assert (N : 0 <= setActionFlag w f) by (unfold setActionFlag; apply Z.lor_nonneg; rewrite mask_val by exact H; split; [lia|apply Z.pow_nonneg; lia]). split; [exact N|].
  unfold setActionFlag in *. rewrite mask_val in * by exact H. unfold flagIndex in H. destruct (Z.eq_dec (Z.lor w (2 ^ f)) 0) as [->|NZ]; [lia|]. apply Z.log2_lt_pow2; [lia|]. rewrite Z.log2_lor by lia.
  apply Z.max_lub_lt; [|rewrite Z.log2_pow2; lia]. destruct (Z.eq_dec w 0) as [->|]; [cbn; lia|]. apply Z.log2_lt_pow2; lia.
Qed.

Lemma word_clear w f : flagWord w -> flagIndex f -> flagWord (clearActionFlag w f).
Proof.
  unfold flagWord, clearActionFlag, toU16. intros W H. set (m := Z.lnot (Z.shiftl 1 f) mod 2 ^ 16). assert (M : 0 <= m < 2 ^ 16) by (apply Z.mod_pos_bound; lia).
  assert (N : 0 <= Z.land w m) by (apply Z.land_nonneg; lia). split; [exact N|]. destruct (Z.eq_dec (Z.land w m) 0) as [->|NZ]; [lia|]. apply Z.log2_lt_pow2; [lia|].
  eapply Z.le_lt_trans; [apply Z.log2_land; lia|]. apply Z.min_lt_iff. right. destruct (Z.eq_dec m 0) as [->|]; [cbn; lia|]. apply Z.log2_lt_pow2; lia.
Qed.
Section C30.
Variables (w f g : Z).
Hypothesis (W : flagWord w) (F : flagIndex f) (G : flagIndex g).
Theorem C30_set : flagWord (setActionFlag w f) /\ checkActionFlag (setActionFlag w f) g = (checkActionFlag w g || (g =? f)).
Proof. split; [apply word_or; assumption|]. rewrite !check_bit by assumption. apply set_bit; [assumption|]. unfold flagIndex in G. lia. Qed.
Theorem C30_clear : flagWord (clearActionFlag w f) /\ checkActionFlag (clearActionFlag w f) g = (checkActionFlag w g && negb (g =? f)).
Proof. split; [apply word_clear; assumption|]. rewrite !check_bit by assumption. apply clear_bit; [assumption|assumption|]. unfold flagIndex in G. lia. Qed.
Theorem C30_toggle : flagWord (toggleActionFlag w f) /\ checkActionFlag (toggleActionFlag w f) g = xorb (checkActionFlag w g) (g =? f).
Proof.
  unfold toggleActionFlag. destruct (checkActionFlag w f) eqn:E.
  - destruct C30_clear as [A B]. split; [exact A|]. rewrite B. destruct (Z.eqb_spec g f) as [->|]; [rewrite E; reflexivity|]. destruct (checkActionFlag w g); reflexivity.
  - destruct C30_set as [A B]. split; [exact A|]. rewrite B. destruct (Z.eqb_spec g f) as [->|]; [rewrite E; reflexivity|]. destruct (checkActionFlag w g); reflexivity.
Qed.
Theorem C30_toggle_flag : flagWord (toggle_flag w f) /\ checkActionFlag (toggle_flag w f) g = xorb (checkActionFlag w g) (g =? f).
Proof.
  assert (Bn : forall n, 0 <= n -> Z.testbit (toggle_flag w f) n = xorb (Z.testbit w n) (n =? f)).
  { intros n N. unfold toggle_flag, make_flags. rewrite mask_val by exact F. rewrite Z.lxor_spec. f_equal. unfold flagIndex in F. rewrite Z.pow2_bits_eqb by lia. apply Z.eqb_sym. }
  split; [|rewrite !check_bit by exact G; apply Bn; unfold flagIndex in G; lia].
  assert (E : toggle_flag w f = toggleActionFlag w f); [|rewrite E; apply C30_toggle].
  apply Z.bits_inj'. intros n N. rewrite Bn by exact N. unfold toggleActionFlag. rewrite check_bit by exact F. destruct (Z.testbit w f) eqn:B.
  - rewrite clear_bit by assumption. destruct (Z.eqb_spec n f) as [->|]; [rewrite B; reflexivity|]. destruct (Z.testbit w n); reflexivity.
  - rewrite set_bit by assumption. destruct (Z.eqb_spec n f) as [->|]; [rewrite B; reflexivity|]. destruct (Z.testbit w n); reflexivity.
Qed.
(** A word built from flags has exactly these flags. *)
Theorem C30_make_flags h : flagIndex h ->
  checkActionFlag (make_flags f) g = (g =? f) /\ checkActionFlag (make_flags2 f h) g = ((g =? f) || (g =? h)).
Proof.
  intros H. assert (M : forall k, flagIndex k -> Z.testbit (make_flags k) g = (g =? k)).
  { intros k K. unfold make_flags. rewrite mask_val by exact K. unfold flagIndex in *. rewrite Z.pow2_bits_eqb by lia. apply Z.eqb_sym. }
  rewrite !check_bit by exact G. unfold make_flags2. rewrite Z.lor_spec, !M by assumption. split; reflexivity.
Qed.
End C30.
Print Assumptions C30_set.
Print Assumptions C30_clear.
Print Assumptions C30_toggle.
Print Assumptions C30_toggle_flag.
Print Assumptions C30_make_flags.
(** Any sequence of flag operations: the flags are an independent switch each. *)
Inductive flagOp := SetFlag (f : Z) | ClearFlag (f : Z) | ToggleFlag (f : Z).
Definition flagOf (o : flagOp) : Z := match o with SetFlag f | ClearFlag f | ToggleFlag f => f end.
Definition doFlag (w : Z) (o : flagOp) : Z := match o with SetFlag f => setActionFlag w f | ClearFlag f => clearActionFlag w f | ToggleFlag f => toggleActionFlag w f end.
(** one switch: only operations naming it move it *)
Definition switch (g : Z) (s : bool) (o : flagOp) : bool :=
  if negb (flagOf o =? g) then s else match o with SetFlag _ => true | ClearFlag _ => false | ToggleFlag _ => negb s end.
Theorem C30_flags_are_switches os w g : flagWord w -> flagIndex g -> Forall (fun o => flagIndex (flagOf o)) os ->
  flagWord (fold_left doFlag os w) /\ checkActionFlag (fold_left doFlag os w) g = fold_left (switch g) os (checkActionFlag w g).
Proof.
  intros W G O. revert w W. induction O as [|o os Ho O IH]; intros w W; [split; [exact W|reflexivity]|]. cbn [fold_left].
  assert (K : flagWord (doFlag w o) /\ checkActionFlag (doFlag w o) g = switch g (checkActionFlag w g) o).
  { destruct o as [f|f|f]; cbn [flagOf doFlag] in *; unfold switch; cbn [flagOf]; rewrite (Z.eqb_sym f g); [destruct (C30_set w f g) as [A B]|destruct (C30_clear w f g) as [A B]|destruct (C30_toggle w f g) as [A B]]; try assumption;
      (split; [exact A|]); rewrite B; destruct (checkActionFlag w g), (g =? f); reflexivity. }
  destruct K as [K1 K2]. destruct (IH _ K1) as [A B]. split; [exact A|]. rewrite B, K2. reflexivity.
Qed.
Print Assumptions C30_flags_are_switches.
(** A flag index beyond the word has no effect and is never found (indices are converted to uint16_t; an index of 32 or more
    is undefined in C++). *)
Theorem C30_index_beyond_word w f : flagWord w -> 16 <= f < 32 ->
  setActionFlag w f = w /\ clearActionFlag w f = w /\ checkActionFlag w f = false.
Proof.
  intros W H. assert (M : mask f = 0).
  { unfold mask, toU16. rewrite Z.shiftl_mul_pow2, Z.mul_1_l by lia. replace f with ((f - 16) + 16) by lia. rewrite Z.pow_add_r by lia. apply Z.mod_mul. lia. }
  split; [unfold setActionFlag; rewrite M; apply Z.lor_0_r|]. split; [|unfold checkActionFlag; rewrite M, Z.land_0_r; reflexivity].
  unfold clearActionFlag, toU16. apply Z.bits_inj'. intros n N. rewrite Z.land_spec. destruct (Z.ltb_spec n 16) as [L|L].
  - rewrite Z.mod_pow2_bits_low by lia. rewrite Z.lnot_spec by lia. rewrite Z.shiftl_mul_pow2, Z.mul_1_l, Z.pow2_bits_false by lia. apply andb_true_r.
  - rewrite Z.mod_pow2_bits_high by lia. rewrite andb_false_r. symmetry. unfold flagWord in W. destruct (Z.eq_dec w 0) as [->|NZ]; [apply Z.bits_0|]. apply Z.bits_above_log2; [lia|].
    enough (Z.log2 w < 16) by lia. apply Z.log2_lt_pow2; lia.
Qed.
Print Assumptions C30_index_beyond_word.
Example C30_concrete : flagWord 0x8021 /\ flagIndex 5 /\ flagIndex 15 /\
  checkActionFlag (fold_left doFlag [ClearFlag 5; ToggleFlag 15; SetFlag 3; ToggleFlag 0; ToggleFlag 15] 0x8021) 15 = true.
Proof. unfold flagWord, flagIndex. repeat split; try lia; vm_compute; reflexivity. Qed.
