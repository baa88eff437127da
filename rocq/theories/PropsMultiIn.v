(** * C55: reduction operations on an input with several sources *)
From Coq Require Import ZArith QArith Qabs Bool String List Lia Lqa.
From Verif Require Import MultiIn.
Import ListNotations.
Open Scope list_scope.

(** ** the specification *)
(** the sources which have sent a value, with that value and the unit conversion, by source *)
Definition present (units : nat -> option (Q -> Q)) (d : list (option val)) : list (option (Q -> Q) * val) :=
  flat_map (fun k => match nth k d None with Some v => [(units k, v)] | None => [] end) (seq 0 (length d)).
Definition inUnit (u : option (Q -> Q)) (q : Q) : Q := match u with Some f => f q | None => q end.
(** a number in the unit of the input *)
Definition number (p : option (Q -> Q) * val) : Q := match snd p with V_D q => inUnit (fst p) q | V_I z => inUnit (fst p) (inject_Z z) | _ => 0 end.
Definition isNumber (v : val) : Prop := match v with V_D _ | V_I _ => True | _ => False end.
Definition numbers units d : list Q := map number (present units d).
Definition allNumbers (d : list (option val)) : Prop := forall v, In (Some v) d -> isNumber v.
(** numbers and vectors of numbers: the elements *)
Definition elementsOf (p : option (Q -> Q) * val) : list Q := match snd p with V_V l => l | _ => [number p] end.
Definition isNumeric (v : val) : Prop := match v with V_D _ | V_I _ | V_V _ => True | _ => False end.
Definition elements units d : list Q := flat_map elementsOf (present units d).
Definition allNumeric (d : list (option val)) : Prop := forall v, In (Some v) d -> isNumeric v.
(** integers *)
Definition allInts (d : list (option val)) : Prop := forall v, In (Some v) d -> exists z, v = V_I z.
Definition ints (d : list (option val)) : list Z := flat_map (fun o => match o with Some (V_I z) => [z] | _ => [] end) d.
(** texts *)
Definition allTexts (d : list (option val)) : Prop := forall v, In (Some v) d -> exists s, v = V_S s.
Definition texts (d : list (option val)) : list string := flat_map (fun o => match o with Some (V_S s) => [s] | _ => [] end) d.
Definition total (l : list Q) : Q := fold_right Qplus 0 l.
Definition count (l : list Q) : Q := inject_Z (Z.of_nat (length l)).
Definition noUnits : nat -> option (Q -> Q) := fun _ => None.

(** ** what the loop collects *)
Lemma extractAll_present units d : forall ii, extractAll units ii d = map (fun p => extractUnit (fst p) (snd p)) (flat_map (fun k => match nth (k - ii) d None with Some v => [(units k, v)] | None => [] end) (seq ii (length d))).
Proof.
  induction d as [|o d IH]; intros ii; [reflexivity|]. cbn [length seq flat_map]. rewrite map_app, Nat.sub_diag. change (nth 0 (o :: d) None) with o.
  assert (E : extractAll units (S ii) d = map (fun p => extractUnit (fst p) (snd p)) (flat_map (fun k => match nth (k - ii) (o :: d) None with Some v => [(units k, v)] | None => [] end) (seq (S ii) (length d)))).
  { rewrite IH. f_equal. rewrite !flat_map_concat_map. f_equal. apply map_ext_in. intros k I. apply in_seq in I. replace (k - ii)%nat with (S (k - S ii)) by lia. reflexivity. }
  rewrite <- E. destruct o as [v|]; reflexivity.
Qed.
Lemma extract_all units d : extractAll units O d = map (fun p => extractUnit (fst p) (snd p)) (present units d).
Proof. rewrite extractAll_present. unfold present. f_equal. rewrite !flat_map_concat_map. f_equal. apply map_ext. intros k. rewrite Nat.sub_0_r. reflexivity. Qed.
Lemma in_present units d p : In p (present units d) -> In (Some (snd p)) d.
Proof. unfold present. rewrite in_flat_map. intros (k & K & I). apply in_seq in K. destruct (nth k d None) as [v|] eqn:E; [|contradiction]. destruct I as [<-|[]]. cbn. rewrite <- E. apply nth_In. lia. Qed.
Lemma map_convert L t units d (f : option (Q -> Q) * val -> val) : (forall p, In (Some (snd p)) d -> convert L t (extractUnit (fst p) (snd p)) = f p) -> map (convert L t) (extractAll units O d) = map f (present units d).
Proof. intros H. rewrite extract_all, map_map. apply map_ext_in. intros p I. apply H. apply (in_present units d p I). Qed.
Lemma numbers_double L units d : allNumbers d -> map (convert L T_double) (extractAll units O d) = map V_D (numbers units d).
Proof.
  intros A. unfold numbers. rewrite map_map. apply map_convert. intros [u v] I. cbn [fst snd] in *. specialize (A v I). destruct v as [q| |z|s|l]; try contradiction; destruct u; reflexivity.
Qed.
Lemma numeric_vector L units d : allNumeric d -> map (convert L T_vector) (extractAll units O d) = map (fun p => V_V (elementsOf p)) (present units d).
Proof.
  intros A. apply map_convert. intros [u v] I. cbn [fst snd] in *. specialize (A v I). destruct v as [q| |z|s|l]; try contradiction; destruct u; reflexivity.
Qed.
Lemma flat_vectors {A} (f : A -> list Q) l : flat_map getV (map (fun p => V_V (f p)) l) = flat_map f l.
Proof. induction l as [|x l IH]; [reflexivity|]. cbn. rewrite IH. reflexivity. Qed.
Lemma no_units d : forall ii, extractAll noUnits ii d = flat_map (fun o => match o with Some v => [v] | None => [] end) d.
Proof. induction d as [|[v|] d IH]; intros ii; cbn; rewrite ?IH; reflexivity. Qed.
Lemma ints_int L d : allInts d -> map (convert L T_int) (extractAll noUnits O d) = map V_I (ints d).
Proof.
  intros A. rewrite no_units. unfold ints. induction d as [|o d IH]; [reflexivity|]. cbn [flat_map]. rewrite !map_app, IH by (intros v I; apply A; right; exact I). f_equal. destruct o as [v|]; [|reflexivity]. destruct (A v) as [z ->]; [left; reflexivity|]. reflexivity.
Qed.
Lemma texts_text L units d : allTexts d -> map (convert L T_string) (extractAll units O d) = map V_S (texts d).
Proof.
  intros A. unfold texts. generalize O. induction d as [|o d IH]; intros ii; [reflexivity|]. assert (A' : allTexts d) by (intros v I; apply A; right; exact I). destruct o as [v|]; cbn [extractAll flat_map app map]; [|apply IH, A']. destruct (A v) as [s ->]; [left; reflexivity|]. cbn [app map]. rewrite (IH A'). destruct (units ii); reflexivity.
Qed.
Lemma qlt_lt a b : qlt a b = true <-> a < b.
Proof. unfold qlt. rewrite negb_true_iff. split; intros H; [apply Qnot_le_lt; intros L; apply Qle_bool_iff in L; congruence|]. destruct (Qle_bool b a) eqn:E; [|reflexivity]. apply Qle_bool_iff in E. apply Qle_not_lt in E. contradiction. Qed.
Lemma qlt_ge a b : qlt a b = false <-> b <= a.
Proof. unfold qlt. rewrite negb_false_iff. apply Qle_bool_iff. Qed.
Lemma pick_spec {X} (le : X -> X -> Prop) better (refl : forall x, le x x) (trans : forall x y z, le x y -> le y z -> le x z) (yes : forall x y, better x y = true -> le x y) (no : forall x y, better x y = false -> le y x) l :
  forall first, (pick better first l = first \/ In (pick better first l) l) /\ le (pick better first l) first /\ forall y, In y l -> le (pick better first l) y.
Proof.
  unfold pick. induction l as [|x l IH]; intros first; cbn [fold_left]; [repeat split; [left; reflexivity|apply refl|contradiction]|].
  destruct (IH (if better x first then x else first)) as (A & B & C). set (r := fold_left _ l _) in *. assert (le r x /\ le r first) as [D E].
  { destruct (better x first) eqn:Q; split; try assumption; eapply trans; try exact B; auto. }
  split; [|split; [exact E|]].
  - destruct A as [A|A]; [|right; right; exact A]. destruct (better x first); [right; left; symmetry; exact A|left; exact A].
  - intros y [<-|I]; [exact D|apply C, I].
Qed.

(** ** the operations *)
Lemma map_getD l : map getD (map V_D l) = l. Proof. rewrite map_map. apply map_id. Qed.
Lemma map_getI l : map getI (map V_I l) = l. Proof. rewrite map_map. apply map_id. Qed.
Lemma map_getS l : map getS (map V_S l) = l. Proof. rewrite map_map. apply map_id. Qed.
(** the greatest of the numbers, in the unit of the input *)
Theorem C55_max L units t d : t = T_double \/ t = T_unknown -> allNumbers d -> numbers units d <> [] ->
  exists m, combined L units O_max t d = V_D m /\ In m (numbers units d) /\ forall x, In x (numbers units d) -> x <= m.
Proof.
  intros T A N. unfold combined. replace (commonType O_max t) with T_double by (destruct T as [->| ->]; reflexivity). rewrite (numbers_double L units d A). destruct (numbers units d) as [|q r]; [contradiction|]. cbn [map extremum]. rewrite map_getD. cbn [getD].
  destruct (pick_spec (fun x y => y <= x) (fun v m => qlt m v) Qle_refl (fun x y z H1 H2 => Qle_trans _ _ _ H2 H1)) with (l := q :: r) (first := q) as (P & _ & C).
  - intros x y H. apply qlt_lt in H. lra.
  - intros x y H. apply qlt_ge in H. exact H.
  - eexists. split; [reflexivity|]. split; [destruct P as [->|P]; [left; reflexivity|exact P]|exact C].
Qed.
Theorem C55_min L units t d : t = T_double \/ t = T_unknown -> allNumbers d -> numbers units d <> [] ->
  exists m, combined L units O_min t d = V_D m /\ In m (numbers units d) /\ forall x, In x (numbers units d) -> m <= x.
Proof.
  intros T A N. unfold combined. replace (commonType O_min t) with T_double by (destruct T as [->| ->]; reflexivity). rewrite (numbers_double L units d A). destruct (numbers units d) as [|q r]; [contradiction|]. cbn [map extremum]. rewrite map_getD. cbn [getD].
  destruct (pick_spec Qle (fun v m => qlt v m) Qle_refl Qle_trans) with (l := q :: r) (first := q) as (P & _ & C).
  - intros x y H. apply qlt_lt in H. lra.
  - intros x y H. apply qlt_ge in H. exact H.
  - eexists. split; [reflexivity|]. split; [destruct P as [->|P]; [left; reflexivity|exact P]|exact C].
Qed.
(** of integers *)
Theorem C55_max_min_int L d : allInts d -> ints d <> [] ->
  (exists m, combined L noUnits O_max T_int d = V_I m /\ In m (ints d) /\ forall x, In x (ints d) -> (x <= m)%Z)
  /\ (exists m, combined L noUnits O_min T_int d = V_I m /\ In m (ints d) /\ forall x, In x (ints d) -> (m <= x)%Z).
Proof.
  intros A N. unfold combined. cbn [commonType]. rewrite (ints_int L d A). destruct (ints d) as [|q r]; [contradiction|]. cbn [map extremum]. rewrite map_getI. cbn [getI]. split.
  - destruct (pick_spec (fun x y => y <= x)%Z (fun v m => (m <? v)%Z) Z.le_refl (fun x y z H1 H2 => Z.le_trans _ _ _ H2 H1)) with (l := q :: r) (first := q) as (P & _ & C); [intros x y H; apply Z.ltb_lt in H; lia|intros x y H; apply Z.ltb_ge in H; lia|].
    eexists. split; [reflexivity|]. split; [destruct P as [->|P]; [left; reflexivity|exact P]|exact C].
  - destruct (pick_spec Z.le (fun v m => (v <? m)%Z) Z.le_refl Z.le_trans) with (l := q :: r) (first := q) as (P & _ & C); [intros x y H; apply Z.ltb_lt in H; lia|intros x y H; apply Z.ltb_ge in H; lia|].
    eexists. split; [reflexivity|]. split; [destruct P as [->|P]; [left; reflexivity|exact P]|exact C].
Qed.
(** of vectors: the one with the greatest norm, the first of these *)
Lemma pickIndex_spec better (irr : forall x y, better x y = true -> x == y -> False) (trans : forall x y z, better x y = true -> better y z = true -> better x z = true) (co : forall x y z, better x z = true -> better x y = true \/ better y z = true) l first :
  (forall x, In x l -> better x first = true) -> l <> [] -> let i := pickIndex better first l in (i < length l)%nat /\ (forall j, (j < length l)%nat -> better (nth j l 0) (nth i l 0) = false) /\ (forall j, (j < i)%nat -> better (nth i l 0) (nth j l 0) = true).
Proof.
  intros F N. unfold pickIndex. cbv zeta.
  set (step := fun (a : Q * nat * nat) v => let '(m, i, k) := a in if better v m then (v, k, S k) else (m, i, S k)).
  assert (G : forall r done, (forall x, In x (done ++ r) -> better x first = true) ->
    let a := fold_left step done (first, O, O) in let '(m, i, k) := a in k = length done /\ (done = [] \/ ((i < length done)%nat /\ m = nth i done 0)) /\ (done = [] -> m = first) /\ (forall j, (j < length done)%nat -> better (nth j done 0) m = false) /\ (forall j, (j < i)%nat -> better m (nth j done 0) = true)).
  { intros r done. revert r. induction done as [|x done IH] using rev_ind; intros r FF; cbv zeta.
    - cbn. repeat split; try (left; reflexivity); try lia.
    - rewrite fold_left_app. cbn [fold_left]. specialize (IH (x :: r)). cbv zeta in IH. rewrite <- app_assoc in FF. specialize (IH FF). destruct (fold_left step done (first, O, O)) as [[m i] k]. destruct IH as (K & P & M0 & U & W). unfold step. rewrite app_length. cbn [length].
      destruct (better x m) eqn:B.
      + split; [lia|]. split; [right; split; [lia|rewrite app_nth2, K, Nat.sub_diag by lia; reflexivity]|]. split; [intros E; destruct done; discriminate|]. subst k. split.
        * intros j J. destruct (Nat.eq_dec j (length done)) as [->|NE].
          -- rewrite app_nth2, Nat.sub_diag by lia. cbn. destruct (better x x) eqn:X; [|reflexivity]. destruct (irr x x X (Qeq_refl x)).
          -- rewrite app_nth1 by lia. destruct (better (nth j done 0) x) eqn:X; [|reflexivity]. specialize (U j ltac:(lia)). pose proof (trans _ _ _ X B). congruence.
        * intros j J. rewrite app_nth1 by lia. destruct (co x (nth j done 0) m B) as [H|H]; [exact H|]. rewrite (U j J) in H. discriminate.
      + split; [lia|]. assert (ND : done <> []).
        { intros E. rewrite (M0 E) in B. rewrite (FF x) in B; [discriminate|]. apply in_or_app. right. left. reflexivity. }
        destruct P as [P|[P1 P2]]; [contradiction|]. split; [right; split; [lia|rewrite app_nth1 by lia; exact P2]|]. split; [intros E; destruct done; discriminate|]. split.
        * intros j J. destruct (Nat.eq_dec j (length done)) as [->|NE]; [rewrite app_nth2, Nat.sub_diag by lia; exact B|]. rewrite app_nth1 by lia. apply U. lia.
        * intros j J. rewrite app_nth1 by lia. apply W. exact J. }
  specialize (G [] l). rewrite app_nil_r in G. specialize (G F). cbv zeta in G. destruct (fold_left step l (first, O, O)) as [[m i] k]. cbn [fst snd]. destruct G as (_ & [E|[P1 P2]] & _ & U & W); [contradiction|]. subst m. auto.
Qed.

(** of vectors: the first one with the greatest, or least, norm *)
Definition allVectors (d : list (option val)) : Prop := forall v, In (Some v) d -> exists l, v = V_V l.
Definition vectors (d : list (option val)) : list (list Q) := flat_map (fun o => match o with Some (V_V l) => [l] | _ => [] end) d.
Lemma vectors_vector L units d : allVectors d -> map (convert L T_vector) (extractAll units O d) = map V_V (vectors d).
Proof.
  intros A. unfold vectors. generalize O. induction d as [|o d IH]; intros ii; [reflexivity|]. assert (A' : allVectors d) by (intros v I; apply A; right; exact I). destruct o as [v|]; cbn [extractAll flat_map app map]; [|apply IH, A']. destruct (A v) as [s ->]; [left; reflexivity|]. cbn [app map]. rewrite (IH A'). destruct (units ii); reflexivity.
Qed.
Lemma extremum_vector L better first betterI text l : l <> [] -> extremum L better first betterI text (map V_V l) = nth (pickIndex better first (map (norm L) l)) (map V_V l) (V_D invalid).
Proof. intros N. destruct l as [|v r]; [contradiction|]. cbn [map extremum getV]. rewrite map_map. reflexivity. Qed.
Theorem C55_max_min_vector L units d : allVectors d -> vectors d <> [] -> (forall l, - maxDouble < norm L l /\ norm L l < maxDouble) ->
  (exists i, (i < length (vectors d))%nat /\ combined L units O_max T_vector d = V_V (nth i (vectors d) [])
     /\ (forall l, In l (vectors d) -> norm L l <= norm L (nth i (vectors d) [])) /\ forall j, (j < i)%nat -> norm L (nth j (vectors d) []) < norm L (nth i (vectors d) []))
  /\ (exists i, (i < length (vectors d))%nat /\ combined L units O_min T_vector d = V_V (nth i (vectors d) [])
     /\ (forall l, In l (vectors d) -> norm L (nth i (vectors d) []) <= norm L l) /\ forall j, (j < i)%nat -> norm L (nth i (vectors d) []) < norm L (nth j (vectors d) [])).
Proof.
  intros A N B. unfold combined. cbn [commonType]. rewrite (vectors_vector L units d A). set (l := vectors d) in *. clearbody l. rewrite !extremum_vector by exact N.
  assert (NM : map (norm L) l <> []) by (destruct l; [contradiction|discriminate]).
  assert (NTH : forall j, (j < length l)%nat -> nth j (map (norm L) l) 0 = norm L (nth j l [])).
  { intros j J. rewrite (nth_indep _ 0 (norm L [])) by (rewrite map_length; exact J). apply map_nth. }
  assert (OUT : forall i, (i < length l)%nat -> nth i (map V_V l) (V_D invalid) = V_V (nth i l [])).
  { intros i I. rewrite (nth_indep _ (V_D invalid) (V_V [])) by (rewrite map_length; exact I). apply map_nth. }
  split.
  - destruct (pickIndex_spec (fun v m => qlt m v)) with (l := map (norm L) l) (first := - maxDouble) as (I & U & W).
    + intros x y H E. apply qlt_lt in H. lra.
    + intros x y z H1 H2. apply qlt_lt in H1, H2. apply qlt_lt. lra.
    + intros x y z H. apply qlt_lt in H. rewrite !qlt_lt. destruct (Qlt_le_dec y x); [left|right]; lra.
    + intros x X. apply in_map_iff in X as (v & <- & _). apply qlt_lt, B.
    + exact NM.
    + set (i := pickIndex _ _ _) in *. rewrite map_length in I, U. exists i. split; [exact I|]. split; [apply OUT, I|]. split.
      * intros v V. apply (In_nth _ _ []) in V as (j & J & <-). specialize (U j J). rewrite !NTH in U by assumption. apply qlt_ge, U.
      * intros j J. specialize (W j J). rewrite !NTH in W by lia. apply qlt_lt, W.
  - destruct (pickIndex_spec (fun v m => qlt v m)) with (l := map (norm L) l) (first := maxDouble) as (I & U & W).
    + intros x y H E. apply qlt_lt in H. lra.
    + intros x y z H1 H2. apply qlt_lt in H1, H2. apply qlt_lt. lra.
    + intros x y z H. apply qlt_lt in H. rewrite !qlt_lt. destruct (Qlt_le_dec x y); [left|right]; lra.
    + intros x X. apply in_map_iff in X as (v & <- & _). apply qlt_lt, B.
    + exact NM.
    + set (i := pickIndex _ _ _) in *. rewrite map_length in I, U. exists i. split; [exact I|]. split; [apply OUT, I|]. split.
      * intros v V. apply (In_nth _ _ []) in V as (j & J & <-). specialize (U j J). rewrite !NTH in U by assumption. apply qlt_ge, U.
      * intros j J. specialize (W j J). rewrite !NTH in W by lia. apply qlt_lt, W.
Qed.
(** the sum of all elements, and their average *)
Lemma fold_total l : forall a, fold_left Qplus l a == a + total l.
Proof. induction l as [|x l IH]; intros a; cbn [fold_left total fold_right]; [lra|]. rewrite IH. unfold total. lra. Qed.
Theorem C55_sum L units t d : t <> T_string -> allNumeric d -> present units d <> [] -> exists s, combined L units O_sum t d = V_D s /\ s == total (elements units d).
Proof.
  intros T A N. unfold combined. replace (commonType O_sum t) with T_vector by (destruct t; try reflexivity; contradiction). rewrite (numeric_vector L units d A). exists (fold_left Qplus (elements units d) 0). split; [|rewrite fold_total; lra].
  unfold elements. rewrite <- flat_vectors. destruct (present units d) as [|p r]; [contradiction|]. reflexivity.
Qed.
Theorem C55_average L units t d : allNumeric d -> elements units d <> [] -> exists s, combined L units O_average t d = V_D s /\ s * count (elements units d) == total (elements units d).
Proof.
  intros A N. unfold combined. cbn [commonType]. rewrite (numeric_vector L units d A). unfold vectorAvg. rewrite flat_vectors. fold (elements units d). set (l := elements units d) in *. destruct l as [|x r] eqn:E; [contradiction|]. rewrite <- E. eexists. split; [reflexivity|]. unfold count. rewrite fold_total.
  assert (P : ~ inject_Z (Z.of_nat (length l)) == 0). { rewrite E. cbn [length]. unfold inject_Z, Qeq. cbn [Qnum Qden]. lia. }
  rewrite Qmult_comm, Qmult_div_r by exact P. lra.
Qed.
(** the texts one after the other *)
Theorem C55_sum_texts L units d : allTexts d -> texts d <> [] -> combined L units O_sum T_string d = V_S (String.concat "" (texts d)).
Proof.
  intros A N. unfold combined. cbn [commonType]. rewrite (texts_text L units d A). set (l := texts d) in *. assert (G : forall l a, fold_left (fun a v => String.append a (getS v)) (map V_S l) a = String.append a (String.concat "" l)).
  { clear. assert (AE : forall a, String.append a "" = a) by (induction a as [|c a IH]; cbn; congruence). assert (AA : forall a b c, String.append (String.append a b) c = String.append a (String.append b c)) by (induction a as [|x a IH]; intros; cbn; [reflexivity|rewrite IH; reflexivity]).
    assert (CC : forall s l, String.concat "" (s :: l) = String.append s (String.concat "" l)). { intros s [|x l]; cbn; [symmetry; apply AE|reflexivity]. }
    induction l as [|s l IH]; intros a; [cbn; symmetry; apply AE|]. cbn [map fold_left getS]. rewrite IH, AA, CC. reflexivity. }
  destruct l as [|s r]; [contradiction|]. unfold sumOperation. cbn [map]. f_equal. rewrite <- map_cons. apply (G (s :: r) ""%string).
Qed.
(** the first minus the sum of the others *)
Lemma qDiff_spec r : forall x, fold_left (fun a b => a - b) r x == x - total r.
Proof. induction r as [|y r IH]; intros x; cbn [fold_left total fold_right]; [lra|]. rewrite IH. unfold total. lra. Qed.
Theorem C55_diff L units t d x r : t = T_double \/ t = T_unknown -> allNumbers d -> numbers units d = x :: r -> exists q, combined L units O_diff t d = V_D q /\ q == x - total r.
Proof.
  intros T A E. unfold combined. replace (commonType O_diff t) with T_double by (destruct T as [->| ->]; reflexivity). rewrite (numbers_double L units d A), E. cbn [map diffOperation]. rewrite map_getD. eexists. split; [reflexivity|]. apply qDiff_spec.
Qed.
Theorem C55_diff_int L d x r : allInts d -> ints d = x :: r -> combined L noUnits O_diff T_int d = V_I (x - fold_right Z.add 0 r)%Z.
Proof.
  intros A E. unfold combined. cbn [commonType]. rewrite (ints_int L d A), E. cbn [map diffOperation]. rewrite map_getI. cbn [getI zDiff]. f_equal. clear E. revert x. induction r as [|y r IH]; intros x; cbn [fold_left fold_right]; [lia|]. rewrite IH. lia.
Qed.
(** the differences of neighbouring elements *)
Fixpoint neighbours (l : list Q) : list Q := match l with x :: (y :: _) as r => x - y :: neighbours r | _ => [] end.
Theorem C55_diff_vector L units d : allNumeric d -> (forall x, In x (elements units d) -> ~ x == invalid) -> combined L units O_diff T_vector d = V_V (neighbours (elements units d)).
Proof.
  intros A N. unfold combined. cbn [commonType]. rewrite (numeric_vector L units d A). unfold vectorDiff. rewrite flat_vectors. fold (elements units d). set (l := elements units d) in *. clearbody l. f_equal.
  assert (G : forall l s X, ~ s == invalid -> (forall x, In x l -> ~ x == invalid) -> rev (snd (fold_left (fun (a : Q * list Q) el => let (start, X) := a in (el, if Qeq_bool start invalid then X else start - el :: X)) l (s, X))) = rev X ++ neighbours (s :: l)).
  { clear. induction l as [|y l IH]; intros s X S N; cbn [fold_left]; [cbn; rewrite app_nil_r; reflexivity|]. destruct (Qeq_bool s invalid) eqn:E; [apply Qeq_bool_iff in E; contradiction|]. rewrite IH; [|apply N; left; reflexivity|intros x I; apply N; right; exact I]. cbn [rev neighbours]. rewrite <- app_assoc. reflexivity. }
  destruct l as [|x l]; [reflexivity|]. cbn [fold_left]. replace (Qeq_bool invalid invalid) with true by (symmetry; apply Qeq_bool_refl). rewrite (G l x []); [reflexivity|apply N; left; reflexivity|intros y I; apply N; right; exact I].
Qed.
(** all elements in one vector *)
Theorem C55_vectorize L units t d : t <> T_string -> allNumeric d -> combined L units O_vectorize t d = V_V (elements units d).
Proof.
  intros T A. unfold combined. replace (commonType O_vectorize t) with T_vector by (destruct t; try reflexivity; contradiction). rewrite (numeric_vector L units d A). unfold vectorizeOperation, elements. rewrite <- (flat_vectors elementsOf). destruct (present units d) as [|p r]; reflexivity.
Qed.
(** the texts which mean false, all others mean true *)
Definition nul : Ascii.ascii := Ascii.ascii_of_nat 0.
Definition meansFalse : list string :=
  [""; "0"; "00"; "0000"; "-"; "f"; "F"; "n"; "N"; "no"; "No"; "NO"; "off"; "OFF"; "false"; "False"; "FALSE"; "disable"; "disabled"; String nul ""; String nul (String nul (String nul (String nul (String nul (String nul (String nul (String nul "")))))))]%string.
Lemma same_words s : In s falseTexts <-> In s meansFalse.
Proof. unfold falseTexts, meansFalse, nul. cbn [In]. tauto. Qed.
(** texts: whether all, or one, of them mean true, and whether they differ *)
Lemma and_or L units t d : allTexts d ->
  (combined L units O_and t d = V_S "1" <-> forall s, In s (texts d) -> ~ In s falseTexts) /\ (combined L units O_and t d = V_S "0" <-> exists s, In s (texts d) /\ In s falseTexts)
  /\ (combined L units O_or t d = V_S "1" <-> exists s, In s (texts d) /\ ~ In s falseTexts) /\ (combined L units O_or t d = V_S "0" <-> forall s, In s (texts d) -> In s falseTexts).
Proof.
  intros A. unfold combined. cbn [commonType]. rewrite (texts_text L units d A). set (l := texts d).
  assert (TR : forall s, truth s = true <-> ~ In s falseTexts). { intros s. unfold truth. rewrite negb_true_iff. split; [intros H I|intros H]. - assert (existsb (String.eqb s) falseTexts = true) by (apply existsb_exists; exists s; split; [exact I|apply String.eqb_refl]). congruence. - destruct (existsb (String.eqb s) falseTexts) eqn:E; [|reflexivity]. apply existsb_exists in E as (x & I & X). apply String.eqb_eq in X. subst x. contradiction. }
  assert (TF : forall s, truth s = false <-> In s falseTexts). { intros s. destruct (in_dec String.string_dec s falseTexts) as [I|I]. - split; [auto|]. intros _. destruct (truth s) eqn:E; [|reflexivity]. apply TR in E. contradiction. - apply TR in I as I'. split; [congruence|contradiction]. }
  assert (FA : forallb (fun v => truth (getS v)) (map V_S l) = forallb truth l) by (clear; induction l; cbn; congruence).
  assert (EX : existsb (fun v => truth (getS v)) (map V_S l) = existsb truth l) by (clear; induction l; cbn; congruence).
  rewrite FA, EX. assert (F1 : forallb truth l = true <-> forall s, In s l -> ~ In s falseTexts). { rewrite forallb_forall. split; intros H s I; apply TR, H, I. }
  assert (F0 : forallb truth l = false <-> exists s, In s l /\ In s falseTexts).
  { clear - TF. induction l as [|s l IH]; [split; [discriminate|intros (s & [] & _)]|]. cbn [forallb]. rewrite andb_false_iff, IH, TF. split; [intros [H|(x & I & H)]; [exists s; split; [left; reflexivity|exact H]|exists x; split; [right; exact I|exact H]]|]. intros (x & [<-|I] & H); [left; exact H|right; exists x; auto]. }
  assert (E1 : existsb truth l = true <-> exists s, In s l /\ ~ In s falseTexts). { rewrite existsb_exists. split; intros (s & I & H); exists s; (split; [exact I|apply TR, H]). }
  assert (E0 : existsb truth l = false <-> forall s, In s l -> In s falseTexts).
  { clear - TF. induction l as [|s l IH]; [split; [intros _ s []|reflexivity]|]. cbn [existsb]. rewrite orb_false_iff, IH, TF. split; [intros [H G] x [<-|I]; auto|]. intros H. split; [apply H; left; reflexivity|intros x I; apply H; right; exact I]. }
  rewrite <- F1, <- F0, <- E1, <- E0. destruct (forallb truth l), (existsb truth l); repeat split; intros; try reflexivity; try discriminate.
Qed.
(** texts: whether all, or one, of them mean true, and whether they differ *)
Theorem C55_and_or L units t d : allTexts d ->
  (combined L units O_and t d = V_S "1" <-> forall s, In s (texts d) -> ~ In s meansFalse) /\ (combined L units O_and t d = V_S "0" <-> exists s, In s (texts d) /\ In s meansFalse)
  /\ (combined L units O_or t d = V_S "1" <-> exists s, In s (texts d) /\ ~ In s meansFalse) /\ (combined L units O_or t d = V_S "0" <-> forall s, In s (texts d) -> In s meansFalse).
Proof.
  intros A. destruct (and_or L units t d A) as (H1 & H2 & H3 & H4). rewrite H1, H2, H3, H4. repeat split.
  - intros H s I J. apply (H s I), same_words, J.
  - intros H s I J. apply (H s I), same_words, J.
  - intros (s & I & J). exists s. split; [exact I|apply same_words, J].
  - intros (s & I & J). exists s. split; [exact I|apply same_words, J].
  - intros (s & I & J). exists s. split; [exact I|]. intros K. apply J, same_words, K.
  - intros (s & I & J). exists s. split; [exact I|]. intros K. apply J, same_words, K.
  - intros H s I. apply same_words, H, I.
  - intros H s I. apply same_words, H, I.
Qed.
(** "1" when one text is not like the first; the texts as a JSON array *)
Theorem C55_diff_texts L units d s r : allTexts d -> texts d = s :: r -> (combined L units O_diff T_string d = V_S "0" <-> forall x, In x r -> x = s) /\ (combined L units O_diff T_string d = V_S "1" <-> exists x, In x r /\ x <> s).
Proof.
  intros A E. unfold combined. cbn [commonType]. rewrite (texts_text L units d A), E. cbn [map diffOperation].
  assert (F : forall r, forallb (fun w => String.eqb (getS w) s) (map V_S r) = forallb (fun x => String.eqb x s) r) by (clear; induction r; cbn; congruence). rewrite F.
  assert (F1 : forallb (fun x => String.eqb x s) r = true <-> forall x, In x r -> x = s). { rewrite forallb_forall. split; intros H x I; apply String.eqb_eq, H, I. }
  assert (F0 : forallb (fun x => String.eqb x s) r = false <-> exists x, In x r /\ x <> s).
  { clear. induction r as [|y r IH]; [split; [discriminate|intros (x & [] & _)]|]. cbn [forallb]. rewrite andb_false_iff, IH, String.eqb_neq. split; [intros [H|(x & I & H)]; [exists y; split; [left; reflexivity|exact H]|exists x; split; [right; exact I|exact H]]|]. intros (x & [<-|I] & H); [left; exact H|right; exists x; auto]. }
  rewrite <- F1, <- F0. destruct (forallb _ r); repeat split; intros; try reflexivity; try discriminate.
Qed.
Theorem C55_vectorize_texts L units d : allTexts d -> texts d <> [] -> combined L units O_vectorize T_string d = V_S (jsonText L (texts d)).
Proof.
  intros A N. unfold combined. cbn [commonType]. rewrite (texts_text L units d A). destruct (texts d) as [|s r]; [contradiction|]. unfold vectorizeOperation. cbn [map]. rewrite <- map_cons. change (V_S s :: map V_S r) with (map V_S (s :: r)). f_equal. f_equal. apply (map_getS (s :: r)).
Qed.

(** ** histories *)
(** the newest value of source k *)
Definition newest (seen : list (nat * val)) (k : nat) : option val := match find (fun p => Nat.eqb (fst p) k) (rev seen) with Some p => Some (snd p) | None => None end.
(** what the input should show: the combination of the newest values *)
Definition current L units o t (n : nat) (seen : list (nat * val)) : val := combined L units o t (map (newest seen) (seq 0 n)).
Definition shown L units o t n (seen : list (nat * val)) : val := match seen with [] => V_D invalid | _ => current L units o t n seen end.
(** what it should answer; the flag says whether there was a new value since the last read *)
Fixpoint expected L units o t n (seen : list (nat * val)) (flag : bool) (cs : list mcall) : list manswer :=
  match cs with
  | [] => []
  | G_grant ups :: r => expected L units o t n (seen ++ ups) (match ups with [] => flag | _ => true end) r
  | G_get :: r => A_value (shown L units o t n seen) :: expected L units o t n seen false r
  | G_isUpdated :: r => A_flag flag :: expected L units o t n seen flag r
  | G_clear :: r => expected L units o t n seen false r
  end.
Definition puts (ups : list (nat * val)) (d : list (option val)) : list (option val) := fold_left (fun d (p : nat * val) => put (fst p) (snd p) d) ups d.
Lemma put_length k v : forall d, length (put k v d) = length d.
Proof. induction k as [|k IH]; intros [|x d]; cbn; rewrite ?IH; reflexivity. Qed.
Lemma put_nth k v : forall d j, (j < length d)%nat -> nth j (put k v d) None = if Nat.eqb k j then Some v else nth j d None.
Proof. induction k as [|k IH]; intros [|x d] j J; cbn in J; try lia; destruct j; cbn; try reflexivity. apply IH. lia. Qed.
Lemma newest_snoc seen p j : newest (seen ++ [p]) j = if Nat.eqb (fst p) j then Some (snd p) else newest seen j.
Proof. unfold newest. rewrite rev_app_distr. cbn. destruct (Nat.eqb (fst p) j); reflexivity. Qed.
Lemma puts_newest n seen : puts seen (repeat None n) = map (newest seen) (seq 0 n).
Proof.
  induction seen as [|p seen IH] using rev_ind.
  - cbn. induction n as [|n IH]; [reflexivity|]. cbn [repeat seq map]. f_equal. rewrite IH, <- seq_shift, map_map. reflexivity.
  - unfold puts in *. rewrite fold_left_app. cbn [fold_left]. rewrite IH. apply (nth_ext _ _ None None).
    + rewrite put_length, !map_length. reflexivity.
    + rewrite put_length, map_length, seq_length. intros j J. rewrite put_nth by (rewrite map_length, seq_length; exact J).
      assert (E : forall f : nat -> option val, nth j (map f (seq 0 n)) None = f j). { intros f. rewrite (nth_indep _ None (f O)) by (rewrite map_length, seq_length; exact J). rewrite map_nth, seq_nth by exact J. reflexivity. }
      rewrite !E, newest_snoc. reflexivity.
Qed.
Lemma puts_app a b d : puts (a ++ b) d = puts b (puts a d). Proof. apply fold_left_app. Qed.
(** without a minimum change: every read gives the combination of the newest values, and an update is reported until it is read *)
Theorem C55_answers L units o t n cs : mcalls L units o t (minp0 n None) cs = expected L units o t n [] false cs.
Proof.
  assert (G : forall cs seen flag i, i_data i = puts seen (repeat None n) -> i_last i = shown L units o t n seen -> i_has i = flag -> i_delta i = None -> mcalls L units o t i cs = expected L units o t n seen flag cs).
  { clear cs. induction cs as [|c cs IH]; intros seen flag i D LV H DL; [reflexivity|]. destruct c as [[|p ups]| | |]; cbn [mcalls mstep expected].
    - rewrite app_nil_r. apply IH; assumption.
    - cbn [app]. fold (puts (p :: ups) (i_data i)). unfold store. cbn [i_delta i_data i_last i_has]. rewrite DL. apply IH; cbn [i_data i_last i_has i_delta]; auto.
      + rewrite D, puts_app. reflexivity.
      + unfold shown. destruct (seen ++ p :: ups) as [|q r] eqn:E; [destruct seen; discriminate|]. rewrite <- E. unfold current. rewrite <- puts_newest, puts_app, D. reflexivity.
    - cbn [app]. rewrite LV. f_equal. apply IH; auto.
    - cbn [app]. rewrite H. f_equal. apply IH; auto.
    - apply IH; auto. }
  apply G; reflexivity.
Qed.
(** ** with a minimum change *)
Definition near (delta : Q) (a b : val) : Prop :=
  match a, b with
  | V_D x, V_D y => Qabs (x - y) <= delta
  | V_I x, V_I y => inject_Z (Z.abs (x - y)) <= delta
  | V_S x, V_S y => x = y
  | V_V x, V_V y => Forall2 (fun x y => Qabs (x - y) <= delta) x y
  | _, _ => False
  end.
Definition proper (v : val) : Prop := v <> V_NaN.
Lemma convert_proper L t u v : proper v -> proper (convert L t (extractUnit u v)).
Proof. unfold proper. intros P. destruct u as [uf|], v as [q| |z|s|[|x [|y l]]], t; cbn; try discriminate; contradiction. Qed.
Lemma res_proper L units t d : (forall v, In (Some v) d -> proper v) -> forall v, In v (map (convert L t) (extractAll units O d)) -> proper v.
Proof. intros P v I. rewrite extract_all, map_map in I. apply in_map_iff in I as (p & <- & I). apply convert_proper, P, (in_present units d p I). Qed.
Lemma extremum_proper L b f bi tx l : (forall v, In v l -> proper v) -> proper (extremum L b f bi tx l).
Proof.
  intros P. destruct l as [|v r]; [discriminate|]. cbn [extremum]. pose proof (P v (or_introl eq_refl)) as PV. destruct v as [q| |z|s|x]; try discriminate; [contradiction|]. set (i := pickIndex _ _ _). destruct (nth_in_or_default i (V_V x :: r) (V_D invalid)) as [I|E]; [apply P, I|rewrite E; discriminate].
Qed.
Lemma combined_proper L units o t d : o <> O_average -> (forall v, In (Some v) d -> proper v) -> proper (combined L units o t d).
Proof.
  intros O P. pose proof (res_proper L units (commonType o t) d P) as R. unfold combined. set (res := map _ _) in *. clearbody res. destruct o; try discriminate; try contradiction.
  - unfold vectorizeOperation. destruct res as [|[] ?]; discriminate.
  - unfold sumOperation. destruct res as [|[] ?]; discriminate.
  - assert (DD : proper (diffOperation L res)). { destruct res as [|v r]; [discriminate|]. pose proof (R v (or_introl eq_refl)). destruct v; try discriminate. contradiction. } destruct (commonType O_diff t); try exact DD. discriminate.
  - apply extremum_proper, R.
  - apply extremum_proper, R.
Qed.
Lemma qfar_le a b delta : qfar a b delta = false <-> Qabs (a - b) <= delta.
Proof. apply qlt_ge. Qed.
Lemma qfarAny_le delta a : forall b, length b = length a -> (qfarAny a b delta = false -> Forall2 (fun x y => Qabs (x - y) <= delta) a b).
Proof. induction a as [|x a IH]; intros [|y b] E H; try discriminate; constructor; cbn in H; apply orb_false_iff in H as [H1 H2]; [apply qfar_le, H1|apply IH; [injection E as E; exact E|exact H2]]. Qed.
Lemma trunc_le (delta : Q) z : 0 <= delta -> (0 <= z)%Z -> (z <= trunc delta)%Z -> inject_Z z <= delta.
Proof.
  intros D Z0 H. unfold trunc in H. destruct delta as [p q]. unfold Qle in *. cbn [Qnum Qden inject_Z] in *. rewrite Z.quot_div_nonneg in H by lia. pose proof (Z.mul_div_le p (Z.pos q) ltac:(lia)). nia.
Qed.
Lemma unchanged_near a b delta : 0 <= delta -> proper a -> proper b -> changed a b delta = false -> near delta a b.
Proof.
  unfold proper. intros D A B H. destruct b as [y| |y|y|y], a as [x| |x|x|x]; try discriminate; try contradiction; cbn [changed near] in *.
  - apply qfar_le, H.
  - apply Z.ltb_ge in H. apply trunc_le; [exact D|lia|exact H].
  - apply negb_false_iff, String.eqb_eq in H. congruence.
  - destruct (Nat.eqb_spec (length y) (length x)) as [E|E]; [|discriminate]. apply qfarAny_le; assumption.
Qed.
Lemma near_refl a delta : 0 <= delta -> proper a -> near delta a a.
Proof.
  intros D P. assert (Z0 : forall x, Qabs (x - x) <= delta). { intros x. assert (E : x - x == 0) by lra. rewrite E. exact D. } destruct a as [x| |x|x|x]; cbn [near].
  - apply Z0.
  - contradiction.
  - rewrite Z.sub_diag. exact D.
  - reflexivity.
  - clear P. induction x; constructor; auto.
Qed.
Definition seenIn (cs : list mcall) : list (nat * val) := flat_map (fun c => match c with G_grant ups => ups | _ => [] end) cs.
(** with a minimum change what is read is never further off than it *)
Theorem C55_read_value_is_close L units o t n delta cs : 0 <= delta -> o <> O_average -> (forall p, In p (seenIn cs) -> proper (snd p)) -> seenIn cs <> [] ->
  exists answers w, mcalls L units o t (minp0 n (Some delta)) (cs ++ [G_get]) = answers ++ [A_value w] /\ near delta w (current L units o t n (seenIn cs)).
Proof.
  intros D O. assert (G : forall cs seen i, (forall p, In p (seen ++ seenIn cs) -> proper (snd p)) -> i_data i = puts seen (repeat None n) -> i_delta i = Some delta -> proper (i_last i) -> (seen <> [] -> near delta (i_last i) (current L units o t n seen)) -> seen ++ seenIn cs <> [] ->
    exists answers w, mcalls L units o t i (cs ++ [G_get]) = answers ++ [A_value w] /\ near delta w (current L units o t n (seen ++ seenIn cs))).
  { clear cs. induction cs as [|c cs IH]; intros seen i P DT DL PL NR NE.
    - cbn [seenIn flat_map] in *. rewrite app_nil_r in *. exists [], (i_last i). split; [reflexivity|apply NR, NE].
    - destruct c as [[|p ups]| | |]; cbn [app mcalls mstep seenIn flat_map] in *.
      + apply (IH seen i); assumption.
      + fold (puts (p :: ups) (i_data i)). change (p :: ups ++ flat_map (fun c => match c with G_grant u => u | _ => [] end) cs) with ((p :: ups) ++ seenIn cs) in *. rewrite app_assoc in *.
        assert (CU : combined L units o t (puts (p :: ups) (i_data i)) = current L units o t n (seen ++ p :: ups)) by (unfold current; rewrite <- puts_newest, puts_app, DT; reflexivity).
        assert (CP : proper (current L units o t n (seen ++ p :: ups))).
        { apply combined_proper; [exact O|]. intros v I. apply in_map_iff in I as (k & E & _). unfold newest in E. destruct (find _ _) as [q|] eqn:F; [|discriminate]. apply find_some in F as [F _]. injection E as <-. apply P. apply in_or_app. left. apply in_rev, F. }
        rewrite CU. unfold store. cbn [i_delta i_data i_last i_has]. rewrite DL.
        destruct (changed (i_last i) (current L units o t n (seen ++ p :: ups)) delta) eqn:C; apply IH; cbn [i_data i_delta i_last]; auto.
        * rewrite DT, puts_app. reflexivity.
        * intros _. apply near_refl; assumption.
        * rewrite DT, puts_app. reflexivity.
        * intros _. apply unchanged_near; assumption.
      + destruct (IH seen (mkMinp (i_data i) (i_last i) false (i_delta i))) as (a & w & E & W); auto. rewrite E. exists (A_value (i_last i) :: a), w. split; [reflexivity|exact W].
      + destruct (IH seen i) as (a & w & E & W); auto. rewrite E. exists (A_flag (i_has i) :: a), w. split; [reflexivity|exact W].
      + apply IH; auto. }
  intros P NE. apply (G cs [] (minp0 n (Some delta))); auto; [discriminate|]. intros H. contradiction.
Qed.

(** ** Examples *)
Definition anyLib : lib := mkLib (fun _ => 0) (fun _ => 0%Z) (fun _ => []) (fun q => if Qeq_bool q 0 then "0.000000" else "1.000000")%string (fun _ => "0")%string (fun _ => "[]")%string total (fun _ => "[]")%string (fun a _ => a) (fun a _ => a).
Definition halves : nat -> option (Q -> Q) := fun k => if Nat.eqb k 1 then Some (fun q => q / 2) else None.
Example C55_example_operations : let d := [Some (V_D 3); Some (V_I 8); None; Some (V_D 1)] in allNumbers d /\ numbers halves d = [3; 8 / 2; 1]
  /\ (exists m, combined anyLib halves O_max T_double d = V_D m /\ m == 4) /\ (exists m, combined anyLib halves O_min T_unknown d = V_D m /\ m == 1)
  /\ (exists m, combined anyLib halves O_sum T_double d = V_D m /\ m == 8) /\ (exists m, combined anyLib halves O_diff T_double d = V_D m /\ m == -2)
  /\ (exists m, combined anyLib halves O_average T_double (d ++ [Some (V_V [0; 2])]) = V_D m /\ m == 2).
Proof.
  cbv zeta. split; [intros v [E|[E|[E|[E|[]]]]]; try discriminate; injection E as <-; exact I|].
  split; [reflexivity|]. repeat split; (eexists; split; [reflexivity|reflexivity]).
Qed.
Example C55_example_texts : let d := [Some (V_S "on"); None; Some (V_S "no")] in allTexts d /\ texts d = ["on"; "no"]%string
  /\ combined anyLib halves O_and T_double d = V_S "0" /\ combined anyLib halves O_or T_double d = V_S "1" /\ combined anyLib halves O_sum T_string d = V_S "onno".
Proof. cbv zeta. split; [intros v [E|[E|[E|[]]]]; try discriminate; injection E as <-; eexists; reflexivity|]. repeat split; reflexivity. Qed.
Example C55_example_history : let cs := [G_isUpdated; G_grant [(1%nat, V_I 5)]; G_isUpdated; G_grant []; G_get; G_isUpdated; G_grant [(0%nat, V_I 7); (0%nat, V_I 9)]; G_get] in
  mcalls anyLib noUnits O_diff T_int (minp0 2 None) cs = [A_flag false; A_flag true; A_value (V_I 5); A_flag false; A_value (V_I 4)]
  /\ mcalls anyLib noUnits O_diff T_int (minp0 2 (Some 1)) cs = [A_flag false; A_flag true; A_value (V_I 5); A_flag false; A_value (V_I 5)].
Proof. split; vm_compute; reflexivity. Qed.

(** ** what does not hold *)
(** "treat all inputs as booleans": zeros of type double count as true, because they are written as 0.000000 first *)
Theorem C55_or_of_numbers_refuted L : numberText L 0 = "0.000000"%string -> ~ (forall units t d, allNumbers d -> combined L units O_or t d = V_S "1" -> exists x, In x (numbers units d) /\ ~ x == 0).
Proof.
  intros T H. destruct (H noUnits T_double [Some (V_D 0); Some (V_D 0)]) as (x & I & X).
  - intros v [E|[E|[]]]; injection E as <-; exact I.
  - unfold combined. cbn [commonType extractAll noUnits extractUnit map convert asText existsb getS]. rewrite T. reflexivity.
  - cbn in I. destruct I as [<-|[<-|[]]]; apply X; reflexivity.
Qed.
(** with a minimum change an update which was not yet read is no longer reported after a small change *)
Theorem C55_update_until_read_refuted L : ~ (forall units o t n delta ups ups', 0 <= delta -> mcalls L units o t (minp0 n (Some delta)) [G_grant ups; G_isUpdated] = [A_flag true] -> mcalls L units o t (minp0 n (Some delta)) [G_grant ups; G_grant ups'; G_isUpdated] = [A_flag true]).
Proof. intros H. specialize (H noUnits O_max T_int 1%nat 10 [(O, V_I 25)] [(O, V_I 30)]). vm_compute in H. specialize (H ltac:(discriminate) eq_refl). discriminate. Qed.
(** the average of empty vectors is not a number *)
Theorem C55_average_is_number_refuted L : ~ (forall units t d, allNumeric d -> combined L units O_average t d <> V_NaN).
Proof. intros H. apply (H noUnits T_double [Some (V_V [])]); [intros v [E|[]]; injection E as <-; exact I|reflexivity]. Qed.
