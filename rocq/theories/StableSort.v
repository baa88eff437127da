(** * Stable ordering of a queue (library)

    std::upper_bound followed by insert, and push_back followed by std::stable_sort, both put a new element
    behind the elements which are not greater.  [isort] is the resulting order; the specification is the
    usual one: a permutation, ordered, with equal elements in arrival order. *)
From Coq Require Import ZArith Bool List Lia Permutation Sorted.
Import ListNotations.

Section Order.
Context {A : Type} (lt : A -> A -> bool).
Definition le (a b : A) : bool := negb (lt b a).
Hypothesis lt_irrefl : forall a, lt a a = false.
Hypothesis le_trans : forall a b c, le a b = true -> le b c = true -> le a c = true.
Hypothesis lt_le : forall a b, lt a b = true -> le a b = true.

Fixpoint ins (x : A) (l : list A) : list A :=
  match l with
  | [] => [x]
  | y :: r => if lt x y then x :: l else y :: ins x r
  end.
Definition isort (l : list A) : list A := fold_left (fun q x => ins x q) l [].
Definition ordered (l : list A) : Prop := StronglySorted (fun a b => le a b = true) l.

(** the greatest element, the last of them when several are equal *)
Definition best (l : list A) : option A :=
  fold_left (fun acc x => match acc with None => Some x | Some y => if lt x y then Some y else Some x end) l None.

Lemma isort_snoc l x : isort (l ++ [x]) = ins x (isort l).
Proof. unfold isort. rewrite fold_left_app. reflexivity. Qed.
Lemma best_snoc l x : best (l ++ [x]) = match best l with None => Some x | Some y => if lt x y then Some y else Some x end.
Proof. unfold best. rewrite fold_left_app. reflexivity. Qed.

Lemma ins_perm x l : Permutation (x :: l) (ins x l).
Proof. induction l as [|y l IH]; cbn; [auto|]. destruct (lt x y); [auto|]. rewrite perm_swap. constructor. exact IH. Qed.
Lemma ins_in x l y : In y (ins x l) <-> y = x \/ In y l.
Proof. split; intros H.
  - apply (Permutation_in _ (Permutation_sym (ins_perm x l))) in H. destruct H; auto.
  - apply (Permutation_in _ (ins_perm x l)). destruct H; [left|right]; auto.
Qed.
Lemma ins_ordered x l : ordered l -> ordered (ins x l).
Proof.
  unfold ordered. induction l as [|y l IH]; intros S; cbn; [repeat constructor|].
  inversion S as [|? ? S2 F]; subst. destruct (lt x y) eqn:E.
  - constructor; [exact S|]. constructor; [apply lt_le; exact E|]. rewrite Forall_forall in *. intros z Z. eapply le_trans; [apply lt_le; exact E|auto].
  - constructor; [auto|]. apply Forall_forall. intros z Z. rewrite ins_in in Z. destruct Z as [->|Z].
    + unfold le. rewrite E. reflexivity.
    + rewrite Forall_forall in F. auto.
Qed.
Lemma isort_ordered l : ordered (isort l).
Proof. induction l as [|x l IH] using rev_ind; [constructor|]. rewrite isort_snoc. apply ins_ordered, IH. Qed.
Lemma isort_perm l : Permutation l (isort l).
Proof.
  induction l as [|x l IH] using rev_ind; [constructor|]. rewrite isort_snoc. etransitivity; [|apply ins_perm].
  rewrite Permutation_app_comm. cbn. constructor. exact IH.
Qed.
Lemma isort_in l x : In x (isort l) <-> In x l.
Proof. split; apply Permutation_in; [apply Permutation_sym|]; apply isort_perm. Qed.
Lemma isort_length l : length (isort l) = length l.
Proof. apply Permutation_length, Permutation_sym, isort_perm. Qed.

Lemma ins_filter (P : A -> bool) x l : ordered l -> filter P (ins x l) = if P x then ins x (filter P l) else filter P l.
Proof.
  unfold ordered. induction l as [|y l IH]; intros S; cbn; [destruct (P x); reflexivity|].
  inversion S as [|? ? S2 F]; subst. destruct (lt x y) eqn:E.
  - cbn. destruct (P x) eqn:PX; [|reflexivity]. destruct (P y) eqn:PY; cbn; [rewrite E; reflexivity|].
    assert (H : forall m, (forall z, In z m -> lt x z = true) -> ins x m = x :: m).
    { intros [|z m] H; [reflexivity|]. cbn. rewrite (H z (or_introl eq_refl)). reflexivity. }
    rewrite H; [reflexivity|]. intros z Z. apply filter_In in Z as [Z _]. rewrite Forall_forall in F. specialize (F z Z).
    destruct (lt x z) eqn:XZ; [reflexivity|]. assert (L : le y x = true) by (eapply le_trans; [exact F|]; unfold le; rewrite XZ; reflexivity).
    unfold le in L. rewrite E in L. discriminate.
  - cbn. rewrite IH by assumption. destruct (P y) eqn:PY; destruct (P x) eqn:PX; cbn; rewrite ?E; reflexivity.
Qed.
Lemma isort_filter (P : A -> bool) l : filter P (isort l) = isort (filter P l).
Proof.
  induction l as [|x l IH] using rev_ind; [reflexivity|]. rewrite isort_snoc, ins_filter, filter_app by apply isort_ordered. cbn [filter].
  destruct (P x); [rewrite isort_snoc, IH; reflexivity|rewrite app_nil_r; exact IH].
Qed.

(** an ordered list is its own stable order *)
Lemma ins_last x l : (forall y, In y l -> lt x y = false) -> ins x l = l ++ [x].
Proof. induction l as [|y l IH]; intros H; [reflexivity|]. cbn. rewrite H by (left; reflexivity). f_equal. apply IH. intros z Z. apply H. right; exact Z. Qed.
Lemma ordered_snoc l x : ordered (l ++ [x]) <-> ordered l /\ (forall y, In y l -> lt x y = false).
Proof.
  unfold ordered. induction l as [|y l IH]; cbn.
  - split; [|repeat constructor]. intros _. split; [constructor|]. intros ? [].
  - split.
    + intros S. inversion S as [|? ? S2 F]; subst. apply IH in S2 as [S2 L]. apply Forall_app in F as [F1 F2]. split; [constructor; assumption|].
      intros z [<-|Z]; [|auto]. inversion F2; subst. match goal with H : le _ _ = true |- _ => unfold le in H; apply negb_true_iff in H; exact H end.
    + intros [S L]. inversion S as [|? ? S2 F]; subst. constructor; [apply IH; auto|]. apply Forall_app. split; [exact F|]. repeat constructor.
      unfold le. rewrite L; auto.
Qed.
Lemma isort_id l : ordered l -> isort l = l.
Proof.
  induction l as [|x l IH] using rev_ind; intros S; [reflexivity|]. apply ordered_snoc in S as [S L].
  rewrite isort_snoc, IH by assumption. apply ins_last, L.
Qed.

(** the greatest element is the last one *)
Definition lastOf (l : list A) : option A := match rev l with [] => None | x :: _ => Some x end.
Lemma lastOf_snoc l x : lastOf (l ++ [x]) = Some x.
Proof. unfold lastOf. rewrite rev_app_distr. reflexivity. Qed.
Lemma ins_lastOf x l : ordered l -> lastOf (ins x l) = match lastOf l with None => Some x | Some y => if lt x y then Some y else Some x end.
Proof.
  intros S. destruct l as [|z l] using rev_ind; [reflexivity|]. clear IHl. rewrite lastOf_snoc. apply ordered_snoc in S as [S L].
  destruct (lt x z) eqn:E.
  - assert (H : forall m, ins x (m ++ [z]) = (ins x (m ++ [z])) -> exists m', ins x (m ++ [z]) = m' ++ [z]).
    { intros m _. induction m as [|y m [m' IH]].
      - exists [x]. cbn. rewrite E. reflexivity.
      - cbn. destruct (lt x y). + exists (x :: y :: m). reflexivity. + exists (y :: m'). rewrite IH. reflexivity. }
    destruct (H l eq_refl) as [m' ->]. apply lastOf_snoc.
  - rewrite ins_last; [rewrite app_assoc_reverse; cbn; change ([z; x]) with ([z] ++ [x]); rewrite app_assoc; apply lastOf_snoc|].
    intros y Y. apply in_app_iff in Y as [Y|[<-|[]]]; [|exact E]. specialize (L y Y).
    destruct (lt x y) eqn:XY; [|reflexivity].
    assert (K : le y z = true) by (unfold le; rewrite L; reflexivity).
    assert (K2 : le z x = true) by (unfold le; rewrite E; reflexivity).
    pose proof (le_trans _ _ _ K K2) as K3. unfold le in K3. rewrite XY in K3. discriminate.
Qed.
Lemma best_last l : best l = lastOf (isort l).
Proof.
  induction l as [|x l IH] using rev_ind; [reflexivity|]. rewrite best_snoc, isort_snoc, ins_lastOf, IH by apply isort_ordered. reflexivity.
Qed.
Lemma best_none l : best l = None <-> l = [].
Proof.
  split; [|intros ->; reflexivity]. destruct l as [|x l] using rev_ind; [reflexivity|]. rewrite best_snoc. destruct (best l); [destruct (lt x a)|]; discriminate.
Qed.
(** what [best] means: in the list, nothing greater, and nothing equal behind it *)
Lemma best_spec l b : best l = Some b <-> exists l1 l2, l = l1 ++ b :: l2 /\ (forall y, In y l1 -> le y b = true) /\ (forall y, In y l2 -> lt y b = true).
Proof.
  split.
  - revert b. induction l as [|x l IH] using rev_ind; intros b H; [discriminate|]. rewrite best_snoc in H.
    destruct (best l) as [y|] eqn:B.
    + destruct (IH y eq_refl) as (l1&l2&->&H1&H2). destruct (lt x y) eqn:E; injection H as <-.
      * exists l1, (l2 ++ [x]). split; [rewrite <- app_assoc; reflexivity|]. split; [exact H1|]. intros z Z. apply in_app_iff in Z as [Z|[<-|[]]]; auto.
      * exists (l1 ++ y :: l2), []. split; [rewrite <- app_assoc; reflexivity|]. assert (YX : le y x = true) by (unfold le; rewrite E; reflexivity).
        split; [|intros ? []]. intros z Z. apply in_app_iff in Z as [Z|[<-|Z]]; [|exact YX|].
        -- eapply le_trans; [apply H1; exact Z|exact YX].
        -- eapply le_trans; [apply lt_le, H2; exact Z|exact YX].
    + injection H as <-. apply best_none in B as ->. exists [], []. split; [reflexivity|]. split; intros ? [].
  - intros (l1&l2&->&H1&H2).
    assert (K : best (l1 ++ [b]) = Some b).
    { rewrite best_snoc. destruct (best l1) as [y|] eqn:E; [|reflexivity].
      assert (In y l1). { rewrite best_last in E. apply isort_in. revert E. generalize (isort l1). intros m. destruct m as [|z m] using rev_ind; [discriminate|]. rewrite lastOf_snoc. intros E; injection E as ->. apply in_or_app. right; left; reflexivity. }
      specialize (H1 y H). unfold le in H1. apply negb_true_iff in H1. rewrite H1. reflexivity. }
    replace (l1 ++ b :: l2) with ((l1 ++ [b]) ++ l2) by (rewrite <- app_assoc; reflexivity).
    induction l2 as [|x l2 IH] using rev_ind; [rewrite app_nil_r; exact K|].
    rewrite app_assoc, best_snoc, IH; [|intros y Y; apply H2; apply in_or_app; left; exact Y]. rewrite H2; [reflexivity|]. apply in_or_app. right; left; reflexivity.
Qed.
End Order.
