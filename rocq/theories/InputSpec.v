(** * What an input is supposed to do (specification) and that it does it

    The specification keeps, for every source, the values received and not yet shown in the order in which
    they ARRIVED; nothing is ever sorted.  "Latest" is the greatest (time, iteration), the last to arrive
    among equals ([best], characterised by [best_spec]).  The queue of the code is the stable order of these. *)
From Coq Require Import ZArith Bool List Lia ZifyBool Permutation Sorted.
From Verif Require Import HTime Action StableSort Interfaces.
Import ListNotations.
Open Scope Z_scope.

(** ** Specification.  A source is described by the same record; its queue field lists arrivals. *)
Definition latest (l : list drec) : option drec := best rlt l.
(** the value a new value [x] follows: the latest one not greater than it, or the current one when none waits *)
Definition spec_keeps (gap : Z) (onChange : bool) (x : drec) (a : isrc) : bool :=
  match s_queue a with
  | [] => match s_cur a with Some cd => keeps gap onChange (r_time x) (r_data x) (s_curTime a) cd | None => true end
  | _ => match latest (filter (fun y => negb (rlt x y)) (s_queue a)) with
         | None => true
         | Some p => keeps gap onChange (r_time x) (r_data x) (r_time p) (r_data p)
         end
  end.
Definition spec_add (gap : Z) (onChange : bool) (x : drec) (a : isrc) : option isrc :=
  if s_deact a <? r_time x then None
  else if spec_keeps gap onChange x a then Some (set_s_queue (s_queue a ++ [x]) a) else None.
(** which waiting values an advance to [t] consumes *)
Definition isOld (t : Z) (r : drec) : bool := r_time r <? t.
Definition isAt (t : Z) (r : drec) : bool := r_time r =? t.
Definition firstIter (l : list drec) : option Z :=
  fold_left (fun m r => match m with None => Some (r_iter r) | Some k => Some (Z.min k (r_iter r)) end) l None.
Definition due (mode : advance) (t : Z) (pend : list drec) (r : drec) : bool :=
  match mode with
  | UpTo => r_time r <? t
  | Inclusive => r_time r <=? t
  | NextIteration =>
      isOld t r ||
      (isAt t r && (match firstIter (filter (isAt t) pend) with Some k => r_iter r =? k | None => false end)
       && (match latest (filter (isOld t) pend) with None => true | Some l => r_iter r =? r_iter l end))
  end.
Definition spec_show (onChange : bool) (u : drec) (a : isrc) : isrc * bool := updateData onChange u a.
Definition spec_advance (mode : advance) (onChange : bool) (t : Z) (a : isrc) : isrc * bool :=
  let d := due mode t (s_queue a) in
  match latest (filter d (s_queue a)) with
  | None => (a, false)
  | Some u => let '(a', b) := spec_show onChange u a in (set_s_queue (filter (fun r => negb (d r)) (s_queue a)) a', b)
  end.
Definition spec_cut (m : Z) (a : isrc) : isrc := deactivate m (set_s_queue (filter (fun r => r_time r <=? m) (s_queue a)) a).

(** ** The order on records *)
Lemma rlt_irrefl a : rlt a a = false.
Proof. unfold rlt. rewrite Z.ltb_irrefl, Z.eqb_refl, Z.ltb_irrefl. reflexivity. Qed.
Lemma rlt_eq a b : rlt a b = (r_time a <? r_time b) || ((r_time a =? r_time b) && (r_iter a <? r_iter b)).
Proof. unfold rlt. destruct (r_time a <? r_time b), (r_time a =? r_time b); reflexivity. Qed.
Lemma rle_trans a b c : le rlt a b = true -> le rlt b c = true -> le rlt a c = true.
Proof. unfold le. rewrite !rlt_eq. lia. Qed.
Lemma rlt_le a b : rlt a b = true -> le rlt a b = true.
Proof. unfold le. rewrite !rlt_eq. lia. Qed.
Lemma rle_time a b : le rlt a b = true -> r_time a <= r_time b.
Proof. unfold le. rewrite !rlt_eq. lia. Qed.
Definition sorted (q : list drec) : Prop := ordered rlt q.
Definition order (l : list drec) : list drec := isort rlt l.
Lemma order_sorted l : sorted (order l).
Proof. apply isort_ordered; [apply rle_trans|apply rlt_le]. Qed.
Lemma order_filter P l : filter P (order l) = order (filter P l).
Proof. apply isort_filter; [apply rle_trans|apply rlt_le]. Qed.
Lemma latest_order l : latest l = lastOf (order l).
Proof. apply best_last; [apply rle_trans|apply rlt_le]. Qed.
Definition orderQ (a : isrc) : isrc := set_s_queue (order (s_queue a)) a.

(** ** Splitting an ordered queue *)
Definition downIn (q : list drec) (p : drec -> bool) : Prop := forall a b, In a q -> In b q -> le rlt a b = true -> p b = true -> p a = true.
Definition downward (p : drec -> bool) : Prop := forall a b, le rlt a b = true -> p b = true -> p a = true.
Lemma downward_in p q : downward p -> downIn q p.
Proof. intros D a b _ _. apply D. Qed.
Lemma filter_all {A} (p : A -> bool) l : (forall x, In x l -> p x = true) -> filter p l = l.
Proof. induction l as [|x l IH]; intros H; [reflexivity|]. cbn. rewrite H by (left; reflexivity). f_equal. apply IH. intros y Y. apply H. right; exact Y. Qed.
Lemma filter_none {A} (p : A -> bool) l : (forall x, In x l -> p x = false) -> filter p l = [].
Proof. induction l as [|x l IH]; intros H; [reflexivity|]. cbn. rewrite H by (left; reflexivity). apply IH. intros y Y. apply H. right; exact Y. Qed.
Lemma split_prefix p q : sorted q -> downIn q p -> q = filter p q ++ filter (fun r => negb (p r)) q.
Proof.
  intros S D. induction S as [|x q S IH F]; [reflexivity|]. cbn. destruct (p x) eqn:P; cbn; [f_equal; apply IH; intros a b A B; apply D; right; assumption|].
  assert (N : forall y, In y q -> p y = false).
  { intros y Y. destruct (p y) eqn:E; [|reflexivity]. rewrite Forall_forall in F. rewrite (D x y (or_introl eq_refl) (or_intror Y) (F y Y) E) in P. discriminate. }
  rewrite (filter_none p q N). cbn. rewrite (filter_all (fun r => negb (p r)) q); [reflexivity|]. intros y Y. rewrite N by exact Y. reflexivity.
Qed.
Lemma bytesOf_app a b : bytesOf (a ++ b) = bytesOf a + bytesOf b.
Proof. unfold bytesOf. induction a as [|x a IH]; [reflexivity|]. cbn. rewrite IH. lia. Qed.
Lemma bytesOf_perm a b : Permutation a b -> bytesOf a = bytesOf b.
Proof. unfold bytesOf. induction 1; cbn; lia. Qed.
Lemma passWhile_app p last n a b : (forall x, In x a -> p x = true) -> (match b with [] => True | x :: _ => p x = false end) ->
  passWhile p last n (a ++ b) = (match lastOf a with Some x => x | None => last end, n + bytesOf a, b).
Proof.
  revert last n. induction a as [|x a IH]; intros last n H B.
  - cbn. unfold lastOf. cbn. rewrite Z.add_0_r. destruct b as [|y b]; cbn; [reflexivity|]. rewrite B. reflexivity.
  - cbn [app passWhile]. rewrite H by (left; reflexivity). rewrite IH; [|intros y Y; apply H; right; exact Y|exact B].
    f_equal. f_equal.
    + destruct a as [|z a] using rev_ind; [reflexivity|]. rewrite lastOf_snoc. change (x :: a ++ [z]) with ((x :: a) ++ [z]). rewrite lastOf_snoc. reflexivity.
    + unfold bytesOf; cbn; lia.
Qed.
Lemma head_filter_neg (p : drec -> bool) q : match filter (fun r => negb (p r)) q with [] => True | x :: _ => p x = false end.
Proof. induction q as [|x q IH]; [exact I|]. cbn. destruct (p x) eqn:P; cbn; [exact IH|exact P]. Qed.
Lemma passWhile_down p last n q : sorted q -> downIn q p ->
  passWhile p last n q = (match lastOf (filter p q) with Some x => x | None => last end, n + bytesOf (filter p q), filter (fun r => negb (p r)) q).
Proof.
  intros S D. rewrite (split_prefix p q S D) at 1. apply passWhile_app; [|apply head_filter_neg].
  intros x X. apply filter_In in X. tauto.
Qed.
Lemma lastOf_cons {A} (x : A) l : lastOf (x :: l) = Some (match lastOf l with Some y => y | None => x end).
Proof. destruct l as [|z l] using rev_ind; [reflexivity|]. rewrite lastOf_snoc. change (x :: l ++ [z]) with ((x :: l) ++ [z]). apply lastOf_snoc. Qed.

(** ** One queue *)
Lemma pass_simple p (q : list drec) : sorted q -> downward p ->
  (match q with [] => None | x :: r => if p x then Some (passWhile p x (Z.of_nat (length (r_data x))) r) else None end)
  = match lastOf (filter p q) with None => None | Some u => Some (u, bytesOf (filter p q), filter (fun r => negb (p r)) q) end.
Proof.
  intros S D. destruct q as [|x q]; [reflexivity|]. destruct (p x) eqn:P.
  - assert (SQ : sorted q) by (inversion S; assumption). rewrite passWhile_down by (try apply downward_in; assumption). cbn [filter]. rewrite P. cbn [negb]. rewrite lastOf_cons. reflexivity.
  - rewrite (filter_none p (x :: q)); [reflexivity|]. inversion S as [|? ? _ F]; subst. intros y [<-|Y]; [exact P|].
    destruct (p y) eqn:E; [|reflexivity]. rewrite Forall_forall in F. rewrite (D x y (F y Y) E) in P. discriminate.
Qed.
Lemma down_lt t : downward (fun y => r_time y <? t).
Proof. intros a b L H. apply rle_time in L. lia. Qed.
Lemma down_le t : downward (fun y => r_time y <=? t).
Proof. intros a b L H. apply rle_time in L. lia. Qed.

Lemma firstIter_spec l : match firstIter l with None => l = [] | Some k => (exists r, In r l /\ r_iter r = k) /\ (forall r, In r l -> k <= r_iter r) end.
Proof.
  unfold firstIter. induction l as [|x l IH] using rev_ind; [reflexivity|]. rewrite fold_left_app. cbn.
  match goal with |- context [fold_left ?f l None] => destruct (fold_left f l None) as [k|] end.
  - destruct IH as [(r&R1&R2) H]. split.
    + destruct (Z.min_spec k (r_iter x)) as [[_ ->]|[_ ->]]; [exists r|exists x]; rewrite in_app_iff; cbn; auto.
    + intros y Y. apply in_app_iff in Y as [Y|[<-|[]]]; [specialize (H y Y)|]; lia.
  - subst. cbn. split; [exists x; auto|]. intros y [<-|[]]. lia.
Qed.
Lemma firstIter_perm l l' : Permutation l l' -> firstIter l = firstIter l'.
Proof.
  intros P. pose proof (firstIter_spec l) as A. pose proof (firstIter_spec l') as B.
  destruct (firstIter l) as [k|], (firstIter l') as [k'|]; [|subst; apply Permutation_sym, Permutation_nil in P; subst; destruct A as [(r&[]&_) _]|subst; apply Permutation_nil in P; subst; destruct B as [(r&[]&_) _]|reflexivity].
  destruct A as [(r&R1&R2) A], B as [(r'&R1'&R2') B]. f_equal.
  apply (Permutation_in _ P) in R1. apply (Permutation_in _ (Permutation_sym P)) in R1'. specialize (A _ R1'). specialize (B _ R1). lia.
Qed.
Lemma firstIter_sorted x q t : sorted (x :: q) -> r_time x = t -> firstIter (filter (isAt t) (x :: q)) = Some (r_iter x).
Proof.
  intros S T. pose proof (firstIter_spec (filter (isAt t) (x :: q))) as A.
  assert (IX : In x (filter (isAt t) (x :: q))) by (apply filter_In; split; [left; reflexivity|unfold isAt; lia]).
  destruct (firstIter _) as [k|]; [|rewrite A in IX; destruct IX]. destruct A as [(r&R1&R2) A]. specialize (A x IX). f_equal.
  apply filter_In in R1 as [R1 R3]. unfold isAt in R3. inversion S as [|? ? _ F]; subst. destruct R1 as [<-|R1]; [reflexivity|].
  rewrite Forall_forall in F. specialize (F r R1). unfold le in F; rewrite rlt_eq in F; lia.
Qed.

Lemma filter_filter {A} (p q : A -> bool) l : filter p (filter q l) = filter (fun x => q x && p x) l.
Proof. induction l as [|x l IH]; [reflexivity|]. cbn. destruct (q x); cbn; rewrite IH; reflexivity. Qed.
Lemma sorted_filter p q : sorted q -> sorted (filter p q).
Proof.
  unfold sorted, ordered. induction q as [|x q IH]; intros S; [exact S|]. inversion S as [|? ? S2 F]; subst. cbn. destruct (p x); [|auto]. constructor; [auto|].
  rewrite Forall_forall in *. intros y Y. apply filter_In in Y as [Y _]. auto.
Qed.
Lemma filter_ext_in' {A} (p q : A -> bool) l : (forall x, In x l -> p x = q x) -> filter p l = filter q l.
Proof. apply filter_ext_in. Qed.

(** the next iteration: everything old, and the first iteration at [t] under the condition of [due] *)
Lemma pass_next t q : sorted q ->
  passQueue NextIteration t q = match lastOf (filter (due NextIteration t q) q) with
    | None => None
    | Some u => Some (u, bytesOf (filter (due NextIteration t q) q), filter (fun r => negb (due NextIteration t q r)) q) end.
Proof.
  intros S. set (D := due NextIteration t q).
  (* reduce to a prefix condition *)
  assert (GO : forall a b u n, q = a ++ b -> (forall x, In x a -> D x = true) -> (forall x, In x b -> D x = false) -> lastOf a = Some u -> n = bytesOf a ->
     Some (u, n, b) = match lastOf (filter D q) with None => None | Some u => Some (u, bytesOf (filter D q), filter (fun r => negb (D r)) q) end).
  { intros a b u n -> HA HB L ->. rewrite !filter_app, (filter_all D a HA), (filter_none D b HB), app_nil_r, L.
    rewrite (filter_none _ a), (filter_all _ b); [reflexivity| |]; intros x X; [rewrite HB|rewrite HA]; auto. }
  destruct q as [|x r]; [reflexivity|]. cbn [passQueue].
  pose proof S as SS. unfold sorted in S. inversion S as [|? ? S2 F]; subst. rewrite Forall_forall in F.
  destruct (t <? r_time x) eqn:TX.
  { rewrite (filter_none D); [reflexivity|]. intros y Y. assert (L : r_time x <= r_time y) by (destruct Y as [<-|Y]; [lia|]; apply rle_time; auto).
    unfold D. cbn [due]. unfold isOld, isAt. replace (r_time y <? t) with false by lia. replace (r_time y =? t) with false by lia. reflexivity. }
  rewrite passWhile_down by (try apply downward_in, down_lt; exact S2).
  set (old := filter (fun y => r_time y <? t) r). set (rest := filter (fun y => negb (r_time y <? t)) r).
  assert (ER : r = old ++ rest) by (apply split_prefix; [exact S2|apply downward_in, down_lt]).
  set (lst := match lastOf old with Some y => y | None => x end).
  assert (RT : forall y, In y rest -> t <= r_time y) by (intros y Y; apply filter_In in Y; lia).
  assert (OT : forall y, In y old -> r_time y < t) by (intros y Y; apply filter_In in Y; lia).
  assert (SR : sorted rest) by (apply sorted_filter; exact S2).
  (* the iteration of the last old record, if there is one *)
  assert (CASES : (r_time x < t /\ latest (filter (isOld t) (x :: r)) = Some lst /\ filter (isAt t) (x :: r) = filter (isAt t) rest)
     \/ (r_time x = t /\ old = [] /\ lst = x /\ latest (filter (isOld t) (x :: r)) = None)).
  { destruct (Z.eq_dec (r_time x) t) as [E|E].
    - right. assert (O : old = []). { unfold old. apply filter_none. intros y Y. specialize (F y Y). apply rle_time in F. lia. }
      split; [exact E|]. split; [exact O|]. split; [unfold lst; rewrite O; reflexivity|].
      replace (filter (isOld t) (x :: r)) with (@nil drec); [reflexivity|]. symmetry. apply filter_none. intros y [<-|Y]; unfold isOld; [lia|]. specialize (F y Y). apply rle_time in F. lia.
    - left. assert (E2 : r_time x < t) by lia. split; [exact E2|]. split.
      + rewrite latest_order. unfold order. rewrite isort_id; [|apply (sorted_filter (isOld t)); exact SS].
        cbn [filter]. unfold isOld at 1. replace (r_time x <? t) with true by lia. rewrite lastOf_cons. reflexivity.
      + cbn [filter]. unfold isAt at 1. replace (r_time x =? t) with false by lia. rewrite ER, filter_app, (filter_none _ old); [reflexivity|].
        intros y Y. specialize (OT y Y). unfold isAt. lia. }
  assert (HD : forall y, In y (x :: old) -> D y = true).
  { intros y Y. unfold D. cbn [due]. destruct CASES as [(E&_)|(E&O&_&LN)].
    - assert (r_time y < t) by (destruct Y as [<-|Y]; auto). unfold isOld at 1. replace (r_time y <? t) with true by lia. reflexivity.
    - rewrite O in Y. destruct Y as [<-|[]]. rewrite LN, (firstIter_sorted x r t SS E), Z.eqb_refl. unfold isAt. rewrite E, Z.eqb_refl, orb_true_r. reflexivity. }
  assert (LXO : lastOf (x :: old) = Some lst) by (rewrite lastOf_cons; reflexivity).
  clearbody lst. clearbody old rest.
  destruct rest as [|y rs].
  { apply (GO (x :: old) []); [rewrite app_nil_r, ER at 1; rewrite app_nil_r; reflexivity|exact HD|intros ? []|exact LXO|reflexivity]. }
  destruct (r_time y =? t) eqn:YT.
  2:{ apply (GO (x :: old) (y :: rs)); [rewrite ER at 1; reflexivity|exact HD| |exact LXO|reflexivity].
      intros z Z. assert (L : t < r_time z).
      { assert (t < r_time y) by (specialize (RT y (or_introl eq_refl)); lia). destruct Z as [<-|Z]; [exact H|]. inversion SR as [|? ? _ F2]; subst.
        rewrite Forall_forall in F2. specialize (F2 z Z). apply rle_time in F2. lia. }
      unfold D. cbn [due]. unfold isOld, isAt. replace (r_time z <? t) with false by lia. replace (r_time z =? t) with false by lia. reflexivity. }
  apply Z.eqb_eq in YT. set (p := fun z => (r_time z =? t) && (r_iter z =? r_iter lst)).
  assert (DR : forall z, In z (y :: rs) -> D z = if r_iter y =? r_iter lst then p z else false).
  { intros z Z. specialize (RT z Z). unfold D. cbn [due]. unfold isOld at 1. replace (r_time z <? t) with false by lia. cbn [orb].
    destruct CASES as [(E&LS&FA)|(E&O&LX&LN)].
    - rewrite LS, FA. rewrite (firstIter_sorted y rs t SR YT). unfold p, isAt.
      destruct (r_time z =? t); [|destruct (r_iter y =? r_iter lst); reflexivity]. destruct (Z.eqb_spec (r_iter y) (r_iter lst)), (Z.eqb_spec (r_iter z) (r_iter y)), (Z.eqb_spec (r_iter z) (r_iter lst)); cbn; congruence.
    - rewrite LN, (firstIter_sorted x r t SS E). rewrite LX in *. unfold p, isAt. rewrite andb_true_r.
      assert (XY : r_iter x <= r_iter y).
      { assert (In y r) by (rewrite ER; apply in_or_app; right; left; reflexivity). specialize (F y H). unfold le in F; rewrite rlt_eq in F; lia. }
      destruct (Z.eqb_spec (r_iter y) (r_iter x)) as [Q|Q]; [rewrite ?LX; reflexivity|].
      assert (YZ : r_time z = t -> r_iter y <= r_iter z).
      { intros ZT. destruct Z as [<-|Z]; [lia|]. inversion SR as [|? ? _ F2]; subst. rewrite Forall_forall in F2. specialize (F2 z Z). unfold le in F2; rewrite rlt_eq in F2; lia. }
      destruct (Z.eqb_spec (r_time z) t) as [ZT|ZT]; [|reflexivity]. specialize (YZ ZT). cbn. lia. }
  destruct (Z.eqb_spec (r_iter y) (r_iter lst)) as [Q|Q].
  - (* the loop passes the first iteration *)
    assert (YF : forall z, In z (y :: rs) -> r_time z = t -> r_iter y <= r_iter z).
    { intros z Z ZT. destruct Z as [<-|Z]; [lia|]. inversion SR as [|? ? _ F2]; subst. rewrite Forall_forall in F2. specialize (F2 z Z). unfold le in F2; rewrite rlt_eq in F2; lia. }
    assert (DI : downIn (y :: rs) p).
    { intros a b A B L P. unfold p in *. specialize (YF a A). specialize (RT a A). unfold le in L; rewrite rlt_eq in L; lia. }
    rewrite passWhile_down by assumption.
    apply (GO ((x :: old) ++ filter p (y :: rs)) (filter (fun z => negb (p z)) (y :: rs))).
    + rewrite <- app_assoc, <- (split_prefix p (y :: rs) SR DI). rewrite ER at 1. reflexivity.
    + intros z Z. apply in_app_iff in Z as [Z|Z]; [auto|]. apply filter_In in Z as [Z P]. rewrite DR by exact Z. exact P.
    + intros z Z. apply filter_In in Z as [Z P]. rewrite DR by exact Z. destruct (p z); [discriminate|reflexivity].
    + cbn [filter]. replace (p y) with true by (unfold p; lia). 
      destruct (filter p rs) as [|w ws] using rev_ind; [rewrite lastOf_snoc; reflexivity|].
      rewrite app_comm_cons, app_assoc, !lastOf_snoc. reflexivity.
    + rewrite bytesOf_app. reflexivity.
  - assert (PW : passWhile p lst (Z.of_nat (length (r_data x)) + bytesOf old) (y :: rs) = (lst, Z.of_nat (length (r_data x)) + bytesOf old, y :: rs)).
    { cbn [passWhile]. replace (p y) with false by (unfold p; lia). reflexivity. }
    rewrite PW. apply (GO (x :: old) (y :: rs)); [rewrite ER at 1; reflexivity|exact HD| |exact LXO|reflexivity].
    intros z Z. rewrite DR by exact Z. reflexivity.
Qed.

Lemma due_ext mode t l l' r : Permutation l l' -> latest (filter (isOld t) l) = latest (filter (isOld t) l') -> due mode t l r = due mode t l' r.
Proof.
  intros P L. destruct mode; cbn [due]; [reflexivity|reflexivity|]. rewrite L.
  rewrite (firstIter_perm (filter (isAt t) l) (filter (isAt t) l')); [reflexivity|].
  clear L. induction P; cbn; try (destruct (isAt t x)); try (destruct (isAt t y)); auto; try constructor; auto. econstructor; eassumption.
Qed.
Lemma order_perm l : Permutation l (order l). Proof. apply isort_perm. Qed.
Lemma latest_idem l : latest (order l) = latest l.
Proof. rewrite !latest_order. unfold order at 1. rewrite isort_id by apply order_sorted. reflexivity. Qed.
Lemma due_order mode t l r : due mode t (order l) r = due mode t l r.
Proof. apply due_ext; [apply Permutation_sym, order_perm|]. rewrite order_filter. apply latest_idem. Qed.

Lemma passQueue_spec mode t q : sorted q ->
  passQueue mode t q = match lastOf (filter (due mode t q) q) with
    | None => None
    | Some u => Some (u, bytesOf (filter (due mode t q) q), filter (fun r => negb (due mode t q r)) q) end.
Proof.
  intros S. destruct mode.
  - etransitivity; [|exact (pass_simple (fun y => r_time y <? t) q S (down_lt t))].
    unfold passQueue. destruct q as [|x q]; [reflexivity|]. destruct (Z.leb_spec t (r_time x)), (Z.ltb_spec (r_time x) t); try lia; reflexivity.
  - etransitivity; [|exact (pass_simple (fun y => r_time y <=? t) q S (down_le t))].
    unfold passQueue. destruct q as [|x q]; [reflexivity|]. destruct (Z.leb_spec (r_time x) t), (Z.ltb_spec t (r_time x)); try lia; reflexivity.
  - apply pass_next. exact S.
Qed.
Definition dueBytes mode t (a : isrc) : Z := bytesOf (filter (due mode t (s_queue a)) (s_queue a)).
Lemma updateData_queue oc u s q : updateData oc u (set_s_queue q s) = (set_s_queue q (fst (updateData oc u s)), snd (updateData oc u s)).
Proof.
  unfold updateData. cbn [s_cur set_s_queue s_curTime].
  destruct (s_cur s) as [cd|]; [|reflexivity]. destruct (negb oc); [reflexivity|]. destruct (negb (beq cd (r_data u))); [reflexivity|].
  cbn [fst snd]. destruct (s_curTime s =? r_time u); reflexivity.
Qed.
Lemma advanceSource_spec mode oc t a :
  advanceSource mode oc t (orderQ a) = (orderQ (fst (spec_advance mode oc t a)), snd (spec_advance mode oc t a), dueBytes mode t a).
Proof.
  unfold advanceSource, spec_advance, orderQ, dueBytes. cbn [s_queue set_s_queue].
  rewrite passQueue_spec by apply order_sorted.
  assert (E : filter (due mode t (order (s_queue a))) (order (s_queue a)) = order (filter (due mode t (s_queue a)) (s_queue a))).
  { rewrite <- order_filter. apply filter_ext. intros r. apply due_order. }
  rewrite E, <- latest_order.
  assert (E2 : filter (fun r => negb (due mode t (order (s_queue a)) r)) (order (s_queue a)) = order (filter (fun r => negb (due mode t (s_queue a) r)) (s_queue a))).
  { rewrite <- order_filter. apply filter_ext. intros r. rewrite due_order. reflexivity. }
  destruct (latest (filter (due mode t (s_queue a)) (s_queue a))) as [u|] eqn:L.
  - rewrite E2, updateData_queue. unfold spec_show. destruct (updateData oc u a) as [a' b]. cbn [fst snd].
    rewrite (bytesOf_perm _ _ (Permutation_sym (order_perm _))). reflexivity.
  - unfold latest in L. apply best_none in L. cbn [fst snd]. rewrite L. reflexivity.
Qed.

Lemma upperBound_spec x q : sorted q -> upperBound x q = (filter (fun y => negb (rlt x y)) q, filter (rlt x) q).
Proof.
  intros S. induction S as [|y q S IH F]; [reflexivity|]. cbn. destruct (rlt x y) eqn:E; cbn.
  - assert (H : forall z, In z q -> rlt x z = true).
    { intros z Z. rewrite Forall_forall in F. specialize (F z Z). unfold le in F. rewrite rlt_eq in *. lia. }
    rewrite filter_none, filter_all; auto. intros z Z. rewrite H by exact Z. reflexivity.
  - rewrite IH. reflexivity.
Qed.
Lemma ins_split x q : sorted q -> ins rlt x q = filter (fun y => negb (rlt x y)) q ++ x :: filter (rlt x) q.
Proof.
  intros S. induction S as [|y q S IH F]; [reflexivity|]. cbn. destruct (rlt x y) eqn:E; cbn.
  - assert (H : forall z, In z q -> rlt x z = true).
    { intros z Z. rewrite Forall_forall in F. specialize (F z Z). unfold le in F. rewrite rlt_eq in *. lia. }
    rewrite filter_none, filter_all; auto. intros z Z. rewrite H by exact Z. reflexivity.
  - rewrite IH. reflexivity.
Qed.
Lemma order_snoc l x : order (l ++ [x]) = ins rlt x (order l). Proof. apply isort_snoc. Qed.
Lemma order_nil l : order l = [] <-> l = [].
Proof. split; [|intros ->; reflexivity]. intros H. pose proof (order_perm l) as P. rewrite H in P. apply Permutation_nil, Permutation_sym, P. Qed.
Lemma lastOf_none {A} (l : list A) : lastOf l = None <-> l = [].
Proof. split; [|intros ->; reflexivity]. destruct l as [|x l] using rev_ind; [reflexivity|]. rewrite lastOf_snoc. discriminate. Qed.
Lemma lastOf_in {A} (l : list A) x : lastOf l = Some x -> In x l.
Proof. destruct l as [|y l] using rev_ind; [discriminate|]. rewrite lastOf_snoc. intros E; injection E as ->. apply in_or_app. right; left; reflexivity. Qed.

Lemma addToSource_spec gap oc t it d a :
  addToSource gap oc t it d (orderQ a) = if spec_keeps gap oc (mkRec t it d) a then Some (orderQ (set_s_queue (s_queue a ++ [mkRec t it d]) a)) else None.
Proof.
  set (x := mkRec t it d). unfold addToSource, spec_keeps, orderQ. fold x. cbn [s_queue set_s_queue s_cur s_curTime].
  assert (OS : set_s_queue (order (s_queue a ++ [x])) (set_s_queue (s_queue a ++ [x]) a) = set_s_queue (ins rlt x (order (s_queue a))) a) by (rewrite order_snoc; reflexivity).
  rewrite OS. clear OS.
  destruct (lastOf (order (s_queue a))) as [back|] eqn:L.
  2:{ apply lastOf_none in L. rewrite L. apply (proj1 (order_nil _)) in L. rewrite L. cbn [ins].
      destruct (s_cur a) as [cd|]; [|reflexivity]. destruct (keeps _ _ _ _ _ _); reflexivity. }
  assert (NE : s_queue a <> []) by (intros N; rewrite N in L; discriminate).
  assert (LF : latest (filter (fun y => negb (rlt x y)) (s_queue a)) = lastOf (filter (fun y => negb (rlt x y)) (order (s_queue a)))) by (rewrite order_filter, <- latest_order; reflexivity).
  replace (match s_queue a with [] => match s_cur a with Some cd => keeps gap oc (r_time x) (r_data x) (s_curTime a) cd | None => true end
     | _ :: _ => match latest (filter (fun y => negb (rlt x y)) (s_queue a)) with Some p => keeps gap oc (r_time x) (r_data x) (r_time p) (r_data p) | None => true end end)
    with (match lastOf (filter (fun y => negb (rlt x y)) (order (s_queue a))) with Some p => keeps gap oc (r_time x) (r_data x) (r_time p) (r_data p) | None => true end)
    by (rewrite <- LF; destruct (s_queue a); [contradiction|reflexivity]).
  clear LF NE. pose proof (order_sorted (s_queue a)) as S. revert L S. generalize (order (s_queue a)). intros q L S.
  change (r_time x) with t. change (r_data x) with d.
  destruct (Z.ltb_spec (r_time back) t) as [LT|GE].
  - assert (ALL : forall y, In y q -> rlt x y = false).
    { intros y Y. destruct q as [|z q] using rev_ind; [destruct Y|]. rewrite lastOf_snoc in L. injection L as ->. apply ordered_snoc in S as [S H].
      assert (r_time y <= r_time back) by (apply in_app_iff in Y as [Y|[<-|[]]]; [apply rle_time; unfold le; rewrite H by exact Y; reflexivity|lia]).
      rewrite rlt_eq. cbn. lia. }
    rewrite filter_all by (intros y Y; rewrite ALL by exact Y; reflexivity). rewrite L, ins_last by exact ALL. reflexivity.
  - rewrite upperBound_spec, ins_split by exact S. destruct (lastOf (filter _ q)) as [p|]; [|reflexivity]. destruct (keeps _ _ _ _ _ _); reflexivity.
Qed.

(** ** Whole inputs *)
(** the bytes waiting at all sources *)
Definition waitingBytes (l : list isrc) : Z := fold_right (fun s n => bytesOf (s_queue s) + n) 0 l.
Fixpoint spec_addFirst (gap : Z) (oc : bool) (h : ghandle) (x : drec) (l : list isrc) : option (list isrc) :=
  match l with
  | [] => None
  | a :: r => if gh_eqb (s_handle a) h then option_map (fun a' => a' :: r) (spec_add gap oc x a)
              else option_map (cons a) (spec_addFirst gap oc h x r)
  end.
Definition spec_put (l : list isrc) (A : input) : input := set_i_bytes (waitingBytes l) (set_i_srcs l A).
Definition spec_step (A : input) (o : iop) : input * bool :=
  match o with
  | I_add h t it None => (A, false)
  | I_add h t it (Some d) =>
      match spec_addFirst (i_gap A) (i_onChange A) h (mkRec t it d) (i_srcs A) with
      | Some l => (spec_put l A, true)
      | None => (A, false)
      end
  | I_advance mode t =>
      (spec_put (map (fun a => fst (spec_advance mode (i_onChange A) t a)) (i_srcs A)) A,
       existsb (fun a => snd (spec_advance mode (i_onChange A) t a)) (i_srcs A))
  | I_addSource h n ty un => addSource A h n ty un
  | I_remove h m => (spec_put (map (fun a => if gh_eqb (s_handle a) h then spec_cut m a else a) (i_srcs A)) A, true)
  | I_removeName n m => (spec_put (map (fun a => if beq (s_key a) n then spec_cut m a else a) (i_srcs A)) A, true)
  | I_disconnect f m => (disconnectFed A f m, true)
  | I_clear => (spec_put (map (set_s_queue []) (i_srcs A)) A, true)
  | I_set o v => (inputSetProperty o v A, true)
  end.
Fixpoint spec_run (A : input) (os : list iop) : input :=
  match os with [] => A | o :: r => spec_run (fst (spec_step A o)) r end.

Definition orderI (A : input) : input := set_i_srcs (map orderQ (i_srcs A)) A.
Definition counted (A : input) : Prop := i_bytes A = waitingBytes (i_srcs A).

Lemma orderQ_id (f : isrc -> isrc) a : (forall s, s_queue (f s) = s_queue s) -> (forall q s, f (set_s_queue q s) = set_s_queue q (f s)) -> f (orderQ a) = orderQ (f a).
Proof. intros H1 H2. unfold orderQ. rewrite H2, H1. reflexivity. Qed.
Lemma deactivate_queue m q s : deactivate m (set_s_queue q s) = set_s_queue q (deactivate m s).
Proof. unfold deactivate. cbn. destruct (m <? s_deact s); reflexivity. Qed.
Lemma deactivate_queue2 m s : s_queue (deactivate m s) = s_queue s.
Proof. unfold deactivate. destruct (m <? s_deact s); reflexivity. Qed.

Lemma popLater_spec m q : sorted q -> popLater m (rev q) = (rev (filter (fun r => r_time r <=? m) q), bytesOf (filter (fun r => negb (r_time r <=? m)) q)).
Proof.
  intros S. induction q as [|x q IH] using rev_ind; [reflexivity|]. apply ordered_snoc in S as [S H]. rewrite rev_app_distr. cbn [rev app popLater].
  rewrite !filter_app. cbn [filter]. destruct (Z.leb_spec (r_time x) m) as [L|L]; cbn [negb].
  - replace (m <? r_time x) with false by lia. rewrite filter_all, (filter_none (fun r => negb (r_time r <=? m))).
    + rewrite rev_app_distr. reflexivity.
    + intros y Y. specialize (H y Y). rewrite rlt_eq in H. lia.
    + intros y Y. specialize (H y Y). rewrite rlt_eq in H. lia.
  - replace (m <? r_time x) with true by lia. rewrite (IH S), app_nil_r, bytesOf_app. f_equal. unfold bytesOf. cbn. lia.
Qed.
Lemma bytesOf_split (p : drec -> bool) l : bytesOf l = bytesOf (filter p l) + bytesOf (filter (fun r => negb (p r)) l).
Proof. unfold bytesOf. induction l as [|x l IH]; [reflexivity|]. cbn. destruct (p x); cbn; lia. Qed.
Lemma cutAfter_spec m a : cutAfter m (orderQ a) = (orderQ (spec_cut m a), bytesOf (s_queue a) - bytesOf (s_queue (spec_cut m a))).
Proof.
  unfold cutAfter, spec_cut. cbn [orderQ s_queue set_s_queue]. rewrite popLater_spec by apply order_sorted. rewrite rev_involutive.
  rewrite deactivate_queue2. cbn [s_queue set_s_queue]. f_equal.
  - rewrite deactivate_queue. unfold orderQ. rewrite order_filter. rewrite !deactivate_queue. reflexivity.
  - rewrite order_filter, <- (bytesOf_perm _ _ (order_perm _)). rewrite (bytesOf_split (fun r => r_time r <=? m) (s_queue a)) at 1. lia.
Qed.
Lemma cutSources_spec sel m l : (forall a, sel (orderQ a) = sel a) ->
  cutSources sel m (map orderQ l) = (map orderQ (map (fun a => if sel a then spec_cut m a else a) l),
     waitingBytes l - waitingBytes (map (fun a => if sel a then spec_cut m a else a) l)).
Proof.
  intros HS. induction l as [|a l IH]; [reflexivity|]. cbn [map cutSources]. rewrite IH, HS. destruct (sel a).
  - rewrite cutAfter_spec. cbn [waitingBytes fold_right map]. f_equal. unfold waitingBytes. lia.
  - cbn [waitingBytes fold_right map]. f_equal. unfold waitingBytes. lia.
Qed.
Lemma advanceSources_spec mode oc t l :
  advanceSources mode oc t (map orderQ l) = (map orderQ (map (fun a => fst (spec_advance mode oc t a)) l),
    existsb (fun a => snd (spec_advance mode oc t a)) l, waitingBytes l - waitingBytes (map (fun a => fst (spec_advance mode oc t a)) l)).
Proof.
  induction l as [|a l IH]; [reflexivity|]. cbn [map advanceSources]. rewrite IH, advanceSource_spec. cbn [existsb]. f_equal.
  cbn [waitingBytes fold_right]. fold (waitingBytes l). match goal with |- context [fold_right ?f 0 (map ?g l)] => fold (waitingBytes (map g l)) end.
  assert (E : dueBytes mode t a = bytesOf (s_queue a) - bytesOf (s_queue (fst (spec_advance mode oc t a)))); [|lia].
  pose proof (bytesOf_split (due mode t (s_queue a)) (s_queue a)) as BS. unfold dueBytes, spec_advance.
  destruct (latest (filter (due mode t (s_queue a)) (s_queue a))) as [u|] eqn:L.
  - destruct (spec_show oc u a) as [a' b]. cbn [fst s_queue set_s_queue]. lia.
  - unfold latest in L. apply best_none in L. rewrite L in *. cbn [fst]. change (bytesOf []) with 0 in *. lia.
Qed.
Lemma addToSources_spec gap oc h t it d l :
  addToSources gap oc h t it d (map orderQ l) = option_map (map orderQ) (spec_addFirst gap oc h (mkRec t it d) l).
Proof.
  induction l as [|a l IH]; [reflexivity|]. cbn [map addToSources spec_addFirst]. change (s_handle (orderQ a)) with (s_handle a). change (s_deact (orderQ a)) with (s_deact a).
  destruct (gh_eqb (s_handle a) h).
  - unfold spec_add. cbn [r_time]. destruct (s_deact a <? t); [reflexivity|]. rewrite addToSource_spec. destruct (spec_keeps _ _ _ _); reflexivity.
  - rewrite IH. destruct (spec_addFirst _ _ _ _ l); reflexivity.
Qed.
Lemma spec_addFirst_bytes gap oc h x l l' : spec_addFirst gap oc h x l = Some l' -> waitingBytes l' = waitingBytes l + Z.of_nat (length (r_data x)).
Proof.
  revert l'. induction l as [|a l IH]; intros l' H; [discriminate|]. cbn in H. destruct (gh_eqb (s_handle a) h).
  - unfold spec_add in H. destruct (_ <? _); [discriminate|]. destruct (spec_keeps _ _ _ _); [|discriminate]. cbn in H. injection H as <-.
    cbn [waitingBytes fold_right s_queue set_s_queue]. rewrite bytesOf_app. unfold bytesOf at 2. cbn. fold (waitingBytes l). lia.
  - destruct (spec_addFirst _ _ _ _ l) as [r|]; [|discriminate]. injection H as <-. cbn [waitingBytes fold_right]. fold (waitingBytes l) (waitingBytes r). rewrite (IH r eq_refl). lia.
Qed.
Lemma reconnect_spec h un l : reconnect h un (map orderQ l) = option_map (fun p => (map orderQ (fst p), snd p)) (reconnect h un l).
Proof.
  induction l as [|a l IH]; [reflexivity|]. cbn [map reconnect]. change (s_handle (orderQ a)) with (s_handle a). change (s_deact (orderQ a)) with (s_deact a).
  destruct (gh_eqb (s_handle a) h).
  - destruct (s_deact a <? maxVal); reflexivity.
  - rewrite IH. destruct (reconnect h un l) as [[r b]|]; reflexivity.
Qed.
Lemma reconnect_bytes h un l r b : reconnect h un l = Some (r, b) -> waitingBytes r = waitingBytes l.
Proof.
  revert r. induction l as [|a l IH]; intros r H; [discriminate|]. cbn in H. destruct (gh_eqb (s_handle a) h).
  - destruct (s_deact a <? maxVal); injection H as <- _; reflexivity.
  - destruct (reconnect h un l) as [[r' b']|]; [|discriminate]. injection H as <- ->. cbn [waitingBytes fold_right]. f_equal. exact (IH r' eq_refl).
Qed.
Lemma inputSet_srcs o v i : i_srcs (inputSetProperty o v i) = i_srcs i /\ i_bytes (inputSetProperty o v i) = i_bytes i /\
  (forall l, inputSetProperty o v (set_i_srcs l i) = set_i_srcs l (inputSetProperty o v i)).
Proof.
  unfold inputSetProperty.
  repeat match goal with |- context [if ?b then _ else _] => match b with z2b _ => fail 1 | _ => destruct b; [repeat split|] end end. repeat split.
Qed.

(** one call does what the specification says *)
Theorem istep_refines A o : counted A -> istep (orderI A) o = (orderI (fst (spec_step A o)), snd (spec_step A o)) /\ counted (fst (spec_step A o)).
Proof.
  intros C. unfold counted in *. destruct o as [h t it [d|]|mode t|h n ty un|h m|n m|f m| |o v]; cbn [istep spec_step].
  - unfold addData. cbn [orderI i_gap i_onChange i_srcs set_i_srcs i_bytes]. rewrite addToSources_spec.
    destruct (spec_addFirst _ _ _ _ _) as [l|] eqn:E; cbn [option_map]; [|split; [reflexivity|exact C]]. cbn [fst snd]. split; [|reflexivity].
    f_equal. unfold orderI, spec_put. cbn. rewrite (spec_addFirst_bytes _ _ _ _ _ _ E), C. reflexivity.
  - split; [reflexivity|exact C].
  - unfold updateTimeTo. cbn [orderI i_onChange i_srcs set_i_srcs i_bytes]. rewrite advanceSources_spec. cbn [fst snd]. split; [|reflexivity]. f_equal.
    unfold orderI, spec_put. cbn [i_srcs set_i_srcs set_i_bytes i_bytes]. replace (i_bytes A - _) with (waitingBytes (map (fun a => fst (spec_advance mode (i_onChange A) t a)) (i_srcs A))) by lia. reflexivity.
  - unfold addSource. cbn [orderI i_srcs set_i_srcs]. rewrite reconnect_spec. destruct (reconnect h un (i_srcs A)) as [[r b]|] eqn:E; cbn [option_map fst snd].
    + split; [reflexivity|]. cbn [fst i_bytes i_srcs set_i_srcs]. rewrite (reconnect_bytes _ _ _ _ _ E). exact C.
    + split; [f_equal; unfold orderI; cbn; rewrite map_app; reflexivity|]. cbn [fst i_bytes i_srcs set_i_srcs set_i_hasTarget]. unfold waitingBytes. rewrite fold_right_app. cbn. exact C.
  - unfold removeSource. cbn [orderI i_srcs set_i_srcs i_bytes]. rewrite (cutSources_spec (fun s => gh_eqb (s_handle s) h)) by reflexivity. cbn [fst snd]. split; [|reflexivity].
    f_equal. unfold orderI, spec_put. cbn [i_srcs set_i_srcs set_i_bytes i_bytes]. replace (i_bytes A - _) with (waitingBytes (map (fun a => if gh_eqb (s_handle a) h then spec_cut m a else a) (i_srcs A))) by lia. reflexivity.
  - unfold removeSourceName. cbn [orderI i_srcs set_i_srcs i_bytes]. rewrite (cutSources_spec (fun s => beq (s_key s) n)) by reflexivity. cbn [fst snd]. split; [|reflexivity].
    f_equal. unfold orderI, spec_put. cbn [i_srcs set_i_srcs set_i_bytes i_bytes]. replace (i_bytes A - _) with (waitingBytes (map (fun a => if beq (s_key a) n then spec_cut m a else a) (i_srcs A))) by lia. reflexivity.
  - cbn [fst snd]. split.
    + f_equal. unfold disconnectFed, orderI. cbn [i_srcs set_i_srcs]. unfold set_i_srcs. cbn. f_equal. rewrite !map_map. apply map_ext. intros a. change (s_handle (orderQ a)) with (s_handle a).
      destruct (fst (s_handle a) =? f); [|reflexivity]. apply (orderQ_id (deactivate m)); [apply deactivate_queue2|intros; apply deactivate_queue].
    + cbn [disconnectFed i_bytes i_srcs set_i_srcs]. rewrite C. clear C. induction (i_srcs A) as [|a l IH]; [reflexivity|]. cbn [map waitingBytes fold_right]. f_equal; [|exact IH].
      destruct (fst (s_handle a) =? f); [|reflexivity]. rewrite deactivate_queue2. reflexivity.
  - cbn [fst snd]. split; [|reflexivity]. f_equal. unfold clearFutureData, orderI, spec_put. cbn. rewrite !map_map. 
    assert (Z0 : waitingBytes (map (set_s_queue []) (i_srcs A)) = 0) by (clear; induction (i_srcs A); [reflexivity|]; cbn; exact IHl).
    rewrite Z0. reflexivity.
  - cbn [fst snd]. destruct (inputSet_srcs o v A) as (E1&E2&E3). split; [|congruence]. f_equal. unfold orderI. rewrite E3, E1. reflexivity.
Qed.
Theorem irun_refines os A : counted A -> irun (orderI A) os = orderI (spec_run A os) /\ counted (spec_run A os).
Proof.
  revert A. induction os as [|o os IH]; intros A C; [split; [reflexivity|exact C]|]. cbn [irun spec_run].
  destruct (istep_refines A o C) as [E C2]. rewrite E. cbn [fst]. apply IH, C2.
Qed.
Lemma new_counted : counted input_new /\ orderI input_new = input_new. Proof. split; reflexivity. Qed.
