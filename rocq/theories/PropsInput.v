(** * Properties C12-C17: inputs and publications *)
From Coq Require Import ZArith Bool List Lia ZifyBool Permutation Sorted.
From Verif Require Import HTime Action StableSort Interfaces InputSpec.
Import ListNotations.
Open Scope Z_scope.

Lemma beq_eq a b : beq a b = true <-> a = b.
Proof.
  revert b. induction a as [|x a IH]; intros [|y b]; cbn; try (split; [discriminate|discriminate]); [tauto|].
  rewrite andb_true_iff, Z.eqb_eq, IH. split; [intros [-> ->]; reflexivity|intros E; injection E; auto].
Qed.
Lemma gh_eqb_eq a b : gh_eqb a b = true <-> a = b.
Proof. destruct a, b. unfold gh_eqb. cbn. rewrite andb_true_iff, !Z.eqb_eq. split; [intros [-> ->]; reflexivity|intros E; injection E; auto]. Qed.

(** the input after any history of calls *)
Definition inputAfter (os : list iop) : input := irun input_new os.
Lemma inputAfter_spec os : inputAfter os = orderI (spec_run input_new os) /\ counted (spec_run input_new os).
Proof. exact (irun_refines os input_new (proj1 new_counted)). Qed.

(** ** C13 *)
(** the earliest of some times; Time::maxVal when there is none *)
Definition earliestOf (l : list Z) : Z := fold_right Z.min maxVal l.
Definition queuedTimes (i : input) : list Z := map r_time (flat_map s_queue (i_srcs i)).
Definition queuedSizes (i : input) : Z := fold_right Z.add 0 (map (fun r => Z.of_nat (length (r_data r))) (flat_map s_queue (i_srcs i))).
Definition notAfter (a b : drec) : Prop := r_time a < r_time b \/ (r_time a = r_time b /\ r_iter a <= r_iter b).

Lemma next_fold l m : Forall (fun s => sorted (s_queue s)) l -> m <= maxVal ->
  fold_left (fun m s => match s_queue s with x :: _ => if r_time x <? m then r_time x else m | [] => m end) l m
  = Z.min m (earliestOf (map r_time (flat_map s_queue l))).
Proof.
  revert m. induction l as [|s l IH]; intros m F M; cbn [fold_left flat_map map]; [unfold earliestOf; cbn; lia|].
  inversion F as [|? ? S F2]; subst. assert (M2 : (match s_queue s with x :: _ => if r_time x <? m then r_time x else m | [] => m end) <= maxVal) by (destruct (s_queue s) as [|x q]; [exact M|]; destruct (Z.ltb_spec (r_time x) m); lia).
  rewrite (IH _ F2 M2).
  rewrite map_app. unfold earliestOf. rewrite fold_right_app. fold (earliestOf (map r_time (flat_map s_queue l))).
  generalize (earliestOf (map r_time (flat_map s_queue l))). intros e. destruct (s_queue s) as [|x q]; [reflexivity|]. cbn [map fold_right].
  assert (H : forall e, r_time x <= e -> r_time x <= fold_right Z.min e (map r_time q)).
  { inversion S as [|? ? _ G]; subst. rewrite Forall_forall in G. clear -G. induction q as [|y q IH]; intros e H; [exact H|]. cbn.
    specialize (IH (fun z Z => G z (or_intror Z)) e H). pose proof (rle_time _ _ (G y (or_introl eq_refl))). lia. }
  assert (H2 : fold_right Z.min e (map r_time q) <= e) by (clear; induction (map r_time q); cbn; lia).
  assert (H3 : Z.min (r_time x) (fold_right Z.min e (map r_time q)) = Z.min (r_time x) e).
  { destruct (Z.le_ge_cases (r_time x) e); [specialize (H e); lia|]. 
    assert (forall w, w <= e -> True) by auto.
    assert (K : e <= r_time x -> e <= fold_right Z.min e (map r_time q)).
    { intros L. inversion S as [|? ? _ G]; subst. rewrite Forall_forall in G. clear -G L. induction q as [|y q IH]; [cbn; lia|]. cbn.
      specialize (IH (fun z Z => G z (or_intror Z))). pose proof (rle_time _ _ (G y (or_introl eq_refl))). lia. }
    specialize (K ltac:(lia)). lia. }
  rewrite H3. destruct (Z.ltb_spec (r_time x) m); lia.
Qed.

Theorem C13_queues_ordered_and_accounting_exact :
  forall os, let i := inputAfter os in
  Forall (fun s => StronglySorted notAfter (s_queue s)) (i_srcs i) /\
  nextValueTime i = (if i_notInt i then maxVal else Z.min maxVal (earliestOf (queuedTimes i))) /\
  i_bytes i = queuedSizes i.
Proof.
  intros os i. destruct (inputAfter_spec os) as [E C]. unfold i. rewrite E. clear E i. set (A := spec_run input_new os) in *. clearbody A.
  assert (S : Forall (fun s => sorted (s_queue s)) (i_srcs (orderI A))).
  { cbn. apply Forall_forall. intros s H. apply in_map_iff in H as (a&<-&_). apply order_sorted. }
  split; [|split].
  - eapply Forall_impl; [|exact S]. intros s H. unfold sorted, ordered in H. revert H. generalize (s_queue s). intros q H.
    induction H as [|x q H IH F]; constructor; [exact IH|]. eapply Forall_impl; [|exact F]. intros y L. unfold le in L. rewrite rlt_eq in L. unfold notAfter. lia.
  - unfold nextValueTime. destruct (i_notInt _); [reflexivity|]. rewrite (next_fold (i_srcs (orderI A)) maxVal S) by lia. reflexivity.
  - change (i_bytes (orderI A)) with (i_bytes A). rewrite C. unfold queuedSizes. cbn [orderI i_srcs set_i_srcs]. clear.
    induction (i_srcs A) as [|a l IH]; [reflexivity|]. cbn [waitingBytes fold_right map flat_map]. rewrite map_app, fold_right_app.
    match goal with |- context [fold_right Z.add 0 (map ?f (flat_map s_queue ?l'))] => fold (waitingBytes l); rewrite IH; generalize (fold_right Z.add 0 (map f (flat_map s_queue l'))) end.
    intros n. change (s_queue (orderQ a)) with (order (s_queue a)). rewrite (bytesOf_perm _ _ (order_perm (s_queue a))).
    generalize (order (s_queue a)). clear. intros q. unfold bytesOf. induction q as [|x q IH]; [reflexivity|]. cbn. lia.
Qed.

(** ** C12 *)
Lemma advance_facts mode oc t a :
  s_queue (fst (spec_advance mode oc t a)) = filter (fun r => negb (due mode t (s_queue a) r)) (s_queue a) /\
  s_cur (fst (spec_advance mode oc t a)) = match latest (filter (due mode t (s_queue a)) (s_queue a)) with Some u => Some (r_data u) | None => s_cur a end /\
  s_handle (fst (spec_advance mode oc t a)) = s_handle a /\ s_deact (fst (spec_advance mode oc t a)) = s_deact a /\
  s_key (fst (spec_advance mode oc t a)) = s_key a.
Proof.
  unfold spec_advance. destruct (latest (filter (due mode t (s_queue a)) (s_queue a))) as [u|] eqn:L.
  - unfold spec_show. destruct (updateData oc u a) as [a' b] eqn:U. cbn [fst s_queue set_s_queue s_cur s_handle s_deact s_key].
    unfold updateData in U. destruct (s_cur a) as [cd|] eqn:CD; [|injection U as <- <-; repeat split; reflexivity]. destruct (negb oc); [injection U as <- <-; repeat split; reflexivity|].
    destruct (beq cd (r_data u)) eqn:B; cbn [negb] in U; [|injection U as <- <-; repeat split; reflexivity]. apply beq_eq in B. subst cd.
    injection U as <- <-. destruct (s_curTime a =? r_time u); repeat split; exact CD.
  - unfold latest in L. apply best_none in L. cbn [fst]. repeat split; try reflexivity. symmetry. apply filter_all.
    intros r R2. destruct (due mode t (s_queue a) r) eqn:D; [|reflexivity]. assert (IN : In r (filter (due mode t (s_queue a)) (s_queue a))) by (apply filter_In; auto). rewrite L in IN. destruct IN.
Qed.
(** The result of an advance, for the arrivals [w] waiting at a source (in arrival order). *)
Theorem C12_advance_shows_latest_due_value :
  forall os mode t k a, nth_error (i_srcs (spec_run input_new os)) k = Some a ->
  let i := inputAfter os in
  let w := s_queue a in
  let isDue := fun r => due mode t w r in
  exists s s', nth_error (i_srcs i) k = Some s /\ nth_error (i_srcs (fst (updateTimeTo mode i t))) k = Some s' /\
  s_cur s = s_cur a /\ Permutation (s_queue s) w /\
  Permutation (s_queue s') (filter (fun r => negb (isDue r)) w) /\
  s_cur s' = match latest (filter isDue w) with Some u => Some (r_data u) | None => s_cur s end.
Proof.
  intros os mode t k a K i w isDue. destruct (inputAfter_spec os) as [E C]. unfold i. rewrite E. set (A := spec_run input_new os) in *.
  exists (orderQ a), (orderQ (fst (spec_advance mode (i_onChange A) t a))).
  split; [cbn; rewrite nth_error_map, K; reflexivity|].
  destruct (istep_refines A (I_advance mode t) C) as [R _]. cbn [istep spec_step] in R. rewrite R. cbn [fst orderI i_srcs set_i_srcs spec_put set_i_bytes].
  split; [rewrite nth_error_map, nth_error_map, K; reflexivity|]. split; [reflexivity|].
  split; [apply Permutation_sym, order_perm|].
  destruct (advance_facts mode (i_onChange A) t a) as (Q&CU&_). unfold orderQ. cbn [s_queue set_s_queue s_cur]. rewrite Q, CU.
  split; [apply Permutation_sym, order_perm|reflexivity].
Qed.

(** *** One source through a history *)
(** the source with a handle (handles occur at most once, InputInfo.cpp:188-201) *)
Definition sourceOf (h : ghandle) (i : input) : option isrc := find (fun s => gh_eqb (s_handle s) h) (i_srcs i).
(** what each call does to one source (proved below) *)
Definition own (h : ghandle) (gap : Z) (oc : bool) (o : iop) (a : isrc) : isrc :=
  match o with
  | I_add h' t it (Some d) => if gh_eqb h' h then match spec_add gap oc (mkRec t it d) a with Some a' => a' | None => a end else a
  | I_add _ _ _ None => a
  | I_advance mode t => fst (spec_advance mode oc t a)
  | I_addSource h' _ _ un => if gh_eqb h' h && (s_deact a <? maxVal) then set_s_type un (set_s_units un (set_s_deact maxVal a)) else a
  | I_remove h' m => if gh_eqb h' h then spec_cut m a else a
  | I_removeName n m => if beq (s_key a) n then spec_cut m a else a
  | I_disconnect f m => if fst h =? f then deactivate m a else a
  | I_clear => set_s_queue [] a
  | I_set _ _ => a
  end.
Lemma gh_refl h : gh_eqb h h = true.
Proof. apply gh_eqb_eq. reflexivity. Qed.
Lemma find_map_handle (f : isrc -> isrc) h l : (forall a, s_handle (f a) = s_handle a) ->
  find (fun s => gh_eqb (s_handle s) h) (map f l) = option_map f (find (fun s => gh_eqb (s_handle s) h) l).
Proof. intros H. induction l as [|a l IH]; [reflexivity|]. cbn. rewrite H. destruct (gh_eqb (s_handle a) h); [reflexivity|exact IH]. Qed.
Lemma sourceOf_handle h i a : sourceOf h i = Some a -> s_handle a = h.
Proof. intros H. apply find_some in H as [_ H]. apply gh_eqb_eq in H. exact H. Qed.
Lemma cut_handle m a : s_handle (spec_cut m a) = s_handle a.
Proof. unfold spec_cut, deactivate. cbn. destruct (m <? s_deact a); reflexivity. Qed.
Lemma deact_handle m a : s_handle (deactivate m a) = s_handle a.
Proof. unfold deactivate. destruct (m <? s_deact a); reflexivity. Qed.
Lemma addFirst_find gap oc h h' x l l' : spec_addFirst gap oc h' x l = Some l' ->
  find (fun s => gh_eqb (s_handle s) h) l' = if gh_eqb h' h then match find (fun s => gh_eqb (s_handle s) h) l with Some a => spec_add gap oc x a | None => None end else find (fun s => gh_eqb (s_handle s) h) l.
Proof.
  revert l'. induction l as [|a l IH]; intros l' H; [discriminate|]. cbn in H. destruct (gh_eqb (s_handle a) h') eqn:E.
  - destruct (spec_add gap oc x a) as [a'|] eqn:SA; [|discriminate]. injection H as <-. apply gh_eqb_eq in E.
    assert (HA : s_handle a' = s_handle a). { unfold spec_add in SA. destruct (_ <? _); [discriminate|]. destruct (spec_keeps _ _ _ _); [|discriminate]. injection SA as <-. reflexivity. }
    cbn. rewrite HA, E. destruct (gh_eqb h' h) eqn:E2; [rewrite SA; reflexivity|reflexivity].
  - destruct (spec_addFirst gap oc h' x l) as [r|] eqn:R; [|discriminate]. injection H as <-. cbn. rewrite (IH r eq_refl).
    destruct (gh_eqb (s_handle a) h) eqn:E3; [|reflexivity]. destruct (gh_eqb h' h) eqn:E2; [|reflexivity].
    apply gh_eqb_eq in E2. subst h'. rewrite E3 in E. discriminate.
Qed.
Lemma addFirst_none gap oc h x l : spec_addFirst gap oc h x l = None <-> match find (fun s => gh_eqb (s_handle s) h) l with Some a => spec_add gap oc x a = None | None => True end.
Proof.
  induction l as [|a l IH]; [cbn; tauto|]. cbn. destruct (gh_eqb (s_handle a) h).
  - destruct (spec_add gap oc x a); split; intros; discriminate || reflexivity.
  - rewrite <- IH. destruct (spec_addFirst gap oc h x l); split; intros; discriminate || reflexivity.
Qed.
Lemma reconnect_find h h' un l r b : reconnect h' un l = Some (r, b) ->
  find (fun s => gh_eqb (s_handle s) h) r = option_map (fun a => if gh_eqb h' h && (s_deact a <? maxVal) then set_s_type un (set_s_units un (set_s_deact maxVal a)) else a) (find (fun s => gh_eqb (s_handle s) h) l).
Proof.
  revert r. induction l as [|a l IH]; intros r H; [discriminate|]. cbn in H. destruct (gh_eqb (s_handle a) h') eqn:E.
  - apply gh_eqb_eq in E. destruct (s_deact a <? maxVal) eqn:D; injection H as <- _; cbn; rewrite E; destruct (gh_eqb h' h) eqn:E2; cbn; rewrite ?D; try reflexivity;
    (destruct (find _ l); reflexivity).
  - destruct (reconnect h' un l) as [[r' b']|]; [|discriminate]. injection H as <- ->. cbn. rewrite (IH r' eq_refl).
    destruct (gh_eqb (s_handle a) h) eqn:E3; [|reflexivity]. cbn. destruct (gh_eqb h' h) eqn:E2; [|reflexivity]. apply gh_eqb_eq in E2. subst. rewrite E3 in E. discriminate.
Qed.
Lemma reconnect_none h un l : reconnect h un l = None -> find (fun s => gh_eqb (s_handle s) h) l = None.
Proof.
  induction l as [|a l IH]; intros H; [reflexivity|]. cbn in H |- *. destruct (gh_eqb (s_handle a) h); [destruct (_ <? _); discriminate|].
  destruct (reconnect h un l) as [[? ?]|]; [discriminate|auto].
Qed.
Lemma own_step h A o a : sourceOf h A = Some a -> sourceOf h (fst (spec_step A o)) = Some (own h (i_gap A) (i_onChange A) o a).
Proof.
  unfold sourceOf. intros S. destruct o as [h' t it [d|]|mode t|h' n ty un|h' m|n m|f m| |o v]; cbn [spec_step own].
  - destruct (spec_addFirst _ _ h' _ _) as [l|] eqn:E; cbn [fst].
    + cbn [spec_put i_srcs set_i_bytes set_i_srcs]. rewrite (addFirst_find _ _ h _ _ _ _ E), S. destruct (gh_eqb h' h) eqn:E2; [|reflexivity].
      destruct (spec_add _ _ _ a) eqn:E3; [reflexivity|]. apply gh_eqb_eq in E2. subst h'.
      assert (N : spec_addFirst (i_gap A) (i_onChange A) h (mkRec t it d) (i_srcs A) = None) by (apply addFirst_none; rewrite S; exact E3). congruence.
    + rewrite S. destruct (gh_eqb h' h) eqn:E2; [|reflexivity]. apply gh_eqb_eq in E2. subst h'. apply addFirst_none in E. rewrite S in E. rewrite E. reflexivity.
  - exact S.
  - cbn [fst spec_put i_srcs set_i_bytes set_i_srcs]. rewrite find_map_handle, S; [reflexivity|]. intros b. apply advance_facts.
  - unfold addSource. destruct (reconnect h' un (i_srcs A)) as [[r b]|] eqn:E.
    + cbn [fst i_srcs set_i_srcs]. rewrite (reconnect_find _ _ _ _ _ _ E), S. reflexivity.
    + apply reconnect_none in E. cbn [fst i_srcs set_i_srcs set_i_hasTarget]. destruct (gh_eqb h' h) eqn:E2.
      * apply gh_eqb_eq in E2. subst. rewrite S in E. discriminate.
      * cbn. clear -S. revert S. induction (i_srcs A) as [|x l IH]; [discriminate|]. cbn. destruct (gh_eqb (s_handle x) h); auto.
  - cbn [fst spec_put i_srcs set_i_bytes set_i_srcs]. rewrite find_map_handle, S; cbn [option_map].
    + rewrite (sourceOf_handle h A a S). destruct (gh_eqb h h') eqn:E.
      * apply gh_eqb_eq in E. subst. rewrite gh_refl. reflexivity.
      * destruct (gh_eqb h' h) eqn:E2; [apply gh_eqb_eq in E2; subst; rewrite gh_refl in E; discriminate|reflexivity].
    + intros b. destruct (gh_eqb (s_handle b) h'); [apply cut_handle|reflexivity].
  - cbn [fst spec_put i_srcs set_i_bytes set_i_srcs]. rewrite find_map_handle, S; [reflexivity|]. intros b. destruct (beq (s_key b) n); [apply cut_handle|reflexivity].
  - cbn [fst disconnectFed i_srcs set_i_srcs]. rewrite find_map_handle, S; [cbn [option_map]; rewrite (sourceOf_handle h A a S); reflexivity|]. intros b. destruct (_ =? f); [apply deact_handle|reflexivity].
  - cbn [fst spec_put i_srcs set_i_bytes set_i_srcs]. rewrite find_map_handle, S; [reflexivity|]. reflexivity.
  - cbn [fst]. destruct (inputSet_srcs o v A) as (E&_). rewrite E. exact S.
Qed.
Lemma sourceOf_order h A : sourceOf h (orderI A) = option_map orderQ (sourceOf h A).
Proof. unfold sourceOf, orderI. cbn [i_srcs set_i_srcs]. apply find_map_handle. reflexivity. Qed.
Lemma inputAfter_source os h : sourceOf h (inputAfter os) = option_map orderQ (sourceOf h (spec_run input_new os)).
Proof. destruct (inputAfter_spec os) as [E _]. rewrite E. apply sourceOf_order. Qed.
Lemma spec_run_app A os ps : spec_run A (os ++ ps) = spec_run (spec_run A os) ps.
Proof. revert A. induction os as [|o os IH]; intros A; [reflexivity|]. cbn. apply IH. Qed.
Lemma connect_new h n ty un A : sourceOf h A = None -> sourceOf h (fst (spec_step A (I_addSource h n ty un))) = Some (mkSrc h n ty un [] None minVal 0 maxVal).
Proof.
  intros S. unfold sourceOf in *. cbn [spec_step]. unfold addSource. destruct (reconnect h un (i_srcs A)) as [[r b]|] eqn:E.
  - exfalso. revert r E. induction (i_srcs A) as [|x l IH]; intros r E; [discriminate|]. cbn in *. destruct (gh_eqb (s_handle x) h); [discriminate|].
    destruct (reconnect h un l) as [[r' b']|]; [|discriminate]. injection E as _ ->. exact (IH S r' eq_refl).
  - cbn [fst i_srcs set_i_srcs set_i_hasTarget]. clear E. revert S. induction (i_srcs A) as [|x l IH]; cbn; [rewrite gh_refl; reflexivity|]. destruct (gh_eqb (s_handle x) h); [discriminate|auto].
Qed.

(** *** The values of one source over a whole history *)
(** the values sent to the input by source [h] *)
Fixpoint published (h : ghandle) (os : list iop) : list drec :=
  match os with
  | [] => []
  | I_add h' t it (Some d) :: r => if gh_eqb h' h then mkRec t it d :: published h r else published h r
  | _ :: r => published h r
  end.
(** everything up to and including this time has been shown *)
Definition covers (c : Z) (o : iop) : Z :=
  match o with
  | I_advance UpTo t => Z.max c (t - 1)
  | I_advance Inclusive t => Z.max c t
  | _ => c
  end.
Definition covered (c : Z) (os : list iop) : Z := fold_left covers os c.
(** A history in which the source stays connected, values come with a time not yet covered (C10), and time
    advances are not between iterations of one time.  [any] says if values may arrive out of order and the
    options which drop values are off. *)
Fixpoint orderly (any : bool) (h : ghandle) (c : Z) (prev : drec) (os : list iop) : Prop :=
  match os with
  | [] => True
  | o :: r =>
      match o with
      | I_add h' t it (Some d) => gh_eqb h' h = true -> c < t <= maxVal /\ (any = false -> rlt (mkRec t it d) prev = false)
      | I_advance NextIteration _ => False
      | I_addSource h' _ _ _ | I_remove h' _ => gh_eqb h' h = false
      | I_disconnect f _ => (fst h =? f) = false
      | I_removeName _ _ | I_clear => False
      | I_set p _ => p <> OPT_TIME_RESTRICTED /\ (any = true -> p <> OPT_ONLY_UPDATE_ON_CHANGE)
      | _ => True
      end /\
      orderly any h (covers c o) (match o with I_add h' t it (Some d) => if gh_eqb h' h then mkRec t it d else prev | _ => prev end) r
  end.

Lemma set_gap p v A : p <> OPT_TIME_RESTRICTED -> i_gap (inputSetProperty p v A) = i_gap A.
Proof.
  intros N. unfold inputSetProperty.
  repeat match goal with |- context [if ?b then _ else _] => match b with z2b _ => fail 1 | (p =? OPT_TIME_RESTRICTED) => fail 1 | _ => destruct b; [reflexivity|] end end.
  destruct (Z.eqb_spec p OPT_TIME_RESTRICTED); [contradiction|reflexivity].
Qed.
Lemma set_onChange p v A : p <> OPT_ONLY_UPDATE_ON_CHANGE -> i_onChange (inputSetProperty p v A) = i_onChange A.
Proof.
  intros N. unfold inputSetProperty.
  repeat match goal with |- context [if ?b then _ else _] => match b with z2b _ => fail 1 | (p =? OPT_ONLY_UPDATE_ON_CHANGE) => destruct (Z.eqb_spec p OPT_ONLY_UPDATE_ON_CHANGE); [contradiction|] | _ => destruct b; [reflexivity|] end end.
  reflexivity.
Qed.
Lemma step_options A o : (forall p v, o <> I_set p v) -> i_gap (fst (spec_step A o)) = i_gap A /\ i_onChange (fst (spec_step A o)) = i_onChange A.
Proof.
  intros N. destruct o as [h' t it [d|]|mode t|h' n ty un|h' m|n m|f m| |o v]; cbn [spec_step]; try (split; reflexivity).
  - destruct (spec_addFirst _ _ _ _ _); split; reflexivity.
  - unfold addSource. destruct (reconnect _ _ _) as [[? ?]|]; split; reflexivity.
  - destruct (N o v eq_refl).
Qed.
Lemma latest_snoc l x : latest (l ++ [x]) = match latest l with None => Some x | Some y => if rlt x y then Some y else Some x end.
Proof. apply best_snoc. Qed.
Lemma latest_spec l u : latest l = Some u <-> exists l1 l2, l = l1 ++ u :: l2 /\ (forall y, In y l1 -> le rlt y u = true) /\ (forall y, In y l2 -> rlt y u = true).
Proof. apply best_spec; [apply rle_trans|apply rlt_le]. Qed.
Lemma latest_in l u : latest l = Some u -> In u l.
Proof. intros H. apply (proj1 (latest_spec _ _)) in H as (a&b&->&_). apply in_or_app. right; left; reflexivity. Qed.
Lemma latest_split c l : latest l = match latest (filter (fun r => negb (r_time r <=? c)) l) with Some u => Some u | None => latest (filter (fun r => r_time r <=? c) l) end.
Proof.
  induction l as [|z l IH] using rev_ind; [reflexivity|]. rewrite !filter_app, latest_snoc, IH. cbn [filter].
  destruct (Z.leb_spec (r_time z) c) as [L|L]; cbn [negb]; rewrite ?app_nil_r, ?latest_snoc.
  - destruct (latest (filter (fun r => negb (r_time r <=? c)) l)) as [u|] eqn:U; [|reflexivity].
    apply latest_in, filter_In in U as [_ U]. rewrite rlt_eq. replace ((r_time z <? r_time u) || ((r_time z =? r_time u) && (r_iter z <? r_iter u))) with true by lia. reflexivity.
  - destruct (latest (filter (fun r => negb (r_time r <=? c)) l)) as [u|] eqn:U; [destruct (rlt z u); reflexivity|].
    destruct (latest (filter (fun r => r_time r <=? c) l)) as [u|] eqn:U2; [|reflexivity].
    apply latest_in, filter_In in U2 as [_ U2]. rewrite rlt_eq. replace ((r_time z <? r_time u) || ((r_time z =? r_time u) && (r_iter z <? r_iter u))) with false by lia. reflexivity.
Qed.
Lemma published_app h os ps : published h (os ++ ps) = published h os ++ published h ps.
Proof. induction os as [|o os IH]; [reflexivity|]. destruct o as [h' t it [d|]| | | | | | |]; cbn; rewrite ?IH; try reflexivity. destruct (gh_eqb h' h); reflexivity. Qed.

(** what is waiting is what came and is later than [c]; what is current is the latest of the others *)
Definition shows (a : isrc) (P : list drec) (c : Z) : Prop :=
  s_deact a = maxVal /\ s_queue a = filter (fun r => negb (r_time r <=? c)) P /\
  s_cur a = option_map r_data (latest (filter (fun r => r_time r <=? c) P)).
Lemma due_covers mode t c r : mode <> NextIteration -> c < r_time r -> forall w, due mode t w r = (r_time r <=? covers c (I_advance mode t)).
Proof. intros N L w. destruct mode; cbn [due covers]; [lia|lia|congruence]. Qed.
Lemma shows_advance mode t oc c P a : mode <> NextIteration -> shows a P c -> shows (fst (spec_advance mode oc t a)) P (covers c (I_advance mode t)).
Proof.
  intros N (D&Q&CU). destruct (advance_facts mode oc t a) as (F1&F2&_&F4&_). unfold shows. rewrite F1, F2, F4. split; [exact D|].
  set (c' := covers c (I_advance mode t)). assert (LC : c <= c') by (unfold c'; destruct mode; cbn [covers]; lia).
  assert (E : filter (due mode t (s_queue a)) (s_queue a) = filter (fun r => negb (r_time r <=? c)) (filter (fun r => r_time r <=? c') P)).
  { rewrite filter_filter. rewrite (filter_ext_in' (due mode t (s_queue a)) (fun r => r_time r <=? c') (s_queue a)).
    - rewrite Q, filter_filter. apply filter_ext. intros r. apply andb_comm.
    - intros r R. apply due_covers; [exact N|]. rewrite Q in R. apply filter_In in R. lia. }
  split.
  - rewrite (filter_ext_in' _ (fun r => negb (r_time r <=? c')) (s_queue a)).
    + rewrite Q, filter_filter. apply filter_ext. intros r. lia.
    + intros r R. f_equal. apply due_covers; [exact N|]. rewrite Q in R. apply filter_In in R. lia.
  - rewrite E. rewrite (latest_split c (filter (fun r => r_time r <=? c') P)). destruct (latest (filter _ (filter _ P))) as [u|]; [reflexivity|].
    rewrite CU. f_equal. f_equal. rewrite filter_filter. apply filter_ext. intros r. lia.
Qed.
Lemma shows_step h c prev o r A a P : sourceOf h A = Some a -> i_gap A <= 0 -> i_onChange A = false -> orderly true h c prev (o :: r) -> shows a P c ->
  exists a', sourceOf h (fst (spec_step A o)) = Some a' /\ shows a' (P ++ published h [o]) (covers c o) /\
    i_gap (fst (spec_step A o)) <= 0 /\ i_onChange (fst (spec_step A o)) = false.
Proof.
  intros S G OC [OK _] SH. exists (own h (i_gap A) (i_onChange A) o a). split; [apply own_step, S|].
  assert (OPT : i_gap (fst (spec_step A o)) = i_gap A /\ i_onChange (fst (spec_step A o)) = i_onChange A).
  { destruct o; try (apply step_options; intros; discriminate). destruct OK as [O1 O2]. cbn [spec_step fst]. rewrite set_gap, set_onChange; auto. }
  destruct OPT as [-> ->]. split; [|split; assumption]. clear S.
  destruct o as [h' t it [d|]|mode t|h' n ty un|h' m|n m|f m| |o v]; cbn [own published covers]; try contradiction; rewrite ?app_nil_r; try exact SH.
  - destruct (gh_eqb h' h) eqn:E; [|rewrite app_nil_r; exact SH]. destruct (OK eq_refl) as [T _]. destruct SH as (D&Q&CU).
    assert (A1 : spec_add (i_gap A) (i_onChange A) (mkRec t it d) a = Some (set_s_queue (s_queue a ++ [mkRec t it d]) a)).
    { unfold spec_add. cbn [r_time]. replace (s_deact a <? t) with false by lia. rewrite OC.
      assert (K : forall pt pd, keeps (i_gap A) false t d pt pd = true) by (intros; unfold keeps, timeZero; cbn; replace (0 <? i_gap A) with false by lia; reflexivity).
      assert (SK : spec_keeps (i_gap A) false (mkRec t it d) a = true).
      { unfold spec_keeps. cbn [r_time r_data]. clear -K. destruct (s_queue a); [destruct (s_cur a); rewrite ?K; reflexivity|]. destruct (latest _); rewrite ?K; reflexivity. }
      rewrite SK. reflexivity. }
    rewrite A1. unfold shows. cbn [s_deact s_queue s_cur set_s_queue]. rewrite !filter_app, Q. cbn [filter r_time]. replace (t <=? c) with false by lia. cbn [negb]. rewrite app_nil_r. auto.
  - apply (shows_advance mode t (i_onChange A) c P a); [|exact SH]. intros ->; exact OK.
  - rewrite OK. exact SH.
  - rewrite OK. exact SH.
  - rewrite OK. exact SH.
Qed.
Lemma shows_run h os : forall c prev A a P, sourceOf h A = Some a -> i_gap A <= 0 -> i_onChange A = false -> orderly true h c prev os -> shows a P c ->
  exists a', sourceOf h (spec_run A os) = Some a' /\ shows a' (P ++ published h os) (covered c os).
Proof.
  induction os as [|o os IH]; intros c prev A a P S G OC OK SH; [exists a; rewrite app_nil_r; split; assumption|].
  destruct (shows_step h c prev o os A a P S G OC OK SH) as (a'&S'&SH'&G'&OC'). destruct OK as [_ OK].
  destruct (IH _ _ _ a' _ S' G' OC' OK SH') as (b&SB&HB). exists b. split; [exact SB|].
  change (o :: os) with ([o] ++ os). rewrite published_app, app_assoc. exact HB.
Qed.

(** From the moment a source is connected: however its values arrive, after every advance the current value
    is the latest of those at or before the covered time, and exactly the later ones wait. *)
Definition drec0 : drec := mkRec minVal 0 [].
Theorem C12_current_value_is_latest_published :
  forall before h name ty un os,
  let i0 := inputAfter before in
  sourceOf h i0 = None -> i_gap i0 <= 0 -> i_onChange i0 = false -> orderly true h minVal drec0 os ->
  let upTo := covered minVal os in
  exists s, sourceOf h (inputAfter (before ++ I_addSource h name ty un :: os)) = Some s /\
  s_cur s = option_map r_data (latest (filter (fun r => r_time r <=? upTo) (published h os))) /\
  Permutation (s_queue s) (filter (fun r => negb (r_time r <=? upTo)) (published h os)).
Proof.
  intros before h name ty un os i0 S G OC OK upTo. unfold i0 in *. rewrite inputAfter_source in S.
  destruct (inputAfter_spec before) as [E _]. rewrite E in G, OC. cbn in G, OC. set (A := spec_run input_new before) in *.
  assert (S0 : sourceOf h A = None) by (destruct (sourceOf h A); [discriminate|reflexivity]).
  pose proof (connect_new h name ty un A S0) as SC. destruct (step_options A (I_addSource h name ty un)) as [G1 OC1]; [intros; discriminate|].
  destruct (shows_run h os minVal drec0 (fst (spec_step A (I_addSource h name ty un))) _ [] SC) as (a&SA&D&Q&CU); try rewrite ?G1, ?OC1; try assumption; [repeat split|].
  rewrite inputAfter_source, spec_run_app. cbn [spec_run]. fold A. rewrite SA. exists (orderQ a). split; [reflexivity|]. unfold orderQ. cbn [s_cur s_queue set_s_queue].
  rewrite app_nil_l in *. split; [exact CU|]. fold upTo in Q. rewrite <- Q. apply Permutation_sym, order_perm.
Qed.

(** With only-update-on-change repeated values are dropped; when the values of a source arrive in order the
    current value is still the latest. *)
Definition shows2 (a : isrc) (P : list drec) (c : Z) (prev : drec) : Prop :=
  s_deact a = maxVal /\ (forall r, In r (s_queue a) -> c < r_time r) /\ (forall r, In r (s_queue a) -> In r P) /\ (forall r, In r P -> le rlt r prev = true) /\
  forall T, c <= T -> match latest (filter (fun r => r_time r <=? T) (s_queue a)) with Some u => Some (r_data u) | None => s_cur a end
                      = option_map r_data (latest (filter (fun r => r_time r <=? T) P)).
Lemma latest_top l x : (forall y, In y l -> rlt x y = false) -> latest (l ++ [x]) = Some x.
Proof. intros H. rewrite latest_snoc. destruct (latest l) as [y|] eqn:E; [|reflexivity]. rewrite H by (apply latest_in, E). reflexivity. Qed.
Lemma shows2_step h c prev o r A a P : sourceOf h A = Some a -> i_gap A <= 0 -> orderly false h c prev (o :: r) -> shows2 a P c prev ->
  exists a', sourceOf h (fst (spec_step A o)) = Some a' /\
    shows2 a' (P ++ published h [o]) (covers c o) (match o with I_add h' t it (Some d) => if gh_eqb h' h then mkRec t it d else prev | _ => prev end) /\
    i_gap (fst (spec_step A o)) <= 0.
Proof.
  intros S G [OK _] SH. exists (own h (i_gap A) (i_onChange A) o a). split; [apply own_step, S|].
  assert (OPT : i_gap (fst (spec_step A o)) = i_gap A).
  { destruct o; try (apply step_options; intros; discriminate). destruct OK as [O1 O2]. cbn [spec_step fst]. rewrite set_gap; auto. }
  rewrite OPT. split; [|exact G]. clear S.
  destruct o as [h' t it [d|]|mode t|h' n ty un|h' m|n m|f m| |o v]; cbn [own published covers]; try contradiction; rewrite ?app_nil_r; try exact SH;
    [|destruct SH as (D&QC&QP&PV&INV)|rewrite OK; exact SH..].
  - destruct (gh_eqb h' h) eqn:E; [|rewrite app_nil_r; exact SH]. destruct (OK eq_refl) as [T PO]. specialize (PO eq_refl). destruct SH as (D&QC&QP&PV&INV).
    set (x := mkRec t it d) in *.
    assert (XT : forall y, In y P -> rlt x y = false). { intros y Y. specialize (PV y Y). unfold le in PV. rewrite rlt_eq in *. lia. }
    assert (PX : forall y, In y (P ++ [x]) -> le rlt y x = true). { intros y Y. apply in_app_iff in Y as [Y|[<-|[]]]; unfold le; [rewrite XT by exact Y; reflexivity|rewrite rlt_irrefl; reflexivity]. }
    assert (AT : forall T, c <= T -> latest (filter (fun r => r_time r <=? T) (P ++ [x])) = if t <=? T then Some x else latest (filter (fun r => r_time r <=? T) P)).
    { intros T0 _. rewrite filter_app. cbn [filter]. change (r_time x) with t. destruct (t <=? T0); [|rewrite app_nil_r; reflexivity]. apply latest_top. intros y Y. apply filter_In in Y. apply XT, Y. }
    unfold spec_add. change (r_time x) with t. replace (s_deact a <? t) with false by lia. destruct (spec_keeps (i_gap A) (i_onChange A) x a) eqn:K.
    + unfold shows2. cbn [s_deact s_queue s_cur set_s_queue]. split; [exact D|]. split; [|split; [|split]].
      * intros y Y. apply in_app_iff in Y as [Y|[<-|[]]]; [auto|exact (proj1 T)].
      * intros y Y. apply in_app_iff in Y as [Y|[<-|[]]]; apply in_or_app; [left; auto|right; left; reflexivity].
      * exact PX.
      * intros T0 L. rewrite AT by exact L. rewrite filter_app. cbn [filter]. change (r_time x) with t. destruct (t <=? T0); [|rewrite app_nil_r; apply INV, L].
        rewrite latest_top; [reflexivity|]. intros y Y. apply filter_In in Y. apply XT, QP, Y.
    + unfold shows2. split; [exact D|]. split; [exact QC|]. split; [intros y Y; apply in_or_app; left; auto|]. split; [exact PX|].
      intros T0 L. rewrite AT by exact L. destruct (Z.leb_spec t T0) as [LT|LT]; [|apply INV, L].
      (* refused: the value is the one it follows *)
      assert (ALLQ : filter (fun r => r_time r <=? T0) (s_queue a) = s_queue a).
      { apply filter_all. intros y Y. specialize (XT y (QP y Y)). rewrite rlt_eq in XT. change (r_time x) with t in XT. lia. }
      rewrite ALLQ. unfold spec_keeps in K.
      assert (KV : forall pt pd, keeps (i_gap A) (i_onChange A) t d pt pd = false -> pd = d).
      { intros pt pd H. unfold keeps, timeZero in H. replace (0 <? i_gap A) with false in H by lia. cbn in H. apply negb_false_iff, andb_true_iff in H as [_ H]. apply beq_eq, H. }
      destruct (s_queue a) as [|q0 q] eqn:SQ.
      * destruct (s_cur a) as [cd|]; [|discriminate]. apply KV in K. subst. reflexivity.
      * rewrite <- SQ in *. rewrite filter_all in K by (intros y Y; rewrite (XT y (QP y Y)); reflexivity).
        destruct (latest (s_queue a)) as [p|] eqn:LP; [|discriminate]. apply KV in K. subst. reflexivity.
  - assert (N : mode <> NextIteration) by (intros ->; exact OK). set (c' := covers c (I_advance mode t)). change (match mode with UpTo => Z.max c (t - 1) | Inclusive => Z.max c t | NextIteration => c end) with c'.
    assert (LC : c <= c') by (unfold c'; destruct mode; cbn [covers]; lia).
    destruct (advance_facts mode (i_onChange A) t a) as (F1&F2&_&F4&_). unfold shows2. rewrite F1, F2, F4.
    rewrite (filter_ext_in' (fun r => negb (due mode t (s_queue a) r)) (fun r => negb (r_time r <=? c'))) by (intros y Y; f_equal; apply due_covers; auto).
    rewrite (filter_ext_in' (due mode t (s_queue a)) (fun r => r_time r <=? c')) by (intros y Y; apply due_covers; auto).
    split; [exact D|]. split; [intros y Y; apply filter_In in Y; lia|]. split; [intros y Y; apply filter_In in Y; apply QP, Y|]. split; [exact PV|].
    intros T0 L. rewrite <- INV by lia. rewrite filter_filter. rewrite (latest_split c' (filter (fun r => r_time r <=? T0) (s_queue a))). rewrite !filter_filter.
    rewrite (filter_ext (fun x => (r_time x <=? T0) && negb (r_time x <=? c')) (fun x => negb (r_time x <=? c') && (r_time x <=? T0))) by (intros; apply andb_comm).
    destruct (latest (filter (fun x => negb (r_time x <=? c') && (r_time x <=? T0)) (s_queue a))) as [u|]; [reflexivity|].
    rewrite (filter_ext (fun x => (r_time x <=? T0) && (r_time x <=? c')) (fun x => r_time x <=? c')) by (intros; lia). reflexivity.
Qed.
Lemma shows2_run h os : forall c prev A a P, sourceOf h A = Some a -> i_gap A <= 0 -> orderly false h c prev os -> shows2 a P c prev ->
  exists a', sourceOf h (spec_run A os) = Some a' /\ exists prev', shows2 a' (P ++ published h os) (covered c os) prev'.
Proof.
  induction os as [|o os IH]; intros c prev A a P S G OK SH; [exists a; rewrite app_nil_r; split; [exact S|exists prev; exact SH]|].
  destruct (shows2_step h c prev o os A a P S G OK SH) as (a'&S'&SH'&G'). destruct OK as [_ OK].
  destruct (IH _ _ _ a' _ S' G' OK SH') as (b&SB&HB). exists b. split; [exact SB|].
  change (o :: os) with ([o] ++ os). rewrite published_app, app_assoc. exact HB.
Qed.
Theorem C12_current_value_is_latest_published_in_order :
  forall before h name ty un os prev,
  let i0 := inputAfter before in
  sourceOf h i0 = None -> i_gap i0 <= 0 -> orderly false h minVal prev os ->
  let upTo := covered minVal os in
  exists s, sourceOf h (inputAfter (before ++ I_addSource h name ty un :: os)) = Some s /\
  s_cur s = option_map r_data (latest (filter (fun r => r_time r <=? upTo) (published h os))).
Proof.
  intros before h name ty un os prev i0 S G OK upTo. unfold i0 in *. rewrite inputAfter_source in S.
  destruct (inputAfter_spec before) as [E _]. rewrite E in G. cbn in G. set (A := spec_run input_new before) in *.
  assert (S0 : sourceOf h A = None) by (destruct (sourceOf h A); [discriminate|reflexivity]).
  pose proof (connect_new h name ty un A S0) as SC. destruct (step_options A (I_addSource h name ty un)) as [G1 OC1]; [intros; discriminate|].
  destruct (shows2_run h os minVal prev (fst (spec_step A (I_addSource h name ty un))) _ [] SC) as (a&SA&prev'&D&QC&QP&PV&INV); try rewrite ?G1; try assumption; [repeat split; cbn; intros; contradiction|].
  rewrite inputAfter_source, spec_run_app. cbn [spec_run]. fold A. rewrite SA. exists (orderQ a). split; [reflexivity|]. unfold orderQ. cbn [s_cur set_s_queue].
  rewrite app_nil_l in *. specialize (INV _ (Z.le_refl _)). rewrite filter_none in INV; [exact INV|]. intros y Y. specialize (QC y Y). lia.
Qed.

(** The hypotheses are met: two values arrive out of order, and one after an advance. *)
Example C12_nonvacuous :
  let h := (7, 1) in let v := fun n => Some [n] in
  let os := [I_add h 50 0 (v 5); I_add h 30 0 (v 3); I_add h 30 1 (v 4); I_add (8, 2) 1 0 (v 9); I_advance UpTo 40; I_add h 45 0 (v 6); I_advance Inclusive 50] in
  orderly true h minVal drec0 os /\ covered minVal os = 50 /\
  option_map r_data (latest (filter (fun r => r_time r <=? 50) (published h os))) = Some [5] /\
  option_map r_data (latest (filter (fun r => r_time r <=? 39) (published h (firstn 5 os)))) = Some [4].
Proof. repeat split; vm_compute; try reflexivity; try discriminate. Qed.

(** An advance to the next iteration of a time does not always show a value of that time: it is compared with
    the iteration number of the last EARLIER value (InputInfo.cpp:412-417). *)
Theorem C12_next_iteration_hides_value_refuted :
  exists os h t, let i := inputAfter os in
  (exists s r, sourceOf h i = Some s /\ In r (s_queue s) /\ r_time r = t) /\
  exists s', sourceOf h (fst (updateTimeTo NextIteration i t)) = Some s' /\
  (exists r, In r (s_queue s') /\ r_time r = t) /\ s_curTime s' < t.
Proof.
  exists [I_addSource (7, 1) [] [] []; I_add (7, 1) 10 3 (Some [1]); I_add (7, 1) 50 0 (Some [2])], (7, 1), 50. cbn zeta. split.
  - eexists _, _. split; [vm_compute; reflexivity|]. split; [right; left; reflexivity|reflexivity].
  - eexists. split; [vm_compute; reflexivity|]. split; [eexists; split; [left; reflexivity|reflexivity]|vm_compute; reflexivity].
Qed.
