(** * Properties C14-C17: connection, change-only, minimum gap, several sources *)
From Coq Require Import ZArith Bool List Lia ZifyBool Permutation Sorted.
From Verif Require Import HTime Action StableSort Interfaces InputSpec PropsInput.
Import ListNotations.
Open Scope Z_scope.

(** ** C14 *)
(** no call in the history connects [h] *)
Definition notConnected (h : ghandle) (os : list iop) : Prop := forall n ty un, ~ In (I_addSource h n ty un) os.
Lemma addData_spec os h t it d : let A := spec_run input_new os in
  addData (inputAfter os) h t it (Some d) =
  match sourceOf h A with
  | None => (inputAfter os, false)
  | Some a => match spec_add (i_gap A) (i_onChange A) (mkRec t it d) a with
              | None => (inputAfter os, false)
              | Some _ => (inputAfter (os ++ [I_add h t it (Some d)]), true)
              end
  end.
Proof.
  cbn zeta. destruct (inputAfter_spec os) as [E C]. destruct (istep_refines _ (I_add h t it (Some d)) C) as [R _]. cbn [istep] in R. rewrite E.
  destruct (inputAfter_spec (os ++ [I_add h t it (Some d)])) as [E2 _]. rewrite spec_run_app in E2. cbn [spec_run] in E2.
  rewrite R. cbn [spec_step]. unfold sourceOf. set (A := spec_run input_new os) in *.
  pose proof (addFirst_none (i_gap A) (i_onChange A) h (mkRec t it d) (i_srcs A)) as N. cbn [spec_step] in E2.
  destruct (spec_addFirst _ _ _ _ _) as [l|] eqn:F; cbn [fst snd] in *.
  - destruct (find _ _) as [a|] eqn:S.
    + destruct (spec_add _ _ _ _) eqn:SA; [rewrite E2; reflexivity|]. destruct N as [_ N]. specialize (N eq_refl). discriminate.
    + destruct N as [_ N]. specialize (N I). discriminate.
  - destruct (find _ _) as [a|] eqn:S; [|reflexivity]. destruct N as [N _]. rewrite (N eq_refl). reflexivity.
Qed.

Lemma unknown_step h A o : sourceOf h A = None -> (forall n ty un, o <> I_addSource h n ty un) -> sourceOf h (fst (spec_step A o)) = None.
Proof.
  unfold sourceOf. intros S NC. destruct o as [h' t it [d|]|mode t|h' n ty un|h' m|n m|f m| |o v]; cbn [spec_step].
  - destruct (spec_addFirst _ _ h' _ _) as [l|] eqn:E; [|exact S]. cbn [fst spec_put i_srcs set_i_bytes set_i_srcs]. rewrite (addFirst_find _ _ h _ _ _ _ E), S. destruct (gh_eqb h' h); reflexivity.
  - exact S.
  - cbn [fst spec_put i_srcs set_i_bytes set_i_srcs]. rewrite find_map_handle, S; [reflexivity|]. intros b. apply advance_facts.
  - unfold addSource. destruct (reconnect h' un (i_srcs A)) as [[r b]|] eqn:E.
    + cbn [fst i_srcs set_i_srcs]. rewrite (reconnect_find _ _ _ _ _ _ E), S. reflexivity.
    + cbn [fst i_srcs set_i_srcs set_i_hasTarget]. clear E. assert (HN : gh_eqb h' h = false). { destruct (gh_eqb h' h) eqn:E; [|reflexivity]. apply gh_eqb_eq in E. subst. destruct (NC n ty un eq_refl). }
      revert S. induction (i_srcs A) as [|x l IH]; cbn; [rewrite HN; reflexivity|]. destruct (gh_eqb (s_handle x) h); [discriminate|auto].
  - cbn [fst spec_put i_srcs set_i_bytes set_i_srcs]. rewrite find_map_handle, S; [reflexivity|]. intros b. destruct (gh_eqb (s_handle b) h'); [apply cut_handle|reflexivity].
  - cbn [fst spec_put i_srcs set_i_bytes set_i_srcs]. rewrite find_map_handle, S; [reflexivity|]. intros b. destruct (beq (s_key b) n); [apply cut_handle|reflexivity].
  - cbn [fst disconnectFed i_srcs set_i_srcs]. rewrite find_map_handle, S; [reflexivity|]. intros b. destruct (_ =? f); [apply deact_handle|reflexivity].
  - cbn [fst spec_put i_srcs set_i_bytes set_i_srcs]. rewrite find_map_handle, S; reflexivity.
  - cbn [fst]. destruct (inputSet_srcs o v A) as (E&_). rewrite E. exact S.
Qed.
Lemma unknown_run h os : forall A, sourceOf h A = None -> notConnected h os -> sourceOf h (spec_run A os) = None.
Proof.
  induction os as [|o os IH]; intros A S NC; [exact S|]. cbn. apply IH.
  - apply unknown_step; [exact S|]. intros n ty un ->. apply (NC n ty un). left; reflexivity.
  - intros n ty un I1. apply (NC n ty un). right; exact I1.
Qed.
(** A value from a source which was never connected is refused and changes nothing. *)
Theorem C14_unknown_source_refused :
  forall os h t it d, notConnected h os -> addData (inputAfter os) h t it (Some d) = (inputAfter os, false).
Proof. intros os h t it d NC. rewrite addData_spec. rewrite (unknown_run h os input_new eq_refl NC). reflexivity. Qed.

(** the calls which end the connection of [h] at time [m] *)
Definition ends (h : ghandle) (m : Z) (o : iop) : Prop := o = I_remove h m \/ o = I_disconnect (fst h) m.
Lemma spec_add_deact gap oc x a a' : spec_add gap oc x a = Some a' -> s_deact a' = s_deact a.
Proof. unfold spec_add. destruct (_ <? _); [discriminate|]. destruct (spec_keeps _ _ _ _); [|discriminate]. intros H. injection H as <-. reflexivity. Qed.
Lemma deact_le m a : s_deact (deactivate m a) = Z.min m (s_deact a).
Proof. unfold deactivate. destruct (Z.ltb_spec m (s_deact a)); cbn; lia. Qed.
Lemma cut_deact m a : s_deact (spec_cut m a) = Z.min m (s_deact a).
Proof. unfold spec_cut. rewrite deact_le. reflexivity. Qed.
Lemma own_deact h gap oc o a : (forall n ty un, o <> I_addSource h n ty un) -> s_deact (own h gap oc o a) <= s_deact a.
Proof.
  intros NC. destruct o as [h' t it [d|]|mode t|h' n ty un|h' m|n m|f m| |o v]; cbn [own]; try lia.
  - destruct (gh_eqb h' h); [|lia]. destruct (spec_add _ _ _ _) eqn:E; [rewrite (spec_add_deact _ _ _ _ _ E)|]; lia.
  - destruct (advance_facts mode oc t a) as (_&_&_&->&_). lia.
  - destruct (gh_eqb h' h) eqn:E; [|cbn; lia]. apply gh_eqb_eq in E. subst. destruct (NC n ty un eq_refl).
  - destruct (gh_eqb h' h); [rewrite cut_deact; lia|lia].
  - destruct (beq (s_key a) n); [rewrite cut_deact; lia|lia].
  - destruct (fst h =? f); [rewrite deact_le; lia|lia].
  - cbn. lia.
Qed.
Definition endedBy (h : ghandle) (m : Z) (A : input) : Prop := match sourceOf h A with None => True | Some a => s_deact a <= m end.
Lemma ended_run h m os : forall A, endedBy h m A -> notConnected h os -> endedBy h m (spec_run A os).
Proof.
  induction os as [|o os IH]; intros A S NC; [exact S|]. cbn. assert (NO : forall n ty un, o <> I_addSource h n ty un) by (intros n ty un ->; apply (NC n ty un); left; reflexivity).
  apply IH; [|intros n ty un I1; apply (NC n ty un); right; exact I1].
  unfold endedBy in *. destruct (sourceOf h A) as [a|] eqn:E.
  - rewrite (own_step h A o a E). pose proof (own_deact h (i_gap A) (i_onChange A) o a NO). lia.
  - rewrite (unknown_step h A o E NO). exact I.
Qed.
(** After a source was removed (or its federate disconnected) at [m], whatever happens next short of
    connecting it again, its values later than [m] are refused. *)
Theorem C14_disconnected_source_refused :
  forall before h m o after t it d, ends h m o -> notConnected h after -> m < t ->
  let os := before ++ o :: after in addData (inputAfter os) h t it (Some d) = (inputAfter os, false).
Proof.
  intros before h m o after t it d EN NC MT os. rewrite addData_spec. unfold os. rewrite spec_run_app. cbn [spec_run]. set (A := spec_run input_new before).
  assert (E : endedBy h m (fst (spec_step A o))).
  { unfold endedBy. destruct (sourceOf h A) as [a|] eqn:S.
    - rewrite (own_step h A o a S). destruct EN as [->| ->]; cbn [own]; rewrite ?gh_refl, ?Z.eqb_refl, ?cut_deact, ?deact_le; lia.
    - rewrite (unknown_step h A o S); [exact I|]. intros n ty un ->. destruct EN; discriminate. }
  apply (ended_run h m after _ E) in NC. unfold endedBy in NC. destruct (sourceOf h _) as [a|]; [|reflexivity].
  unfold spec_add. cbn [r_time]. replace (s_deact a <? t) with true by lia. reflexivity.
Qed.
(** removing by name does the same for the source which has the name *)
Theorem C14_removed_name_refused :
  forall before h s m after t it d, sourceOf h (inputAfter before) = Some s -> notConnected h after -> m < t ->
  let os := before ++ I_removeName (s_key s) m :: after in addData (inputAfter os) h t it (Some d) = (inputAfter os, false).
Proof.
  intros before h s m after t it d S NC MT os. rewrite addData_spec. unfold os. rewrite spec_run_app. cbn [spec_run]. set (A := spec_run input_new before) in *.
  rewrite inputAfter_source in S. fold A in S. destruct (sourceOf h A) as [a|] eqn:SA; [|discriminate]. injection S as <-. change (s_key (orderQ a)) with (s_key a).
  assert (B : beq (s_key a) (s_key a) = true) by (apply beq_eq; reflexivity).
  assert (E : endedBy h m (fst (spec_step A (I_removeName (s_key a) m)))) by (unfold endedBy; rewrite (own_step h A _ a SA); cbn [own]; rewrite B, cut_deact; lia).
  apply (ended_run h m after _ E) in NC. unfold endedBy in NC. cbn [orderQ s_key set_s_queue] in *.
  destruct (sourceOf h (spec_run (fst (spec_step A (I_removeName (s_key a) m))) after)) as [b|]; [|reflexivity].
  unfold spec_add. cbn [r_time]. replace (s_deact b <? t) with true by lia. reflexivity.
Qed.

(** A connected source keeps being accepted up to the time at which it was removed: from the last connection,
    in a history where every end of the connection is at [t] or later. *)
Definition lasts (h : ghandle) (t : Z) (o : iop) : Prop :=
  match o with
  | I_remove h' m => gh_eqb h' h = true -> t <= m
  | I_removeName _ m => t <= m
  | I_disconnect f m => fst h = f -> t <= m
  | _ => True
  end.
Definition stillOpen (h : ghandle) (t : Z) (A : input) : Prop := exists a, sourceOf h A = Some a /\ t <= s_deact a.
Lemma open_step h t A o : t <= maxVal -> stillOpen h t A -> lasts h t o -> stillOpen h t (fst (spec_step A o)).
Proof.
  intros M (a&S&T) L. exists (own h (i_gap A) (i_onChange A) o a). split; [apply own_step, S|].
  destruct o as [h' t' it [d|]|mode t'|h' n ty un|h' m|n m|f m| |o v]; cbn [own lasts] in *; try lia.
  - destruct (gh_eqb h' h); [|lia]. destruct (spec_add _ _ _ _) eqn:E; [rewrite (spec_add_deact _ _ _ _ _ E)|]; lia.
  - destruct (advance_facts mode (i_onChange A) t' a) as (_&_&_&->&_). lia.
  - destruct (gh_eqb h' h && (s_deact a <? maxVal)); cbn; lia.
  - destruct (gh_eqb h' h); [specialize (L eq_refl); rewrite cut_deact; lia|lia].
  - destruct (beq (s_key a) n); [rewrite cut_deact; lia|lia].
  - destruct (Z.eqb_spec (fst h) f); [specialize (L e); rewrite deact_le; lia|lia].
  - cbn. lia.
Qed.
Lemma open_run h t os : t <= maxVal -> forall A, stillOpen h t A -> Forall (lasts h t) os -> stillOpen h t (spec_run A os).
Proof. intros M. induction os as [|o os IH]; intros A S F; [exact S|]. inversion F; subst. cbn. apply IH; [apply open_step; assumption|assumption]. Qed.
Lemma connect_open h n ty un A t : t <= maxVal -> stillOpen h t (fst (spec_step A (I_addSource h n ty un))).
Proof.
  intros M. destruct (sourceOf h A) as [a|] eqn:S.
  - eexists. split; [apply own_step, S|]. cbn [own]. rewrite gh_refl. destruct (Z.ltb_spec (s_deact a) maxVal); cbn; lia.
  - eexists. split; [apply connect_new, S|]. cbn. exact M.
Qed.
Theorem C14_connected_source_accepted :
  forall before h n ty un after t it d, t <= maxVal -> Forall (lasts h t) after ->
  let os := before ++ I_addSource h n ty un :: after in
  i_gap (inputAfter os) <= 0 -> i_onChange (inputAfter os) = false ->
  let i' := fst (addData (inputAfter os) h t it (Some d)) in
  snd (addData (inputAfter os) h t it (Some d)) = true /\
  exists s s', sourceOf h (inputAfter os) = Some s /\ sourceOf h i' = Some s' /\ Permutation (s_queue s') (mkRec t it d :: s_queue s).
Proof.
  intros before h n ty un after t it d M L os G OC i'. unfold i'. rewrite addData_spec.
  destruct (open_run h t after M (fst (spec_step (spec_run input_new before) (I_addSource h n ty un))) (connect_open h n ty un _ t M) L) as (a&S&T).
  assert (ES : spec_run (fst (spec_step (spec_run input_new before) (I_addSource h n ty un))) after = spec_run input_new os) by (unfold os; rewrite spec_run_app; reflexivity).
  rewrite ES in S. rewrite S. destruct (inputAfter_spec os) as [E _]. rewrite E in G, OC. cbn in G, OC. set (A := spec_run input_new os) in *.
  assert (SA : spec_add (i_gap A) (i_onChange A) (mkRec t it d) a = Some (set_s_queue (s_queue a ++ [mkRec t it d]) a)).
  { unfold spec_add. cbn [r_time]. replace (s_deact a <? t) with false by lia.
    assert (K : forall pt pd, keeps (i_gap A) false t d pt pd = true) by (intros; unfold keeps, timeZero; cbn; replace (0 <? i_gap A) with false by lia; reflexivity).
    replace (spec_keeps (i_gap A) (i_onChange A) (mkRec t it d) a) with true; [reflexivity|]. symmetry. rewrite OC. unfold spec_keeps. cbn [r_time r_data]. clear -K.
    destruct (s_queue a); [destruct (s_cur a); rewrite ?K; reflexivity|]. destruct (latest _); rewrite ?K; reflexivity. }
  rewrite SA. cbn [fst snd]. split; [reflexivity|]. rewrite !inputAfter_source, spec_run_app. fold A. rewrite S. cbn [spec_run].
  rewrite (own_step h A _ a S). cbn [own option_map]. rewrite gh_refl, SA. eexists _, _. split; [reflexivity|]. split; [reflexivity|].
  unfold orderQ. cbn [s_queue set_s_queue]. etransitivity; [apply Permutation_sym, order_perm|]. rewrite Permutation_app_comm. cbn. constructor. apply order_perm.
Qed.
(** removing a source also drops its waiting values later than the time of removal, and only those *)
Theorem C14_removal_drops_later_values :
  forall os h m s, sourceOf h (inputAfter os) = Some s ->
  exists s', sourceOf h (removeSource (inputAfter os) h m) = Some s' /\
  s_queue s' = filter (fun r => r_time r <=? m) (s_queue s) /\ s_cur s' = s_cur s.
Proof.
  intros os h m s S. destruct (inputAfter_spec os) as [E C]. destruct (istep_refines _ (I_remove h m) C) as [R _]. cbn [istep] in R. rewrite E.
  rewrite inputAfter_source in S. set (A := spec_run input_new os) in *. destruct (sourceOf h A) as [a|] eqn:SA; [|discriminate]. injection S as <-.
  assert (R2 : removeSource (orderI A) h m = orderI (fst (spec_step A (I_remove h m)))) by congruence. rewrite R2, sourceOf_order, (own_step h A _ a SA). cbn [own]. rewrite gh_refl.
  eexists. split; [reflexivity|]. unfold spec_cut, orderQ. rewrite deactivate_queue2. cbn [s_queue set_s_queue s_cur]. rewrite order_filter. split; [reflexivity|].
  unfold deactivate. cbn. destruct (m <? s_deact a); reflexivity.
Qed.
(** Disconnecting the federate does not: a value sent for later than the disconnection still becomes current. *)
Theorem C14_disconnect_keeps_later_values_refuted :
  exists os h m t v, m < t /\ (exists s, sourceOf h (inputAfter (os ++ [I_disconnect (fst h) m; I_advance Inclusive t])) = Some s /\ s_cur s = Some v /\ s_curTime s = t /\ s_deact s = m).
Proof.
  exists [I_addSource (7, 1) [] [] []; I_add (7, 1) 50 0 (Some [9])], (7, 1), 20, 50, [9]. split; [lia|]. eexists. split; [vm_compute; reflexivity|]. repeat split.
Qed.
(** Connecting again stores the units as the type (InputInfo.cpp:193-196). *)
Theorem C14_reconnect_changes_type_refuted :
  exists os h n ty un s, sourceOf h (inputAfter (os ++ [I_addSource h n ty un; I_disconnect (fst h) 5; I_addSource h n ty un])) = Some s /\ s_type s <> ty.
Proof. exists [], (7, 1), [], [1], [2]. eexists. split; [vm_compute; reflexivity|discriminate]. Qed.
Example C14_nonvacuous :
  let h := (7, 1) in let os := [I_addSource h [1] [] []; I_add h 10 0 (Some [1])] in
  sourceOf h (inputAfter os) <> None /\
  snd (addData (inputAfter (os ++ [I_disconnect 7 20; I_advance UpTo 15])) h 20 0 (Some [2])) = true /\
  snd (addData (inputAfter (os ++ [I_disconnect 7 20; I_advance UpTo 15])) h 21 0 (Some [2])) = false /\
  snd (addData (inputAfter (os ++ [I_disconnect 7 20; I_addSource h [1] [] []])) h 21 0 (Some [2])) = true.
Proof. vm_compute. repeat split. discriminate. Qed.

(** ** C15 *)
Lemma advanceSources_nth mode oc t l : forall k, nth_error (fst (fst (advanceSources mode oc t l))) k = option_map (fun s => fst (fst (advanceSource mode oc t s))) (nth_error l k).
Proof.
  induction l as [|a l IH]; intros k; [destruct k; reflexivity|]. cbn [advanceSources]. destruct (advanceSource mode oc t a) as [[a' b] n] eqn:E. destruct (advanceSources mode oc t l) as [[l' b'] n'] eqn:E2.
  destruct k; cbn; [rewrite E; reflexivity|]. exact (IH k).
Qed.
Lemma advanceSources_flag mode oc t l : snd (fst (advanceSources mode oc t l)) = existsb (fun s => snd (fst (advanceSource mode oc t s))) l.
Proof. induction l as [|a l IH]; [reflexivity|]. cbn. destruct (advanceSource mode oc t a) as [[a' b] n]. destruct (advanceSources mode oc t l) as [[l' b'] n']. cbn in *. rewrite IH. reflexivity. Qed.
Lemma updateData_flag u s : snd (updateData true u s) = true <-> s_cur (fst (updateData true u s)) <> s_cur s.
Proof.
  unfold updateData. destruct (s_cur s) as [cd|] eqn:C; cbn [negb].
  - destruct (beq cd (r_data u)) eqn:B; cbn [negb fst snd].
    + split; [discriminate|]. intros N. destruct N. destruct (s_curTime s =? r_time u); exact C.
    + split; [|reflexivity]. intros _ H. cbn in H. injection H as H. rewrite H in B. assert (beq cd cd = true) by (apply beq_eq; reflexivity). congruence.
  - cbn. split; [discriminate|reflexivity].
Qed.
(** An advance of a change-only input reports an update exactly when the value of some source changed. *)
Theorem C15_input_update_iff_changed :
  forall mode t i, i_onChange i = true ->
  let i' := fst (updateTimeTo mode i t) in
  snd (updateTimeTo mode i t) = true <->
  exists k s s', nth_error (i_srcs i) k = Some s /\ nth_error (i_srcs i') k = Some s' /\ s_cur s' <> s_cur s.
Proof.
  intros mode t i OC i'. unfold i', updateTimeTo. rewrite OC.
  pose proof (advanceSources_nth mode true t (i_srcs i)) as NTH. pose proof (advanceSources_flag mode true t (i_srcs i)) as FL.
  destruct (advanceSources mode true t (i_srcs i)) as [[l b] n]. cbn [fst snd i_srcs set_i_bytes set_i_srcs] in *. subst b.
  assert (ONE : forall s, snd (fst (advanceSource mode true t s)) = true <-> s_cur (fst (fst (advanceSource mode true t s))) <> s_cur s).
  { intros s. unfold advanceSource. destruct (passQueue mode t (s_queue s)) as [[[u n'] q]|]; [|cbn; split; [discriminate|congruence]].
    pose proof (updateData_flag u s) as H. destruct (updateData true u s) as [s' b]. cbn in *. exact H. }
  rewrite existsb_exists. split.
  - intros (s&I1&F). apply In_nth_error in I1 as (k&K). exists k, s, (fst (fst (advanceSource mode true t s))). split; [exact K|]. split; [rewrite NTH, K; reflexivity|]. apply ONE, F.
  - intros (k&s&s'&K1&K2&N). exists s. split; [eapply nth_error_In, K1|]. rewrite NTH, K1 in K2. injection K2 as <-. apply ONE, N.
Qed.

(** Publications: [changes last ps] keeps the published values which differ from the last one kept. *)
Fixpoint changes (last : list Z) (ps : list (list Z * Z)) : list (list Z * Z) :=
  match ps with
  | [] => []
  | (d, t) :: r => if beq d last then changes last r else (d, t) :: changes d r
  end.
Theorem C15_publication_transmits_changes :
  forall ps p, p_gap p <= 0 -> (p_onChange p = true \/ Forall (fun x => snd x = true) ps) ->
  snd (prun p ps) = changes (p_data p) (map fst ps).
Proof.
  induction ps as [|[[d t] fc] ps IH]; intros p G F; [reflexivity|]. cbn [prun map fst changes]. unfold checkSetValue. unfold timeZero. replace (0 <? p_gap p) with false by lia. cbn [andb].
  assert (OC : p_onChange p || fc = true) by (destruct F as [->|F]; [reflexivity|inversion F as [|? ? X Y]; cbn in X; subst; apply orb_true_r]). rewrite OC.
  assert (F2 : p_onChange p = true \/ Forall (fun x : list Z * Z * bool => snd x = true) ps) by (destruct F as [F|F]; [left; exact F|inversion F; right; assumption]).
  destruct (beq d (p_data p)) eqn:B; cbn [negb].
  - specialize (IH p G F2). destruct (prun p ps) as [p2 out]. exact IH.
  - specialize (IH (set_p_last t (set_p_data d p)) G F2). destruct (prun (set_p_last t (set_p_data d p)) ps) as [p2 out]. cbn [snd] in *. rewrite IH. reflexivity.
Qed.
Lemma changes_differ ps : forall last, match changes last ps with [] => True | (d, _) :: _ => d <> last end.
Proof.
  induction ps as [|[d t] ps IH]; intros last; [exact I|]. cbn. destruct (beq d last) eqn:B; [apply IH|]. intros ->. assert (beq last last = true) by (apply beq_eq; reflexivity). congruence.
Qed.
(** ... so two consecutive transmitted values always differ *)
Theorem C15_consecutive_transmitted_differ :
  forall ps p a d1 t1 d2 t2 b, p_gap p <= 0 -> (p_onChange p = true \/ Forall (fun x => snd x = true) ps) ->
  snd (prun p ps) = a ++ (d1, t1) :: (d2, t2) :: b -> d1 <> d2.
Proof.
  intros ps p a d1 t1 d2 t2 b G F E. rewrite C15_publication_transmits_changes in E by assumption. revert E. generalize (p_data p) (map fst ps). clear.
  intros last ps. revert last a. induction ps as [|[d t] ps IH]; intros last a E; [destruct a; discriminate|]. cbn in E.
  destruct (beq d last) eqn:B; [exact (IH last a E)|]. destruct a as [|x a]; cbn in E.
  - assert (ED : d = d1) by congruence. assert (E2 : changes d ps = (d2, t2) :: b) by congruence. intros E3. subst. pose proof (changes_differ ps d2) as D. rewrite E2 in D. congruence.
  - assert (E2 : changes d ps = a ++ (d1, t1) :: (d2, t2) :: b) by congruence. exact (IH d a E2).
Qed.
(** The comparison is with the last value stored, which is not the last one transmitted when the check was off
    (PublicationInfo.cpp:30-37): a new value can be lost, *)
Theorem C15_stale_comparison_refuted :
  exists p d1 d2 t1 t2 t3, p_onChange p = true /\ d1 <> d2 /\
  let '(p1, b1) := checkSetValue p d1 t1 false in
  let '(p2, b2) := checkSetValue (pubSetProperty OPT_ONLY_TRANSMIT_ON_CHANGE 0 p1) d2 t2 false in
  let '(p3, b3) := checkSetValue (pubSetProperty OPT_ONLY_TRANSMIT_ON_CHANGE 1 p2) d1 t3 false in
  b1 = true /\ b2 = true /\ b3 = false.
Proof. exists (set_p_onChange true pub_new), [1], [2], 1, 2, 3. vm_compute. repeat split. discriminate. Qed.
(** and an empty first value is never sent. *)
Theorem C15_first_empty_value_not_sent_refuted :
  exists p, p = set_p_onChange true pub_new /\ forall t, snd (checkSetValue p [] t false) = false.
Proof. eexists. split; [reflexivity|]. intros t. vm_compute. reflexivity. Qed.
Example C15_nonvacuous : snd (prun (set_p_onChange true pub_new) [([1], 1, false); ([1], 2, false); ([2], 3, false); ([1], 4, false)]) = [([1], 1); ([2], 3); ([1], 4)].
Proof. reflexivity. Qed.

(** ** C16 *)
(** times at least [g] apart, from [last] on *)
Fixpoint spaced (g last : Z) (ts : list Z) : Prop :=
  match ts with
  | [] => True
  | t :: r => g <= t - last /\ spaced g t r
  end.
Theorem C16_publication_gap :
  forall ps p, 0 < p_gap p -> spaced (p_gap p) (p_last p) (map snd (snd (prun p ps))).
Proof.
  induction ps as [|[[d t] fc] ps IH]; intros p G; [exact I|]. cbn [prun]. unfold checkSetValue, timeZero. replace (0 <? p_gap p) with true by lia. cbn [andb].
  destruct (Z.ltb_spec (t - p_last p) (p_gap p)) as [L|L].
  - specialize (IH p G). destruct (prun p ps) as [p2 out]. exact IH.
  - destruct (p_onChange p || fc).
    + destruct (negb (beq d (p_data p))).
      * specialize (IH (set_p_last t (set_p_data d p)) G). destruct (prun _ ps) as [p2 out]. cbn in *. split; [exact L|exact IH].
      * specialize (IH p G). destruct (prun p ps) as [p2 out]. exact IH.
    + match goal with |- context [prun ?q ps] => assert (GQ : p_gap q = p_gap p) by (destruct (p_buffer p); reflexivity); assert (LQ : p_last q = t) by (destruct (p_buffer p); reflexivity);
        specialize (IH q); rewrite GQ, LQ in IH; specialize (IH G); destruct (prun q ps) as [p2 out] end. cbn in *. split; [exact L|exact IH].
Qed.
(** without the change check, only values inside the gap are held back *)
Theorem C16_publication_outside_gap_sent :
  forall p d t, p_onChange p = false -> p_gap p <= t - p_last p -> snd (checkSetValue p d t false) = true.
Proof. intros p d t OC L. unfold checkSetValue. rewrite OC. replace (t - p_last p <? p_gap p) with false by lia. rewrite andb_false_r. reflexivity. Qed.
(** The first publication counts time zero as the last transmission (PublicationInfo.hpp:41): it is lost before [g]. *)
Theorem C16_first_publication_lost_refuted :
  exists g d t, 0 <= t /\ prun (set_p_gap g pub_new) [(d, t, false)] = (set_p_gap g pub_new, []).
Proof. exists 10, [1], 5. split; [lia|reflexivity]. Qed.

(** Inputs: the times of the values accepted from [h] *)
Fixpoint acceptedTimes (h : ghandle) (i : input) (os : list iop) : list Z :=
  match os with
  | [] => []
  | o :: r =>
      let '(i', b) := istep i o in
      match o with
      | I_add h' t _ _ => if gh_eqb h' h && b then t :: acceptedTimes h i' r else acceptedTimes h i' r
      | _ => acceptedTimes h i' r
      end
  end.
(** values of [h] arrive in order and the source is not removed or cleared; the options stay *)
Fixpoint arrivesInOrder (h : ghandle) (prev : drec) (os : list iop) : Prop :=
  match os with
  | [] => True
  | o :: r =>
      match o with
      | I_add h' t it (Some d) => gh_eqb h' h = true -> rlt (mkRec t it d) prev = false
      | I_remove h' _ => gh_eqb h' h = false
      | I_removeName _ _ | I_clear => False
      | I_set p _ => p <> OPT_TIME_RESTRICTED /\ p <> OPT_ONLY_UPDATE_ON_CHANGE
      | _ => True
      end /\
      arrivesInOrder h (match o with I_add h' t it (Some d) => if gh_eqb h' h then mkRec t it d else prev | _ => prev end) r
  end.
Lemma due_down mode t w : downIn w (due mode t w).
Proof.
  intros a b A B L D. destruct mode; cbn [due] in *.
  - apply rle_time in L. lia.
  - apply rle_time in L. lia.
  - pose proof (rle_time _ _ L) as LT. apply orb_true_iff in D as [D|D]; [unfold isOld in *; lia|]. apply andb_true_iff in D as [D D3]. apply andb_true_iff in D as [D1 D2].
    unfold isOld, isAt in D1 |- *. destruct (Z.ltb_spec (r_time a) t); [reflexivity|]. cbn [orb]. assert (TA : r_time a = t) by lia. rewrite TA, Z.eqb_refl. cbn [andb].
    pose proof (firstIter_spec (filter (isAt t) w)) as FS. change (fun r => r_time r =? t) with (isAt t) in *. destruct (firstIter (filter (isAt t) w)) as [k|]; [|discriminate].
    destruct FS as [_ FS]. assert (IA : In a (filter (isAt t) w)) by (apply filter_In; unfold isAt; split; [exact A|lia]). specialize (FS a IA).
    assert (IT : r_iter a = r_iter b) by (unfold le in L; rewrite rlt_eq in L; lia). rewrite IT, D2. exact D3.
Qed.
Definition lastAccepted (a : isrc) (L : Z) (prev : drec) : Prop :=
  sorted (s_queue a) /\ (forall r, In r (s_queue a) -> le rlt r prev = true) /\
  match lastOf (s_queue a) with Some u => r_time u = L | None => exists cd, s_cur a = Some cd /\ s_curTime a = L end.
Definition anyAccepted (a : isrc) (L : option Z) (prev : drec) : Prop :=
  match L with Some l => lastAccepted a l prev | None => s_queue a = [] /\ s_cur a = None end.
Lemma cur_time mode t a : s_curTime (fst (spec_advance mode false t a)) = match latest (filter (due mode t (s_queue a)) (s_queue a)) with Some u => r_time u | None => s_curTime a end.
Proof. unfold spec_advance. destruct (latest _) as [u|]; [|reflexivity]. unfold spec_show, updateData. destruct (s_cur a); reflexivity. Qed.
Lemma accepted_advance mode t a L prev : anyAccepted a L prev -> anyAccepted (fst (spec_advance mode false t a)) L prev.
Proof.
  destruct (advance_facts mode false t a) as (F1&F2&_). destruct L as [L|]; cbn [anyAccepted].
  - intros (S&P&E). unfold lastAccepted. rewrite F1, F2, cur_time.
    pose proof (split_prefix (due mode t (s_queue a)) (s_queue a) S (due_down mode t (s_queue a))) as SP.
    set (yes := filter (due mode t (s_queue a)) (s_queue a)) in *. set (no := filter (fun r => negb (due mode t (s_queue a) r)) (s_queue a)) in *.
    assert (SN : sorted no) by (apply sorted_filter, S). assert (SY : sorted yes) by (apply sorted_filter, S).
    split; [exact SN|]. split; [intros r R; apply P; apply filter_In in R; apply R|]. clearbody yes no.
    destruct no as [|z no' _] using rev_ind.
    + rewrite app_nil_r in SP. rewrite SP in E. rewrite latest_order. unfold order. rewrite (isort_id rlt) by exact SY. cbn [lastOf rev].
      destruct (lastOf yes) as [u|]; [exists (r_data u); auto|exact E].
    + rewrite lastOf_snoc. rewrite SP, app_assoc, lastOf_snoc in E. exact E.
  - intros [Q C]. rewrite F1, F2, Q. split; [reflexivity|exact C].
Qed.
Lemma gap_run h g os : 0 < g -> forall A a L prev, counted A -> sourceOf h A = Some a -> i_gap A = g -> i_onChange A = false -> arrivesInOrder h prev os -> anyAccepted a L prev ->
  match L with Some l => spaced g l (acceptedTimes h (orderI A) os) | None => match acceptedTimes h (orderI A) os with [] => True | t :: r => spaced g t r end end.
Proof.
  intros G. induction os as [|o os IH]; intros A a L prev C S GE OC OKOR AC; [destruct L; exact I|]. destruct OKOR as [OK OR].
  cbn [acceptedTimes]. destruct (istep_refines A o C) as [R C2]. rewrite R.
  pose proof (own_step h A o a S) as OS. rewrite GE, OC in OS.
  assert (OPT : i_gap (fst (spec_step A o)) = g /\ i_onChange (fst (spec_step A o)) = false).
  { rewrite <- GE, <- OC. destruct o; try (apply step_options; intros; discriminate). destruct OK as [O1 O2]. cbn [spec_step fst]. rewrite set_gap, set_onChange; auto. }
  destruct OPT as [G2 OC2].
  assert (SKIP : anyAccepted (own h g false o a) L (match o with I_add h' t it (Some d) => if gh_eqb h' h then mkRec t it d else prev | _ => prev end) ->
      match L with Some l => spaced g l (acceptedTimes h (orderI (fst (spec_step A o))) os) | None => match acceptedTimes h (orderI (fst (spec_step A o))) os with [] => True | t :: r => spaced g t r end end)
    by (intros AC2; exact (IH _ _ L _ C2 OS G2 OC2 OR AC2)).
  destruct o as [h' t it [d|]|mode t|h' n ty un|h' m|n m|f m| |o v]; try contradiction.
  - destruct (gh_eqb h' h) eqn:E; [|cbn [andb]; apply SKIP; cbn [own]; rewrite E; exact AC]. apply gh_eqb_eq in E. subst h'. specialize (OK eq_refl). cbn [andb].
    set (x := mkRec t it d) in *.
    assert (SB : snd (spec_step A (I_add h t it (Some d))) = match spec_add g false x a with Some _ => true | None => false end).
    { cbn [spec_step]. rewrite GE, OC. fold x. pose proof (addFirst_none g false h x (i_srcs A)) as N. unfold sourceOf in S. rewrite S in N. destruct (spec_addFirst _ _ _ _ _); cbn [snd]; destruct (spec_add g false x a); try reflexivity; destruct N as [N1 N2]; [discriminate (N2 eq_refl)|discriminate (N1 eq_refl)]. }
    assert (OX : anyAccepted a L prev -> anyAccepted a L x). { clear -OK. destruct L; cbn [anyAccepted]; [|tauto]. intros (S&P&E). split; [exact S|]. split; [|exact E]. intros r R. specialize (P r R). unfold le in *. rewrite !rlt_eq in *. lia. }
    rewrite SB. destruct (spec_add g false x a) as [a'|] eqn:SA.
    + assert (A' : a' = set_s_queue (s_queue a ++ [x]) a /\ spec_keeps g false x a = true). { unfold spec_add in SA. destruct (_ <? _); [discriminate|]. destruct (spec_keeps g false x a); [|discriminate]. injection SA as <-. auto. }
      destruct A' as [-> K].
      assert (NEXT : anyAccepted (own h g false (I_add h t it (Some d)) a) (Some t) x).
      { cbn [own]. rewrite gh_refl. fold x. rewrite SA. cbn [anyAccepted]. unfold lastAccepted. cbn [s_queue set_s_queue]. rewrite lastOf_snoc.
        assert (QS : sorted (s_queue a) /\ forall r, In r (s_queue a) -> le rlt r prev = true). { destruct L; cbn [anyAccepted] in AC; [destruct AC as (S1&P1&_); auto|destruct AC as [Q _]; rewrite Q; split; [constructor|intros ? []]]. }
        destruct QS as [QS QP]. assert (QX : forall r, In r (s_queue a) -> rlt x r = false). { intros r R0. specialize (QP r R0). unfold le in QP. rewrite rlt_eq in *. lia. }
        split; [apply ordered_snoc; auto|]. split; [|reflexivity]. intros r R0. apply in_app_iff in R0 as [R0|[<-|[]]]; unfold le; [rewrite QX by exact R0; reflexivity|rewrite rlt_irrefl; reflexivity]. }
      assert (OR2 : arrivesInOrder h x os) by exact OR.
      pose proof (IH _ _ (Some t) x C2 OS G2 OC2 OR2 NEXT) as TL. cbn in TL.
      destruct L as [l|]; [|exact TL]. split; [|exact TL]. destruct AC as (S1&P1&E1). unfold spec_keeps in K. change (r_time x) with t in K. change (r_data x) with d in K.
      assert (KP : forall pt pd, keeps g false t d pt pd = true -> g <= t - pt) by (intros pt pd H; unfold keeps, timeZero in H; lia).
      destruct (s_queue a) as [|q0 q] eqn:SQ.
      * cbn in E1. destruct E1 as (cd&E1&<-). rewrite E1 in K. exact (KP _ _ K).
      * rewrite <- SQ in *. rewrite filter_all in K. 2:{ intros r R0. specialize (P1 r R0). unfold le in P1. rewrite rlt_eq in *. lia. }
        rewrite latest_order in K. unfold order in K. rewrite (isort_id rlt) in K by exact S1. destruct (lastOf (s_queue a)) as [u|] eqn:LU; [subst l; exact (KP _ _ K)|].
        rewrite SQ in LU. rewrite lastOf_cons in LU. discriminate.
    + apply SKIP. cbn [own]. rewrite gh_refl. fold x. rewrite SA. apply OX, AC.
  - assert (SN : snd (spec_step A (I_add h' t it None)) = false) by reflexivity. rewrite SN, andb_false_r. apply SKIP. exact AC.
  - apply SKIP. cbn [own]. apply accepted_advance, AC.
  - apply SKIP. cbn [own]. destruct (_ && _); [|exact AC]. destruct L; exact AC.
  - apply SKIP. cbn [own]. rewrite OK. exact AC.
  - apply SKIP. cbn [own]. destruct (fst h =? f); [|exact AC]. assert (DQ : s_queue (deactivate m a) = s_queue a /\ s_cur (deactivate m a) = s_cur a /\ s_curTime (deactivate m a) = s_curTime a) by (unfold deactivate; destruct (_ <? _); auto).
    destruct DQ as (D1&D2&D3). destruct L; unfold anyAccepted, lastAccepted in *; rewrite ?D1, ?D2, ?D3; exact AC.
  - apply SKIP. exact AC.
Qed.
(** From its connection on, the values accepted from a source whose values arrive in order are a gap apart. *)
Theorem C16_input_gap :
  forall before h name ty un os, let i0 := inputAfter (before ++ [I_addSource h name ty un]) in
  sourceOf h (inputAfter before) = None -> 0 < i_gap i0 -> i_onChange i0 = false -> (exists prev, arrivesInOrder h prev os) ->
  match acceptedTimes h i0 os with [] => True | t :: r => spaced (i_gap i0) t r end.
Proof.
  intros before h name ty un os i0 S G OC (prev&OR). unfold i0 in *. destruct (inputAfter_spec (before ++ [I_addSource h name ty un])) as [E C]. rewrite E in *. cbn in G, OC.
  rewrite inputAfter_source in S. assert (S0 : sourceOf h (spec_run input_new before) = None) by (destruct (sourceOf h (spec_run input_new before)); [discriminate|reflexivity]).
  pose proof (connect_new h name ty un _ S0) as SC.
  assert (SE : spec_run input_new (before ++ [I_addSource h name ty un]) = fst (spec_step (spec_run input_new before) (I_addSource h name ty un))) by (rewrite spec_run_app; reflexivity).
  rewrite <- SE in SC. change (i_gap (orderI ?X)) with (i_gap X).
  exact (gap_run h _ os G _ _ None prev C SC eq_refl OC OR (conj eq_refl eq_refl)).
Qed.
(** Out of order, a value may be accepted right before a waiting one, *)
Theorem C16_out_of_order_gap_refuted :
  exists os h, let i := inputAfter os in i_gap i = 10 * msTicks /\ acceptedTimes h i [I_add h (20 * msTicks) 0 (Some [1]); I_add h (15 * msTicks) 0 (Some [2])] = [20 * msTicks; 15 * msTicks].
Proof. exists [I_addSource (7, 1) [] [] []; I_set OPT_TIME_RESTRICTED 10], (7, 1). vm_compute. split; reflexivity. Qed.
(** and together with change-only the gap is measured from an older value. *)
Theorem C16_gap_with_change_only_refuted :
  exists os h more, let i := inputAfter os in i_gap i = 10 * msTicks /\ arrivesInOrder h drec0 more /\ acceptedTimes h i more = [0; 10 * msTicks; 20 * msTicks; 25 * msTicks].
Proof.
  exists [I_addSource (7, 1) [] [] []; I_set OPT_TIME_RESTRICTED 10; I_set OPT_ONLY_UPDATE_ON_CHANGE 1], (7, 1),
    [I_add (7, 1) 0 0 (Some [1]); I_advance Inclusive 0; I_add (7, 1) (10 * msTicks) 0 (Some [2]); I_add (7, 1) (20 * msTicks) 0 (Some [1]);
     I_advance Inclusive (20 * msTicks); I_add (7, 1) (25 * msTicks) 0 (Some [3])].
  cbn zeta. repeat split; vm_compute; reflexivity.
Qed.
Example C16_nonvacuous :
  let h := (7, 1) in let i := inputAfter [I_set OPT_TIME_RESTRICTED 10; I_addSource h [] [] []] in
  i_gap i = 10 * msTicks /\
  acceptedTimes h i [I_add h 0 0 (Some [1]); I_add h (9 * msTicks) 0 (Some [2]); I_add h (10 * msTicks) 0 (Some [2]); I_advance UpTo (11 * msTicks); I_add h (19 * msTicks) 0 (Some [2]); I_add h (25 * msTicks) 0 (Some [2])] = [0; 10 * msTicks; 25 * msTicks].
Proof. vm_compute. split; reflexivity. Qed.

(** ** C17 *)
(** the last place of [k] in the declared priorities, counted from 1; 0 when it is not there *)
Fixpoint rank (k : Z) (prio : list Z) (pos : Z) : Z :=
  match prio with
  | [] => 0
  | p :: r => let later := rank k r (pos + 1) in if 0 <? later then later else if p =? k then pos else 0
  end.
Lemma rank_bound k prio : forall pos, 1 <= pos -> 0 <= rank k prio pos < pos + Z.of_nat (length prio) /\ (rank k prio pos = 0 \/ pos <= rank k prio pos).
Proof.
  induction prio as [|p r IH]; intros pos P; cbn [rank length]; [lia|]. specialize (IH (pos + 1) ltac:(lia)). destruct (0 <? rank k r (pos + 1)) eqn:E; [lia|]. destruct (p =? k); lia.
Qed.
Lemma rank_snoc k prio p : forall pos, 1 <= pos -> rank k (prio ++ [p]) pos = if p =? k then pos + Z.of_nat (length prio) else rank k prio pos.
Proof.
  induction prio as [|q r IH]; intros pos P; cbn [rank app length].
  - cbn. destruct (p =? k); [lia|reflexivity].
  - rewrite IH by lia. destruct (p =? k).
    + replace (0 <? pos + 1 + Z.of_nat (length r)) with true by lia. lia.
    + reflexivity.
Qed.
Lemma priorityCheck_rank a b prio : a <> b -> priorityCheck a b prio = (rank b prio 1 <? rank a prio 1).
Proof.
  intros N. unfold priorityCheck. induction prio as [|p r IH] using rev_ind; [reflexivity|]. rewrite rev_app_distr. cbn [rev app priorityScan]. rewrite !rank_snoc by lia.
  pose proof (rank_bound a r 1 ltac:(lia)). pose proof (rank_bound b r 1 ltac:(lia)).
  destruct (Z.eqb_spec p a), (Z.eqb_spec p b); subst; try congruence; lia.
Qed.
(** source [k] is preferred to [k'] : later value, then declared priority, then position *)
Definition preferred (prio : list Z) (k : Z) (t : Z) (k' : Z) (t' : Z) : Prop :=
  t' < t \/ (t' = t /\ (rank k' prio 1 < rank k prio 1 \/ (rank k' prio 1 = rank k prio 1 /\ k <= k'))).
Lemma newest_spec prio l : forall ind mx mxT all, (forall j s, nth_error l j = Some s -> nth_error all (Z.to_nat ind + j) = Some s) -> 0 <= ind -> length all = (Z.to_nat ind + length l)%nat ->
  (mx = -1 /\ mxT = minVal /\ (forall j s, (j < Z.to_nat ind)%nat -> nth_error all j = Some s -> s_curTime s <= minVal) \/
   0 <= mx < ind /\ (exists s, nth_error all (Z.to_nat mx) = Some s /\ s_curTime s = mxT) /\ forall j s, (j < Z.to_nat ind)%nat -> nth_error all j = Some s -> s_curTime s <= mxT /\ (minVal < mxT -> preferred prio mx mxT (Z.of_nat j) (s_curTime s))) ->
  let r := newestLoop prio ind mx mxT l in
  (r = -1 /\ forall j s, nth_error all j = Some s -> s_curTime s <= minVal) \/
  (0 <= r < Z.of_nat (length all) /\ exists s, nth_error all (Z.to_nat r) = Some s /\ forall j s', nth_error all j = Some s' -> s_curTime s' <= s_curTime s /\ (minVal < s_curTime s -> preferred prio r (s_curTime s) (Z.of_nat j) (s_curTime s'))).
Proof.
  induction l as [|x l IH]; intros ind mx mxT all SUB P LEN INV r.
  - cbn in r. subst r. cbn in LEN. rewrite Nat.add_0_r in LEN. destruct INV as [(->&->&H)|(B&(s&S1&S2)&H)].
    + left. split; [reflexivity|]. intros j s J. apply (H j s); [|exact J]. rewrite <- LEN. apply nth_error_Some. congruence.
    + right. split; [lia|]. exists s. split; [exact S1|]. intros j s' J. rewrite S2. apply (H j s'); [|exact J]. rewrite <- LEN. apply nth_error_Some. congruence.
  - cbn [length] in LEN. assert (X : nth_error all (Z.to_nat ind) = Some x) by (specialize (SUB 0%nat x eq_refl); rewrite Nat.add_0_r in SUB; exact SUB).
    assert (SUB2 : forall j s, nth_error l j = Some s -> nth_error all (Z.to_nat (ind + 1) + j) = Some s).
    { intros j s J. specialize (SUB (S j) s J). replace (Z.to_nat (ind + 1) + j)%nat with (Z.to_nat ind + S j)%nat by lia. exact SUB. }
    assert (LEN2 : length all = (Z.to_nat (ind + 1) + length l)%nat) by lia.
    assert (SPLIT : forall j, (j < Z.to_nat (ind + 1))%nat -> (j < Z.to_nat ind)%nat \/ j = Z.to_nat ind) by (intros; lia).
    subst r. cbn [newestLoop]. destruct (Z.ltb_spec mxT (s_curTime x)) as [GT|LE].
    + apply IH; auto; [lia|]. right. split; [lia|]. split; [exists x; auto|]. intros j s J K. destruct (SPLIT j J) as [J2| ->].
      * assert (s_curTime s <= mxT) by (destruct INV as [(->&->&H)|(_&_&H)]; [apply (H j s J2 K)|destruct (H j s J2 K); auto]). split; [lia|]. intros _. left. lia.
      * rewrite X in K. injection K as <-. split; [lia|]. intros _. right. split; [reflexivity|]. right. rewrite Z2Nat.id by lia. lia.
    + destruct ((s_curTime x =? mxT) && priorityCheck ind mx prio) eqn:PC.
      * apply andb_true_iff in PC as [E PC]. apply Z.eqb_eq in E. apply IH; auto; [lia|]. right. split; [lia|]. split; [exists x; auto|]. intros j s J K. destruct (SPLIT j J) as [J2| ->].
        -- destruct INV as [(->&->&H)|(B&_&H)]; [split; [apply (H j s J2 K)|lia]|]. destruct (H j s J2 K) as [H1 H2]. split; [exact H1|]. intros M. specialize (H2 M).
           rewrite priorityCheck_rank in PC by lia. unfold preferred in *. lia.
        -- rewrite X in K. injection K as <-. rewrite E. split; [lia|]. intros _. right. split; [reflexivity|]. right. rewrite Z2Nat.id by lia. lia.
      * apply IH; auto; [lia|]. destruct INV as [(->&->&H)|(B&S1&H)].
        -- left. split; [reflexivity|]. split; [reflexivity|]. intros j s J K. destruct (SPLIT j J) as [J2| ->]; [exact (H j s J2 K)|]. rewrite X in K. injection K as <-. exact LE.
        -- right. split; [lia|]. split; [exact S1|]. intros j s J K. destruct (SPLIT j J) as [J2| ->]; [exact (H j s J2 K)|]. rewrite X in K. injection K as <-. split; [exact LE|]. intros M.
           rewrite Z2Nat.id by lia. unfold preferred. apply andb_false_iff in PC as [PC|PC]; [left; lia|]. rewrite priorityCheck_rank in PC by lia. lia.
Qed.
(** every value of the history is later than the least time *)
Definition realTimes (os : list iop) : Prop := Forall (fun o => match o with I_add _ t _ _ => minVal < t | _ => True end) os.
Definition dated (a : isrc) : Prop := (forall r, In r (s_queue a) -> minVal < r_time r) /\ (s_cur a = None -> s_curTime a = minVal) /\ (s_cur a <> None -> minVal < s_curTime a).
Lemma addFirst_Forall (P : isrc -> Prop) gap oc h x l l' : (forall a a', P a -> spec_add gap oc x a = Some a' -> P a') -> Forall P l -> spec_addFirst gap oc h x l = Some l' -> Forall P l'.
Proof.
  intros HP. revert l'. induction l as [|a l IH]; intros l' F H; [discriminate|]. inversion F; subst. cbn in H. destruct (gh_eqb _ _).
  - destruct (spec_add gap oc x a) eqn:E; [|discriminate]. injection H as <-. constructor; eauto.
  - destruct (spec_addFirst gap oc h x l) eqn:E; [|discriminate]. injection H as <-. constructor; auto.
Qed.
Lemma reconnect_Forall (P : isrc -> Prop) h un l r b : (forall a, P a -> P (set_s_type un (set_s_units un (set_s_deact maxVal a)))) -> Forall P l -> reconnect h un l = Some (r, b) -> Forall P r.
Proof.
  intros HP. revert r. induction l as [|a l IH]; intros r F H; [discriminate|]. inversion F; subst. cbn in H. destruct (gh_eqb _ _).
  - destruct (_ <? _); injection H as <- _; auto.
  - destruct (reconnect h un l) as [[r' b']|]; [|discriminate]. injection H as <- ->. constructor; auto.
Qed.
Lemma dated_advance mode oc t a : dated a -> dated (fst (spec_advance mode oc t a)).
Proof.
  intros (D1&D2&D3). destruct (advance_facts mode oc t a) as (F1&_). unfold dated. rewrite F1. split; [intros r R; apply filter_In in R; apply D1, R|].
  unfold spec_advance. destruct (latest (filter _ _)) as [u|] eqn:L; [|cbn [fst]; auto]. apply latest_in, filter_In in L as [L _]. specialize (D1 u L).
  unfold spec_show, updateData. destruct (s_cur a) as [cd|] eqn:C; [|cbn; split; [discriminate|auto]]. destruct (negb oc); [cbn; split; [discriminate|auto]|].
  destruct (beq cd (r_data u)); cbn [negb]; [|cbn; split; [discriminate|auto]]. destruct (s_curTime a =? r_time u); cbn; rewrite C; auto.
Qed.
Lemma dated_step A o : Forall dated (i_srcs A) -> (match o with I_add _ t _ _ => minVal < t | _ => True end) -> Forall dated (i_srcs (fst (spec_step A o))).
Proof.
  intros F T. assert (CUT : forall m a, dated a -> dated (spec_cut m a)).
  { intros m a (D1&D2&D3). assert (E : s_queue (spec_cut m a) = filter (fun r => r_time r <=? m) (s_queue a) /\ s_cur (spec_cut m a) = s_cur a /\ s_curTime (spec_cut m a) = s_curTime a) by (unfold spec_cut, deactivate; cbn; destruct (_ <? _); auto).
    destruct E as (E1&E2&E3). unfold dated. rewrite E1, E2, E3. split; [intros r R; apply filter_In in R; apply D1, R|auto]. }
  destruct o as [h' t it [d|]|mode t|h' n ty un|h' m|n m|f m| |o v]; cbn [spec_step].
  - destruct (spec_addFirst _ _ h' _ _) as [l|] eqn:E; [|exact F]. cbn [fst spec_put i_srcs set_i_bytes set_i_srcs]. revert E. apply addFirst_Forall; [|exact F].
    intros a a' (D1&D2&D3) H. unfold spec_add in H. destruct (_ <? _); [discriminate|]. destruct (spec_keeps _ _ _ _); [|discriminate]. injection H as <-. unfold dated. cbn. split; [|auto]. intros r R. apply in_app_iff in R as [R|[<-|[]]]; [auto|exact T].
  - exact F.
  - cbn [fst spec_put i_srcs set_i_bytes set_i_srcs]. apply Forall_forall. intros s H. apply in_map_iff in H as (a&<-&H). rewrite Forall_forall in F. apply dated_advance, F, H.
  - unfold addSource. destruct (reconnect h' un (i_srcs A)) as [[r b]|] eqn:E; cbn [fst i_srcs set_i_srcs set_i_hasTarget].
    + revert E. apply reconnect_Forall; [|exact F]. intros a D. exact D.
    + apply Forall_app. split; [exact F|]. constructor; [|constructor]. split; [intros ? []|]. split; [reflexivity|]. cbn. congruence.
  - cbn [fst spec_put i_srcs set_i_bytes set_i_srcs]. apply Forall_forall. intros s H. apply in_map_iff in H as (a&<-&H). rewrite Forall_forall in F. destruct (gh_eqb _ _); auto.
  - cbn [fst spec_put i_srcs set_i_bytes set_i_srcs]. apply Forall_forall. intros s H. apply in_map_iff in H as (a&<-&H). rewrite Forall_forall in F. destruct (beq _ _); auto.
  - cbn [fst disconnectFed i_srcs set_i_srcs]. apply Forall_forall. intros s H. apply in_map_iff in H as (a&<-&H). rewrite Forall_forall in F. destruct (_ =? f); [|auto]. unfold deactivate. destruct (_ <? _); [exact (F a H)|auto].
  - cbn [fst spec_put i_srcs set_i_bytes set_i_srcs]. apply Forall_forall. intros s H. apply in_map_iff in H as (a&<-&H). rewrite Forall_forall in F. destruct (F a H) as (D1&D2&D3). unfold dated. cbn. split; [intros ? []|split; auto].
  - cbn [fst]. destruct (inputSet_srcs o v A) as (E&_). rewrite E. exact F.
Qed.
Lemma dated_run os : forall A, Forall dated (i_srcs A) -> realTimes os -> Forall dated (i_srcs (spec_run A os)).
Proof. induction os as [|o os IH]; intros A F R; [exact F|]. inversion R; subst. cbn. apply IH; [apply dated_step; assumption|assumption]. Qed.
Theorem C17_reads_newest_preferred_source :
  forall os, realTimes os -> let i := inputAfter os in
  ((forall s, In s (i_srcs i) -> s_cur s = None) -> fst (getData i) = None) /\
  ((exists s, In s (i_srcs i) /\ s_cur s <> None) ->
   exists k s v, getData i = (Some v, Z.of_nat k) /\ nth_error (i_srcs i) k = Some s /\ s_cur s = Some v /\
   forall k' s', nth_error (i_srcs i) k' = Some s' -> preferred (i_prio i) (Z.of_nat k) (s_curTime s) (Z.of_nat k') (s_curTime s')).
Proof.
  intros os RT i. assert (F : Forall dated (i_srcs i)).
  { unfold i. destruct (inputAfter_spec os) as [E _]. rewrite E. cbn [orderI i_srcs set_i_srcs]. apply Forall_forall. intros s H. apply in_map_iff in H as (a&<-&H).
    pose proof (dated_run os input_new (Forall_nil _) RT) as D. rewrite Forall_forall in D. destruct (D a H) as (D1&D2&D3). unfold dated, orderQ. cbn. split; [|auto]. intros r R. apply D1. apply (Permutation_in _ (Permutation_sym (order_perm _))) in R. exact R. }
  clearbody i. clear os RT. unfold getData.
  pose proof (newest_spec (i_prio i) (i_srcs i) 0 (-1) minVal (i_srcs i)) as H. cbn zeta in H. specialize (H (fun j s J => J) ltac:(lia) eq_refl).
  specialize (H ltac:(left; repeat split; intros; cbn in *; lia)). set (r := newestLoop (i_prio i) 0 (-1) minVal (i_srcs i)) in *. clearbody r. rewrite Forall_forall in F. split.
  - intros N. destruct (0 <=? r); [|reflexivity]. cbn [fst]. destruct (nth_error (i_srcs i) (Z.to_nat r)) as [s|] eqn:E; [|reflexivity]. apply N. eapply nth_error_In, E.
  - intros (s0&I0&V0). apply In_nth_error in I0 as K0. destruct K0 as (k0&K0). destruct (F s0 I0) as (_&_&D0). specialize (D0 V0).
    destruct H as [(->&H)|(B&s&S&H)]; [specialize (H k0 s0 K0); lia|]. replace (0 <=? r) with true by lia. rewrite S.
    destruct (H k0 s0 K0) as [M _]. assert (M2 : minVal < s_curTime s) by lia. assert (IN : In s (i_srcs i)) by (eapply nth_error_In, S). destruct (F s IN) as (_&DN&_).
    destruct (s_cur s) as [v|] eqn:C; [|specialize (DN eq_refl); lia]. exists (Z.to_nat r), s, v. rewrite Z2Nat.id by lia. split; [reflexivity|]. split; [exact S|]. split; [exact C|].
    intros k' s' K'. destruct (H k' s' K') as [_ H']. apply H', M2.
Qed.
Example C17_nonvacuous :
  let os := [I_addSource (7, 1) [] [] []; I_addSource (7, 2) [] [] []; I_addSource (7, 3) [] [] []; I_set OPT_INPUT_PRIORITY_LOCATION 1; I_add (7, 1) 5 0 (Some [1]); I_add (7, 2) 5 0 (Some [2]); I_add (7, 3) 4 0 (Some [3]); I_advance Inclusive 5] in
  realTimes os /\ getData (inputAfter os) = (Some [2], 1) /\ getData (inputAfter (os ++ [I_set OPT_CLEAR_PRIORITY_LIST 0])) = (Some [1], 0).
Proof. split; [repeat constructor; vm_compute; reflexivity|split; reflexivity]. Qed.
