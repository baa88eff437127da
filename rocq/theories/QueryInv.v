(** * C47: the children asked and the answers outstanding (invariant) *)
From Coq Require Import ZArith Bool List Lia.
From Verif Require Import Query PropsQuery.
Import ListNotations.
Open Scope nat_scope.

(** ** A new map *)
Fixpoint number (n : nat) (P : list (nat * loc)) : list (nat * (loc * nat)) :=
  match P with [] => [] | (c, l) :: r => (n, (l, c)) :: number (S n) r end.
Definition swap (e : nat * (loc * nat)) : nat * nat := (snd (snd e), fst e).
Definition who_ (e : nat * (loc * nat)) : nat * loc := (snd (snd e), fst (snd e)).
Lemma number_app n P Q : number n (P ++ Q) = number n P ++ number (n + length P) Q.
Proof. revert n. induction P as [|[c l] P IH]; intros n; cbn; [rewrite Nat.add_0_r; reflexivity|]. rewrite IH. do 3 f_equal. lia. Qed.
Lemma number_length n P : length (number n P) = length P.
Proof. revert n. induction P as [|[c l] P IH]; intros n; cbn; [reflexivity|]. rewrite IH. reflexivity. Qed.
Lemma number_key n P e : In e (number n P) -> n <= fst e < n + length P.
Proof. revert n. induction P as [|[c l] P IH]; intros n []; [subst; cbn; lia|]. specialize (IH _ H). cbn. lia. Qed.
Lemma number_who n P : map who_ (number n P) = P.
Proof. revert n. induction P as [|[c l] P IH]; intros n; cbn; [reflexivity|]. rewrite IH. reflexivity. Qed.
Lemma number_keys n P : map fst (number n P) = seq n (length P).
Proof. revert n. induction P as [|[c l] P IH]; intros n; cbn; [reflexivity|]. rewrite IH. reflexivity. Qed.
Lemma emplace_end k v l : (forall e, In e l -> fst e < k) -> emplace k v l = l ++ [(k, v)].
Proof.
  induction l as [|[j w] l IH]; intros H; [reflexivity|]. pose proof (H _ (or_introl eq_refl)) as J. cbn in J. cbn [emplace app]. destruct (Nat.ltb_spec k j); [lia|]. destruct (Nat.eqb_spec k j); [lia|].
  rewrite IH; [reflexivity|]. intros e I. apply H. right. exact I.
Qed.
Lemma lookup_end k v l : (forall e, In e l -> fst e < k) -> lookup k (l ++ [(k, v)]) = Some v.
Proof.
  induction l as [|[j w] l IH]; intros H; cbn; [rewrite Nat.eqb_refl; reflexivity|]. pose proof (H _ (or_introl eq_refl)) as J. cbn in J. destruct (Nat.eqb_spec j k); [lia|]. apply IH. intros e I. apply H. right. exact I.
Qed.
Lemma filter_all {A} (p : A -> bool) l : (forall a, In a l -> p a = true) -> filter p l = l.
Proof. induction l as [|a l IH]; intros H; [reflexivity|]. cbn. rewrite (H a (or_introl eq_refl)), IH; [reflexivity|]. intros b I. apply H. right. exact I. Qed.
Lemma erase_end k v l : (forall e, In e l -> fst e < k) -> erase k (l ++ [(k, v)]) = l.
Proof.
  intros H. unfold erase. rewrite filter_app. cbn. rewrite Nat.eqb_refl. cbn. rewrite app_nil_r. apply filter_all. intros e I. specialize (H e I). destruct (Nat.eqb_spec (fst e) k); [lia|reflexivity].
Qed.
Definition once (K : bool) (i : nat) (orc : nat -> option (option nat)) (k : kid) : list (loc * entry) :=
  if K then match orc (kno k) with Some p => [(LFed, elem p)] | None => [] end else if i =? GLOBAL_STATE then [(place K k, JState (kno k))] else [].
Lemma atOnce_cons K i orc k ks : atOnce K i orc (k :: ks) = (if mustWait K orc k then [] else once K i orc k) ++ atOnce K i orc ks.
Proof. reflexivity. Qed.
Lemma toWait_cons K orc k ks : toWait K orc (k :: ks) = (if mustWait K orc k then [(kno k, place K k)] else []) ++ toWait K orc ks.
Proof. unfold toWait. cbn [filter]. destruct (mustWait K orc k); reflexivity. Qed.
Lemma fold_ask K i orc ks b ent P a : jm b = Some ent -> miss b = number 2 P ->
  fold_left (askKid K i orc) ks (b, a) =
    (mkB (Some (ent ++ atOnce K i orc ks)) (number 2 (P ++ toWait K orc ks)) (cc b), a ++ map swap (number (2 + length P) (toWait K orc ks))).
Proof.
  revert b ent P a. induction ks as [|k ks IH]; intros b ent P a J M; cbn [fold_left].
  - cbn [atOnce flat_map toWait filter map number]. rewrite !app_nil_r. destruct b as [j m c]. cbn in *. subst. reflexivity.
  - assert (forall e, In e (miss b) -> fst e < length (miss b) + 2) as KB by (rewrite M, number_length; intros e I; apply number_key in I; lia).
    rewrite atOnce_cons, toWait_cons.
    assert (askKid K i orc (b, a) k = if mustWait K orc k then (set_miss (number 2 (P ++ [(kno k, place K k)])) b, a ++ [(kno k, 2 + length P)])
      else (set_jm (Some (ent ++ once K i orc k)) b, a)) as E.
    { assert (emplace (length (miss b) + 2) (place K k, kno k) (miss b) = number 2 (P ++ [(kno k, place K k)])) as PH.
      { rewrite emplace_end by exact KB. rewrite number_app, M, number_length. cbn [number]. rewrite (Nat.add_comm 2 (length P)). reflexivity. }
      unfold askKid. change (if K then LFed else if kcore k then LCore else LBroker) with (place K k). unfold placeHolder, mustWait, once. cbv zeta. rewrite PH.
      rewrite <- (number_length 2 P), <- M, (Nat.add_comm 2). destruct K; cbn [orb].
      - destruct (orc (kno k)) as [p|] eqn:O; [|reflexivity]. unfold addComponent. cbn [set_miss miss]. rewrite <- PH. rewrite emplace_end, lookup_end, erase_end by exact KB. cbn [fst]. f_equal.
        destruct b as [j m c]. cbn in *. subst. reflexivity.
      - destruct (kst k <? 40)%Z; [reflexivity|]. destruct (i =? GLOBAL_STATE); [unfold push; rewrite J; reflexivity|]. f_equal. rewrite app_nil_r. destruct b as [j m c]. cbn in *. subst. reflexivity. }
    rewrite E. destruct (mustWait K orc k).
    + rewrite (IH _ ent (P ++ [(kno k, place K k)])); [|exact J|reflexivity]. cbn [cc set_miss app]. rewrite app_length, <- !app_assoc. cbn [length app map number]. replace (2 + (length P + 1)) with (S (2 + length P)) by lia. reflexivity.
    + rewrite (IH _ (ent ++ once K i orc k) P); [|reflexivity|exact M]. cbn [cc set_jm app]. rewrite <- app_assoc. reflexivity.
Qed.
Lemma init_spec K i orc s : let s1 := initBuilder K i orc s in
  sb (slots s1 i) = mkB (Some (atOnce K i orc (kids s))) (number 2 (toWait K orc (kids s))) (cc (sb (slots s i))) /\
  (forall j, j <> i -> slots s1 j = slots s j) /\ rq (slots s1 i) = rq (slots s i) /\
  ost s1 i = ost s i ++ map swap (number 2 (toWait K orc (kids s))) /\ (forall j, j <> i -> ost s1 j = ost s j) /\
  nsl s1 = Nat.max (nsl s) (S i) /\ kids s1 = kids s /\ outs s1 = outs s /\ counter s1 = counter s.
Proof.
  cbv zeta. unfold initBuilder. rewrite (fold_ask K i orc (kids s) _ [] [] []) by reflexivity. cbn [app length].
  split; [cbn [slots setO set_ost set_nsl]; rewrite setS_eq; reflexivity|]. split; [intros j N; cbn [slots setO set_ost set_nsl]; rewrite setS_neq by exact N; reflexivity|].
  split; [cbn [slots setO set_ost set_nsl]; rewrite setS_eq; reflexivity|]. split; [rewrite setO_eq; reflexivity|]. split; [intros j N; rewrite setO_neq by exact N; reflexivity|]. repeat split; reflexivity.
Qed.

(** ** One child less *)
Definition code (e : nat * (loc * nat)) : nat := snd (snd e).
Definition dropc (c : nat) (M : list (nat * (loc * nat))) : list (nat * (loc * nat)) := filter (fun e => negb (code e =? c)) M.
Lemma dropc_none c M : ~ In c (map code M) -> dropc c M = M.
Proof. intros N. apply filter_all. intros e I. destruct (Nat.eqb_spec (code e) c) as [E|E]; [|reflexivity]. elim N. rewrite <- E. apply in_map, I. Qed.
Lemma NoDup_map_filter {A B} (g : A -> B) p l : NoDup (map g l) -> NoDup (map g (filter p l)).
Proof.
  induction l as [|a l IH]; [intros _; constructor|]. cbn. intros H. inversion H as [|? ? NI ND]; subst. destruct (p a); [|apply IH, ND]. cbn. constructor; [|apply IH, ND].
  intros I. apply NI. apply in_map_iff in I as [b [E J]]. apply filter_In in J as [J _]. rewrite <- E. apply in_map, J.
Qed.
Lemma hasCode_iff c M : hasCode c M = true <-> In c (map code M).
Proof.
  unfold hasCode. rewrite existsb_exists, in_map_iff. split; intros [e [A B]]; exists e.
  - apply Nat.eqb_eq in B. split; assumption.
  - split; [exact B|]. apply Nat.eqb_eq. exact A.
Qed.
Lemma eraseCode_dropc c M : NoDup (map code M) -> eraseCode c M = dropc c M.
Proof.
  induction M as [|[j v] M IH]; [reflexivity|]. cbn [map eraseCode]. intros H. inversion H as [|? ? NI ND]; subst. unfold dropc. cbn [filter]. change (code (j, v)) with (snd v). destruct (Nat.eqb_spec (snd v) c) as [E|E]; cbn [negb].
  - symmetry. apply dropc_none. rewrite <- E. exact NI.
  - rewrite IH by exact ND. reflexivity.
Qed.
Lemma take_none c M : ~ In c (map code M) -> takeAsk c (map swap M) = None.
Proof.
  induction M as [|[j [l d]] M IH]; intros N; [reflexivity|]. cbn. destruct (Nat.eqb_spec d c) as [->|E]; [elim N; left; reflexivity|]. rewrite IH; [reflexivity|]. intros I. apply N. right. exact I.
Qed.
Lemma take_some k l c M : NoDup (map fst M) -> NoDup (map code M) -> In (k, (l, c)) M ->
  takeAsk c (map swap M) = Some (k, map swap (dropc c M)) /\ lookup k M = Some (l, c) /\ erase k M = dropc c M /\
  filter (fun a => fst a =? c) (map who_ M) = [(c, l)] /\ map who_ (dropc c M) = without c (map who_ M).
Proof.
  induction M as [|[j [m d]] M IH]; intros NK NC I; [destruct I|]. cbn [map] in NK, NC. inversion NK as [|? ? NIK NDK]; subst. inversion NC as [|? ? NIC NDC]; subst. cbn [fst code snd] in *.
  assert (forall N, map who_ (dropc c N) = without c (map who_ N)) as WW.
  { clear. unfold dropc, without. induction N as [|e N IH]; [reflexivity|]. cbn [map filter]. change (fst (who_ e)) with (code e). destruct (negb (code e =? c)); cbn; rewrite IH; reflexivity. }
  destruct I as [I|I].
  - injection I as -> -> ->. cbn. rewrite !Nat.eqb_refl. cbn. assert (dropc c M = M) as D by (apply dropc_none; exact NIC). unfold dropc in D. rewrite D. split; [reflexivity|]. split; [reflexivity|].
    split; [unfold erase; apply filter_all; intros e J; destruct (Nat.eqb_spec (fst e) k) as [E|E]; [elim NIK; rewrite <- E; apply in_map, J|reflexivity]|].
    split.
    + f_equal. clear -NIC. induction M as [|e M IH]; [reflexivity|]. cbn [map filter]. change (fst (who_ e)) with (code e). destruct (Nat.eqb_spec (code e) c) as [E|E]; [elim NIC; left; exact E|]. apply IH. intros J. apply NIC. right. exact J.
    + specialize (WW M). unfold dropc in WW. rewrite D in WW. exact WW.
  - destruct (IH NDK NDC I) as [A [B [C [D E]]]].
    assert (d <> c) as DC by (intros ->; apply NIC; apply in_map_iff; exists (k, (l, c)); split; [reflexivity|exact I]).
    assert (j <> k) as JK by (intros ->; apply NIK; apply in_map_iff; exists (k, (l, c)); split; [reflexivity|exact I]).
    apply Nat.eqb_neq in DC. apply Nat.eqb_neq in JK. cbn [map takeAsk swap snd fst lookup erase dropc filter code who_]. rewrite ?DC, ?JK. cbn [negb map filter fst snd who_ swap]. rewrite ?DC, ?JK. cbn [negb].
    rewrite A. fold (erase k M). fold (dropc c M). rewrite B, C. split; [reflexivity|]. split; [reflexivity|]. split; [reflexivity|]. split; [exact D|]. cbn [map]. rewrite E. unfold without. cbn [filter who_ fst snd]. rewrite DC. reflexivity.
Qed.
Lemma who_dropc c M : map who_ (dropc c M) = without c (map who_ M).
Proof. unfold dropc, without. induction M as [|e N IH]; [reflexivity|]. cbn [map filter]. change (fst (who_ e)) with (code e). destruct (negb (code e =? c)); cbn; rewrite IH; reflexivity. Qed.
Lemma swap_dropc c M : map swap (dropc c M) = filter (fun a => negb (fst a =? c)) (map swap M).
Proof. unfold dropc, without. induction M as [|e N IH]; [reflexivity|]. cbn [map filter]. change (fst (swap e)) with (code e). destruct (negb (code e =? c)); cbn; rewrite IH; reflexivity. Qed.

(** ** The invariant *)
Definition slotOk (s : qs) (i : nat) : Prop :=
  let x := slots s i in let M := miss (sb x) in
  ost s i = map swap M /\ NoDup (map fst M) /\ NoDup (map code M) /\ (rq x <> [] <-> M <> []) /\ (M <> [] -> active (sb x) = true) /\ (nsl s <= i -> M = []).
Definition inv (s : qs) : Prop := (forall i, slotOk s i) /\ NoDup (map kno (kids s)).

(** ** The loops over all kinds *)
Definition goneSlot (K : bool) (cl : builder -> builder * bool) (i : nat) (x : slot) : slot :=
  if completed (sb x) then x
  else if snd (cl (sb x)) then mkSlot (if reuse K i then fst (cl (sb x)) else reset (fst (cl (sb x)))) [] else set_sb (fst (cl (sb x))) x.
Definition goneOut (cl : builder -> builder * bool) (x : slot) : list output :=
  if completed (sb x) then [] else if snd (cl (sb x)) then deliver false (rq x) (AMap (generate (fst (cl (sb x))))) else [].
Lemma inFlight_spec K cl n a s :
  (forall i, a <= i < a + n -> (goneSlot K cl i (slots s i) = slots s i /\ goneOut cl (slots s i) = []) \/ (forall j, a <= j <= i -> completed (sb (slots s j)) = false)) ->
  let s' := inFlight K cl (seq a n) s in
  (forall i, slots s' i = if (a <=? i) && (i <? a + n) then goneSlot K cl i (slots s i) else slots s i) /\
  outs s' = outs s ++ flat_map (fun i => goneOut cl (slots s i)) (seq a n) /\ ost s' = ost s /\ kids s' = kids s /\ nsl s' = nsl s /\ other s' = other s.
Proof.
  revert a s. induction n as [|n IH]; intros a s H; cbv zeta; cbn [seq inFlight flat_map].
  - split; [intros i; destruct (Nat.leb_spec a i), (Nat.ltb_spec i (a + 0)); cbn; reflexivity || lia|]. rewrite app_nil_r. repeat split; reflexivity.
  - destruct (completed (sb (slots s a))) eqn:C.
    + (* return *)
      assert (forall i, a <= i < a + S n -> goneSlot K cl i (slots s i) = slots s i /\ goneOut cl (slots s i) = []) as N.
      { intros i R. destruct (H i R) as [X|X]; [exact X|]. specialize (X a ltac:(lia)). congruence. }
      split; [intros i; destruct (Nat.leb_spec a i), (Nat.ltb_spec i (a + S n)); cbn; try reflexivity; symmetry; apply N; lia|].
      split; [|repeat split; reflexivity]. rewrite (proj2 (N a ltac:(lia))). cbn [app]. rewrite (flat_map_concat_map), (map_ext_in _ (fun _ => [])); [|intros i I; apply in_seq in I; apply N; lia].
      clear. induction (seq (S a) n) as [|x l IH]; cbn; [rewrite app_nil_r; reflexivity|exact IH].
    + destruct (cl (sb (slots s a))) as [b1 fin] eqn:E.
      set (s1 := if fin then finishGone K a (setS a (set_sb b1 (slots s a)) s) else setS a (set_sb b1 (slots s a)) s).
      assert (slots s1 a = goneSlot K cl a (slots s a)) as SA.
      { unfold goneSlot. rewrite C, E. cbn [fst snd]. unfold s1. destruct fin; [|apply setS_eq]. unfold finishGone. cbv zeta. rewrite !setS_eq. reflexivity. }
      assert (forall j, j <> a -> slots s1 j = slots s j) as SN.
      { intros j N. unfold s1. destruct fin; [|apply setS_neq, N]. unfold finishGone. cbv zeta. rewrite setS_neq by exact N. cbn [slots emit set_outs]. apply setS_neq, N. }
      assert (outs s1 = outs s ++ goneOut cl (slots s a)) as SO.
      { unfold goneOut. rewrite C, E. cbn [fst snd]. unfold s1. destruct fin; [|cbn; rewrite app_nil_r; reflexivity]. unfold finishGone. cbv zeta. rewrite !setS_eq. reflexivity. }
      assert (ost s1 = ost s /\ kids s1 = kids s /\ nsl s1 = nsl s /\ other s1 = other s) as SR by (unfold s1; destruct fin; repeat split; reflexivity).
      destruct (IH (S a) s1) as [I1 [I2 I3]].
      * intros i R. rewrite SN by lia. destruct (H i ltac:(lia)) as [X|X]; [left; exact X|right]. intros j J. rewrite SN by lia. apply X. lia.
      * split; [|split; [|destruct SR as [<- [<- [<- <-]]]; exact I3]].
        -- intros i. rewrite I1. destruct (Nat.eq_dec i a) as [->|N].
           ++ rewrite SA. destruct (Nat.leb_spec (S a) a); [lia|]. destruct (Nat.leb_spec a a); [|lia]. destruct (Nat.ltb_spec a (a + S n)); [reflexivity|lia].
           ++ rewrite SN by exact N. destruct (Nat.leb_spec (S a) i), (Nat.leb_spec a i), (Nat.ltb_spec i (S a + n)), (Nat.ltb_spec i (a + S n)); cbn; reflexivity || lia.
        -- rewrite I2, SO, <- app_assoc. f_equal. f_equal. rewrite !flat_map_concat_map. f_equal. apply map_ext_in. intros i I. apply in_seq in I. rewrite SN by lia. reflexivity.
Qed.

(** ** Queries *)
Lemma number_codes n P : map code (number n P) = map fst P.
Proof. revert n. induction P as [|[c l] P IH]; intros n; cbn; [reflexivity|]. rewrite IH. reflexivity. Qed.
Lemma toWait_nodup K orc ks : NoDup (map kno ks) -> NoDup (map fst (toWait K orc ks)).
Proof. intros H. unfold toWait. rewrite map_map. cbn. apply NoDup_map_filter, H. Qed.
Lemma nil_dec {A} (l : list A) : l = [] \/ l <> [].
Proof. destruct l; [left; reflexivity|right; discriminate]. Qed.
Lemma build_idle K s i : slotOk s i -> (rq (slots s i) <> [] -> reuse K i = true) -> decide K i s = Build ->
  miss (sb (slots s i)) = [] /\ rq (slots s i) = [] /\ ost s i = [].
Proof.
  intros [O1 [O2 [O3 [O4 [O5 O6]]]]] OK D.
  assert (miss (sb (slots s i)) = []) as M.
  { unfold decide in D. cbv zeta in D. destruct (Nat.ltb_spec i (nsl s)) as [L|L]; [|apply O6; exact L]. destruct (reuse K i) eqn:R; cbn [andb] in D.
    - unfold completed in D. destruct (active (sb (slots s i))) eqn:A; cbn [andb] in D.
      + destruct (miss (sb (slots s i))); [reflexivity|discriminate].
      + destruct (nil_dec (miss (sb (slots s i)))) as [X|X]; [exact X|]. specialize (O5 X). congruence.
    - destruct (nil_dec (rq (slots s i))) as [X|X]; [|specialize (OK X); congruence]. destruct (nil_dec (miss (sb (slots s i)))) as [Y|Y]; [exact Y|]. elim (proj2 O4 Y X). }
  split; [exact M|]. split; [|rewrite O1, M; reflexivity]. destruct (nil_dec (rq (slots s i))) as [X|X]; [exact X|]. elim (proj1 O4 X M).
Qed.
(** the query r of the kind i: from the cache; together with the others who wait; at once; or as a new map *)
Inductive asksOut (K : bool) (r : req) (i : nat) (orc : nat -> option (option nat)) (s s' : qs) : Prop :=
| ao_cached (D : decide K i s = Cached) (SL : slots s' = slots s) (O : outs s' = outs s ++ [reply K r (AMap (generate (sb (slots s i))))]) (N : nsl s' = nsl s) (T : ost s' = ost s)
| ao_wait (D : decide K i s = Wait) (SL : slots s' i = set_rq (rq (slots s i) ++ [r]) (slots s i)) (O : outs s' = outs s) (N : nsl s' = nsl s) (T : ost s' = ost s)
| ao_once (D : decide K i s = Build) (W : toWait K orc (kids s) = []) (SL : jm (sb (slots s' i)) = Some (atOnce K i orc (kids s)) /\ miss (sb (slots s' i)) = [] /\ rq (slots s' i) = rq (slots s i))
    (O : outs s' = outs s ++ [reply K r (AMap (atOnce K i orc (kids s)))]) (N : nsl s' = Nat.max (nsl s) (S i)) (T : ost s' i = ost s i)
| ao_build (D : decide K i s = Build) (W : toWait K orc (kids s) <> []) (SL : slots s' i = mkSlot (mkB (Some (atOnce K i orc (kids s))) (number 2 (toWait K orc (kids s))) (cc (sb (slots s i)))) (rq (slots s i) ++ [r]))
    (O : outs s' = outs s) (N : nsl s' = Nat.max (nsl s) (S i)) (T : ost s' i = ost s i ++ map swap (number 2 (toWait K orc (kids s)))).
Lemma completed_build ent P c : completed (mkB (Some ent) (number 2 P) c) = isNil P.
Proof. unfold completed. cbn. destruct P as [|[a b] P]; reflexivity. Qed.
Lemma query_spec K r i orc s : let s' := query K r i orc s in asksOut K r i orc s s' /\ (forall j, j <> i -> slots s' j = slots s j /\ ost s' j = ost s j) /\ kids s' = kids s /\ other s' = other s.
Proof.
  cbv zeta. unfold query, mapQuery. destruct (decide K i s) eqn:D.
  - split; [|repeat split; reflexivity]. apply ao_cached; reflexivity || exact D.
  - split; [|split; [intros j N; rewrite setS_neq by exact N; split; reflexivity|split; reflexivity]]. apply ao_wait; try reflexivity; [exact D|apply setS_eq].
  - cbv zeta. destruct (init_spec K i orc s) as [B [SN [R [O1 [O2 [NS [KS [OU CO]]]]]]]]. cbv zeta in *. set (s1 := initBuilder K i orc s) in *.
    assert (other s1 = other s) as OT by (unfold s1, initBuilder; destruct (fold_left _ _ _); reflexivity). clearbody s1. rewrite B, completed_build.
    destruct (toWait K orc (kids s)) as [|q P] eqn:W; cbn [isNil].
    + split; [apply ao_once|].
      * exact D.
      * exact W.
      * destruct (reuse K i); cbn [emit set_outs slots]; [rewrite setS_eq|rewrite B]; cbn; rewrite ?R; (split; [reflexivity|split; reflexivity]).
      * rewrite <- OU. destruct (reuse K i); reflexivity.
      * destruct (reuse K i); exact NS.
      * rewrite app_nil_r in O1. destruct (reuse K i); exact O1.
      * split; [|split; [destruct (reuse K i); exact KS|destruct (reuse K i); exact OT]]. intros j N. rewrite <- (SN j N), <- (O2 j N). destruct (reuse K i); [|split; reflexivity]. cbn [emit set_outs slots ost]. rewrite setS_neq by exact N. split; reflexivity.
    + split; [apply ao_build|].
      * exact D.
      * rewrite W. discriminate.
      * rewrite setS_eq, R, W. unfold set_rq. rewrite B. reflexivity.
      * exact OU.
      * exact NS.
      * rewrite W. exact O1.
      * split; [|split; [exact KS|exact OT]]. intros j N. rewrite setS_neq by exact N. split; [apply SN, N|apply O2, N].
Qed.
Lemma query_inv K r i orc s : inv s -> (rq (slots s i) <> [] -> reuse K i = true) -> inv (query K r i orc s).
Proof.
  intros [IV NK] OK. destruct (query_spec K r i orc s) as [A [SN [KS _]]]. cbv zeta in *. set (s' := query K r i orc s) in *. clearbody s'.
  split; [|rewrite KS; exact NK]. intros j. specialize (IV j). destruct (Nat.eq_dec j i) as [->|N].
  - pose proof IV as [O1 [O2 [O3 [O4 [O5 O6]]]]]. destruct A; unfold slotOk; cbv zeta.
    + rewrite SL, T, N. exact IV.
    + rewrite SL, T, N. cbn [sb set_rq rq]. split; [exact O1|]. split; [exact O2|]. split; [exact O3|]. split; [|split; [exact O5|exact O6]].
      unfold decide in D. cbv zeta in D. destruct (_ && _); [|discriminate]. destruct (completed (sb (slots s i))) eqn:C; [destruct (_ =? _)%Z; discriminate|]. destruct (active (sb (slots s i))) eqn:AC; [|discriminate].
      unfold completed in C. rewrite AC in C. cbn [andb] in C. split; intros _; [destruct (miss (sb (slots s i))); discriminate|destruct (rq (slots s i)); discriminate].
    + destruct (build_idle K s i IV OK D) as [M [R E]]. destruct SL as [S1 [S2 S3]]. rewrite S2, S3, T, R, E. cbn. split; [reflexivity|]. split; [constructor|]. split; [constructor|]. split; [tauto|]. split; [tauto|reflexivity].
    + destruct (build_idle K s i IV OK D) as [M [R E]]. rewrite SL, T, N, R, E. cbn [sb rq miss app]. split; [reflexivity|]. split; [rewrite number_keys; apply seq_NoDup|]. split; [rewrite number_codes; apply toWait_nodup, NK|].
      split; [split; intros _; [|discriminate]; destruct (toWait K orc (kids s)) as [|[a b] P]; [congruence|discriminate]|]. split; [reflexivity|]. lia.
  - destruct (SN j N) as [S1 S2]. unfold slotOk. cbv zeta. rewrite S1, S2. destruct IV as [O1 [O2 [O3 [O4 [O5 O6]]]]]. split; [exact O1|]. split; [exact O2|]. split; [exact O3|]. split; [exact O4|]. split; [exact O5|].
    intros L. apply O6. destruct A; lia.
Qed.

(** ** Answers *)
Lemma response_spec K i c k l p ent s : slotOk s i -> jm (sb (slots s i)) = Some ent -> In (k, (l, c)) (miss (sb (slots s i))) ->
  let M := miss (sb (slots s i)) in let s' := response K i k p (setO i (map swap (dropc c M)) s) in
  ost s' i = map swap (dropc c M) /\ (forall j, j <> i -> slots s' j = slots s j /\ ost s' j = ost s j) /\ nsl s' = nsl s /\ kids s' = kids s /\
  if isNil (dropc c M) then
    slots s' i = mkSlot (if reuse K i then mkB (Some (ent ++ [(l, elem p)])) [] (counter s) else mkB None [] (cc (sb (slots s i)))) [] /\
    outs s' = outs s ++ deliver K (rq (slots s i)) (if i =? GLOBAL_FLUSH then AFlush else AMap (ent ++ [(l, elem p)]))
  else slots s' i = mkSlot (mkB (Some (ent ++ [(l, elem p)])) (dropc c M) (cc (sb (slots s i)))) (rq (slots s i)) /\ outs s' = outs s.
Proof.
  intros [O1 [O2 [O3 [O4 [O5 O6]]]]] J I. cbv zeta. destruct (take_some k l c _ O2 O3 I) as [_ [LK [ER _]]].
  assert (i < nsl s) as L by (destruct (Nat.le_gt_cases (nsl s) i) as [X|X]; [rewrite (O6 X) in I; destruct I|exact X]).
  unfold response. change (nsl (setO i (map swap (dropc c (miss (sb (slots s i))))) s)) with (nsl s). change (slots (setO i (map swap (dropc c (miss (sb (slots s i))))) s)) with (slots s).
  apply Nat.ltb_lt in L. rewrite L. unfold addComponent. rewrite LK. cbv zeta. unfold push. rewrite J, ER. cbn [miss set_miss].
  destruct (isNil (dropc c (miss (sb (slots s i))))) eqn:E.
  - unfold finish. cbv zeta. split; [cbn [ost setS set_slots emit set_outs]; apply setO_eq|]. split.
    + intros j N. rewrite setS_neq by exact N. cbn [slots emit set_outs]. rewrite setS_neq by exact N. split; [reflexivity|]. cbn [ost setS set_slots emit set_outs]. apply setO_neq, N.
    + split; [reflexivity|]. split; [reflexivity|]. split.
      * rewrite !setS_eq. cbn. destruct (dropc c (miss (sb (slots s i)))); [|discriminate]. reflexivity.
      * cbn [outs setS set_slots]. unfold emit. cbn [outs set_outs]. rewrite !setS_eq. reflexivity.
  - split; [apply setO_eq|]. split.
    + intros j N. rewrite setS_neq by exact N. split; [reflexivity|]. cbn [ost setS set_slots]. apply setO_neq, N.
    + split; [reflexivity|]. split; [reflexivity|]. split; [rewrite setS_eq; reflexivity|reflexivity].
Qed.
Lemma in_code c M : In c (map code M) -> exists k l, In (k, (l, c)) M.
Proof. intros I. apply in_map_iff in I as [[k [l d]] [E J]]. cbn in E. subst. exists k, l. exact J. Qed.
Lemma code_dec c M : In c (map code M) \/ ~ In c (map code M).
Proof. destruct (in_dec Nat.eq_dec c (map code M)); [left|right]; assumption. Qed.
Lemma reply_inv K c i p s : inv s -> inv (step K s (EReply c i p)).
Proof.
  intros [IV NK]. cbn [step]. pose proof (IV i) as IS. pose proof IS as [O1 [O2 [O3 [O4 [O5 O6]]]]]. rewrite O1. destruct (code_dec c (miss (sb (slots s i)))) as [I|I].
  - destruct (in_code _ _ I) as [k [l J]]. destruct (take_some k l c _ O2 O3 J) as [TK _]. rewrite TK.
    assert (exists ent, jm (sb (slots s i)) = Some ent) as [ent E]. { assert (miss (sb (slots s i)) <> []) as X by (intros X; rewrite X in J; destruct J). specialize (O5 X). unfold active in O5. destruct (jm (sb (slots s i))) as [m|]; [exists m; reflexivity|discriminate]. }
    destruct (response_spec K i c k l p ent s IS E J) as [R1 [R2 [R3 [R4 R5]]]]. cbv zeta in *. set (s' := response _ _ _ _ _) in *. clearbody s'. split; [|rewrite R4; exact NK].
    intros j. destruct (Nat.eq_dec j i) as [->|N].
    + unfold slotOk. cbv zeta. rewrite R1, R3. destruct (isNil (dropc c (miss (sb (slots s i))))) eqn:NI.
      * destruct R5 as [R5 _]. rewrite R5. destruct (dropc c (miss (sb (slots s i)))); [|discriminate]. destruct (reuse K i); cbn; (split; [reflexivity|]); (split; [constructor|]); (split; [constructor|]); (split; [tauto|]); (split; [tauto|reflexivity]).
      * destruct R5 as [R5 _]. rewrite R5. cbn [sb miss rq]. assert (dropc c (miss (sb (slots s i))) <> []) as NE by (intros X; rewrite X in NI; discriminate). split; [reflexivity|]. split; [apply NoDup_map_filter, O2|]. split; [apply NoDup_map_filter, O3|].
        split; [split; [intros _; exact NE|intros _; apply O4; intros X; rewrite X in J; destruct J]|]. split; [reflexivity|]. intros L. specialize (O6 L). rewrite O6 in J. destruct J.
    + destruct (R2 j N) as [S1 S2]. unfold slotOk. cbv zeta. rewrite S1, S2, R3. apply IV.
  - rewrite take_none by exact I. split; [exact IV|exact NK].
Qed.

(** ** Children leave *)
Lemma clearCode_same c b : hasCode c (miss b) = false -> clearCode c b = (b, false).
Proof. intros H. unfold clearCode. rewrite H. reflexivity. Qed.
Lemma set_sb_same x : set_sb (sb x) x = x.
Proof. destruct x; reflexivity. Qed.
Lemma goneSlot_same K c i x : hasCode c (miss (sb x)) = false -> goneSlot K (clearCode c) i x = x /\ goneOut (clearCode c) x = [].
Proof. intros H. unfold goneSlot, goneOut. rewrite clearCode_same by exact H. cbn [fst snd]. rewrite set_sb_same. destruct (completed (sb x)); split; reflexivity. Qed.
Lemma hasCode_not_completed c b : hasCode c (miss b) = true -> completed b = false.
Proof. intros H. unfold completed. destruct (miss b); [discriminate|]. apply andb_false_r. Qed.
Lemma gone_spec c s : inv s -> okEvent false s (EGone c) -> let s' := goneKid c s in
  (forall i, slots s' i = goneSlot false (clearCode c) i (slots s i)) /\ (forall i, ost s' i = map swap (dropc c (miss (sb (slots s i))))) /\
  outs s' = outs s ++ flat_map (fun i => goneOut (clearCode c) (slots s i)) (seq 0 (nsl s)) /\ nsl s' = nsl s /\ kids s' = map (markGone c) (kids s).
Proof.
  intros [IV NK] OK. cbv zeta. unfold goneKid. set (s1 := set_ost _ _). destruct (inFlight_spec false (clearCode c) (nsl s) 0 s1) as [A [B [C [D [E F]]]]].
  - intros i R. change (slots s1) with (slots s). destruct (hasCode c (miss (sb (slots s i)))) eqn:H.
    + right. intros j L. destruct (Nat.eq_dec j i) as [->|N]; [apply (hasCode_not_completed _ _ H)|]. apply (OK i j); [lia|exact H].
    + left. apply goneSlot_same, H.
  - cbv zeta in *. change (slots s1) with (slots s) in *. split; [|split; [|split; [exact B|split; [exact E|exact D]]]].
    + intros i. rewrite A. destruct (Nat.ltb_spec i (0 + nsl s)) as [L|L]; cbn; [reflexivity|]. symmetry. apply goneSlot_same. destruct (IV i) as [_ [_ [_ [_ [_ O6]]]]]. rewrite O6 by exact L. reflexivity.
    + intros i. rewrite C. change (ost s1 i) with (filter (fun a => negb (fst a =? c)) (ost s i)). destruct (IV i) as [O1 _]. rewrite O1, swap_dropc. reflexivity.
Qed.
Lemma goneSlot_drop K c i x : NoDup (map code (miss (sb x))) -> In c (map code (miss (sb x))) ->
  goneSlot K (clearCode c) i x = (if isNil (dropc c (miss (sb x))) then mkSlot (if reuse K i then set_miss [] (sb x) else reset (sb x)) [] else set_sb (set_miss (dropc c (miss (sb x))) (sb x)) x) /\
  goneOut (clearCode c) x = (if isNil (dropc c (miss (sb x))) then deliver false (rq x) (AMap (generate (sb x))) else []).
Proof.
  intros ND I. apply hasCode_iff in I. unfold goneSlot, goneOut. rewrite (hasCode_not_completed _ _ I). unfold clearCode. rewrite I. cbv zeta. cbn [fst snd miss set_miss]. rewrite eraseCode_dropc by exact ND.
  destruct (dropc c (miss (sb x))) eqn:E; cbn [isNil]; split; reflexivity.
Qed.
Lemma markGone_kno c ks : map kno (map (markGone c) ks) = map kno ks.
Proof. rewrite map_map. apply map_ext. intros k. unfold markGone. destruct (_ && _); reflexivity. Qed.
Lemma gone_inv c s : inv s -> okEvent false s (EGone c) -> inv (goneKid c s).
Proof.
  intros IV OK. destruct (gone_spec c s IV OK) as [A [B [_ [N KS]]]]. cbv zeta in *. set (s' := goneKid c s) in *. clearbody s'. destruct IV as [IV NK]. split; [|rewrite KS, markGone_kno; exact NK].
  intros i. destruct (IV i) as [O1 [O2 [O3 [O4 [O5 O6]]]]]. unfold slotOk. cbv zeta. rewrite A, B, N. destruct (code_dec c (miss (sb (slots s i)))) as [I|I].
  - rewrite (proj1 (goneSlot_drop false c i _ O3 I)). assert (miss (sb (slots s i)) <> []) as NE by (intros X; rewrite X in I; destruct I). destruct (dropc c (miss (sb (slots s i)))) as [|e D] eqn:E; cbn [isNil].
    + destruct (reuse false i); cbn; (split; [reflexivity|]); (split; [constructor|]); (split; [constructor|]); (split; [tauto|]); (split; [tauto|reflexivity]).
    + cbn [sb set_sb miss set_miss rq]. rewrite <- E. split; [reflexivity|]. split; [apply NoDup_map_filter, O2|]. split; [apply NoDup_map_filter, O3|].
      split; [split; intros _; [rewrite E; discriminate|apply O4, NE]|]. split; [intros _; apply O5, NE|]. intros L. elim NE. apply O6, L.
  - rewrite (proj1 (goneSlot_same false c i (slots s i) ltac:(destruct (hasCode c (miss (sb (slots s i)))) eqn:X; [apply hasCode_iff in X; contradiction|reflexivity]))). rewrite dropc_none by exact I.
    split; [reflexivity|]. split; [exact O2|]. split; [exact O3|]. split; [exact O4|]. split; [exact O5|exact O6].
Qed.
