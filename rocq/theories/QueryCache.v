(** * C47: answers from the cache *)
From Coq Require Import ZArith Bool List Lia.
From Verif Require Import Query PropsQuery QueryInv QueryLive.
Import ListNotations.
Open Scope nat_scope.

(** ** Specification *)
(** the state of a child, and the rest of the counter, only grow (CONNECTED 0 ... DISCONNECTED 50); the core does not disconnect *)
Definition growing (K : bool) (s : qs) (e : event) : Prop :=
  match e with
  | EState c v => forall k, In k (kids s) -> kno k = c -> (kst k <= v <= 50)%Z
  | EOther v => (other s <= v)%Z
  | EFlush => K = false
  | _ => True
  end.
Definition alwaysGrowing (K : bool) (h : list event) : Prop := forall h1 e h2, h = h1 ++ e :: h2 -> growing K (run K h1) e.

(** ** The counter *)
Definition sumK (l : list kid) : Z := fold_right Z.add 0%Z (map kst l).
Definition le1 (a b : kid) : Prop := kno a = kno b /\ kcore a = kcore b /\ (kst a <= kst b)%Z.
Definition grow (l l' : list kid) : Prop := exists p q, l' = p ++ q /\ Forall2 le1 l p /\ Forall (fun k => 0 <= kst k)%Z q.
Lemma sumK_app a b : sumK (a ++ b) = (sumK a + sumK b)%Z.
Proof. unfold sumK. induction a as [|x a IH]; cbn in *; [reflexivity|]. rewrite IH. lia. Qed.
Lemma sum_le l p : Forall2 le1 l p -> (sumK l <= sumK p)%Z.
Proof. induction 1 as [|a b l p [_ [_ H]] F IH]; unfold sumK in *; cbn; lia. Qed.
Lemma sum_eq l p : Forall2 le1 l p -> sumK l = sumK p -> l = p.
Proof.
  induction 1 as [|a b l p [H1 [H2 H3]] F IH]; intros E; [reflexivity|]. pose proof (sum_le _ _ F) as L. unfold sumK in *. cbn in E. f_equal; [|apply IH; lia].
  destruct a as [a1 a2 a3], b as [b1 b2 b3]. cbn in *. subst. f_equal. lia.
Qed.
Lemma sum_pos q : Forall (fun k => 0 <= kst k)%Z q -> (0 <= sumK q)%Z.
Proof. induction 1; unfold sumK in *; cbn in *; lia. Qed.
Lemma sum_zero q : Forall (fun k => 0 <= kst k)%Z q -> sumK q = 0%Z -> Forall (fun k => kst k = 0%Z) q.
Proof. induction 1 as [|k q H F IH]; intros E; [constructor|]. pose proof (sum_pos _ F) as L. unfold sumK in *. cbn in E. constructor; [lia|apply IH; lia]. Qed.
Lemma grow_refl l : grow l l.
Proof. exists l, []. split; [rewrite app_nil_r; reflexivity|]. split; [|constructor]. induction l as [|k l IH]; constructor; [repeat split; lia|exact IH]. Qed.
Lemma le1_trans a b c : Forall2 le1 a b -> Forall2 le1 b c -> Forall2 le1 a c.
Proof. intros H. revert c. induction H as [|x y a b [H1 [H2 H3]] F IH]; intros c G; inversion G as [|? z ? c' [G1 [G2 G3]] G4]; subst; constructor; [repeat split; congruence || lia|apply IH, G4]. Qed.
Lemma grow_trans a b c : grow a b -> grow b c -> grow a c.
Proof.
  intros [p [q [-> [F Q]]]] [p' [q' [-> [F' Q']]]]. apply Forall2_app_inv_l in F' as [p1 [q1 [F1 [F2 ->]]]]. exists p1, (q1 ++ q'). split; [rewrite app_assoc; reflexivity|]. split; [apply (le1_trans _ _ _ F F1)|].
  apply Forall_app. split; [|exact Q']. clear -F2 Q. induction F2 as [|x y a b [_ [_ H]] F IH]; constructor; inversion Q; subst; [lia|apply IH; assumption].
Qed.
Lemma grow_map f l : (forall k, In k l -> le1 k (f k)) -> grow l (map f l).
Proof. intros H. exists (map f l), []. split; [rewrite app_nil_r; reflexivity|]. split; [|constructor]. induction l as [|k l IH]; constructor; [apply H; left; reflexivity|apply IH; intros x I; apply H; right; exact I]. Qed.

(** ** One step *)
Definition bounds (s : qs) : Prop := Forall (fun k => 0 <= kst k <= 50)%Z (kids s).
Lemma inFlight_rest K cl js s : kids (inFlight K cl js s) = kids s /\ other (inFlight K cl js s) = other s.
Proof.
  revert s. induction js as [|j js IH]; intros s; [split; reflexivity|]. cbn [inFlight]. destruct (completed _); [split; reflexivity|]. destruct (cl _) as [b1 fin].
  destruct (IH (if fin then finishGone K j (setS j (set_sb b1 (slots s j)) s) else setS j (set_sb b1 (slots s j)) s)) as [A B]. rewrite A, B. destruct fin; split; reflexivity.
Qed.
Lemma mapQuery_rest K i orc s : kids (snd (mapQuery K i orc s)) = kids s /\ other (snd (mapQuery K i orc s)) = other s.
Proof.
  unfold mapQuery. destruct (decide K i s); [split; reflexivity|split; reflexivity|]. cbv zeta.
  assert (kids (initBuilder K i orc s) = kids s /\ other (initBuilder K i orc s) = other s) as I by (unfold initBuilder; destruct (fold_left _ _ _); split; reflexivity).
  destruct (completed _); cbn [snd]; [destruct (reuse K i)|]; exact I.
Qed.
Lemma step_grow K s e : bounds s -> growing K s e -> grow (kids s) (kids (step K s e)) /\ (other s <= other (step K s e))%Z /\ bounds (step K s e).
Proof.
  intros B G.
  assert (forall t, kids t = kids s /\ other t = other s -> grow (kids s) (kids t) /\ (other s <= other t)%Z /\ bounds t) as SAME.
  { intros t [E1 E2]. unfold bounds. rewrite E1, E2. split; [apply grow_refl|]. split; [lia|exact B]. }
  assert (forall r i orc, kids (query K r i orc s) = kids s /\ other (query K r i orc s) = other s) as Q.
  { intros r i orc. unfold query. pose proof (mapQuery_rest K i orc s) as M. destruct (mapQuery K i orc s) as [[a|] s1]; exact M. }
  destruct e as [r i orc|r i orc|c i p|c| |c co|c v|v]; cbn [step growing] in *.
  - destruct (collected K i); apply SAME; [apply Q|split; reflexivity].
  - destruct (collected K i); apply SAME; [|split; reflexivity]. unfold named. destruct K; [|apply Q]. pose proof (mapQuery_rest true i orc s) as M. destruct (mapQuery true i orc s) as [[a|] s1]; exact M.
  - apply SAME. destruct (takeAsk c (ost s i)) as [[k o]|]; [|split; reflexivity]. unfold response. destruct (i <? _); [|split; reflexivity]. destruct (addComponent _ _ _) as [b1 [|]]; split; reflexivity.
  - destruct K; [apply SAME; split; reflexivity|]. unfold goneKid. destruct (inFlight_rest false (clearCode c) (seq 0 (nsl s)) (set_ost (fun i => filter (fun a => negb (fst a =? c)) (ost s i)) (set_kids (map (markGone c) (kids s)) s))) as [A1 A2].
    unfold bounds. rewrite A1, A2. cbn [kids other set_ost set_kids]. unfold bounds in B. rewrite Forall_forall in *. split; [|split; [lia|]].
    + apply grow_map. intros k I. specialize (B k I). unfold markGone, le1. destruct (_ && _); cbn; repeat split; lia.
    + intros x I. apply in_map_iff in I as [k [<- I]]. specialize (B k I). unfold markGone. destruct (_ && _); cbn; lia.
  - destruct K; [discriminate|]. apply SAME. split; reflexivity.
  - destruct (isKid c (kids s)); [apply SAME; split; reflexivity|]. cbn [kids other set_kids]. split; [|split; [lia|]].
    + destruct (grow_refl (kids s)) as [p [q [E [F1 F2]]]]. exists (kids s), [mkKid c co 0]. split; [reflexivity|]. split; [|constructor; [cbn; lia|constructor]]. clear. induction (kids s) as [|k l IH]; constructor; [repeat split; lia|exact IH].
    + unfold bounds. cbn [kids set_kids]. apply Forall_app. split; [exact B|]. constructor; [cbn; lia|constructor].
  - unfold bounds in *. cbn [kids other set_kids]. rewrite Forall_forall in *. split; [|split; [lia|]].
    + apply grow_map. intros k I. unfold le1. destruct (Nat.eqb_spec (kno k) c) as [E|E]; cbn; repeat split; try lia. apply (G k I E).
    + intros x I. apply in_map_iff in I as [k [<- I]]. specialize (B k I). destruct (Nat.eqb_spec (kno k) c) as [E|E]; cbn; [|exact B]. specialize (G k I E). lia.
  - split; [apply grow_refl|]. split; [exact G|exact B].
Qed.
Lemma growing_prefix K h h' : alwaysGrowing K (h ++ h') -> alwaysGrowing K h.
Proof. intros O h1 e h2 E. apply (O h1 e (h2 ++ h')). rewrite E, <- app_assoc. reflexivity. Qed.
Lemma run_bounds K h : alwaysGrowing K h -> bounds (run K h).
Proof. induction h as [|e h IH] using rev_ind; intros G; [constructor|]. rewrite run_snoc. apply step_grow; [apply IH, (growing_prefix K h [e] G)|apply (G h e []); reflexivity]. Qed.
Lemma run_grow K h1 h2 : alwaysGrowing K (h1 ++ h2) -> grow (kids (run K h1)) (kids (run K (h1 ++ h2))) /\ (other (run K h1) <= other (run K (h1 ++ h2)))%Z.
Proof.
  induction h2 as [|e h IH] using rev_ind; intros G; [rewrite app_nil_r; split; [apply grow_refl|lia]|]. rewrite app_assoc in *. destruct (IH (growing_prefix K _ _ G)) as [A B]. rewrite run_snoc.
  destruct (step_grow K (run K (h1 ++ h)) e) as [C [D _]]; [apply run_bounds, (growing_prefix K _ _ G)|apply (G _ e []); reflexivity|]. split; [apply (grow_trans _ _ _ A C)|lia].
Qed.
Lemma grow_counter s t : grow (kids s) (kids t) -> (other s <= other t)%Z -> (counter s <= counter t)%Z.
Proof. intros [p [q [E [F Q]]]] O. unfold counter. fold (sumK (kids s)). fold (sumK (kids t)). rewrite E, sumK_app. pose proof (sum_le _ _ F). pose proof (sum_pos _ Q). lia. Qed.
Lemma counter_same s t : grow (kids s) (kids t) -> (other s <= other t)%Z -> counter s = counter t ->
  other s = other t /\ exists new, kids t = kids s ++ new /\ Forall (fun k => kst k = 0%Z) new.
Proof.
  intros [p [q [E [F Q]]]] O C. unfold counter in C. fold (sumK (kids s)) in C. fold (sumK (kids t)) in C. rewrite E, sumK_app in C. pose proof (sum_le _ _ F) as L. pose proof (sum_pos _ Q).
  split; [lia|]. exists q. rewrite E, (sum_eq _ _ F) by lia. split; [reflexivity|]. apply sum_zero; [exact Q|lia].
Qed.

(** ** How a map changes *)
Inductive change (K : bool) (i : nat) (s s' : qs) (e : event) : Prop :=
| ch_same (E : sb (slots s' i) = sb (slots s i))
| ch_build (C : cc (sb (slots s' i)) = cc (sb (slots s i))) (NC : completed (sb (slots s' i)) = false) (Q : exists orc, miss (sb (slots s' i)) = number 2 (toWait K orc (kids s))) (KS : counter s' = counter s)
| ch_done (C : cc (sb (slots s' i)) = counter s') (M : miss (sb (slots s' i)) = [])
| ch_less (C : cc (sb (slots s' i)) = cc (sb (slots s i))) (NC : completed (sb (slots s' i)) = false) (M : incl (miss (sb (slots s' i))) (miss (sb (slots s i))))
| ch_gone (c : nat) (C : cc (sb (slots s' i)) = cc (sb (slots s i))) (EV : e = EGone c) (KF : K = false) (M : miss (sb (slots s' i)) = []) (H : hasCode c (miss (sb (slots s i))) = true).
Lemma mapQuery_change K i j orc s e : reuse K i = true -> change K i s (snd (mapQuery K j orc s)) e.
Proof.
  intros R. unfold mapQuery. destruct (decide K j s) eqn:D; [apply ch_same; reflexivity|apply ch_same; reflexivity|]. cbv zeta.
  destruct (init_spec K j orc s) as [B [SN [_ [_ [_ [_ [_ [_ CO]]]]]]]]. cbv zeta in *. set (s1 := initBuilder K j orc s) in *. clearbody s1. destruct (Nat.eq_dec i j) as [<-|N].
  - rewrite R. destruct (completed (sb (slots s1 i))) eqn:C; cbn [snd].
    + apply ch_done; rewrite setS_eq; [reflexivity|]. cbn. unfold completed in C. destruct (miss (sb (slots s1 i))); [reflexivity|rewrite andb_false_r in C; discriminate].
    + apply ch_build; [rewrite B; reflexivity|exact C|exists orc; rewrite B; reflexivity|exact CO].
  - apply ch_same. destruct (completed _); cbn [snd]; [destruct (reuse K j); [rewrite setS_neq by exact N|]|]; rewrite SN by exact N; reflexivity.
Qed.
Lemma eraseCode_incl c l : incl (eraseCode c l) l.
Proof. induction l as [|[j v] l IH]; [intros x []|]. cbn. destruct (_ =? _); intros x I; [right; exact I|]. destruct I as [I|I]; [left; exact I|right; apply IH, I]. Qed.
Lemma inFlight_change c i js s : NoDup js -> reuse false i = true ->
  forall s0, sb (slots s0 i) = sb (slots s i) -> change false i s0 (inFlight false (clearCode c) js s) (EGone c).
Proof.
  intros ND R s0 S0.
  assert (sb (slots (inFlight false (clearCode c) js s) i) = sb (slots s i) \/ (completed (sb (slots s i)) = false /\ hasCode c (miss (sb (slots s i))) = true /\ sb (slots (inFlight false (clearCode c) js s) i) = set_miss (eraseCode c (miss (sb (slots s i)))) (sb (slots s i)))) as H.
  { clear S0. revert s. induction js as [|j js IH]; intros s; [left; reflexivity|]. inversion ND as [|? ? NI ND']; subst. specialize (IH ND'). cbn [inFlight]. destruct (completed (sb (slots s j))) eqn:C; [left; reflexivity|].
    unfold clearCode at 1 3. destruct (hasCode c (miss (sb (slots s j)))) eqn:HC.
    - cbv zeta. set (b1 := set_miss (eraseCode c (miss (sb (slots s j)))) (sb (slots s j))). set (s1 := if isNil (miss b1) then _ else _).
      destruct (Nat.eq_dec i j) as [->|N].
      + right. split; [exact C|]. split; [exact HC|]. assert (sb (slots s1 j) = b1) as E.
        { unfold s1. destruct (isNil (miss b1)); [|rewrite setS_eq; reflexivity]. unfold finishGone. cbv zeta. rewrite setS_eq, R. rewrite setS_eq. reflexivity. }
        assert (forall t, slots (inFlight false (clearCode c) js t) j = slots t j) as FR.
        { clear -NI. induction js as [|k js IHj]; intros t; [reflexivity|]. cbn [inFlight]. destruct (completed _); [reflexivity|]. destruct (clearCode c _) as [b2 fin]. rewrite IHj by (intros X; apply NI; right; exact X).
          assert (j <> k) as N by (intros ->; apply NI; left; reflexivity). destruct fin; [|apply setS_neq, N]. unfold finishGone. cbv zeta. rewrite setS_neq by exact N. cbn [slots emit set_outs]. apply setS_neq, N. }
        rewrite FR. exact E.
      + assert (sb (slots s1 i) = sb (slots s i)) as E.
        { unfold s1. destruct (isNil (miss b1)); [|rewrite setS_neq by exact N; reflexivity]. unfold finishGone. cbv zeta. rewrite setS_neq by exact N. cbn [slots emit set_outs]. rewrite setS_neq by exact N. reflexivity. }
        specialize (IH s1). rewrite E in IH. exact IH.
    - cbv zeta. set (s1 := setS j _ s).
      assert (sb (slots s1 i) = sb (slots s i)) as E.
      { unfold s1. destruct (Nat.eq_dec i j) as [->|N]; [rewrite setS_eq; reflexivity|rewrite setS_neq by exact N; reflexivity]. }
      specialize (IH s1). rewrite E in IH. exact IH. }
  destruct H as [H|[C [HC H]]]; [apply ch_same; rewrite S0; exact H|]. destruct (eraseCode c (miss (sb (slots s i)))) as [|m M] eqn:E.
  - apply (ch_gone _ _ _ _ _ c); rewrite ?S0; [rewrite H; reflexivity|reflexivity|reflexivity|rewrite H; reflexivity|exact HC].
  - apply ch_less; rewrite ?S0; [rewrite H; reflexivity|rewrite H; unfold completed; cbn; apply andb_false_r|]. rewrite H. cbn [miss set_miss]. rewrite <- E. apply eraseCode_incl.
Qed.
Lemma change_ext K i s t s' e : slots t = slots s -> kids t = kids s -> counter t = counter s -> change K i t s' e -> change K i s s' e.
Proof. intros A B C H. destruct H; rewrite ?A in *; rewrite ?B in *; rewrite ?C in *; [apply ch_same|apply ch_build|apply ch_done|apply ch_less|apply (ch_gone _ _ _ _ _ c)]; assumption. Qed.
Lemma change_ext2 K i s s' t e : sb (slots t i) = sb (slots s' i) -> counter t = counter s' -> change K i s s' e -> change K i s t e.
Proof. intros A C H. destruct H; [apply ch_same|apply ch_build|apply ch_done|apply ch_less|apply (ch_gone _ _ _ _ _ c)]; rewrite ?A, ?C; assumption. Qed.
Lemma step_change K i s e : reuse K i = true -> growing K s e -> change K i s (step K s e) e.
Proof.
  intros R G.
  assert (forall r j orc, change K i s (query K r j orc s) e) as Q.
  { intros r j orc. unfold query. pose proof (mapQuery_change K i j orc s e R) as M. destruct (mapQuery K j orc s) as [[a|] s1]; cbn [snd] in M; [apply (change_ext2 K i s s1); [reflexivity|reflexivity|exact M]|].
    assert (sb (slots (setS j (set_rq (rq (slots s1 j) ++ [r]) (slots s1 j)) s1) i) = sb (slots s1 i)) as E by (destruct (Nat.eq_dec i j) as [->|N]; [rewrite setS_eq; reflexivity|rewrite setS_neq by exact N; reflexivity]).
    apply (change_ext2 K i s s1); [exact E|reflexivity|exact M]. }
  destruct e as [r j orc|r j orc|c j p|c| |c co|c v|v]; cbn [step growing] in *; try (apply ch_same; reflexivity).
  - destruct (collected K j); [apply Q|apply ch_same; reflexivity].
  - destruct (collected K j); [|apply ch_same; reflexivity]. unfold named. destruct K; [|apply Q]. pose proof (mapQuery_change true i j orc s (ENamed r j orc) R) as M. destruct (mapQuery true j orc s) as [[a|] s1]; apply (change_ext2 true i s s1); reflexivity || exact M.
  - destruct (takeAsk c (ost s j)) as [[k o]|]; [|apply ch_same; reflexivity]. apply (change_ext K i s (setO j o s)); try reflexivity. set (t := setO j o s). clearbody t. unfold response. destruct (j <? nsl t); [|apply ch_same; reflexivity].
    destruct (addComponent p k (sb (slots t j))) as [b1 fin] eqn:AC. destruct (Nat.eq_dec i j) as [<-|N].
    + unfold addComponent in AC. destruct (lookup k (miss (sb (slots t i)))) as [[l cd]|] eqn:LK.
      * cbv zeta in AC. injection AC as <- <-. cbn [miss set_miss]. destruct (erase k (miss (sb (slots t i)))) as [|m M] eqn:ER; cbn [isNil].
        -- apply ch_done; unfold finish; cbv zeta; rewrite !setS_eq, R; cbn; [reflexivity|reflexivity].
        -- apply ch_less; rewrite setS_eq; cbn; [reflexivity|reflexivity|]. rewrite <- ER. intros x I. apply filter_In in I as [I _]. exact I.
      * injection AC as <- <-. apply ch_same. rewrite setS_eq. reflexivity.
    + apply ch_same. destruct fin; [|rewrite setS_neq by exact N; reflexivity]. unfold finish. cbv zeta. rewrite setS_neq by exact N. cbn [slots emit set_outs]. rewrite setS_neq by exact N. reflexivity.
  - destruct K; [apply ch_same; reflexivity|]. unfold goneKid. cbv zeta. set (t := set_ost _ _). apply (inFlight_change c i (seq 0 (nsl s)) t (seq_NoDup _ _) R). reflexivity.
  - destruct K; [discriminate|]. apply ch_same. reflexivity.
  - destruct (isKid c (kids s)); apply ch_same; reflexivity.
Qed.

(** ** The theorem *)
(** the map of the kind i: its counter code is a counter of the past; when it is complete it is unchanged since its counter code was
    set, or the code is too old *)
Definition since (K : bool) (i : nat) (h : list event) : Prop :=
  let b := sb (slots (run K h) i) in
  (cc b <= counter (run K h))%Z /\
  (completed b = true -> (exists h1 h2, h = h1 ++ h2 /\ cc b = counter (run K h1) /\ sb (slots (run K h1) i) = b) \/ (cc b < counter (run K h))%Z) /\
  (K = false -> forall c, In c (map code (miss b)) -> exists h1 h2, h = h1 ++ h2 /\ (cc b <= counter (run K h1))%Z /\ exists k, In k (kids (run K h1)) /\ kno k = c /\ (kst k < 40)%Z).
Lemma grow_in l l' k : grow l l' -> In k l -> exists k', In k' l' /\ kno k' = kno k /\ (kst k <= kst k')%Z.
Proof.
  intros [p [q [-> [F _]]]] I. induction F as [|a b l p [H1 [H2 H3]] F IH]; [destruct I|]. destruct I as [->|I].
  - exists b. split; [left; reflexivity|]. split; [congruence|exact H3].
  - destruct (IH I) as [k' [A B]]. exists k'. split; [right; exact A|exact B].
Qed.
Lemma run_kno K h : NoDup (map kno (kids (run K h))).
Proof.
  induction h as [|e h IH] using rev_ind; [constructor|]. rewrite run_snoc. set (s := run K h) in *. clearbody s.
  assert (forall r i orc, kids (query K r i orc s) = kids s) as Q.
  { intros r i orc. unfold query. pose proof (mapQuery_rest K i orc s) as M. destruct (mapQuery K i orc s) as [[a|] s1]; apply M. }
  destruct e as [r i orc|r i orc|c i p|c| |c co|c v|v]; cbn [step] in *.
  - destruct (collected K i); [rewrite Q|]; exact IH.
  - destruct (collected K i); [|exact IH]. unfold named. destruct K; [|rewrite Q; exact IH]. pose proof (mapQuery_rest true i orc s) as [M _]. destruct (mapQuery true i orc s) as [[a|] s1]; cbn [snd] in M; cbn [kids emit set_outs]; rewrite M; exact IH.
  - destruct (takeAsk c (ost s i)) as [[k o]|]; [|exact IH]. unfold response. destruct (i <? _); [|exact IH]. destruct (addComponent _ _ _) as [b1 [|]]; exact IH.
  - destruct K; [exact IH|]. unfold goneKid. rewrite (proj1 (inFlight_rest _ _ _ _)). cbn [kids set_ost set_kids]. rewrite markGone_kno. exact IH.
  - destruct K; [|exact IH]. unfold flushAll. rewrite (proj1 (inFlight_rest _ _ _ _)). exact IH.
  - destruct (isKid c (kids s)) eqn:E; [exact IH|]. cbn [kids set_kids]. rewrite map_app. cbn.
    assert (~ In c (map kno (kids s))) as NI by (intros X; apply isKid_iff in X; congruence). clear -IH NI. induction (map kno (kids s)) as [|a l IHl]; cbn; [repeat constructor; intros []|]. inversion IH; subst. constructor; [intros X; apply in_app_or in X as [X|[X|[]]]; [contradiction|subst; apply NI; left; reflexivity]|apply IHl; [assumption|intros X; apply NI; right; exact X]].
  - cbn [kids set_kids]. rewrite map_map, (map_ext _ kno); [exact IH|]. intros k. destruct (_ =? _); reflexivity.
  - exact IH.
Qed.
Lemma strict l l' a : grow l l' -> NoDup (map kno l') -> In a l -> (forall b, In b l' -> kno b = kno a -> (kst a < kst b)%Z) -> (sumK l < sumK l')%Z.
Proof.
  intros [p [q [-> [F Q]]]] ND I H. rewrite sumK_app. pose proof (sum_pos _ Q) as P0.
  assert (sumK l < sumK p)%Z; [|lia]. assert (forall b, In b p -> kno b = kno a -> (kst a < kst b)%Z) as H' by (intros b J; apply H, in_or_app; left; exact J). clear -F I H'.
  induction F as [|x y l p [H1 [H2 H3]] F IH]; [destruct I|]. pose proof (sum_le _ _ F) as L. unfold sumK in *. cbn. destruct I as [->|I].
  - specialize (H' y (or_introl eq_refl) (eq_sym H1)). lia.
  - specialize (IH I ltac:(intros b J; apply H'; right; exact J)). lia.
Qed.
Lemma run_since K i h : reuse K i = true -> alwaysGrowing K h -> since K i h.
Proof.
  intros R. induction h as [|e h IH] using rev_ind; intros G.
  - unfold since. cbv zeta. cbn. split; [lia|]. split; [discriminate|intros _ c []].
  - specialize (IH (growing_prefix K h [e] G)). destruct IH as [I1 [I2 I3]].
    pose proof (run_grow K h [e] G) as [GK GO]. rewrite run_snoc in GK, GO. pose proof (grow_counter _ _ GK GO) as CL.
    assert (growing K (run K h) e) as GE by (apply (G h e []); reflexivity).
    pose proof (step_change K i (run K h) e R GE) as CH. unfold since. cbv zeta. rewrite run_snoc. pose proof (run_kno K (h ++ [e])) as NK. rewrite run_snoc in NK.
    assert (forall b : builder, (exists h1 h2, h = h1 ++ h2 /\ cc b = counter (run K h1) /\ sb (slots (run K h1) i) = b) -> exists h1 h2, h ++ [e] = h1 ++ h2 /\ cc b = counter (run K h1) /\ sb (slots (run K h1) i) = b) as X1.
    { intros b [h1 [h2 [-> X]]]. exists h1, (h2 ++ [e]). split; [symmetry; apply app_assoc|exact X]. }
    assert (forall z c, (exists h1 h2, h = h1 ++ h2 /\ (z <= counter (run K h1))%Z /\ exists k, In k (kids (run K h1)) /\ kno k = c /\ (kst k < 40)%Z) -> exists h1 h2, h ++ [e] = h1 ++ h2 /\ (z <= counter (run K h1))%Z /\ exists k, In k (kids (run K h1)) /\ kno k = c /\ (kst k < 40)%Z) as X2.
    { intros z c [h1 [h2 [-> X]]]. exists h1, (h2 ++ [e]). split; [symmetry; apply app_assoc|exact X]. }
    destruct CH.
    + rewrite E. split; [lia|]. split; [intros C; destruct (I2 C) as [Y|Y]; [left; apply X1, Y|right; lia]|]. intros KF c IC. apply X2, I3; assumption.
    + rewrite C. split; [lia|]. split; [rewrite NC; discriminate|]. intros KF c IC. destruct Q as [orc Q]. rewrite Q, number_codes in IC. exists h, [e]. split; [reflexivity|]. split; [exact I1|].
      apply in_map_iff in IC as [[d l] [ED IC]]. cbn in ED. subst d. unfold toWait in IC. apply in_map_iff in IC as [k [EK IC]]. apply filter_In in IC as [IC MW]. injection EK as E1 E2. exists k. split; [exact IC|]. split; [exact E1|]. subst K. cbn in MW. apply Z.ltb_lt in MW. exact MW.
    + rewrite C, M. split; [lia|]. split; [|intros _ c []]. intros _. left. exists (h ++ [e]), []. split; [rewrite app_nil_r; reflexivity|]. rewrite run_snoc. split; reflexivity.
    + rewrite C. split; [lia|]. split; [rewrite NC; discriminate|]. intros KF c IC. apply X2, I3; [exact KF|]. apply in_map_iff in IC as [x [EX IC]]. apply in_map_iff. exists x. split; [exact EX|apply M, IC].
    + rewrite C, M. split; [lia|]. split; [|intros _ d []]. intros _. right. subst e. apply hasCode_iff in H. destruct (I3 KF c H) as [h1 [h2 [EH [CB [k [IK [KN KL]]]]]]].
      assert (alwaysGrowing K (h1 ++ (h2 ++ [EGone c]))) as G' by (rewrite app_assoc, <- EH; exact G). destruct (run_grow K h1 _ G') as [GK' GO']. rewrite app_assoc, <- EH, run_snoc in GK', GO'.
      assert (sumK (kids (run K h1)) < sumK (kids (step K (run K h) (EGone c))))%Z as ST.
      { apply (strict _ _ k GK' NK IK). intros b IB EB. rewrite KN in EB. subst K. cbn [step] in IB. unfold goneKid in IB. rewrite (proj1 (inFlight_rest _ _ _ _)) in IB. cbn [kids set_ost set_kids] in IB. apply in_map_iff in IB as [k0 [<- IB]].
        unfold markGone in *. destruct (Nat.eqb_spec (kno k0) c) as [E0|E0]; cbn [andb] in *; [|congruence]. destruct (Z.eqb_spec (kst k0) 40); cbn [negb kst set_kst] in *; lia. }
      unfold counter in *. unfold sumK in ST. lia.
Qed.
(** C47: an answer from the cache is the map as it was when it was completed, and since then neither the state of a child nor the
    rest of the counter has changed; only children which are merely connected may have joined.  In all histories in which
    the states of the children only grow, whatever else happens. *)
Theorem C47_cached_answer_is_current K i h : alwaysGrowing K h -> decide K i (run K h) = Cached ->
  exists h1 h2 new, h = h1 ++ h2 /\ completed (sb (slots (run K h1) i)) = true /\
    generate (sb (slots (run K h1) i)) = generate (sb (slots (run K h) i)) /\
    kids (run K h) = kids (run K h1) ++ new /\ Forall (fun k => kst k = 0%Z) new /\ other (run K h) = other (run K h1).
Proof.
  intros G D. unfold decide in D. cbv zeta in D. destruct (reuse K i) eqn:R; [|rewrite andb_false_r in D; discriminate]. destruct (i <? _); cbn [andb] in D; [|discriminate].
  destruct (completed (sb (slots (run K h) i))) eqn:C; [|destruct (active _); discriminate]. destruct (Z.eqb_spec (counter (run K h)) (cc (sb (slots (run K h) i)))) as [E|E]; [|discriminate].
  destruct (run_since K i h R G) as [_ [S _]]. destruct (S C) as [[h1 [h2 [EH [CE SE]]]]|L]; [|lia]. clear S. destruct (run_grow K h1 h2) as [A B]; [rewrite <- EH; exact G|]. rewrite <- EH in A, B.
  destruct (counter_same _ _ A B) as [O [new [N1 N2]]]; [congruence|]. exists h1, h2, new. rewrite SE. repeat split; try assumption. symmetry. exact O.
Qed.

(** ** The core disconnects *)
(** C47: when a core disconnects everybody who waits is answered, unless a finished map is stored
    (see [C47_core_disconnect_leaves_query_refuted]) *)
Theorem C47_core_disconnect_answers_all h : orderly true h -> (forall j, completed (sb (slots (run true h) j)) = false) ->
  forall r, waiting r (run true (h ++ [EFlush])) = 0 /\ answers r (run true (h ++ [EFlush])) = asked true r h.
Proof.
  intros O C r. assert (waiting r (run true (h ++ [EFlush])) = 0) as W.
  { destruct (run_inv true h O) as [IV _]. rewrite run_snoc. cbn [step]. unfold flushAll. destruct (inFlight_spec true clearAll (nsl (run true h)) 0 (run true h)) as [S _]; [intros i _; right; intros j _; apply C|].
    unfold waiting. apply sumN_zero. intros i _. rewrite S. destruct (IV i) as [_ [_ [_ [O4 [O5 O6]]]]]. set (x := slots (run true h) i) in *. cbn [Nat.leb andb Nat.add].
    destruct (nil_dec (miss (sb x))) as [M|M].
    - assert (rq x = []) as Q by (destruct (nil_dec (rq x)) as [Y|Y]; [exact Y|elim (proj1 O4 Y M)]).
      destruct (i <? nsl (run true h)); [|rewrite Q; reflexivity]. unfold goneSlot. destruct (completed (sb x)); [rewrite Q; reflexivity|]. destruct (snd (clearAll (sb x))); cbn [rq set_sb]; [reflexivity|rewrite Q; reflexivity].
    - destruct (Nat.ltb_spec i (nsl (run true h))) as [L|L]; [|elim (M (O6 L))]. unfold goneSlot. unfold x at 1. rewrite C. unfold clearAll. cbn [fst snd]. rewrite (O5 M). reflexivity. }
  split; [exact W|]. assert (asked true r (h ++ [EFlush]) = asked true r h) as A by (unfold asked; rewrite map_app, list_sum_app; cbn; lia).
  rewrite <- A, C47_each_query_waits_or_is_answered_once, W. lia.
Qed.
