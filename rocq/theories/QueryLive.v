(** * C47: the answer is complete, and comes *)
From Coq Require Import ZArith Bool List Lia.
From Verif Require Import Query PropsQuery QueryInv.
Import ListNotations.
Open Scope nat_scope.

Lemma isKid_iff c ks : isKid c ks = true <-> In c (map kno ks).
Proof.
  unfold isKid. rewrite existsb_exists, in_map_iff. split; intros [k [A B]]; exists k.
  - apply Nat.eqb_eq in B. split; assumption.
  - split; [exact B|]. apply Nat.eqb_eq. exact A.
Qed.
Lemma step_inv K s e : inv s -> okEvent K s e -> inv (step K s e).
Proof.
  intros IV OK. destruct e as [r i orc|r i orc|c i p|c| |c co|c v|v].
  - cbn [step]. destruct (collected K i); [|exact IV]. apply query_inv; assumption.
  - destruct OK as [-> OK]. cbn [step named]. destruct (collected false i); [|exact IV]. apply query_inv; assumption.
  - apply reply_inv, IV.
  - cbn [step]. destruct K; [exact IV|]. apply gone_inv; assumption.
  - cbn in OK. subst K. exact IV.
  - cbn [step]. destruct (isKid c (kids s)) eqn:E; [exact IV|]. destruct IV as [IV NK]. split; [exact IV|]. cbn [kids set_kids]. rewrite map_app. cbn.
    (assert (~ In c (map kno (kids s))) as NI by (intros X; apply isKid_iff in X; congruence); clear -NK NI; induction (map kno (kids s)) as [|a l IH]; cbn; [repeat constructor; intros []|]; inversion NK; subst; constructor; [intros X; apply in_app_or in X as [X|[X|[]]]; [contradiction|subst; apply NI; left; reflexivity]|apply IH; [assumption|intros X; apply NI; right; exact X]]).
  - destruct IV as [IV NK]. split; [exact IV|]. cbn [step kids set_kids]. rewrite map_map. rewrite (map_ext _ kno); [exact NK|]. intros k. destruct (_ =? _); reflexivity.
  - exact IV.
Qed.
Lemma inv0 : inv qs0.
Proof. split; [|constructor]. intros i. unfold slotOk. cbn. split; [reflexivity|]. split; [constructor|]. split; [constructor|]. split; [tauto|]. split; [tauto|reflexivity]. Qed.
Lemma orderly_prefix K h h' : orderly K (h ++ h') -> orderly K h.
Proof. intros O h1 e h2 E. apply (O h1 e (h2 ++ h')). rewrite E, <- app_assoc. reflexivity. Qed.
Lemma run_inv K h : orderly K h -> inv (run K h).
Proof.
  induction h as [|e h IH] using rev_ind; intros O; [exact inv0|]. rewrite run_snoc. apply step_inv; [apply IH, (orderly_prefix K h [e] O)|]. apply (O h e []). reflexivity.
Qed.

(** ** Liveness *)
(** C47: in orderly histories nobody waits when every child has answered what it was asked, or has left *)
Theorem C47_no_query_waits_for_nothing K h : orderly K h -> (forall i, ost (run K h) i = []) ->
  forall r, waiting r (run K h) = 0 /\ answers r (run K h) = asked K r h.
Proof.
  intros O E r. destruct (run_inv K h O) as [IV _]. assert (waiting r (run K h) = 0) as W.
  { unfold waiting. apply sumN_zero. intros i _. destruct (IV i) as [O1 [_ [_ [O4 _]]]]. rewrite E in O1. destruct (rq (slots (run K h) i)) as [|q l] eqn:R; [reflexivity|].
    destruct (miss (sb (slots (run K h) i))); [|discriminate]. elim (proj1 O4 ltac:(discriminate) eq_refl). }
  split; [exact W|]. rewrite C47_each_query_waits_or_is_answered_once, W. lia.
Qed.

(** ** Following one map *)
Definition joins (K : bool) (i : nat) (e : event) : list req := match e with EQuery r j _ | ENamed r j _ => if (j =? i) && collected K j then [r] else [] | _ => [] end.
Definition mapOf (s : qs) (i : nat) (P : list (nat * loc)) (ent : list (loc * entry)) (R : list req) : Prop :=
  map who_ (miss (sb (slots s i))) = P /\ jm (sb (slots s i)) = Some ent /\ rq (slots s i) = R.
Definition answerOf (i : nat) (ent : list (loc * entry)) (e : event) : answer :=
  match e with EReply _ _ _ => if i =? GLOBAL_FLUSH then AFlush else AMap ent | _ => AMap ent end.
Definition direct (K : bool) (e : event) : bool := match e with EReply _ _ _ => K | _ => false end.
Lemma who_code M : map code M = map fst (map who_ M).
Proof. rewrite map_map. reflexivity. Qed.
Lemma isNil_map {A B} (g : A -> B) l : isNil (map g l) = isNil l.
Proof. destruct l; reflexivity. Qed.
Lemma without_notin c P : ~ In c (map fst P) -> without c P = P /\ filter (fun a => fst a =? c) P = [].
Proof.
  intros N. induction P as [|[a l] P IH]; [split; reflexivity|]. destruct IH as [A B]; [intros X; apply N; right; exact X|]. unfold without in *. cbn. destruct (Nat.eqb_spec a c) as [->|E]; [elim N; left; reflexivity|]. cbn. rewrite A, B. split; reflexivity.
Qed.
Lemma follow K s e i P ent R : inv s -> okEvent K s e -> mapOf s i P ent R -> P <> [] ->
  if isNil (still K i P e) then exists o1 o2, outs (step K s e) = outs s ++ o1 ++ deliver (direct K e) R (answerOf i (ent ++ hears i P e) e) ++ o2
  else mapOf (step K s e) i (still K i P e) (ent ++ hears i P e) (R ++ joins K i e).
Proof.
  intros IV OK [MP [J MR]] NE. pose proof IV as [IVS NK]. pose proof (IVS i) as IS. pose proof IS as [O1 [O2 [O3 [O4 [O5 O6]]]]].
  assert (miss (sb (slots s i)) <> []) as NM by (intros X; rewrite X in MP; apply NE; symmetry; exact MP).
  assert (isNil P = false) as NP by (destruct P; [congruence|reflexivity]).
  assert (mapOf s i P ent R) as SAME by (split; [exact MP|split; assumption]).
  assert (forall r j orc, (rq (slots s j) <> [] -> reuse K j = true) -> collected K j = true -> mapOf (query K r j orc s) i P (ent ++ []) (R ++ if (j =? i) && collected K j then [r] else [])) as QQ.
  { intros r j orc OKJ CO. destruct (query_spec K r j orc s) as [A [SN _]]. cbv zeta in *. set (s' := query K r j orc s) in *. clearbody s'. rewrite app_nil_r, CO, andb_true_r. destruct (Nat.eqb_spec j i) as [->|N].
    - assert (completed (sb (slots s i)) = false) as NC by (unfold completed; destruct (miss (sb (slots s i))); [congruence|apply andb_false_r]).
      assert (decide K i s = Build -> False) as NB by (intros D; destruct (build_idle K s i IS OKJ D) as [M _]; congruence).
      destruct A.
      + unfold decide in D. cbv zeta in D. rewrite NC in D. destruct (_ && _); [destruct (active _)|]; discriminate.
      + unfold mapOf. rewrite SL. cbn [sb rq set_rq]. split; [exact MP|]. split; [exact J|]. rewrite MR. reflexivity.
      + destruct (NB D).
      + destruct (NB D).
    - destruct (SN i (fun E => N (eq_sym E))) as [S1 _]. unfold mapOf. rewrite S1, app_nil_r. exact SAME. }
  destruct e as [r j orc|r j orc|c j p|c| |c co|c v|v]; cbn [still hears joins direct answerOf]; rewrite ?NP.
  - cbn [step]. destruct (collected K j) eqn:CO; [rewrite <- CO; apply QQ; assumption|]. rewrite andb_false_r, !app_nil_r. exact SAME.
  - destruct OK as [-> OKJ]. cbn [step named]. destruct (collected false j) eqn:CO; [rewrite <- CO; apply QQ; assumption|]. rewrite andb_false_r, !app_nil_r. exact SAME.
  - cbn [step]. destruct (Nat.eqb_spec j i) as [->|N].
    + rewrite O1. destruct (code_dec c (miss (sb (slots s i)))) as [I|I].
      * destruct (in_code _ _ I) as [k [l JJ]]. destruct (take_some k l c _ O2 O3 JJ) as [TK [_ [_ [F1 F2]]]]. rewrite TK. rewrite MP in F1, F2. rewrite F1. cbn [map snd]. rewrite <- F2, isNil_map.
        destruct (response_spec K i c k l p ent s IS J JJ) as [R1 [R2 [R3 [R4 R5]]]]. cbv zeta in *. set (s' := response _ _ _ _ _) in *. clearbody s'. destruct (isNil (dropc c (miss (sb (slots s i))))) eqn:NI.
        -- destruct R5 as [_ R5]. exists [], []. cbn [app]. rewrite app_nil_r, R5, MR. reflexivity.
        -- destruct R5 as [R5 _]. unfold mapOf. rewrite R5. cbn [sb rq miss jm]. rewrite MR, app_nil_r. split; [reflexivity|split; reflexivity].
      * rewrite take_none by exact I. rewrite who_code, MP in I. destruct (without_notin c P I) as [W1 W2]. rewrite W1, W2, NP. cbn [map]. rewrite !app_nil_r. exact SAME.
    + rewrite NP, !app_nil_r. destruct (takeAsk c (ost s j)) as [[k o]|] eqn:TK; [|exact SAME].
      assert (slots (response K j k p (setO j o s)) i = slots s i) as S1.
      { unfold response. change (nsl (setO j o s)) with (nsl s). change (slots (setO j o s)) with (slots s). destruct (j <? nsl s); [|reflexivity]. destruct (addComponent p k (sb (slots s j))) as [b1 [|]].
        - unfold finish. cbv zeta. rewrite setS_neq by (intros X; apply N; symmetry; exact X). cbn [slots emit set_outs]. rewrite setS_neq by (intros X; apply N; symmetry; exact X). reflexivity.
        - rewrite setS_neq by (intros X; apply N; symmetry; exact X). reflexivity. }
      unfold mapOf. rewrite S1. exact SAME.
  - cbn [step]. destruct K; [rewrite NP, !app_nil_r; exact SAME|]. rewrite !app_nil_r.
    destruct (gone_spec c s IV OK) as [A [B [C [N KS]]]]. cbv zeta in *. set (s' := goneKid c s) in *. clearbody s'. destruct (code_dec c (miss (sb (slots s i)))) as [I|I].
      * destruct (goneSlot_drop false c i (slots s i) O3 I) as [G1 G2]. rewrite <- MP, <- who_dropc, isNil_map. destruct (isNil (dropc c (miss (sb (slots s i))))) eqn:NI.
        -- assert (i < nsl s) as L by (destruct (Nat.le_gt_cases (nsl s) i) as [X|X]; [elim NM; apply O6, X|exact X]).
           assert (seq 0 (nsl s) = seq 0 i ++ i :: seq (S i) (nsl s - S i)) as SQ by (replace (nsl s) with (i + S (nsl s - S i)) at 1 by lia; rewrite seq_app; reflexivity).
           rewrite C, SQ, flat_map_app. cbn [flat_map]. rewrite G2. exists (flat_map (fun i => goneOut (clearCode c) (slots s i)) (seq 0 i)), (flat_map (fun i => goneOut (clearCode c) (slots s i)) (seq (S i) (nsl s - S i))).
           unfold generate. rewrite J, MR. reflexivity.
        -- unfold mapOf. rewrite A, G1. cbn [sb rq miss jm set_sb set_miss]. split; [reflexivity|split; assumption].
      * assert (hasCode c (miss (sb (slots s i))) = false) as HC by (destruct (hasCode c (miss (sb (slots s i)))) eqn:X; [apply hasCode_iff in X; contradiction|reflexivity]).
        rewrite who_code, MP in I. destruct (without_notin c P I) as [W1 _]. rewrite W1, NP. unfold mapOf. rewrite A, (proj1 (goneSlot_same false c i _ HC)). exact SAME.
  - rewrite !app_nil_r. cbn in OK. subst K. exact SAME.
  - rewrite !app_nil_r. cbn [step]. destruct (isKid c (kids s)); exact SAME.
  - rewrite !app_nil_r. exact SAME.
  - rewrite !app_nil_r. exact SAME.
Qed.

(** ** The answer *)
Lemma still_nil K i e : still K i [] e = [].
Proof. destruct e; cbn; try reflexivity; [destruct (_ =? _)|destruct K]; reflexivity. Qed.
Lemma left_nil K i h : left_ K i [] h = [].
Proof. induction h as [|e h IH]; [reflexivity|]. cbn. rewrite still_nil. exact IH. Qed.
Lemma left_app K i P h h' : left_ K i P (h ++ h') = left_ K i (left_ K i P h) h'.
Proof. revert P. induction h as [|e h IH]; intros P; [reflexivity|]. cbn. apply IH. Qed.
Lemma heard_app K i P h h' : heard K i P (h ++ h') = heard K i P h ++ heard K i (left_ K i P h) h'.
Proof. revert P. induction h as [|e h IH]; intros P; [reflexivity|]. cbn. rewrite IH, app_assoc. reflexivity. Qed.
Lemma follow_all K i h1 h2 P ent R : orderly K (h1 ++ h2) -> mapOf (run K h1) i P ent R -> left_ K i P h2 <> [] ->
  mapOf (run K (h1 ++ h2)) i (left_ K i P h2) (ent ++ heard K i P h2) (R ++ flat_map (joins K i) h2).
Proof.
  intros O M. induction h2 as [|e h IH] using rev_ind; intros N.
  - rewrite !app_nil_r. exact M.
  - rewrite left_app in *. cbn [left_] in *. rewrite app_assoc in *.
    assert (left_ K i P h <> []) as N1 by (intros X; rewrite X, still_nil in N; congruence).
    specialize (IH (orderly_prefix K _ _ O) N1). rewrite heard_app, flat_map_app, run_snoc. cbn [heard flat_map]. rewrite !app_nil_r.
    pose proof (follow K (run K (h1 ++ h)) e i _ _ _ (run_inv K _ (orderly_prefix K _ _ O)) (O _ e [] eq_refl) IH N1) as F.
    destruct (isNil (still K i (left_ K i P h) e)) eqn:E; [destruct (still K i (left_ K i P h) e); [congruence|discriminate]|]. rewrite !app_assoc in *. exact F.
Qed.
Lemma deliver_in d R a r : In r R -> rwho r <> WDirect -> In (OLocal (rid r) a) (deliver d R a) \/ (rwho r = WOther /\ In (OSend WOther (rid r) a) (deliver d R a)).
Proof.
  induction R as [|q R IH]; intros I N; [destruct I|]. destruct R as [|q' R].
  - destruct I as [->|[]]. cbn. destruct (rwho r); [left; left; reflexivity|congruence|right; split; [reflexivity|left; reflexivity]].
  - change (deliver d (q :: q' :: R) a) with ((match rwho q with WSelf => OLocal (rid q) a | w => OSend w (rid q) a end) :: deliver d (q' :: R) a). destruct I as [->|I].
    + destruct (rwho r); [left; left; reflexivity|congruence|right; split; [reflexivity|left; reflexivity]].
    + destruct (IH I N) as [X|[X Y]]; [left; right; exact X|right; split; [exact X|right; exact Y]].
Qed.

(** C47: a query for which answers are collected is answered when the last child which had to be waited for has answered or left;
    and the answer has exactly the entries known at once and those of the answers, in the order in which they came.
    (A local query of a core needs to be the only one, CommonCore.cpp:4315: see [C47_local_query_of_a_core_lost_refuted].) *)
Theorem C47_answer_is_complete K h1 r i orc h2 e :
  let s1 := run K h1 in let P := toWait K orc (kids s1) in let s2 := run K (h1 ++ EQuery r i orc :: h2 ++ [e]) in
  orderly K (h1 ++ EQuery r i orc :: h2 ++ [e]) -> collected K i = true ->
  rq (slots s1 i) = [] -> outs (run K (h1 ++ [EQuery r i orc])) = outs s1 ->
  (rwho r = WDirect -> K = true /\ (forall r' o', ~ In (EQuery r' i o') h2) /\ (exists c p, e = EReply c i p)) ->
  left_ K i P h2 <> [] -> left_ K i P (h2 ++ [e]) = [] ->
  reached r (if (i =? GLOBAL_FLUSH) && direct true e then AFlush else AMap (atOnce K i orc (kids s1) ++ heard K i P (h2 ++ [e]))) s2.
Proof.
  cbv zeta. intros O CO RQ OU DI N1 N2. set (s1 := run K h1) in *. set (P := toWait K orc (kids s1)) in *.
  assert (h1 ++ EQuery r i orc :: h2 ++ [e] = (h1 ++ [EQuery r i orc]) ++ h2 ++ [e]) as AE by (rewrite <- app_assoc; reflexivity).
  assert (orderly K ((h1 ++ [EQuery r i orc]) ++ h2 ++ [e])) as O' by (rewrite <- AE; exact O).
  assert (inv s1) as IV1. { apply run_inv. apply (orderly_prefix K h1 (EQuery r i orc :: h2 ++ [e])). exact O. }
  assert (mapOf (run K (h1 ++ [EQuery r i orc])) i P (atOnce K i orc (kids s1)) [r]) as M0.
  { rewrite run_snoc in *. fold s1 in OU |- *. cbn [step] in *. rewrite CO in *. destruct (query_spec K r i orc s1) as [A _]. cbv zeta in A. set (s' := query K r i orc s1) in *. clearbody s'.
    assert (forall o, outs s1 ++ [o] = outs s1 -> False) as NO by (intros o X; apply (f_equal (@length output)) in X; rewrite app_length in X; cbn in X; lia).
    destruct A.
    - rewrite O0 in OU. destruct (NO _ OU).
    - exfalso. unfold decide in D. cbv zeta in D. destruct (_ && _); [|discriminate]. destruct (completed (sb (slots s1 i))) eqn:C; [destruct (_ =? _)%Z; discriminate|]. destruct (active (sb (slots s1 i))) eqn:AC; [|discriminate].
      destruct (proj1 IV1 i) as [_ [_ [_ [O4 _]]]]. unfold completed in C. rewrite AC in C. cbn [andb] in C. apply (proj2 O4); [destruct (miss (sb (slots s1 i))); discriminate|exact RQ].
    - rewrite O0 in OU. destruct (NO _ OU).
    - unfold mapOf. rewrite SL, RQ. cbn [sb rq miss jm app]. rewrite number_who. split; [reflexivity|split; reflexivity]. }
  rewrite AE. rewrite (app_assoc _ h2 [e]), run_snoc. rewrite (app_assoc _ h2 [e]) in O'.
  pose proof (follow_all K i (h1 ++ [EQuery r i orc]) h2 P _ [r] (orderly_prefix K _ _ O') M0 N1) as M. rewrite left_app in N2. cbn [left_] in N2.
  pose proof (follow K _ e i _ _ _ (run_inv K _ (orderly_prefix K _ _ O')) (O' _ e [] eq_refl) M N1) as F. rewrite N2 in F. cbn [isNil] in F. destruct F as [o1 [o2 F]].
  assert (answerOf i ((atOnce K i orc (kids s1) ++ heard K i P h2) ++ hears i (left_ K i P h2) e) e = if (i =? GLOBAL_FLUSH) && direct true e then AFlush else AMap (atOnce K i orc (kids s1) ++ heard K i P (h2 ++ [e]))) as AN.
  { rewrite heard_app. cbn [heard]. rewrite app_nil_r, <- app_assoc. unfold answerOf, direct. destruct e; rewrite ?andb_true_r, ?andb_false_r; try reflexivity. }
  rewrite AN in F. set (a := if _ && _ then _ else _) in *. clearbody a. unfold reached. rewrite F.
  assert (forall o, In o (deliver (direct K e) ([r] ++ flat_map (joins K i) h2) a) -> In o (outs (run K ((h1 ++ [EQuery r i orc]) ++ h2)) ++ o1 ++ deliver (direct K e) ([r] ++ flat_map (joins K i) h2) a ++ o2)) as IN.
  { intros o I. apply in_or_app. right. apply in_or_app. right. apply in_or_app. left. exact I. }
  destruct (rwho r) eqn:WR.
  - destruct (deliver_in (direct K e) ([r] ++ flat_map (joins K i) h2) a r (or_introl eq_refl) ltac:(congruence)) as [X|[X _]]; [left; apply IN, X|congruence].
  - left. destruct (DI eq_refl) as [-> [NQ [c [p ->]]]]. apply IN. cbn [direct].
    assert (flat_map (joins true i) h2 = []) as NJ.
    { assert (forall x, In x h2 -> joins true i x = []) as Z.
      { intros x I. destruct x as [r' j o'|r' j o'| | | | | |]; try reflexivity; cbn; destruct (Nat.eqb_spec j i) as [->|]; try reflexivity; [elim (NQ r' o' I)|].
        exfalso. apply in_split in I as [u [v ->]]. destruct (O' ((h1 ++ [EQuery r i orc]) ++ u) (ENamed r' i o') (v ++ [EReply c i p])) as [X _]; [rewrite <- !app_assoc; reflexivity|discriminate]. }
      clear -Z. induction h2 as [|x l IH]; [reflexivity|]. cbn. rewrite (Z x (or_introl eq_refl)). apply IH. intros y I. apply Z. right. exact I. }
    rewrite NJ. cbn. rewrite WR. left. reflexivity.
  - destruct (deliver_in (direct K e) ([r] ++ flat_map (joins K i) h2) a r (or_introl eq_refl) ltac:(congruence)) as [X|[_ X]]; [left; apply IN, X|right; split; [reflexivity|apply IN, X]].
Qed.
(** C47: one entry from every child which had to be waited for and which did not leave; the names of the children are unique *)
Theorem C47_one_entry_from_every_child K i P h : left_ K i P h = [] -> NoDup (map fst P) -> (forall c l, In (c, l) P -> ~ In (EGone c) h) ->
  length (heard K i P h) = length P /\ (forall c l, In (c, l) P -> exists p, In (EReply c i p) h /\ In (l, elem p) (heard K i P h)).
Proof.
  revert P. induction h as [|e h IH]; intros P L ND NG.
  - cbn in *. subst. split; [reflexivity|intros c l []].
  - cbn [left_ heard] in *.
    assert (still K i P e = P /\ hears i P e = [] -> length (hears i P e ++ heard K i (still K i P e) h) = length P /\ (forall c l, In (c, l) P -> exists p, In (EReply c i p) (e :: h) /\ In (l, elem p) (hears i P e ++ heard K i (still K i P e) h))) as SAME.
    { intros [E1 E2]. rewrite E1 in *. rewrite E2. cbn [app]. destruct (IH P L ND ltac:(intros c l I X; apply (NG c l I); right; exact X)) as [A B]. split; [exact A|]. intros c l I. destruct (B c l I) as [p [X Y]]. exists p. split; [right; exact X|exact Y]. }
    destruct e as [r j orc|r j orc|c j p|c| |c co|c v|v]; try (apply SAME; split; reflexivity).
    + destruct (Nat.eqb_spec j i) as [->|N]; [|apply SAME; cbn; destruct (Nat.eqb_spec j i); [contradiction|split; reflexivity]].
      destruct (in_dec Nat.eq_dec c (map fst P)) as [I|I]; [|apply SAME; cbn; rewrite Nat.eqb_refl; destruct (without_notin c P I) as [-> ->]; split; reflexivity].
      cbn [still hears] in *. rewrite Nat.eqb_refl in *.
      assert (exists l0, filter (fun a => fst a =? c) P = [(c, l0)] /\ length P = S (length (without c P)) /\ In (c, l0) P) as [l0 [F [LE IN]]].
      { clear -I ND. induction P as [|[a l] P IHP]; [destruct I|]. cbn [map fst] in *. inversion ND as [|? ? NI ND']; subst. unfold without. cbn [filter fst]. destruct (Nat.eqb_spec a c) as [->|E].
        - exists l. destruct (without_notin c P NI) as [W1 W2]. cbn [negb]. unfold without in W1. rewrite W1, W2. split; [reflexivity|]. split; [reflexivity|left; reflexivity].
        - destruct I as [I|I]; [congruence|]. destruct (IHP ND' I) as [l0 [A [B C]]]. exists l0. cbn [negb]. split; [exact A|]. split; [cbn; unfold without in B; rewrite B; reflexivity|right; exact C]. }
      rewrite F. cbn [map snd app length].
      assert (NoDup (map fst (without c P))) as ND2 by (apply NoDup_map_filter, ND).
      destruct (IH (without c P) L ND2) as [A B]. { intros d l J X. apply filter_In in J as [J _]. apply (NG d l J). right. exact X. }
      split; [rewrite A, LE; reflexivity|]. intros d l J. destruct (Nat.eq_dec d c) as [->|E].
      * exists p. split; [left; reflexivity|]. left. f_equal.
        assert (forall x y, In (c, x) P -> In (c, y) P -> x = y) as U.
        { clear -ND. induction P as [|[a m] P IHP]; [intros x y []|]. cbn in ND. inversion ND as [|? ? NI ND']; subst. intros x y [X|X] [Y|Y].
          - congruence.
          - injection X as -> ->. elim NI. apply in_map_iff. exists (c, y). split; [reflexivity|exact Y].
          - injection Y as -> ->. elim NI. apply in_map_iff. exists (c, x). split; [reflexivity|exact X].
          - apply (IHP ND' x y X Y). }
        apply (U l0 l IN J).
      * destruct (B d l) as [q [X Y]]. { apply filter_In. split; [exact J|]. cbn. apply Nat.eqb_neq in E. rewrite E. reflexivity. }
        exists q. split; [right; exact X|right; exact Y].
    + destruct (in_dec Nat.eq_dec c (map fst P)) as [I|I].
      * apply in_map_iff in I as [[d l] [E I]]. cbn in E. subst. elim (NG c l I). left. reflexivity.
      * apply SAME. split; [|reflexivity]. cbn. destruct K; [reflexivity|]. apply (without_notin c P I).
Qed.
(** C47: who has nobody to wait for is answered at once *)
Theorem C47_answer_at_once K h r i orc : let s := run K h in
  collected K i = true -> toWait K orc (kids s) = [] -> decide K i s = Build ->
  outs (run K (h ++ [EQuery r i orc])) = outs s ++ [reply K r (AMap (atOnce K i orc (kids s)))].
Proof.
  cbv zeta. intros CO W D. rewrite run_snoc. cbn [step]. rewrite CO. destruct (query_spec K r i orc (run K h)) as [A _]. cbv zeta in A. destruct A; try congruence.
Qed.
