(** * C47: queries of a broker which overlap *)
From Coq Require Import ZArith Bool List Lia.
From Verif Require Import Query PropsQuery QueryInv QueryLive QueryCache.
Import ListNotations.
Open Scope nat_scope.

(** ** Specification *)
(** any queries in any order; when a child leaves, no finished map is stored in front of one which waits for it; a child
    which stops working is reported as gone *)
Definition okBroker (s : qs) (e : event) : Prop :=
  match e with
  | EGone c => okEvent false s (EGone c)
  | EState _ v => (v < 40)%Z
  | _ => True
  end.
Definition faithful (h : list event) : Prop := forall h1 e h2, h = h1 ++ e :: h2 -> okBroker (run false h1) e.

(** ** The invariant: every child which is waited for has a query to answer *)
Definition wOk (s : qs) (i : nat) : Prop :=
  let x := slots s i in let M := miss (sb x) in
  (forall e, In e M -> In (swap e) (ost s i)) /\ NoDup (map fst M) /\ NoDup (map code M) /\ (rq x <> [] -> M <> []) /\ (M <> [] -> active (sb x) = true) /\ (nsl s <= i -> M = []) /\
  (forall c, In c (map code M) -> exists k, In k (kids s) /\ kno k = c /\ (kst k < 40)%Z).
Definition winv (s : qs) : Prop := (forall i, wOk s i) /\ NoDup (map kno (kids s)).

Lemma take_rest c l k o : takeAsk c l = Some (k, o) -> forall x, In x l -> x = (c, k) \/ In x o.
Proof.
  revert k o. induction l as [|[d j] l IH]; intros k o; [discriminate|]. cbn. destruct (Nat.eqb_spec d c) as [->|N].
  - intros E. injection E as <- <-. intros x [I|I]; [left; symmetry; exact I|right; exact I].
  - destruct (takeAsk c l) as [[j' q]|]; [|discriminate]. intros E. injection E as <- <-. intros x [I|I]; [right; left; exact I|]. destruct (IH _ _ eq_refl x I) as [X|X]; [left; exact X|right; right; exact X].
Qed.
Lemma lookup_key k M : lookup k M = None -> ~ In k (map fst M).
Proof. induction M as [|[j v] M IH]; [intros _ []|]. cbn. destruct (Nat.eqb_spec j k) as [->|N]; [discriminate|]. intros H [X|X]; [contradiction|apply (IH H X)]. Qed.
Lemma empty_w s i : miss (sb (slots s i)) = [] -> rq (slots s i) = [] -> wOk s i.
Proof. intros M R. unfold wOk. cbv zeta. rewrite M, R. cbn. split; [intros e []|]. split; [constructor|]. split; [constructor|]. split; [tauto|]. split; [tauto|]. split; [reflexivity|intros c []]. Qed.
Lemma query_w r i orc s : winv s -> winv (query false r i orc s).
Proof.
  intros [IV NK]. destruct (query_spec false r i orc s) as [A [SN [KS _]]]. cbv zeta in *. set (s' := query false r i orc s) in *. clearbody s'.
  split; [|rewrite KS; exact NK]. intros j. specialize (IV j). destruct (Nat.eq_dec j i) as [->|N].
  - pose proof IV as [O1 [O2 [O3 [O4 [O5 [O6 O7]]]]]]. destruct A.
    + unfold wOk; cbv zeta. rewrite SL, T, N, KS. exact IV.
    + unfold wOk; cbv zeta. rewrite SL, T, N, KS. cbn [sb set_rq rq]. split; [exact O1|]. split; [exact O2|]. split; [exact O3|]. split; [|split; [exact O5|split; [exact O6|exact O7]]].
      unfold decide in D. cbv zeta in D. destruct (_ && _); [|discriminate]. destruct (completed (sb (slots s i))) eqn:C; [destruct (_ =? _)%Z; discriminate|]. destruct (active (sb (slots s i))) eqn:AC; [|discriminate].
      unfold completed in C. rewrite AC in C. cbn [andb] in C. intros _. destruct (miss (sb (slots s i))); discriminate.
    + destruct SL as [S1 [S2 S3]]. apply empty_w; [exact S2|]. rewrite S3. destruct (nil_dec (rq (slots s i))) as [X|X]; [exact X|exfalso]. specialize (O4 X). destruct (miss (sb (slots s i))) as [|m M]; [congruence|].
      destruct (O7 (code m) (or_introl eq_refl)) as [k [IK [_ KL]]]. assert (In (kno k, place false k) (toWait false orc (kids s))) as IW.
      { unfold toWait. apply in_map_iff. exists k. split; [reflexivity|]. apply filter_In. split; [exact IK|]. cbn. apply Z.ltb_lt. exact KL. } rewrite W in IW. exact IW.
    + unfold wOk; cbv zeta. rewrite SL, T, N, KS. cbn [sb rq miss]. split; [intros e I; apply in_or_app; right; apply in_map; exact I|]. split; [rewrite number_keys; apply seq_NoDup|]. split; [rewrite number_codes; apply toWait_nodup, NK|].
      split; [intros _; destruct (toWait false orc (kids s)) as [|[a b] P]; [congruence|discriminate]|]. split; [reflexivity|]. split; [lia|]. intros c IC. rewrite number_codes in IC.
      apply in_map_iff in IC as [[d l] [ED IC]]. cbn in ED. subst d. unfold toWait in IC. apply in_map_iff in IC as [k [EK IC]]. apply filter_In in IC as [IC MW]. injection EK as E1 E2. exists k. split; [exact IC|]. split; [exact E1|]. cbn in MW. apply Z.ltb_lt in MW. exact MW.
  - destruct (SN j N) as [S1 S2]. unfold wOk. cbv zeta. rewrite S1, S2, KS. destruct IV as [O1 [O2 [O3 [O4 [O5 [O6 O7]]]]]]. split; [exact O1|]. split; [exact O2|]. split; [exact O3|]. split; [exact O4|]. split; [exact O5|]. split; [|exact O7].
    intros L. apply O6. destruct A; lia.
Qed.
Lemma reply_w c i p s : winv s -> winv (step false s (EReply c i p)).
Proof.
  intros [IV NK]. cbn [step]. destruct (takeAsk c (ost s i)) as [[k o]|] eqn:TK; [|split; assumption].
  assert (kids (response false i k p (setO i o s)) = kids s /\ nsl (response false i k p (setO i o s)) = nsl s /\ (forall j, j <> i -> slots (response false i k p (setO i o s)) j = slots s j) /\ ost (response false i k p (setO i o s)) = ost (setO i o s)) as [KS [NS [SN OS]]].
  { unfold response. destruct (i <? _); [|repeat split; reflexivity]. destruct (addComponent _ _ _) as [b1 [|]].
    - split; [reflexivity|]. split; [reflexivity|]. split; [|reflexivity]. intros j N. unfold finish. cbv zeta. rewrite setS_neq by exact N. cbn [slots emit set_outs]. rewrite setS_neq by exact N. reflexivity.
    - split; [reflexivity|]. split; [reflexivity|]. split; [|reflexivity]. intros j N. rewrite setS_neq by exact N. reflexivity. }
  split; [|rewrite KS; exact NK]. intros j. pose proof (IV j) as [O1 [O2 [O3 [O4 [O5 [O6 O7]]]]]]. destruct (Nat.eq_dec j i) as [->|N].
  - assert (lookup k (miss (sb (slots s i))) = None /\ sb (slots (response false i k p (setO i o s)) i) = sb (slots s i) /\ rq (slots (response false i k p (setO i o s)) i) = rq (slots s i) \/
            (miss (sb (slots (response false i k p (setO i o s)) i)) = [] /\ rq (slots (response false i k p (setO i o s)) i) = []) \/
            (miss (sb (slots (response false i k p (setO i o s)) i)) = erase k (miss (sb (slots s i))) /\ erase k (miss (sb (slots s i))) <> [] /\ active (sb (slots (response false i k p (setO i o s)) i)) = true)) as [[LK [SB RQ]]|[[M R]|[M [NE AC]]]].
    { unfold response. change (nsl (setO i o s)) with (nsl s). change (slots (setO i o s)) with (slots s). destruct (Nat.ltb_spec i (nsl s)) as [L|L]; [|left; rewrite (O6 L); repeat split; reflexivity].
      unfold addComponent. destruct (lookup k (miss (sb (slots s i)))) as [[l cd]|] eqn:LK.
      - right. cbv zeta. cbn [miss set_miss]. destruct (erase k (miss (sb (slots s i)))) as [|m M] eqn:ER; cbn [isNil].
        + left. unfold finish. cbv zeta. rewrite !setS_eq. cbn. destruct (reuse false i); split; reflexivity.
        + right. rewrite setS_eq. cbn. split; [reflexivity|]. split; [discriminate|reflexivity].
      - left. rewrite setS_eq. repeat split; reflexivity. }
    + unfold wOk. cbv zeta. rewrite SB, RQ, NS, KS, OS, setO_eq. split; [|split; [exact O2|split; [exact O3|split; [exact O4|split; [exact O5|split; [exact O6|exact O7]]]]]].
      intros e I. destruct (take_rest _ _ _ _ TK _ (O1 e I)) as [X|X]; [|exact X]. exfalso. apply (lookup_key k _ LK). unfold swap in X. injection X as X1 X2. rewrite <- X2. apply in_map, I.
    + apply empty_w; assumption.
    + unfold wOk. cbv zeta. rewrite M, NS, KS, OS, setO_eq. unfold erase in *. split.
      * intros e I. apply filter_In in I as [I NK']. destruct (take_rest _ _ _ _ TK _ (O1 e I)) as [X|X]; [|exact X]. exfalso. unfold swap in X. injection X as X1 X2. rewrite X2, Nat.eqb_refl in NK'. discriminate.
      * split; [apply NoDup_map_filter, O2|]. split; [apply NoDup_map_filter, O3|]. split; [intros _; exact NE|]. split; [intros _; exact AC|]. split; [intros L; rewrite (O6 L); reflexivity|].
        intros d I. apply O7. apply in_map_iff in I as [x [EX I]]. apply filter_In in I as [I _]. apply in_map_iff. exists x. split; assumption.
  - unfold wOk. cbv zeta. rewrite (SN j N), NS, KS, OS, setO_neq by exact N. split; [exact O1|]. split; [exact O2|]. split; [exact O3|]. split; [exact O4|]. split; [exact O5|]. split; [exact O6|exact O7].
Qed.
Lemma gone_w c s : winv s -> okEvent false s (EGone c) -> winv (goneKid c s).
Proof.
  intros [IV NK] OK. unfold goneKid. set (s1 := set_ost _ _). destruct (inFlight_spec false (clearCode c) (nsl s) 0 s1) as [A [_ [C [D [E _]]]]].
  { intros i R. change (slots s1) with (slots s). destruct (hasCode c (miss (sb (slots s i)))) eqn:H.
    + right. intros j L. destruct (Nat.eq_dec j i) as [->|N]; [apply (hasCode_not_completed _ _ H)|]. apply (OK i j); [lia|exact H].
    + left. apply goneSlot_same, H. }
  cbv zeta in *. change (slots s1) with (slots s) in *. set (s' := inFlight _ _ _ _) in *. clearbody s'. change (kids s1) with (map (markGone c) (kids s)) in D. change (nsl s1) with (nsl s) in E.
  split; [|rewrite D, markGone_kno; exact NK]. intros i. pose proof (IV i) as [O1 [O2 [O3 [O4 [O5 [O6 O7]]]]]].
  assert (slots s' i = goneSlot false (clearCode c) i (slots s i)) as SL.
  { rewrite A. destruct (Nat.ltb_spec i (0 + nsl s)) as [L|L]; cbn; [reflexivity|]. symmetry. apply goneSlot_same. rewrite O6 by exact L. reflexivity. }
  assert (ost s' i = filter (fun a => negb (fst a =? c)) (ost s i)) as OS by (rewrite C; reflexivity).
  assert (forall M', incl M' (miss (sb (slots s i))) -> ~ In c (map code M') -> (forall e, In e M' -> In (swap e) (ost s' i)) /\ (forall d, In d (map code M') -> exists k, In k (kids s') /\ kno k = d /\ (kst k < 40)%Z)) as REST.
  { intros M' IN NC. split.
    - intros e I. rewrite OS. apply filter_In. split; [apply O1, IN, I|]. cbn. destruct (Nat.eqb_spec (snd (snd e)) c) as [X|X]; [|reflexivity]. exfalso. apply NC. rewrite <- X. apply (in_map code), I.
    - intros d I. assert (d <> c) as DN by (intros ->; contradiction). assert (In d (map code (miss (sb (slots s i))))) as I' by (apply in_map_iff in I as [x [EX I]]; apply in_map_iff; exists x; split; [exact EX|apply IN, I]).
      destruct (O7 d I') as [k [IK [KN KL]]]. exists (markGone c k). split; [rewrite D; apply in_map, IK|]. unfold markGone. rewrite KN. apply Nat.eqb_neq in DN. rewrite DN. cbn [andb]. split; assumption. }
  unfold wOk. cbv zeta. rewrite SL, E. destruct (code_dec c (miss (sb (slots s i)))) as [I|I].
  - rewrite (proj1 (goneSlot_drop false c i _ O3 I)). assert (miss (sb (slots s i)) <> []) as NE by (intros X; rewrite X in I; destruct I).
    destruct (REST (dropc c (miss (sb (slots s i))))) as [R1 R2]; [intros x X; apply filter_In in X as [X _]; exact X|intros X; apply in_map_iff in X as [x [EX X]]; apply filter_In in X as [_ X]; rewrite EX, Nat.eqb_refl in X; discriminate|].
    destruct (dropc c (miss (sb (slots s i)))) as [|e DD] eqn:ED; cbn [isNil].
    + assert (forall b r, miss b = [] -> r = [] -> let x := mkSlot b r in (forall e, In e (miss (sb x)) -> In (swap e) (ost s' i)) /\ NoDup (map fst (miss (sb x))) /\ NoDup (map code (miss (sb x))) /\ (rq x <> [] -> miss (sb x) <> []) /\ (miss (sb x) <> [] -> active (sb x) = true) /\ (nsl s <= i -> miss (sb x) = []) /\
         (forall d, In d (map code (miss (sb x))) -> exists k, In k (kids s') /\ kno k = d /\ (kst k < 40)%Z)) as EM.
      { intros b r M R. cbv zeta. cbn [sb rq]. rewrite M, R. split; [intros e []|]. split; [constructor|]. split; [constructor|]. split; [tauto|]. split; [tauto|]. split; [reflexivity|intros d []]. }
      apply (EM (if reuse false i then set_miss [] (sb (slots s i)) else reset (sb (slots s i))) []); [destruct (reuse false i); reflexivity|reflexivity].
    + cbn [sb set_sb miss set_miss rq]. rewrite <- ED. split; [rewrite ED; exact R1|]. split; [apply NoDup_map_filter, O2|]. split; [apply NoDup_map_filter, O3|]. split; [intros _; rewrite ED; discriminate|]. split; [intros _; apply O5, NE|]. split; [|rewrite ED; exact R2].
      intros L. elim NE. apply O6, L.
  - rewrite (proj1 (goneSlot_same false c i (slots s i) ltac:(destruct (hasCode c (miss (sb (slots s i)))) eqn:X; [apply hasCode_iff in X; contradiction|reflexivity]))).
    destruct (REST (miss (sb (slots s i))) ltac:(intros x X; exact X) I) as [R1 R2]. split; [exact R1|]. split; [exact O2|]. split; [exact O3|]. split; [exact O4|]. split; [exact O5|]. split; [exact O6|exact R2].
Qed.
Lemma step_w s e : winv s -> NoDup (map kno (kids (step false s e))) -> okBroker s e -> winv (step false s e).
Proof.
  intros IV ND OK. destruct e as [r i orc|r i orc|c i p|c| |c co|c v|v].
  - cbn [step]. destruct (collected false i); [apply query_w|]; exact IV.
  - cbn [step named]. destruct (collected false i); [apply query_w|]; exact IV.
  - apply reply_w, IV.
  - apply gone_w; assumption.
  - exact IV.
  - cbn [step] in *. destruct (isKid c (kids s)); [exact IV|]. destruct IV as [IV _]. split; [|exact ND]. intros i. destruct (IV i) as [O1 [O2 [O3 [O4 [O5 [O6 O7]]]]]]. split; [exact O1|]. split; [exact O2|]. split; [exact O3|]. split; [exact O4|]. split; [exact O5|]. split; [exact O6|].
    intros d I. destruct (O7 d I) as [k [IK X]]. exists k. split; [apply in_or_app; left; exact IK|exact X].
  - cbn [step okBroker] in *. destruct IV as [IV _]. split; [|exact ND]. intros i. destruct (IV i) as [O1 [O2 [O3 [O4 [O5 [O6 O7]]]]]]. split; [exact O1|]. split; [exact O2|]. split; [exact O3|]. split; [exact O4|]. split; [exact O5|]. split; [exact O6|].
    intros d I. destruct (O7 d I) as [k [IK [KN KL]]]. exists (if kno k =? c then set_kst v k else k). split; [cbn [kids set_kids]; apply in_map_iff; exists k; split; [reflexivity|exact IK]|]. destruct (kno k =? c); cbn; split; assumption.
  - destruct IV as [IV NK]. split; [exact IV|exact NK].
Qed.
Lemma run_w h : faithful h -> winv (run false h).
Proof.
  induction h as [|e h IH] using rev_ind; intros O.
  - split; [intros i; apply empty_w; reflexivity|constructor].
  - pose proof (run_kno false (h ++ [e])) as ND. rewrite run_snoc in *. apply step_w; [apply IH; intros h1 x h2 E; apply (O h1 x (h2 ++ [e])); rewrite E, <- app_assoc; reflexivity|exact ND|apply (O h e []); reflexivity].
Qed.
(** C47: at a broker, with any queries at any time: nobody waits when every child has answered what it was asked, or has left *)
Theorem C47_broker_answers_overlapping_queries h : faithful h -> (forall i, ost (run false h) i = []) ->
  forall r, waiting r (run false h) = 0 /\ answers r (run false h) = asked false r h.
Proof.
  intros F E r. destruct (run_w h F) as [IV _]. assert (waiting r (run false h) = 0) as W.
  { unfold waiting. apply sumN_zero. intros i _. destruct (IV i) as [O1 [_ [_ [O4 _]]]]. destruct (rq (slots (run false h) i)) as [|q l] eqn:R; [reflexivity|]. exfalso. specialize (O4 ltac:(discriminate)).
    rewrite E in O1. destruct (miss (sb (slots (run false h) i))) as [|m M]; [congruence|]. destruct (O1 m (or_introl eq_refl)). }
  split; [exact W|]. rewrite C47_each_query_waits_or_is_answered_once, W. lia.
Qed.
(** three overlapping queries; the answers to the first ones come late *)
Example C47_example_overlap : let a w r := EQuery (mkReq w r) 6 (fun _ => None) in
  let h := [EJoin 1 true; EJoin 2 false; a WOther 1; EReply 2 6 (Some 20); a WSelf 2; a WOther 3; EReply 1 6 (Some 11); EReply 2 6 (Some 21); EReply 2 6 (Some 22); EReply 1 6 (Some 12); EReply 1 6 (Some 13)] in
  faithful h /\ (forall i, ost (run false h) i = []) /\ answers 1 (run false h) = 1 /\ answers 2 (run false h) = 1 /\ answers 3 (run false h) = 1.
Proof.
  cbv zeta. split; [|split; [|repeat split; vm_compute; reflexivity]].
  - intros h1 e h2 E. do 11 (destruct h1 as [|? h1]; cbn in E; [injection E as <- _; exact I|injection E as _ E]). destruct h1; discriminate.
  - intros i. do 15 (destruct i as [|i]; [vm_compute; reflexivity|]). vm_compute. reflexivity.
Qed.
