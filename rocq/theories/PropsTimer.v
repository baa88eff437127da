(** C33: timers fire at most once per arming, not early, and not after they were cancelled. *)
From Coq Require Import ZArith List Lia Bool Permutation.
From Verif Require Import HTime Action Timer.
Import ListNotations.
Local Open Scope Z_scope.

(** ** Specification *)
(** the messages given to the timer: each is one arming *)
Definition arming (e : tevent) : list amsg :=
  match e with AddTimer _ m _ _ | UpdateBoth _ _ m | UpdateMessage _ m => [m] | _ => [] end.
Definition armings (es : list tevent) : list amsg := flat_map arming es.
Definition isAdd (e : tevent) : bool := match e with AddTimer _ _ _ _ => true | _ => false end.
(** the number of timers *)
Definition created (es : list tevent) : nat := length (filter isAdd es).
(** [e] gives a message to timer [i], [n] timers existing *)
Definition arms (n : nat) (i : nat) (e : tevent) : bool :=
  match e with AddTimer _ _ _ _ => Nat.eqb i n | UpdateBoth j _ _ | UpdateMessage j _ => Z.of_nat i =? j | _ => false end.
(** the messages taken from timer [i] by [e], to be sent *)
Definition takes (t : timers) (e : tevent) : list (nat * amsg) :=
  match e with Deliver _ => [] | _ => skipn (length (tm_flight t)) (tm_flight (fst (tmstep t e))) end.

(** ** Proofs *)
Lemma setNth_length {A} i (v : A) l : length (setNth i v l) = length l.
Proof. revert i. induction l as [|x l IH]; intros [|i]; cbn; auto. Qed.
Lemma setNth_same {A} i (v : A) l : (i < length l)%nat -> nth_error (setNth i v l) i = Some v.
Proof. revert i. induction l as [|x l IH]; intros [|i] H; cbn in *; try lia; auto. apply IH. lia. Qed.
Lemma setNth_other {A} i j (v : A) l : i <> j -> nth_error (setNth i v l) j = nth_error l j.
Proof. revert i j. induction l as [|x l IH]; intros [|i] [|j] H; cbn; auto; try lia. Qed.
Lemma atSlot_length i f l : length (atSlot i f l) = length l.
Proof. unfold atSlot. destruct (_ && _); auto. destruct (nth_error l (Z.to_nat i)); auto. apply setNth_length. Qed.
Lemma atSlot_nth i f l j : nth_error (atSlot i f l) j = if Z.of_nat j =? i then option_map f (nth_error l j) else nth_error l j.
Proof.
  unfold atSlot. destruct ((0 <=? i) && (i <? Z.of_nat (length l))) eqn:E.
  - apply andb_prop in E. destruct E as [E1 E2]. apply Z.leb_le in E1. apply Z.ltb_lt in E2.
    destruct (nth_error l (Z.to_nat i)) eqn:N; [|apply nth_error_None in N; lia].
    destruct (Z.eqb_spec (Z.of_nat j) i) as [<-|D].
    + rewrite Nat2Z.id in *. rewrite setNth_same by lia. rewrite N. reflexivity.
    + apply setNth_other. lia.
  - destruct (Z.eqb_spec (Z.of_nat j) i) as [<-|D]; auto.
    destruct (nth_error l j) eqn:N; auto. exfalso. assert (j < length l)%nat by (apply nth_error_Some; congruence).
    apply andb_false_iff in E. destruct E as [E|E]; [apply Z.leb_gt in E|apply Z.ltb_ge in E]; lia.
Qed.
(** what a callback does *)
Lemma take_spec i now t : takeMessage i now t = t \/
  exists j s, i = Z.of_nat j /\ nth_error (tm_slots t) j = Some s /\ s_exp s <= now /\ armedMsg (s_msg s) = true /\
    takeMessage i now t = mkTm (setNth j (mkSlot (ignored (s_msg s)) (s_exp s)) (tm_slots t)) (tm_flight t ++ [(j, s_msg s)]).
Proof.
  unfold takeMessage. destruct ((0 <=? i) && _) eqn:E; [|auto]. apply andb_prop in E. destruct E as [E1 _]. apply Z.leb_le in E1.
  destruct (nth_error _ _) as [s|] eqn:N; [|auto]. destruct (s_exp s <=? now) eqn:X; [|auto]. destruct (armedMsg (s_msg s)) eqn:F; [|auto].
  right. exists (Z.to_nat i), s. rewrite Z2Nat.id by lia. apply Z.leb_le in X. auto 8.
Qed.

(** *** at most once: count every message in a slot that is armed, in flight, or sent *)
Definition live (s : slot) : list amsg := if armedMsg (s_msg s) then [s_msg s] else [].
Definition waiting (t : timers) : list amsg := flat_map live (tm_slots t).
Definition holds (given : list amsg) (t : timers) (out : list amsg) : Prop :=
  exists lost, Permutation given (out ++ map snd (tm_flight t) ++ waiting t ++ lost).

Lemma armed_ignored m : armedMsg (ignored m) = false.
Proof. unfold armedMsg, ignored. now destruct m. Qed.
Lemma flat_split {A B} (f : A -> list B) i v l s : nth_error l i = Some s ->
  Permutation (f s ++ flat_map f (setNth i v l)) (f v ++ flat_map f l).
Proof.
  revert i. induction l as [|x l IH]; intros [|i] N; cbn in *; try discriminate.
  - injection N as ->. rewrite !app_assoc. apply Permutation_app_tail. apply Permutation_app_comm.
  - specialize (IH _ N). rewrite !app_assoc. rewrite (Permutation_app_comm (f s)), (Permutation_app_comm (f v)), <- !app_assoc. now apply Permutation_app_head.
Qed.
Lemma atSlot_cases i f l : atSlot i f l = l \/ exists j s, nth_error l j = Some s /\ atSlot i f l = setNth j (f s) l.
Proof. unfold atSlot. destruct (_ && _); auto. destruct (nth_error l (Z.to_nat i)) eqn:N; auto. right. eauto. Qed.
(** a slot overwritten loses at most what it held and gains at most [new] *)
Lemma holds_slot given t out i f new : (forall s, exists extra, Permutation (live s ++ new) (live (f s) ++ extra)) ->
  holds given t out -> holds (given ++ new) (mkTm (atSlot i f (tm_slots t)) (tm_flight t)) out.
Proof.
  intros F [lost P]. destruct (atSlot_cases i f (tm_slots t)) as [E|(j & s & N & E)]; rewrite E.
  - exists (lost ++ new). cbn. rewrite P. rewrite <- !app_assoc. reflexivity.
  - destruct (F s) as [extra X]. exists (lost ++ extra). cbn [tm_flight]. unfold waiting in *. cbn [tm_slots].
    rewrite P. rewrite <- !app_assoc. do 2 apply Permutation_app_head.
    pose proof (flat_split live j (f s) _ _ N) as Q.
    apply (Permutation_app_inv_l (live s)). 
    transitivity ((live s ++ new) ++ flat_map live (tm_slots t) ++ lost).
    { rewrite <- !app_assoc. apply Permutation_app_head. rewrite !app_assoc. rewrite (Permutation_app_comm (_ ++ _) new). now rewrite !app_assoc. }
    rewrite X. rewrite !app_assoc.
    transitivity ((live (f s) ++ flat_map live (tm_slots t)) ++ lost ++ extra).
    { rewrite <- !app_assoc. apply Permutation_app_head. rewrite (Permutation_app_comm extra). now rewrite <- !app_assoc. }
    rewrite <- Q. now rewrite <- !app_assoc.
Qed.
Lemma holds_take given t out i now : holds given t out -> holds given (takeMessage i now t) out.
Proof.
  intros [lost P]. destruct (take_spec i now t) as [->|(j & s & _ & N & _ & F & ->)]; [now exists lost|].
  exists lost. rewrite P. apply Permutation_app_head. unfold waiting. cbn [tm_slots tm_flight]. rewrite map_app. cbn [map snd]. rewrite <- !app_assoc. apply Permutation_app_head.
  pose proof (flat_split live j (mkSlot (ignored (s_msg s)) (s_exp s)) _ _ N) as Q. unfold live at 1 3 in Q. rewrite F in Q. cbn [s_msg] in Q. rewrite armed_ignored in Q. cbn [app] in Q. cbn [app].
  symmetry. change (s_msg s :: flat_map live (setNth j (mkSlot (ignored (s_msg s)) (s_exp s)) (tm_slots t)) ++ lost)
    with ((s_msg s :: flat_map live (setNth j (mkSlot (ignored (s_msg s)) (s_exp s)) (tm_slots t))) ++ lost). now apply Permutation_app_tail.
Qed.
Lemma holds_less given t out l' : holds given t out -> (exists x, Permutation (waiting t) (flat_map live l' ++ x)) -> holds given (mkTm l' (tm_flight t)) out.
Proof. intros [lost P] [x X]. exists (x ++ lost). cbn [tm_flight]. unfold waiting at 1. cbn [tm_slots]. rewrite P. do 2 apply Permutation_app_head. rewrite X. now rewrite <- app_assoc. Qed.
Lemma remove_perm {A} k (l : list A) x : nth_error l k = Some x -> Permutation l (x :: remove k l).
Proof.
  intros N. destruct (nth_error_split l k N) as (a & b & -> & <-). unfold remove.
  rewrite firstn_app, Nat.sub_diag, firstn_all. cbn [firstn]. rewrite app_nil_r.
  replace (skipn (S (length a)) (a ++ x :: b)) with b; [symmetry; apply Permutation_middle|].
  rewrite skipn_app, skipn_all2 by lia. replace (S (length a) - length a)%nat with 1%nat by lia. reflexivity.
Qed.
Lemma holds_step given t out e : holds given t out -> holds (given ++ arming e) (fst (tmstep t e)) (out ++ snd (tmstep t e)).
Proof.
  intros H. destruct e as [x m n n2|i| |i x m|i x|i d|i m|i a n|k]; cbn [arming tmstep fst snd]; rewrite ?(app_nil_r out), ?(app_nil_r given).
  - unfold addTimer.
    assert (H1 : holds (given ++ [m]) (mkTm (tm_slots t ++ [mkSlot m x]) (tm_flight t)) out).
    { destruct H as [lost P]. exists (lost ++ if armedMsg m then [] else [m]). unfold waiting. cbn [tm_slots tm_flight]. rewrite flat_map_app. cbn [flat_map]. rewrite P.
      change (live (mkSlot m x)) with (if armedMsg m then [m] else []). destruct (armedMsg m); rewrite ?app_nil_r, <- ?app_assoc; do 3 apply Permutation_app_head; rewrite ?app_nil_r; [apply Permutation_app_comm|reflexivity]. }
    destruct (n <? x); [assumption|]. unfold callback. now apply holds_take.
  - replace given with (given ++ []) by apply app_nil_r. apply holds_slot; [|assumption]. intros s. exists (live s). unfold setMsg. unfold live at 2. cbn [s_msg]. rewrite armed_ignored. rewrite app_nil_r. reflexivity.
  - apply holds_less; [assumption|]. exists (waiting t). unfold waiting.
    replace (flat_map live (map (setMsg ignored) (tm_slots t))) with (@nil amsg); [reflexivity|].
    induction (tm_slots t) as [|s l IH]; cbn [map flat_map]; [reflexivity|]. rewrite <- IH. unfold live. cbn [s_msg setMsg]. now rewrite armed_ignored.
  - apply holds_slot; [|assumption]. intros s. unfold live at 2. cbn [s_msg]. destruct (armedMsg m); [exists (live s); apply Permutation_app_comm|exists (live s ++ [m]); reflexivity].
  - replace given with (given ++ []) by apply app_nil_r. apply holds_slot; [|assumption]. intros s. exists []. reflexivity.
  - replace given with (given ++ []) by apply app_nil_r. apply holds_slot; [|assumption]. intros s. exists []. destruct (armedMsg (s_msg s)); reflexivity.
  - apply holds_slot; [|assumption]. intros s. unfold live at 2, setMsg. cbn [s_msg]. destruct (armedMsg m); [exists (live s); apply Permutation_app_comm|exists (live s ++ [m]); reflexivity].
  - unfold callback. destruct a; [assumption|]. now apply holds_take.
  - destruct (nth_error (tm_flight t) k) as [[j m]|] eqn:N; cbn [fst snd]; [|now rewrite app_nil_r].
    destruct H as [lost P]. exists lost. unfold waiting in *. cbn [tm_slots tm_flight]. rewrite P.
    rewrite (Permutation_map snd (remove_perm _ _ _ N)). cbn [map snd]. rewrite <- !app_assoc. reflexivity.
Qed.
Lemma tmafter_snoc es e : tmafter (es ++ [e]) = fst (tmstep (tmafter es) e).
Proof. unfold tmafter. now rewrite fold_left_app. Qed.
Lemma sentFrom_app t es ds : sentFrom t (es ++ ds) = sentFrom t es ++ sentFrom (fold_left (fun t e => fst (tmstep t e)) es t) ds.
Proof. revert t. induction es as [|e es IH]; intros; cbn; auto. now rewrite IH, app_assoc. Qed.
Lemma sent_snoc es e : sent (es ++ [e]) = sent es ++ snd (tmstep (tmafter es) e).
Proof. unfold sent. rewrite sentFrom_app. cbn. now rewrite app_nil_r. Qed.
Lemma holds_run es : holds (armings es) (tmafter es) (sent es).
Proof.
  induction es as [|e es IH] using rev_ind; [exists []; constructor|].
  rewrite tmafter_snoc, sent_snoc. unfold armings. rewrite flat_map_app. cbn [flat_map]. rewrite app_nil_r. now apply holds_step.
Qed.

(** ** The property *)
(** every call of the send function uses up one arming of its own: no message is sent twice, none is made up *)
Theorem C33_at_most_once es : exists rest, Permutation (armings es) (sent es ++ rest).
Proof. destruct (holds_run es) as [lost P]. eauto. Qed.

(** the expiration time last given to timer [i] (adding time to a timer that holds no message does nothing) *)
Definition expOf (t : timers) (i : nat) : option Z := option_map s_exp (nth_error (tm_slots t) i).
Definition msgOf (t : timers) (i : nat) : option amsg := option_map s_msg (nth_error (tm_slots t) i).
Lemma skipn_own {A} (l : list A) : skipn (length l) l = [].
Proof. induction l; cbn; auto. Qed.
Lemma skipn_snoc {A} (l : list A) x : skipn (length l) (l ++ [x]) = [x].
Proof. induction l; cbn; auto. Qed.
(** a message is taken for sending only by a callback or by the creation of a timer, never before the timer's expiration
    time, and it is the message the timer holds *)
Theorem C33_not_early es e i m : In (i, m) (takes (tmafter es) e) ->
  (exists now, e = Callback (Z.of_nat i) false now /\ (exists x, expOf (tmafter es) i = Some x /\ x <= now) /\ msgOf (tmafter es) i = Some m) \/
  (exists x now now2, e = AddTimer x m now now2 /\ i = length (tm_slots (tmafter es)) /\ x <= now /\ x <= now2).
Proof.
  set (t := tmafter es). intros H.
  destruct e as [x m' n n2|j| |j x m'|j x|j d|j m'|j a n|k]; cbn [takes tmstep fst] in H;
    try (cbn [cancelTimer cancelAll updateTimerMsg updateTimer addTimeToTimer updateMessage tm_flight] in H; rewrite skipn_own in H; destruct H; fail).
  - right. unfold addTimer in H. destruct (n <? x) eqn:E; [cbn [tm_flight] in H; rewrite skipn_own in H; destruct H|].
    apply Z.ltb_ge in E. unfold callback in H.
    match type of H with context [takeMessage ?i ?n ?t] => destruct (take_spec i n t) as [Q|(j & s & I & N & X & F & Q)] end; rewrite Q in H; cbn [tm_flight] in H.
    + rewrite skipn_own in H. destruct H.
    + rewrite skipn_snoc in H. destruct H as [H|[]]. injection H as <- <-. apply Nat2Z.inj in I. subst j. cbn [tm_slots] in N.
      rewrite nth_error_app2, Nat.sub_diag in N by lia. cbn in N. injection N as <-. cbn [s_msg s_exp] in *. exists x, n, n2. auto.
  - left. unfold callback in H. destruct a; [rewrite skipn_own in H; destruct H|].
    destruct (take_spec j n t) as [Q|(j' & s & I & N & X & F & Q)]; rewrite Q in H; cbn [tm_flight] in H.
    + rewrite skipn_own in H. destruct H.
    + rewrite skipn_snoc in H. destruct H as [H|[]]. injection H as <- <-. subst j. exists n. unfold expOf, msgOf. rewrite N. cbn. eauto 6.
  - destruct H.
Qed.
(** and a message is sent only after it was taken *)
Theorem C33_sent_was_taken es m : In m (sent es) -> exists a e b i, es = a ++ e :: b /\ In (i, m) (takes (tmafter a) e).
Proof.
  assert (G : (forall m, In m (sent es) -> exists a e b i, es = a ++ e :: b /\ In (i, m) (takes (tmafter a) e)) /\
              (forall i m, In (i, m) (tm_flight (tmafter es)) -> exists a e b, es = a ++ e :: b /\ In (i, m) (takes (tmafter a) e))).
  { induction es as [|e es [IH1 IH2]] using rev_ind; [split; intros; contradiction|].
    assert (W1 : forall m, In m (sent es) -> exists a e' b i, es ++ [e] = a ++ e' :: b /\ In (i, m) (takes (tmafter a) e')).
    { intros m' H. destruct (IH1 _ H) as (a & e' & b & i & -> & Q). exists a, e', (b ++ [e]), i. now rewrite <- app_assoc. }
    assert (W2 : forall i m, In (i, m) (tm_flight (tmafter es)) -> exists a e' b, es ++ [e] = a ++ e' :: b /\ In (i, m) (takes (tmafter a) e')).
    { intros i m' H. destruct (IH2 _ _ H) as (a & e' & b & -> & Q). exists a, e', (b ++ [e]). now rewrite <- app_assoc. }
    split.
    - intros m' H. rewrite sent_snoc in H. apply in_app_or in H. destruct H as [H|H]; [auto|].
      destruct e; cbn in H; try contradiction. destruct (nth_error _ k) as [[j m0]|] eqn:N; [|contradiction]. destruct H as [<-|[]].
      apply nth_error_In in N. destruct (W2 _ _ N) as (a & e' & b & E & Q). exists a, e', b, j. auto.
    - intros i m' H. rewrite tmafter_snoc in H.
      assert (D : tm_flight (fst (tmstep (tmafter es) e)) = tm_flight (tmafter es) ++ takes (tmafter es) e \/ exists k, e = Deliver k).
      { destruct e as [x m0 n n2|j| |j x m0|j x|j d|j m0|j a n|k]; [left|left|left|left|left|left|left|left|right; eauto]; cbn [takes tmstep fst];
          try (cbn [cancelTimer cancelAll updateTimerMsg updateTimer addTimeToTimer updateMessage tm_flight]; rewrite skipn_own; now rewrite app_nil_r).
        - unfold addTimer. destruct (n <? x); [cbn [tm_flight]; rewrite skipn_own; now rewrite app_nil_r|]. unfold callback.
          match goal with |- context [takeMessage ?i ?n ?t] => destruct (take_spec i n t) as [Q|(j & s & I & N & X & F & Q)] end; rewrite Q; cbn [tm_flight].
          + now rewrite skipn_own, app_nil_r.
          + now rewrite skipn_snoc.
        - unfold callback. destruct a; [now rewrite skipn_own, app_nil_r|].
          destruct (take_spec j n (tmafter es)) as [Q|(j' & s & I & N & X & F & Q)]; rewrite Q; cbn [tm_flight].
          + now rewrite skipn_own, app_nil_r.
          + now rewrite skipn_snoc. }
      destruct D as [D|[k ->]].
      + rewrite D in H. apply in_app_or in H. destruct H as [H|H]; [auto|]. exists es, e, []. auto.
      + apply W2. cbn in H. destruct (nth_error _ k) as [[j m0]|] eqn:N; cbn in H; [|assumption].
        unfold remove in H. apply in_app_or in H. destruct H as [H|H].
        * rewrite <- (firstn_skipn k). apply in_or_app. auto.
        * rewrite <- (firstn_skipn (S k)). apply in_or_app. auto. }
  apply G.
Qed.
(** the expiration time is the one given at creation or by the last update, plus the time added while the message waits *)
Theorem C33_expiration_time t e i : (i < length (tm_slots t))%nat ->
  expOf (fst (tmstep t e)) i =
  match e with
  | UpdateBoth j x _ | UpdateTime j x => if Z.of_nat i =? j then Some x else expOf t i
  | AddTime j d => if (Z.of_nat i =? j) && existsb armedMsg (match msgOf t i with Some m => [m] | None => [] end) then option_map (Z.add d) (expOf t i) else expOf t i
  | _ => expOf t i
  end.
Proof.
  intros L. unfold expOf, msgOf. destruct (nth_error (tm_slots t) i) as [s|] eqn:N; [|apply nth_error_None in N; lia]. cbn [option_map existsb].
  assert (T : forall j now t', tm_slots t' = tm_slots t \/ (exists y, tm_slots t' = tm_slots t ++ [y]) -> option_map s_exp (nth_error (tm_slots (takeMessage j now t')) i) = Some (s_exp s)).
  { intros j now t' H.
    assert (N' : nth_error (tm_slots t') i = Some s) by (destruct H as [->|[y ->]]; [assumption|rewrite nth_error_app1 by lia; assumption]).
    destruct (take_spec j now t') as [->|(j' & s' & _ & N2 & _ & _ & ->)]; [now rewrite N'|]. cbn [tm_slots].
    destruct (Nat.eq_dec j' i) as [->|D]; [|rewrite setNth_other by assumption; now rewrite N'].
    rewrite setNth_same by (apply nth_error_Some; congruence). cbn. congruence. }
  destruct e as [x m n n2|j| |j x m|j x|j d|j m|j a n|k]; cbn [tmstep fst].
  - unfold addTimer. destruct (n <? x); [cbn [tm_slots]; rewrite nth_error_app1 by lia; now rewrite N|]. unfold callback. apply T. right. cbn. eexists. reflexivity.
  - cbn [cancelTimer tm_slots]. rewrite atSlot_nth, N. destruct (_ =? _); reflexivity.
  - cbn [cancelAll tm_slots]. rewrite nth_error_map, N. reflexivity.
  - cbn [updateTimerMsg tm_slots]. rewrite atSlot_nth, N. destruct (_ =? _); reflexivity.
  - cbn [updateTimer tm_slots]. rewrite atSlot_nth, N. destruct (_ =? _); reflexivity.
  - cbn [addTimeToTimer tm_slots]. rewrite atSlot_nth, N. destruct (_ =? _); cbn; [|reflexivity]. rewrite orb_false_r. destruct (armedMsg (s_msg s)); cbn; [f_equal; lia|reflexivity].
  - cbn [updateMessage tm_slots]. rewrite atSlot_nth, N. destruct (_ =? _); reflexivity.
  - unfold callback. destruct a; [now rewrite N|]. apply T. auto.
  - destruct (nth_error (tm_flight t) k) as [[? ?]|]; cbn; now rewrite N.
Qed.

(** after a cancellation nothing is taken from the timer until a message is given to it again *)
Definition quiet (t : timers) (i : nat) : Prop := match msgOf t i with Some m => armedMsg m = false | None => False end.
Lemma quiet_step t e i : quiet t i -> arms (length (tm_slots t)) i e = false ->
  quiet (fst (tmstep t e)) i /\ forall m, ~ In (i, m) (takes t e).
Proof.
  unfold quiet, msgOf. intros Q A. destruct (nth_error (tm_slots t) i) as [s|] eqn:N; [|contradiction]. cbn [option_map] in Q.
  assert (L : (i < length (tm_slots t))%nat) by (apply nth_error_Some; congruence).
  assert (T : forall j now t', tm_flight t' = tm_flight t -> (tm_slots t' = tm_slots t \/ (exists y, tm_slots t' = tm_slots t ++ [y])) ->
     match option_map s_msg (nth_error (tm_slots (takeMessage j now t')) i) with Some m => armedMsg m = false | None => False end /\
     forall m, ~ In (i, m) (skipn (length (tm_flight t)) (tm_flight (takeMessage j now t')))).
  { intros j now t' Fl H.
    assert (N' : nth_error (tm_slots t') i = Some s) by (destruct H as [->|[y ->]]; [assumption|rewrite nth_error_app1 by lia; assumption]).
    destruct (take_spec j now t') as [->|(j' & s' & _ & N2 & _ & F2 & ->)]; cbn [tm_slots tm_flight].
    - rewrite N', Fl, skipn_own. split; [assumption|intros m []].
    - assert (D : j' <> i) by (intros ->; congruence). rewrite setNth_other, N' by assumption. split; [assumption|].
      rewrite Fl, skipn_snoc. intros m [E|[]]. congruence. }
  destruct e as [x m n n2|j| |j x m|j x|j d|j m|j a n|k]; cbn [tmstep fst takes].
  - cbn in A. unfold addTimer. destruct (n <? x).
    + cbn [tm_slots tm_flight]. rewrite nth_error_app1, N by lia. rewrite skipn_own. split; [assumption|intros ? []].
    + unfold callback. apply T; [reflexivity|right; cbn; eexists; reflexivity].
  - cbn [cancelTimer tm_slots tm_flight]. rewrite atSlot_nth, N, skipn_own. split; [|intros ? []]. destruct (_ =? _); cbn [option_map setMsg s_msg]; [apply armed_ignored|assumption].
  - cbn [cancelAll tm_slots tm_flight]. rewrite nth_error_map, N, skipn_own. split; [|intros ? []]. cbn [option_map setMsg s_msg]. apply armed_ignored.
  - cbn [updateTimerMsg tm_slots tm_flight]. cbn [arms] in A. rewrite atSlot_nth, N, A, skipn_own. split; [assumption|intros ? []].
  - cbn [updateTimer tm_slots tm_flight]. rewrite atSlot_nth, N, skipn_own. split; [|intros ? []]. destruct (_ =? _); assumption.
  - cbn [addTimeToTimer tm_slots tm_flight]. rewrite atSlot_nth, N, skipn_own. split; [|intros ? []]. destruct (_ =? _); [|assumption]. cbn. rewrite Q. assumption.
  - cbn [updateMessage tm_slots tm_flight]. cbn [arms] in A. rewrite atSlot_nth, N, A, skipn_own. split; [assumption|intros ? []].
  - unfold callback. destruct a; [rewrite N, skipn_own; split; [assumption|intros ? []]|]. apply T; auto.
  - split; [|intros ? []]. destruct (nth_error (tm_flight t) k) as [[? ?]|]; cbn; now rewrite N.
Qed.
Lemma slots_created es : length (tm_slots (tmafter es)) = created es.
Proof.
  unfold created. induction es as [|e es IH] using rev_ind; [reflexivity|]. rewrite tmafter_snoc, filter_app, app_length, <- IH. clear IH. set (t := tmafter es). clearbody t.
  assert (T : forall j now t', length (tm_slots (takeMessage j now t')) = length (tm_slots t')).
  { intros j now t'. destruct (take_spec j now t') as [->|(j' & s' & _ & _ & _ & _ & ->)]; [reflexivity|]. cbn. apply setNth_length. }
  destruct e as [x m n n2|j| |j x m|j x|j d|j m|j a n|k]; cbn [tmstep fst filter isAdd length]; rewrite ?Nat.add_0_r.
  - unfold addTimer. destruct (n <? x); [|unfold callback; rewrite T]; cbn [tm_slots]; now rewrite app_length.
  - apply atSlot_length.
  - apply map_length.
  - apply atSlot_length.
  - apply atSlot_length.
  - apply atSlot_length.
  - apply atSlot_length.
  - unfold callback. destruct a; auto.
  - destruct (nth_error _ _) as [[? ?]|]; reflexivity.
Qed.
(** [i] is an existing timer; it is cancelled (alone or with all others); no message is given to it in [b] *)
Definition cancels (i : nat) (e : tevent) : bool := match e with Cancel j => Z.of_nat i =? j | CancelAll => true | _ => false end.
Theorem C33_nothing_after_cancel a c b e i m : (i < created a)%nat -> cancels i c = true ->
  (forall b1 x b2, b ++ [e] = b1 ++ x :: b2 -> arms (created (a ++ c :: b1)) i x = false) ->
  ~ In (i, m) (takes (tmafter (a ++ c :: b)) e).
Proof.
  intros L C A.
  assert (G : forall b1 b2, b ++ [e] = b1 ++ b2 -> quiet (tmafter (a ++ c :: b1)) i).
  { induction b1 as [|x b1 IH] using rev_ind; intros b2 E.
    - replace (a ++ [c]) with (a ++ [c]) by auto. rewrite tmafter_snoc. rewrite <- slots_created in L. clear -L C. set (t := tmafter a) in *. clearbody t.
      unfold quiet, msgOf. destruct (nth_error (tm_slots t) i) as [s|] eqn:N; [|apply nth_error_None in N; lia].
      destruct c; try discriminate; cbn [tmstep fst cancelTimer cancelAll tm_slots].
      + cbn [cancels] in C. rewrite atSlot_nth, C, N. cbn [option_map setMsg s_msg]. apply armed_ignored.
      + rewrite nth_error_map, N. cbn [option_map setMsg s_msg]. apply armed_ignored.
    - assert (E' : b ++ [e] = b1 ++ x :: b2) by (rewrite E, <- app_assoc; reflexivity). specialize (IH _ E').
      specialize (A _ _ _ E'). rewrite <- slots_created in A. pose proof (proj1 (quiet_step _ x i IH A)) as Q.
      replace (a ++ c :: b1 ++ [x]) with ((a ++ c :: b1) ++ [x]) by now rewrite <- app_assoc. now rewrite tmafter_snoc. }
  specialize (G b [e] eq_refl). specialize (A b e [] eq_refl). rewrite <- slots_created in A. exact (proj2 (quiet_step _ e i G A) m).
Qed.
(** The stronger reading -- the send function is not called after the cancellation -- fails: sendMessage releases the lock
    before the call, so a message taken just before is sent after cancelTimer returned. *)
Theorem C33_sent_after_cancel_refuted : exists a b, sent a = [] /\ sent (a ++ Cancel 0 :: b) <> [] /\ armings (Cancel 0 :: b) = [].
Proof. exists [AddTimer 5 (newMsg CMD_TIME_REQUEST 1) 2 2; Callback 0 false 7], [Deliver 0]. vm_compute. repeat split; congruence. Qed.
Example C33_nonvacuous : sent [AddTimer 5 (newMsg CMD_TIME_REQUEST 1) 2 2; Callback 0 false 4; AddTime 0 3; Callback 0 false 7; Callback 0 false 8; Callback 0 false 9; Deliver 0; Deliver 0] = [newMsg CMD_TIME_REQUEST 1] /\
  takes (tmafter [AddTimer 5 (newMsg CMD_TIME_REQUEST 1) 2 2; Callback 0 false 4; AddTime 0 3; Callback 0 false 7]) (Callback 0 false 8) = [(0%nat, newMsg CMD_TIME_REQUEST 1)] /\
  (0 < created [AddTimer 5 (newMsg CMD_TIME_REQUEST 1) 2 2])%nat /\ takes (tmafter [AddTimer 5 (newMsg CMD_TIME_REQUEST 1) 2 2; Cancel 0]) (Callback 0 false 8) = [].
Proof. vm_compute. repeat split; lia. Qed.
