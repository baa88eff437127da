(** * C47: queries which collect answers from all parts of the federation *)
From Coq Require Import ZArith Bool List Lia.
From Verif Require Import Query.
Import ListNotations.
Open Scope nat_scope.

(** ** Specification *)
(** what was sent to the one who asked as the query r *)
Definition isFor (r : nat) (o : output) : bool := match o with OLocal q _ | OSend _ q _ => q =? r | OCrash => false end.
Definition answers (r : nat) (s : qs) : nat := length (filter (isFor r) (outs s)).
(** queries r which wait; all kinds are below 15 *)
Definition waits (r : nat) (l : list req) : nat := length (filter (fun q => rid q =? r) l).
Fixpoint sumN (f : nat -> nat) (n : nat) : nat := match n with 0 => 0 | S m => f m + sumN f m end.
Definition waiting (r : nat) (s : qs) : nat := sumN (fun i => waits r (rq (slots s i))) 15.
(** how often the query r was asked *)
Definition asks (K : bool) (r : nat) (e : event) : nat :=
  match e with EQuery q i _ | ENamed q i _ => if collected K i && (rid q =? r) then 1 else 0 | _ => 0 end.
Definition asked (K : bool) (r : nat) (h : list event) : nat := list_sum (map (asks K r) h).

(** the children a new query has to wait for, and the entries known at once *)
Definition place (K : bool) (k : kid) : loc := if K then LFed else if kcore k then LCore else LBroker.
Definition mustWait (K : bool) (orc : nat -> option (option nat)) (k : kid) : bool :=
  if K then match orc (kno k) with None => true | Some _ => false end else (kst k <? 40)%Z.
Definition toWait (K : bool) (orc : nat -> option (option nat)) (ks : list kid) : list (nat * loc) :=
  map (fun k => (kno k, place K k)) (filter (mustWait K orc) ks).
Definition atOnce (K : bool) (i : nat) (orc : nat -> option (option nat)) (ks : list kid) : list (loc * entry) :=
  flat_map (fun k => if mustWait K orc k then []
    else if K then match orc (kno k) with Some p => [(LFed, elem p)] | None => [] end
    else if i =? GLOBAL_STATE then [(place K k, JState (kno k))] else []) ks.
(** while P has to be waited for: the entry an event adds, and whom is still to be waited for *)
Definition without (c : nat) (P : list (nat * loc)) : list (nat * loc) := filter (fun a => negb (fst a =? c)) P.
Definition hears (i : nat) (P : list (nat * loc)) (e : event) : list (loc * entry) :=
  match e with EReply c j p => if j =? i then map (fun a => (snd a, elem p)) (filter (fun a => fst a =? c) P) else [] | _ => [] end.
Definition still (K : bool) (i : nat) (P : list (nat * loc)) (e : event) : list (nat * loc) :=
  match e with EReply c j _ => if j =? i then without c P else P | EGone c => if K then P else without c P | _ => P end.
Fixpoint heard (K : bool) (i : nat) (P : list (nat * loc)) (h : list event) : list (loc * entry) :=
  match h with [] => [] | e :: r => hears i P e ++ heard K i (still K i P e) r end.
Fixpoint left_ (K : bool) (i : nat) (P : list (nat * loc)) (h : list event) : list (nat * loc) :=
  match h with [] => P | e :: r => left_ K i (still K i P e) r end.
(** the answer arrives: as the result of the call at this node, or sent to the other node which asked *)
Definition reached (r : req) (a : answer) (s : qs) : Prop :=
  In (OLocal (rid r) a) (outs s) \/ (rwho r = WOther /\ In (OSend WOther (rid r) a) (outs s)).

(** histories in which the queries do not get into each other's way: a kind of query which is not cached is not asked again while
    somebody waits for its answer; no core is asked by name, and the core does not disconnect; when a child leaves, no finished map is stored in front of one
    which waits for it *)
Definition okEvent (K : bool) (s : qs) (e : event) : Prop :=
  match e with
  | EQuery _ i _ => rq (slots s i) <> [] -> reuse K i = true
  | ENamed _ i _ => K = false /\ (rq (slots s i) <> [] -> reuse K i = true)
  | EGone c => forall i j, j < i -> hasCode c (miss (sb (slots s i))) = true -> completed (sb (slots s j)) = false
  | EFlush => K = false
  | _ => True
  end.
Definition orderly (K : bool) (h : list event) : Prop := forall h1 e h2, h = h1 ++ e :: h2 -> okEvent K (run K h1) e.

(** ** Updates *)
Lemma setS_eq i x s : slots (setS i x s) i = x.
Proof. unfold setS, set_slots. cbn. rewrite Nat.eqb_refl. reflexivity. Qed.
Lemma setS_neq i j x s : j <> i -> slots (setS i x s) j = slots s j.
Proof. intros N. unfold setS, set_slots. cbn. destruct (Nat.eqb_spec j i); [contradiction|reflexivity]. Qed.
Lemma setO_eq i x s : ost (setO i x s) i = x.
Proof. unfold setO, set_ost. cbn. rewrite Nat.eqb_refl. reflexivity. Qed.
Lemma setO_neq i j x s : j <> i -> ost (setO i x s) j = ost s j.
Proof. intros N. unfold setO, set_ost. cbn. destruct (Nat.eqb_spec j i); [contradiction|reflexivity]. Qed.
Lemma sumN_ext f g n : (forall i, i < n -> f i = g i) -> sumN f n = sumN g n.
Proof. induction n as [|n IH]; intros H; [reflexivity|]. cbn. rewrite (H n), IH; [reflexivity| |lia]. intros i L. apply H. lia. Qed.
Lemma sumN_upd f g n i : i < n -> (forall j, j <> i -> f j = g j) -> sumN f n + g i = sumN g n + f i.
Proof.
  induction n as [|n IH]; intros L H; [lia|]. cbn. destruct (Nat.eq_dec i n) as [->|N].
  - rewrite (sumN_ext f g n); [lia|]. intros j J. apply H. lia.
  - rewrite (H n) by (intros E; congruence). specialize (IH ltac:(lia) H). lia.
Qed.
Lemma sumN_zero f n : (forall i, i < n -> f i = 0) -> sumN f n = 0.
Proof. intros H. rewrite (sumN_ext f (fun _ => 0)) by exact H. clear. induction n; cbn; auto. Qed.

(** ** Every query waits, or has been answered *)
Lemma answers_emit r o s : answers r (emit o s) = answers r s + length (filter (isFor r) o).
Proof. unfold answers, emit. cbn. rewrite filter_app, app_length. reflexivity. Qed.
Lemma waiting_emit r o s : waiting r (emit o s) = waiting r s.
Proof. reflexivity. Qed.
Lemma waiting_setS r i x s : i < 15 -> waiting r (setS i x s) + waits r (rq (slots s i)) = waiting r s + waits r (rq x).
Proof.
  intros L. unfold waiting. pose proof (sumN_upd (fun j => waits r (rq (slots (setS i x s) j))) (fun j => waits r (rq (slots s j))) 15 i L) as H. cbv beta in H. rewrite setS_eq in H. apply H.
  intros j N. rewrite setS_neq by exact N. reflexivity.
Qed.
Lemma waits_app r l q : waits r (l ++ q) = waits r l + waits r q.
Proof. unfold waits. rewrite filter_app, app_length. reflexivity. Qed.
Lemma isFor_cons r o l : length (filter (isFor r) (o :: l)) = (if isFor r o then 1 else 0) + length (filter (isFor r) l).
Proof. cbn. destruct (isFor r o); reflexivity. Qed.
Lemma waits_cons r q l : waits r (q :: l) = (if rid q =? r then 1 else 0) + waits r l.
Proof. unfold waits. cbn. destruct (rid q =? r); reflexivity. Qed.
Lemma deliver_count r d l a : length (filter (isFor r) (deliver d l a)) = waits r l.
Proof.
  induction l as [|q l IH]; [reflexivity|]. rewrite waits_cons. destruct l as [|q' l].
  - cbn. destruct (rwho q); [|destruct d|]; cbn; destruct (rid q =? r); reflexivity.
  - change (deliver d (q :: q' :: l) a) with ((match rwho q with WSelf => OLocal (rid q) a | w => OSend w (rid q) a end) :: deliver d (q' :: l) a). rewrite isFor_cons, IH. destruct (rwho q); reflexivity.
Qed.
Lemma reply_count r K q a : length (filter (isFor r) [reply K q a]) = if rid q =? r then 1 else 0.
Proof. unfold reply. destruct (rwho q), K; cbn; destruct (rid q =? r); reflexivity. Qed.
Lemma collected_lt K i : collected K i = true -> i < 15.
Proof. intros H. do 15 (destruct i as [|i]; [lia|]). discriminate. Qed.

Lemma init_rq K i orc s j : rq (slots (initBuilder K i orc s) j) = rq (slots s j).
Proof.
  unfold initBuilder. destruct (fold_left _ _ _) as [b1 a]. change (rq (slots (setS i (set_sb b1 (slots s i)) s) j) = rq (slots s j)).
  destruct (Nat.eq_dec j i) as [->|N]; [rewrite setS_eq; reflexivity|rewrite setS_neq by exact N; reflexivity].
Qed.
Lemma init_outs K i orc s : outs (initBuilder K i orc s) = outs s.
Proof. unfold initBuilder. destruct (fold_left _ _ _) as [b1 a]. reflexivity. Qed.
Lemma mapQuery_rq K i orc s j : rq (slots (snd (mapQuery K i orc s)) j) = rq (slots s j).
Proof.
  unfold mapQuery. destruct (decide K i s); [reflexivity|reflexivity|]. cbv zeta. destruct (completed _); cbn [snd]; [|apply init_rq].
  destruct (reuse K i); [|apply init_rq]. destruct (Nat.eq_dec j i) as [->|N]; [rewrite setS_eq; apply init_rq|rewrite setS_neq by exact N; apply init_rq].
Qed.
Lemma mapQuery_outs K i orc s : outs (snd (mapQuery K i orc s)) = outs s.
Proof.
  unfold mapQuery. destruct (decide K i s); [reflexivity|reflexivity|]. cbv zeta. destruct (completed _); cbn [snd]; [|apply init_outs].
  destruct (reuse K i); apply init_outs.
Qed.
Definition total (r : nat) (s : qs) : nat := answers r s + waiting r s.
Lemma total_ext r s t : outs s = outs t -> (forall j, rq (slots s j) = rq (slots t j)) -> total r s = total r t.
Proof. intros A B. unfold total, answers, waiting. rewrite A. f_equal. apply sumN_ext. intros i _. rewrite B. reflexivity. Qed.
Lemma query_total r K q i orc s : i < 15 -> total r (query K q i orc s) = total r s + if rid q =? r then 1 else 0.
Proof.
  intros L. unfold query. pose proof (mapQuery_rq K i orc s) as A. pose proof (mapQuery_outs K i orc s) as B. destruct (mapQuery K i orc s) as [[a|] s1]; cbn [snd] in *.
  - rewrite <- (total_ext r s1 s B A). unfold total. rewrite answers_emit, waiting_emit, reply_count. lia.
  - rewrite <- (total_ext r s1 s B A). unfold total. pose proof (waiting_setS r i (set_rq (rq (slots s1 i) ++ [q]) (slots s1 i)) s1 L) as W. cbn [rq set_rq] in W. rewrite waits_app in W.
    change (answers r (setS i (set_rq (rq (slots s1 i) ++ [q]) (slots s1 i)) s1)) with (answers r s1). rewrite waits_cons in W. change (waits r []) with 0 in W. lia.
Qed.
Lemma finish_total r K i s : i < 15 -> total r (finish K i s) = total r s.
Proof.
  intros L. unfold finish. cbv zeta. set (a := if _ =? _ then _ else _). set (b := if reuse K i then _ else _). set (s1 := emit _ s). unfold total. pose proof (waiting_setS r i (mkSlot b []) s1 L) as W.
  change (answers r (setS i (mkSlot b []) s1)) with (answers r s1). unfold s1 in *. rewrite answers_emit, deliver_count. rewrite waiting_emit in W. cbn [rq] in W. change (slots (emit (deliver K (rq (slots s i)) a) s) i) with (slots s i) in W. change (waits r []) with 0 in W. lia.
Qed.
Lemma finishGone_total r K i s : i < 15 -> total r (finishGone K i s) = total r s.
Proof.
  intros L. unfold finishGone. cbv zeta. set (b := if reuse K i then _ else _). set (s1 := emit _ s). unfold total. pose proof (waiting_setS r i (mkSlot b []) s1 L) as W.
  change (answers r (setS i (mkSlot b []) s1)) with (answers r s1). unfold s1 in *. rewrite answers_emit, deliver_count. rewrite waiting_emit in W. cbn [rq] in W. change (slots (emit (deliver false (rq (slots s i)) (AMap (generate (sb (slots s i))))) s) i) with (slots s i) in W. change (waits r []) with 0 in W. lia.
Qed.
Lemma sb_total r i b s : total r (setS i (set_sb b (slots s i)) s) = total r s.
Proof. apply total_ext; [reflexivity|]. intros j. destruct (Nat.eq_dec j i) as [->|N]; [rewrite setS_eq; reflexivity|rewrite setS_neq by exact N; reflexivity]. Qed.
Lemma inFlight_total r K cl js s : (forall j, In j js -> j < 15) -> total r (inFlight K cl js s) = total r s.
Proof.
  revert s. induction js as [|j js IH]; intros s H; [reflexivity|]. cbn [inFlight]. destruct (completed _); [reflexivity|]. destruct (cl (sb (slots s j))) as [b1 fin].
  rewrite IH by (intros k J; apply H; right; exact J). destruct fin; [rewrite finishGone_total by (apply H; left; reflexivity)|]; apply sb_total.
Qed.
Lemma takeAsk_in c l k o : takeAsk c l = Some (k, o) -> In (c, k) l.
Proof.
  revert k o. induction l as [|[d j] l IH]; intros k o; [discriminate|]. cbn. destruct (Nat.eqb_spec d c) as [->|N].
  - intros E. injection E as <- <-. left. reflexivity.
  - destruct (takeAsk c l) as [[j' q]|]; [|discriminate]. intros E. injection E as <- <-. right. apply (IH _ _ eq_refl).
Qed.
(** at most 15 kinds *)
Lemma step_nsl K s e : nsl s <= 15 -> nsl (step K s e) <= 15.
Proof.
  assert (forall i b1 s, nsl (finish K i (setS i b1 s)) = nsl s) as F by reflexivity.
  assert (forall cl js s, nsl (inFlight K cl js s) = nsl s) as G.
  { intros cl js. induction js as [|j js IH]; intros t; [reflexivity|]. cbn [inFlight]. destruct (completed _); [reflexivity|]. destruct (cl _) as [b1 fin]. rewrite IH. destruct fin; reflexivity. }
  assert (forall i orc s, i < 15 -> nsl s <= 15 -> nsl (snd (mapQuery K i orc s)) <= 15) as Q.
  { intros i orc t L H. unfold mapQuery. destruct (decide K i t); try exact H. cbv zeta. assert (nsl (initBuilder K i orc t) <= 15) as I by (unfold initBuilder; destruct (fold_left _ _ _) as [b1 a]; cbn; lia).
    destruct (completed _); [destruct (reuse K i)|]; exact I. }
  assert (forall r i orc s, i < 15 -> nsl s <= 15 -> nsl (query K r i orc s) <= 15) as Q2.
  { intros r i orc t L H. unfold query. specialize (Q i orc t L H). destruct (mapQuery K i orc t) as [[a|] s1]; exact Q. }
  intros H. destruct e as [r i orc|r i orc|c i p|c| |c co|c v|v]; cbn [step]; try exact H.
  - destruct (collected K i) eqn:C; [|exact H]. apply Q2; [apply (collected_lt K i C)|exact H].
  - destruct (collected K i) eqn:C; [|exact H]. unfold named. pose proof (collected_lt K i C) as L. destruct K; [|apply Q2; assumption]. specialize (Q i orc s L H). destruct (mapQuery true i orc s) as [[a|] s1]; exact Q.
  - destruct (takeAsk c (ost s i)) as [[k o]|]; [|exact H]. unfold response. cbn [nsl setO set_ost]. destruct (i <? nsl s); [|exact H]. destruct (addComponent _ _ _) as [b1 [|]]; [rewrite F|]; exact H.
  - destruct K; [exact H|]. unfold goneKid. rewrite G. exact H.
  - destruct K; [|exact H]. unfold flushAll. rewrite G. exact H.
  - destruct (isKid c (kids s)); exact H.
Qed.
Lemma run_snoc K h e : run K (h ++ [e]) = step K (run K h) e.
Proof. unfold run. rewrite fold_left_app. reflexivity. Qed.
Lemma run_app K h h' : run K (h ++ h') = fold_left (step K) h' (run K h).
Proof. unfold run. apply fold_left_app. Qed.
Lemma run_nsl K h : nsl (run K h) <= 15.
Proof. induction h as [|e h IH] using rev_ind; [cbn; lia|]. rewrite run_snoc. apply step_nsl, IH. Qed.
Lemma step_total K s e r : nsl s <= 15 -> total r (step K s e) = total r s + asks K r e.
Proof.
  intros H. destruct e as [q i orc|q i orc|c i p|c| |c co|c v|v]; cbn [step asks].
  - destruct (collected K i) eqn:C; cbn [andb]; [|lia]. apply query_total, (collected_lt K i C).
  - destruct (collected K i) eqn:C; cbn [andb]; [|lia]. pose proof (collected_lt K i C) as L. unfold named. destruct K; [|apply query_total; exact L].
    pose proof (mapQuery_rq true i orc s) as A. pose proof (mapQuery_outs true i orc s) as B. destruct (mapQuery true i orc s) as [[a|] s1]; cbn [snd] in *; rewrite <- (total_ext r s1 s B A); unfold total; rewrite answers_emit, waiting_emit, reply_count; lia.
  - rewrite Nat.add_0_r. destruct (takeAsk c (ost s i)) as [[k o]|]; [|reflexivity]. unfold response. change (nsl (setO i o s)) with (nsl s). destruct (Nat.ltb_spec i (nsl s)) as [L|L]; [|apply total_ext; reflexivity].
    destruct (addComponent _ _ _) as [b1 fin]. destruct fin; [rewrite finish_total by lia|]; rewrite sb_total; apply total_ext; reflexivity.
  - rewrite Nat.add_0_r. destruct K; [reflexivity|]. unfold goneKid. rewrite inFlight_total; [apply total_ext; reflexivity|]. intros j J. apply in_seq in J. lia.
  - rewrite Nat.add_0_r. destruct K; [|reflexivity]. unfold flushAll. apply inFlight_total. intros j J. apply in_seq in J. lia.
  - rewrite Nat.add_0_r. destruct (isKid c (kids s)); apply total_ext; reflexivity.
  - rewrite Nat.add_0_r. apply total_ext; reflexivity.
  - rewrite Nat.add_0_r. apply total_ext; reflexivity.
Qed.
(** C47: every query either waits or has been answered, and never twice: in all histories *)
Theorem C47_each_query_waits_or_is_answered_once K h r : asked K r h = answers r (run K h) + waiting r (run K h).
Proof.
  change (asked K r h = total r (run K h)). induction h as [|e h IH] using rev_ind; [reflexivity|]. rewrite run_snoc, step_total by apply run_nsl. rewrite <- IH. unfold asked. rewrite map_app, list_sum_app. cbn. lia.
Qed.
