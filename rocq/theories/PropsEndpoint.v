(** * Properties C18, C19 and C31: endpoints and interface options *)
From Coq Require Import ZArith Bool List Lia ZifyBool Permutation Sorted.
From Verif Require Import HTime Action StableSort Interfaces InputSpec PropsInput.
Import ListNotations.
Open Scope Z_scope.

(** ** The order of messages *)
Lemma blt_irrefl a : blt a a = false.
Proof. induction a as [|x a IH]; [reflexivity|]. cbn. rewrite Z.ltb_irrefl. exact IH. Qed.
Lemma blt_asym a b : blt a b = true -> blt b a = false.
Proof.
  revert b. induction a as [|x a IH]; intros [|y b]; cbn; try (discriminate || reflexivity). 
  destruct (Z.ltb_spec x y), (Z.ltb_spec y x); try lia; try (discriminate || reflexivity). apply IH.
Qed.
Lemma nblt_trans a b c : blt b a = false -> blt c b = false -> blt c a = false.
Proof.
  revert b c. induction a as [|x a IH]; intros b c; [destruct c as [|? ?]; [reflexivity|reflexivity]|]. destruct b as [|y b]; [cbn; discriminate|]. destruct c as [|z c]; [cbn; discriminate|]. cbn.
  destruct (Z.ltb_spec y x), (Z.ltb_spec x y), (Z.ltb_spec z y), (Z.ltb_spec y z), (Z.ltb_spec z x), (Z.ltb_spec x z); try lia; try (discriminate || reflexivity). apply IH.
Qed.
Lemma mlt_eq a b : mlt a b = (em_time a <? em_time b) || ((em_time a =? em_time b) && blt (em_osrc a) (em_osrc b)).
Proof. unfold mlt. destruct (Z.eqb_spec (em_time a) (em_time b)) as [->|N]; cbn; [rewrite Z.ltb_irrefl; reflexivity|]. rewrite orb_false_r. reflexivity. Qed.
Lemma mle_trans a b c : le mlt a b = true -> le mlt b c = true -> le mlt a c = true.
Proof.
  unfold le. rewrite !negb_true_iff, !mlt_eq. intros H1 H2. apply orb_false_iff in H1 as [H1 H1']. apply orb_false_iff in H2 as [H2 H2'].
  apply orb_false_iff. split; [lia|]. apply andb_false_iff. apply andb_false_iff in H1', H2'. destruct (Z.eqb_spec (em_time c) (em_time a)) as [E|E]; [|left; reflexivity]. right.
  destruct H1' as [H1'|H1']; [lia|]. destruct H2' as [H2'|H2']; [lia|]. eapply nblt_trans; eassumption.
Qed.
Lemma mlt_le a b : mlt a b = true -> le mlt a b = true.
Proof.
  unfold le. rewrite negb_true_iff, !mlt_eq. intros H. apply orb_true_iff in H as [H|H]; [apply orb_false_iff; split; [lia|]; replace (em_time b =? em_time a) with false by lia; reflexivity|].
  apply andb_true_iff in H as [H1 H2]. rewrite (blt_asym _ _ H2), andb_false_r, orb_false_r. lia.
Qed.
Lemma mle_time a b : le mlt a b = true -> em_time a <= em_time b.
Proof. unfold le. rewrite negb_true_iff, mlt_eq. intros H. apply orb_false_iff in H as [H _]. lia. Qed.

(** ** C18 *)
Definition endpointAfter (os : list eop) : epinfo := fst (erun ep_new os).
Definition received (os : list eop) : list emsg := snd (erun ep_new os).
(** the messages sent to the endpoint, in the order of arrival *)
Fixpoint sent (os : list eop) : list emsg :=
  match os with [] => [] | E_add m :: r => m :: sent r | _ :: r => sent r end.
(** the order in which messages are to be read: by time, then original source, then arrival.  [isort] is the
    stable order: see [reading_order_spec]. *)
Definition readingOrder (l : list emsg) : list emsg := isort mlt l.
Definition before (a b : emsg) : Prop := em_time a < em_time b \/ (em_time a = em_time b /\ blt (em_osrc a) (em_osrc b) = true).
Definition sameKey (a b : emsg) : bool := (em_time a =? em_time b) && beq (em_osrc a) (em_osrc b).
Lemma blt_total a b : blt a b = false -> blt b a = false -> a = b.
Proof.
  revert b. induction a as [|x a IH]; intros [|y b]; cbn; try (discriminate || reflexivity). destruct (Z.ltb_spec x y), (Z.ltb_spec y x); try (discriminate || lia).
  intros H1 H2. f_equal; [lia|auto].
Qed.
Lemma reading_order_spec l :
  Permutation l (readingOrder l) /\ StronglySorted (fun a b => ~ before b a) (readingOrder l) /\
  forall x, filter (sameKey x) (readingOrder l) = filter (sameKey x) l.
Proof.
  split; [apply isort_perm|]. split.
  - pose proof (isort_ordered mlt mle_trans mlt_le l) as S. unfold ordered in S. unfold readingOrder. induction S as [|x q S IH F]; constructor; [exact IH|].
    eapply Forall_impl; [|exact F]. intros y L B. unfold le in L. rewrite negb_true_iff, mlt_eq in L. apply orb_false_iff in L as [L1 L2]. destruct B as [B|[B1 B2]]; [lia|]. rewrite B2, B1, Z.eqb_refl in L2. discriminate.
  - intros x. unfold readingOrder. rewrite (isort_filter mlt mle_trans mlt_le). apply isort_id.
    assert (K : forall q, (forall y, In y q -> sameKey x y = true) -> ordered mlt q).
    { intros q. induction q as [|y q IH]; intros H; constructor; [apply IH; intros z Z; apply H; right; exact Z|]. apply Forall_forall. intros z Z.
      pose proof (H y (or_introl eq_refl)) as H1. pose proof (H z (or_intror Z)) as H2. unfold sameKey in H1, H2. apply andb_true_iff in H1 as [T1 S1]. apply andb_true_iff in H2 as [T2 S2]. apply beq_eq in S1, S2.
      unfold le. rewrite negb_true_iff, mlt_eq, <- S1, <- S2, blt_irrefl, andb_false_r, orb_false_r. lia. }
    apply K. intros y Y. apply filter_In in Y. apply Y.
Qed.

Definition keeps_all (os : list eop) : Prop := ~ In E_clear os.
Lemma erun_snoc_gen e os o : fst (erun e (os ++ [o])) = fst (estep (fst (erun e os)) o) /\
  snd (erun e (os ++ [o])) = snd (erun e os) ++ match snd (estep (fst (erun e os)) o) with Some m => [m] | None => [] end.
Proof.
  revert e. induction os as [|x os IH]; intros e.
  - cbn. destruct (estep e o) as [e1 [m|]]; split; reflexivity.
  - cbn [app erun]. destruct (estep e x) as [e1 m]. destruct (IH e1) as [I1 I2]. destruct (erun e1 (os ++ [o])) as [e2 ms]. destruct (erun e1 os) as [e3 ms']. cbn in *. subst. split; [reflexivity|]. destruct m; reflexivity.
Qed.
Lemma sent_app a b : sent (a ++ b) = sent a ++ sent b.
Proof. induction a as [|x a IH]; [reflexivity|]. destruct x; cbn; rewrite ?IH; reflexivity. Qed.
Definition qordered (e : epinfo) : Prop := ordered mlt (ep_queue e).
Lemma ordered_tail (x : emsg) q : ordered mlt (x :: q) -> ordered mlt q.
Proof. unfold ordered. intros S. inversion S; assumption. Qed.
Lemma add_queue e m : qordered e -> ep_queue (addMessage e m) = ins mlt m (ep_queue e).
Proof. intros S. cbn. rewrite isort_snoc, isort_id by exact S. reflexivity. Qed.
Lemma estep_ordered e o : qordered e -> qordered (fst (estep e o)).
Proof.
  intros S. destruct o; cbn [estep fst].
  - unfold qordered. rewrite add_queue by exact S. apply ins_ordered; [apply mle_trans|apply mlt_le|exact S].
  - unfold epUpdateTime. destruct (_ =? _); exact S.
  - unfold getMessage. destruct (0 <? ep_avail e); [|exact S]. destruct (ep_queue e) as [|x q] eqn:E; [exact S|]. destruct (em_time x <=? t); [|exact S]. unfold qordered in *. rewrite E in S. cbn. eapply ordered_tail, S.
  - constructor.
Qed.
Lemma after_ordered os : qordered (endpointAfter os).
Proof. unfold endpointAfter. induction os as [|o os IH] using rev_ind; [constructor|]. destruct (erun_snoc_gen ep_new os o) as [-> _]. apply estep_ordered, IH. Qed.

(** Every message is read at most once and none is lost: what was read and what is waiting is what was sent. *)
Theorem C18_each_message_once :
  forall os, keeps_all os -> Permutation (received os ++ ep_queue (endpointAfter os)) (sent os).
Proof.
  unfold received, endpointAfter. induction os as [|o os IH] using rev_ind; intros K; [constructor|].
  destruct (erun_snoc_gen ep_new os o) as [-> ->]. rewrite sent_app. assert (K2 : keeps_all os) by (intros H; apply K, in_or_app; left; exact H). specialize (IH K2).
  pose proof (after_ordered os) as S. unfold endpointAfter in S. set (e := fst (erun ep_new os)) in *. set (R := snd (erun ep_new os)) in *.
  destruct o; cbn [estep fst snd sent].
  - rewrite add_queue by exact S. rewrite app_nil_r. rewrite <- IH. rewrite <- app_assoc. apply Permutation_app_head. rewrite <- ins_perm. rewrite Permutation_app_comm. reflexivity.
  - rewrite !app_nil_r. unfold epUpdateTime. destruct (_ =? _); exact IH.
  - rewrite app_nil_r. unfold getMessage. destruct (0 <? ep_avail e); [|cbn; rewrite app_nil_r; exact IH]. destruct (ep_queue e) as [|x q] eqn:E; [cbn; rewrite app_nil_r, E; exact IH|].
    destruct (em_time x <=? t); cbn [fst snd]; [|rewrite app_nil_r, E; exact IH]. cbn. rewrite <- app_assoc. exact IH.
  - destruct K. apply in_or_app. right; left; reflexivity.
Qed.
(** A receive at the granted time [t] returns a waiting message not later than [t]; no waiting message is before
    it, and of those with its time and source it came first. *)
Theorem C18_receive_first_not_later :
  forall os t e' m, getMessage (endpointAfter os) t = (e', Some m) ->
  em_time m <= t /\ ep_queue (endpointAfter os) = m :: ep_queue e' /\ (forall x, In x (ep_queue (endpointAfter os)) -> ~ before x m).
Proof.
  intros os t e' m H. pose proof (after_ordered os) as S. set (e := endpointAfter os) in *. clearbody e. unfold getMessage in H.
  destruct (0 <? ep_avail e); [|discriminate]. destruct (ep_queue e) as [|y q] eqn:E; [discriminate|]. destruct (Z.leb_spec (em_time y) t); [|discriminate].
  injection H as <- <-. split; [lia|]. split; [reflexivity|]. unfold qordered in S. rewrite E in S. inversion S as [|? ? _ F]; subst. rewrite Forall_forall in F.
  intros x [<-|X] B; [destruct B as [B|[_ B]]; [lia|rewrite blt_irrefl in B; discriminate]|]. specialize (F x X). unfold le in F. rewrite negb_true_iff, mlt_eq in F. apply orb_false_iff in F as [F1 F2].
  destruct B as [B|[B1 B2]]; [lia|]. rewrite B1, B2, Z.eqb_refl in F2. discriminate.
Qed.
(** [timely os]: no message arrives which should have been read before one already read (C10). *)
Definition timely (os : list eop) : Prop :=
  forall a m b, os = a ++ E_add m :: b -> forall d, In d (received a) -> ~ before m d.
Lemma timely_app a b : timely (a ++ b) -> timely a.
Proof. intros T x m y -> d D. apply (T x m (y ++ b)); [rewrite <- app_assoc; reflexivity|exact D]. Qed.
Lemma ins_app (m : emsg) D Q : (forall d, In d D -> mlt m d = false) -> ins mlt m (D ++ Q) = D ++ ins mlt m Q.
Proof. induction D as [|d D IH]; intros H; [reflexivity|]. cbn. rewrite H by (left; reflexivity). f_equal. apply IH. intros x X. apply H. right; exact X. Qed.
(** Then what was read, followed by what is waiting, is everything that was sent in the reading order. *)
Theorem C18_read_in_order :
  forall os, keeps_all os -> timely os -> received os ++ ep_queue (endpointAfter os) = readingOrder (sent os).
Proof.
  unfold received, endpointAfter. induction os as [|o os IH] using rev_ind; intros K T; [reflexivity|].
  destruct (erun_snoc_gen ep_new os o) as [-> ->]. rewrite sent_app. assert (K2 : keeps_all os) by (intros H; apply K, in_or_app; left; exact H). specialize (IH K2 (timely_app _ _ T)).
  pose proof (after_ordered os) as S. unfold endpointAfter in S. set (e := fst (erun ep_new os)) in *. set (R := snd (erun ep_new os)) in *.
  destruct o; cbn [estep fst snd sent].
  - rewrite add_queue by exact S. rewrite app_nil_r. unfold readingOrder in *. rewrite isort_snoc, <- IH. symmetry. apply ins_app. intros d D.
    destruct (mlt m d) eqn:E; [|reflexivity]. exfalso. apply (T os m [] eq_refl d D). rewrite mlt_eq in E. unfold before. destruct (blt (em_osrc m) (em_osrc d)); lia.
  - rewrite !app_nil_r. unfold epUpdateTime. destruct (_ =? _); exact IH.
  - rewrite app_nil_r. unfold getMessage. destruct (0 <? ep_avail e); [|cbn; rewrite app_nil_r; exact IH]. destruct (ep_queue e) as [|x q] eqn:E; [cbn; rewrite app_nil_r, E; exact IH|].
    destruct (em_time x <=? t); cbn [fst snd]; [|rewrite app_nil_r, E; exact IH]. cbn. rewrite <- app_assoc. exact IH.
  - destruct K. apply in_or_app. right; left; reflexivity.
Qed.
Definition msg1 (t : Z) (src : list Z) (n : Z) : emsg := mkEMsg t src [n].
Example C18_nonvacuous :
  let os := [E_add (msg1 5 [66] 1); E_add (msg1 3 [65] 2); E_add (msg1 5 [65] 3); E_add (msg1 5 [66] 4); E_advance Inclusive 5; E_receive 5; E_add (msg1 5 [66] 5); E_receive 5; E_receive 5; E_receive 5; E_receive 5] in
  keeps_all os /\ received os = [msg1 3 [65] 2; msg1 5 [65] 3; msg1 5 [66] 1; msg1 5 [66] 4] /\ ep_queue (endpointAfter os) = [msg1 5 [66] 5].
Proof. split; [intros H; repeat (destruct H as [H|H]; [discriminate|]); exact H|split; reflexivity]. Qed.

(** ** C19 *)
(** how many of the waiting messages are due at [t] *)
Definition dueCount (mode : advance) (t : Z) (q : list emsg) : Z :=
  Z.of_nat (length (filter (fun m => match mode with UpTo => em_time m <? t | _ => em_time m <=? t end) q)).
Lemma countWhile_filter p q : ordered mlt q -> (forall a b, em_time a <= em_time b -> p b = true -> p a = true) -> countWhile p q = Z.of_nat (length (filter p q)).
Proof.
  intros S D. unfold ordered in S. induction S as [|x q S IH F]; [reflexivity|]. cbn [countWhile filter]. destruct (p x) eqn:P.
  - rewrite IH. cbn [length]. lia.
  - rewrite filter_none; [reflexivity|]. intros y Y. rewrite Forall_forall in F. specialize (F y Y). apply mle_time in F. destruct (p y) eqn:E; [|reflexivity]. rewrite (D x y F E) in P. discriminate.
Qed.
Lemma countWhile_ext p q l : (forall x, p x = q x) -> countWhile p l = countWhile q l.
Proof. intros E. induction l as [|x l IH]; [reflexivity|]. cbn. rewrite E, IH. reflexivity. Qed.
Lemma update_avail mode e t : qordered e -> ep_avail (fst (epUpdateTime mode e t)) = dueCount mode t (ep_queue e) /\ ep_queue (fst (epUpdateTime mode e t)) = ep_queue e.
Proof.
  intros S. unfold epUpdateTime, dueCount.
  set (n := countWhile _ (ep_queue e)). assert (N : n = Z.of_nat (length (filter (fun m => match mode with UpTo => em_time m <? t | _ => em_time m <=? t end) (ep_queue e)))).
  { rewrite <- countWhile_filter; [|exact S|intros a b L; destruct mode; lia]. unfold n. apply countWhile_ext. intros x. destruct mode; lia. }
  rewrite <- N. destruct (Z.eqb_spec n (ep_avail e)); cbn; auto.
Qed.
(** A time update makes exactly the due messages available; it reports a change exactly when the number changed. *)
Theorem C19_available_count :
  forall os mode t, let e := endpointAfter os in let '(e', changed) := epUpdateTime mode e t in
  ep_avail e' = dueCount mode t (ep_queue e) /\ ep_queue e' = ep_queue e /\ (changed = true <-> ep_avail e' <> ep_avail e).
Proof.
  intros os mode t e. pose proof (update_avail mode e t (after_ordered os)) as [H1 H2]. destruct (epUpdateTime mode e t) as [e' b] eqn:U. cbn [fst] in *. split; [exact H1|]. split; [exact H2|].
  unfold epUpdateTime in U. destruct (Z.eqb_spec (countWhile (fun m => match mode with UpTo => negb (t <=? em_time m) | _ => negb (t <? em_time m) end) (ep_queue e)) (ep_avail e)) as [E|E]; injection U as <- <-; cbn; [split; [discriminate|congruence]|split; [auto|reflexivity]].
Qed.
Theorem C19_queue_sizes :
  forall os t, let e := endpointAfter os in queueSize e t = dueCount Inclusive t (ep_queue e) /\ queueSizeUpTo e t = dueCount UpTo t (ep_queue e).
Proof. intros os t e. unfold queueSize, queueSizeUpTo, dueCount. rewrite !countWhile_filter by (try apply after_ordered; intros; lia). split; reflexivity. Qed.
(** the earliest waiting message decides the next event time *)
Theorem C19_first_message_time :
  forall os, let e := endpointAfter os in
  (ep_queue e = [] -> firstMessageTime e = maxVal) /\
  (forall m, In m (ep_queue e) -> firstMessageTime e <= em_time m) /\ (ep_queue e <> [] -> exists m, In m (ep_queue e) /\ em_time m = firstMessageTime e).
Proof.
  intros os e. pose proof (after_ordered os) as S. fold e in S. unfold firstMessageTime, qordered in *. destruct (ep_queue e) as [|x q]; [repeat split; [intros ? []|congruence]|].
  split; [discriminate|]. split; [|intros _; exists x; split; [left; reflexivity|reflexivity]]. inversion S as [|? ? _ F]; subst. rewrite Forall_forall in F. intros m [<-|M]; [lia|]. apply mle_time, F, M.
Qed.
(** Receives at the granted time, with any further arrivals in between: exactly as many succeed as were available. *)
Definition receives (t : Z) (os : list eop) : Prop := Forall (fun o => match o with E_add _ => True | E_receive t' => t' = t | _ => False end) os.
Definition receiveCount (os : list eop) : Z := Z.of_nat (length (filter (fun o => match o with E_receive _ => true | _ => false end) os)).
Lemma receive_run t os : forall e, qordered e -> 0 <= ep_avail e <= dueCount Inclusive t (ep_queue e) -> receives t os ->
  Z.of_nat (length (snd (erun e os))) = Z.min (ep_avail e) (receiveCount os).
Proof.
  induction os as [|o os IH]; intros e S A R; [unfold receiveCount; cbn [erun snd length filter]; lia|]. inversion R as [|? ? R1 R2]; subst. destruct o as [m|mode t'|t'|]; try contradiction; cbn [erun estep].
  - assert (A2 : 0 <= ep_avail (addMessage e m) <= dueCount Inclusive t (ep_queue (addMessage e m))).
    { rewrite add_queue by exact S. change (ep_avail (addMessage e m)) with (ep_avail e). unfold dueCount in *. rewrite ins_filter by (try apply mle_trans; exact S).
      destruct (em_time m <=? t); [|exact A]. pose proof (Permutation_length (ins_perm mlt m (filter (fun m0 => em_time m0 <=? t) (ep_queue e)))) as L. cbn [length] in L. lia. }
    specialize (IH (addMessage e m) (estep_ordered e (E_add m) S) A2 R2). destruct (erun (addMessage e m) os) as [e2 ms]. cbn [snd] in *. exact IH.
  - subst t'. pose proof (estep_ordered e (E_receive t) S) as S2. cbn [estep] in S2. unfold getMessage in *.
    assert (RC : receiveCount (E_receive t :: os) = 1 + receiveCount os) by (unfold receiveCount; cbn [filter length]; lia). rewrite RC.
    assert (RP : 0 <= receiveCount os) by (unfold receiveCount; lia).
    destruct (Z.ltb_spec 0 (ep_avail e)) as [P|P].
    + destruct (ep_queue e) as [|x q] eqn:E; [unfold dueCount in A; cbn [filter length] in A; lia|].
      assert (XT : em_time x <= t).
      { destruct (Z.le_gt_cases (em_time x) t) as [L|L]; [exact L|exfalso]. unfold dueCount in A. rewrite filter_none in A; [cbn [length] in A; lia|]. unfold qordered in S. rewrite E in S. inversion S as [|? ? _ F]; subst. rewrite Forall_forall in F.
        intros y [<-|Y]; [lia|]. specialize (F y Y). apply mle_time in F. lia. }
      replace (em_time x <=? t) with true in * by lia. cbn [fst] in S2.
      specialize (IH _ S2). cbn [ep_avail set_ep_queue set_ep_avail ep_queue] in IH. unfold dueCount in A. cbn [filter] in A. replace (em_time x <=? t) with true in A by lia. cbn [length] in A.
      specialize (IH ltac:(unfold dueCount; lia) R2). destruct (erun _ os) as [e2 ms]. cbn [snd length] in *. lia.
    + specialize (IH e S A R2). destruct (erun e os) as [e2 ms]. cbn [snd] in *. lia.
Qed.
Theorem C19_available_messages_can_be_received :
  forall before mode t os, receives t os ->
  let e := endpointAfter (before ++ [E_advance mode t]) in
  Z.of_nat (length (snd (erun e os))) = Z.min (dueCount mode t (ep_queue e)) (receiveCount os).
Proof.
  intros bf mode t os R e. pose proof (after_ordered (bf ++ [E_advance mode t])) as S. fold e in S.
  assert (AE : ep_avail e = dueCount mode t (ep_queue e)).
  { unfold e, endpointAfter. destruct (erun_snoc_gen ep_new bf (E_advance mode t)) as [-> _]. cbn [estep fst]. destruct (update_avail mode (fst (erun ep_new bf)) t (after_ordered bf)) as [-> ->]. reflexivity. }
  rewrite <- AE. apply (receive_run t os e S); [|exact R]. rewrite AE. unfold dueCount. split; [lia|].
  apply inj_le. clear. induction (ep_queue e) as [|x q IH]; [constructor|]. cbn [filter]. destruct mode.
  - destruct (Z.ltb_spec (em_time x) t), (Z.leb_spec (em_time x) t); cbn [length]; lia.
  - reflexivity.
  - reflexivity.
Qed.
Example C19_nonvacuous :
  let e := endpointAfter [E_add (msg1 5 [66] 1); E_add (msg1 3 [65] 2); E_advance UpTo 5] in
  ep_avail e = 1 /\ receives 5 [E_receive 5; E_add (msg1 4 [65] 3); E_receive 5] /\ snd (erun e [E_receive 5; E_add (msg1 4 [65] 3); E_receive 5]) = [msg1 3 [65] 2].
Proof. repeat split. repeat constructor. Qed.

(** ** C31 *)
Definition flagValue (v : Z) : Z := if v =? 0 then 0 else 1.
(** options of an input which hold one switch *)
Definition inputFlags : list Z := [OPT_IGNORE_INTERRUPTS; OPT_ONLY_UPDATE_ON_CHANGE; OPT_CONNECTION_REQUIRED; OPT_CONNECTION_OPTIONAL; OPT_SINGLE_CONNECTION_ONLY; OPT_MULTIPLE_CONNECTIONS_ALLOWED; OPT_STRICT_TYPE_CHECKING].
(** two options which describe the same setting *)
Definition sameSetting (a b : Z) : Prop :=
  a = b \/ (In a [OPT_CONNECTION_REQUIRED; OPT_CONNECTION_OPTIONAL] /\ In b [OPT_CONNECTION_REQUIRED; OPT_CONNECTION_OPTIONAL])
  \/ (In a [OPT_SINGLE_CONNECTION_ONLY; OPT_MULTIPLE_CONNECTIONS_ALLOWED; OPT_CONNECTIONS] /\ In b [OPT_SINGLE_CONNECTION_ONLY; OPT_MULTIPLE_CONNECTIONS_ALLOWED; OPT_CONNECTIONS])
  \/ (In a [OPT_INPUT_PRIORITY_LOCATION; OPT_CLEAR_PRIORITY_LIST] /\ In b [OPT_INPUT_PRIORITY_LOCATION; OPT_CLEAR_PRIORITY_LIST]).
Ltac opts := unfold OPT_CONNECTION_REQUIRED, OPT_CONNECTION_OPTIONAL, OPT_SINGLE_CONNECTION_ONLY, OPT_MULTIPLE_CONNECTIONS_ALLOWED, OPT_BUFFER_DATA, OPT_STRICT_TYPE_CHECKING,
  OPT_RECEIVE_ONLY, OPT_SEND_ONLY, OPT_IGNORE_UNIT_MISMATCH, OPT_ONLY_TRANSMIT_ON_CHANGE, OPT_ONLY_UPDATE_ON_CHANGE, OPT_IGNORE_INTERRUPTS, OPT_INPUT_PRIORITY_LOCATION, OPT_CLEAR_PRIORITY_LIST, OPT_CONNECTIONS, OPT_TIME_RESTRICTED in *.
Theorem C31_input_options_read_back :
  forall i v,
  (forall o, In o inputFlags -> inputGetProperty o (inputSetProperty o v i) = flagValue v) /\
  inputGetProperty OPT_TIME_RESTRICTED (inputSetProperty OPT_TIME_RESTRICTED v i) = v /\
  inputGetProperty OPT_INPUT_PRIORITY_LOCATION (inputSetProperty OPT_INPUT_PRIORITY_LOCATION v i) = v /\
  inputGetProperty OPT_CLEAR_PRIORITY_LIST (inputSetProperty OPT_CLEAR_PRIORITY_LIST v i) = 1.
Proof.
  intros i v. split; [|split; [|split]].
  - intros o H. unfold inputFlags in H. cbn [In] in H. repeat destruct H as [<-|H]; [..|destruct H]; cbn; unfold flagValue, z2b, b2z; destruct (v =? 0); reflexivity.
  - cbn. unfold msTicks. apply Z.div_mul. lia.
  - cbn. rewrite lastOf_snoc. reflexivity.
  - reflexivity.
Qed.
Ltac caseopt := repeat match goal with |- context [if ?x =? ?y then _ else _] => destruct (Z.eqb_spec x y) end.
Theorem C31_input_options_independent :
  forall i a b v, ~ sameSetting a b -> inputGetProperty b (inputSetProperty a v i) = inputGetProperty b i.
Proof.
  intros i a b v N. unfold inputSetProperty.
  repeat match goal with |- context [if a =? ?y then _ else _] => destruct (Z.eqb_spec a y) as [->|] end; try reflexivity;
  unfold inputGetProperty;
  repeat match goal with |- context [if b =? ?y then _ else _] => destruct (Z.eqb_spec b y) as [->|] end; try reflexivity;
  exfalso; apply N; unfold sameSetting; cbn; tauto.
Qed.
(** Two options of an input do not read back: the required number of connections (the actual number is given,
    InputInfo.cpp:571-572) and the unit mismatch switch (InputInfo.cpp:551-589 has no case for it). *)
Theorem C31_input_connections_not_read_back_refuted :
  inputGetProperty OPT_CONNECTIONS (inputSetProperty OPT_CONNECTIONS 3 input_new) = 0 /\
  inputGetProperty OPT_IGNORE_UNIT_MISMATCH (inputSetProperty OPT_IGNORE_UNIT_MISMATCH 1 input_new) = 0.
Proof. split; reflexivity. Qed.

Definition pubFlags : list Z := [OPT_ONLY_TRANSMIT_ON_CHANGE; OPT_CONNECTION_REQUIRED; OPT_CONNECTION_OPTIONAL; OPT_SINGLE_CONNECTION_ONLY; OPT_BUFFER_DATA].
Theorem C31_publication_options_read_back :
  forall p v,
  (forall o, In o pubFlags -> pubGetProperty o (pubSetProperty o v p) = flagValue v) /\
  pubGetProperty OPT_TIME_RESTRICTED (pubSetProperty OPT_TIME_RESTRICTED v p) = v.
Proof.
  intros p v. split.
  - intros o H. unfold pubFlags in H. cbn [In] in H. repeat destruct H as [<-|H]; [..|destruct H]; cbn; unfold flagValue, z2b, b2z; destruct (v =? 0); reflexivity.
  - cbn. unfold msTicks. apply Z.div_mul. lia.
Qed.
Theorem C31_publication_options_independent :
  forall p a b v, ~ sameSetting a b -> pubGetProperty b (pubSetProperty a v p) = pubGetProperty b p.
Proof.
  intros i a b v N. unfold pubSetProperty.
  repeat match goal with |- context [if a =? ?y then _ else _] => destruct (Z.eqb_spec a y) as [->|] end; try reflexivity;
  unfold pubGetProperty;
  repeat match goal with |- context [if b =? ?y then _ else _] => destruct (Z.eqb_spec b y) as [->|] end; try reflexivity;
  exfalso; apply N; unfold sameSetting; cbn; tauto.
Qed.
(** "Multiple connections allowed" is inverted (PublicationInfo.cpp:88-90, EndpointInfo.cpp:370-372):
    allowing several connections reads back as not allowed, and limits the interface to one. *)
Theorem C31_multiple_connections_inverted_refuted :
  forall v, (forall p, pubGetProperty OPT_MULTIPLE_CONNECTIONS_ALLOWED (pubSetProperty OPT_MULTIPLE_CONNECTIONS_ALLOWED v p) = 1 - flagValue v) /\
  (forall e, epGetProperty OPT_MULTIPLE_CONNECTIONS_ALLOWED (epSetProperty OPT_MULTIPLE_CONNECTIONS_ALLOWED v e) = 1 - flagValue v) /\
  (forall p, pubGetProperty OPT_SINGLE_CONNECTION_ONLY (pubSetProperty OPT_MULTIPLE_CONNECTIONS_ALLOWED v p) = flagValue v).
Proof. intros v. repeat split; intros p; cbn; unfold flagValue, z2b, b2z; destruct (v =? 0); reflexivity. Qed.

Definition epFlags : list Z := [OPT_CONNECTION_REQUIRED; OPT_CONNECTION_OPTIONAL; OPT_SEND_ONLY; OPT_RECEIVE_ONLY; OPT_SINGLE_CONNECTION_ONLY].
Theorem C31_endpoint_options_read_back :
  forall e v o, In o epFlags -> epGetProperty o (epSetProperty o v e) = flagValue v.
Proof. intros p v o H. unfold epFlags in H. cbn [In] in H. repeat destruct H as [<-|H]; [..|destruct H]; cbn; unfold flagValue, z2b, b2z; destruct (v =? 0); reflexivity. Qed.
Theorem C31_endpoint_options_independent :
  forall e a b v, ~ sameSetting a b -> epGetProperty b (epSetProperty a v e) = epGetProperty b e.
Proof.
  intros i a b v N. unfold epSetProperty.
  repeat match goal with |- context [if a =? ?y then _ else _] => destruct (Z.eqb_spec a y) as [->|] end; try reflexivity;
  unfold epGetProperty;
  repeat match goal with |- context [if b =? ?y then _ else _] => destruct (Z.eqb_spec b y) as [->|] end; try reflexivity;
  exfalso; apply N; unfold sameSetting; cbn; tauto.
Qed.
Example C31_nonvacuous : ~ sameSetting OPT_TIME_RESTRICTED OPT_ONLY_UPDATE_ON_CHANGE /\ inputGetProperty OPT_TIME_RESTRICTED (inputSetProperty OPT_TIME_RESTRICTED 25 input_new) = 25.
Proof. split; [intros H; unfold sameSetting in H; cbn in H; opts; lia|reflexivity]. Qed.
