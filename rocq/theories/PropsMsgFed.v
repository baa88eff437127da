(** * C53: a message federate hands the due messages to the application, each once and in order *)
From Coq Require Import ZArith Bool List Lia ZifyBool Permutation Sorted.
From Verif Require Import HTime Action StableSort Interfaces InputSpec PropsInput PropsEndpoint MsgFed.
Import ListNotations.
Open Scope Z_scope.

(** ** the specification *)
(** a message is due in a grant *)
Definition due (mode : advance) (t : Z) (m : emsg) : bool := match mode with UpTo => em_time m <? t | _ => em_time m <=? t end.
(** the messages which came for the endpoint [k] *)
Fixpoint cameFor (k : nat) (es : list aevent) : list emsg :=
  match es with [] => [] | A_deliver j m :: r => if Nat.eqb j k then m :: cameFor k r else cameFor k r | _ :: r => cameFor k r end.
(** what the application has read from the endpoint [k] *)
Definition readOf (k : nat) (out : list (nat * emsg)) : list emsg := map snd (filter (fun x => Nat.eqb (fst x) k) out).
Definition after (n : nat) (es : list aevent) : afed := fst (arun n es).
Definition reads (n : nat) (es : list aevent) : list (nat * emsg) := snd (arun n es).
(** what can be read at the endpoint, and what waits in the core for its time *)
Definition readable (s : afed) (k : nat) : list emsg := sl_box (a_slot s k).
Definition waiting (s : afed) (k : nat) : list emsg := ep_queue (sl_ep (a_slot s k)).

(** ** moving one message *)
Definition ok (s : afed) : Prop := forall k, qordered (sl_ep (a_slot s k)).
Lemma atSlot_slot k f s j : a_slot (atSlot k f s) j = if Nat.eqb j k then f (a_slot s k) else a_slot s j. Proof. reflexivity. Qed.
Definition stepped (s s' : afed) (k : nat) (m : emsg) : Prop :=
  a_n s' = a_n s /\ a_time s' = a_time s /\ (k < a_n s)%nat /\ waiting s k = m :: waiting s' k /\ ep_avail (sl_ep (a_slot s k)) = ep_avail (sl_ep (a_slot s' k)) + 1 /\ readable s' k = readable s k
  /\ forall j, j <> k -> a_slot s' j = a_slot s j.
Lemma earliest_spec s : let a := earliest s in fst a <= maxVal /\ (forall k, (k < a_n s)%nat -> fst a <= firstMessageTime (sl_ep (a_slot s k)))
  /\ match snd a with Some k => (k < a_n s)%nat /\ fst a = firstMessageTime (sl_ep (a_slot s k)) /\ fst a < maxVal | None => fst a = maxVal end.
Proof.
  cbv zeta. unfold earliest. assert (G : forall l acc, (fst acc <= maxVal /\ match snd acc with Some k => (k < a_n s)%nat /\ fst acc = firstMessageTime (sl_ep (a_slot s k)) /\ fst acc < maxVal | None => fst acc = maxVal end) -> (forall k, In k l -> (k < a_n s)%nat) ->
    let a := fold_left (fun acc k => let t := firstMessageTime (sl_ep (a_slot s k)) in if t <? fst acc then (t, Some k) else acc) l acc in
    fst a <= fst acc /\ (forall k, In k l -> fst a <= firstMessageTime (sl_ep (a_slot s k))) /\ match snd a with Some k => (k < a_n s)%nat /\ fst a = firstMessageTime (sl_ep (a_slot s k)) /\ fst a < maxVal | None => fst a = maxVal end).
  { induction l as [|k l IH]; intros acc (A1 & A2) L; cbn [fold_left]; [split; [lia|split; [intros k []|exact A2]]|]. cbv zeta. set (t := firstMessageTime (sl_ep (a_slot s k))). destruct (Z.ltb_spec t (fst acc)) as [C|C].
    - destruct (IH (t, Some k)) as (B1 & B2 & B3); [cbn [fst snd]; split; [lia|split; [apply L; left; reflexivity|split; [reflexivity|lia]]]|intros j J; apply L; right; exact J|]. cbn [fst] in B1. split; [lia|]. split; [|exact B3]. intros j [<-|J]; [exact B1|apply B2, J].
    - destruct (IH acc) as (B1 & B2 & B3); [split; assumption|intros j J; apply L; right; exact J|]. split; [exact B1|]. split; [|exact B3]. intros j [<-|J]; [exact (Z.le_trans _ _ _ B1 C)|apply B2, J]. }
  destruct (G (seq 0 (a_n s)) (maxVal, None)) as (A & B & C); [cbn [fst snd]; split; [apply Z.le_refl|reflexivity]|intros k I; apply in_seq in I; lia|]. cbn [fst] in A. split; [exact A|]. split; [|exact C]. intros k L. apply B, in_seq. lia.
Qed.
Lemma receiveAny_spec s : match receiveAny s with (s', Some (k, m)) => stepped s s' k m | (s', None) => a_n s' = a_n s /\ a_time s' = a_time s /\ forall j, sl_ep (a_slot s' j) = sl_ep (a_slot s j) /\ sl_box (a_slot s' j) = sl_box (a_slot s j) end.
Proof.
  unfold receiveAny. destruct (earliest s) as [t [k|]] eqn:E; [|repeat split]. destruct (t <=? a_time s); [|repeat split].
  destruct (earliest_spec s) as (_ & _ & C). rewrite E in C. cbn [fst snd] in C.
  destruct C as (L & Q & B). unfold getMessage. destruct (Z.ltb_spec 0 (ep_avail (sl_ep (a_slot s k)))) as [P|P].
  + destruct (ep_queue (sl_ep (a_slot s k))) as [|m r] eqn:EQ; [unfold firstMessageTime in Q; rewrite EQ in Q; lia|]. destruct (em_time m <=? a_time s).
    * unfold stepped, waiting, readable. rewrite !atSlot_slot, Nat.eqb_refl. cbn. rewrite EQ. repeat split; [exact L|lia|]. intros j N. destruct (Nat.eqb_spec j k); [contradiction|reflexivity].
    * split; [reflexivity|]. split; [reflexivity|]. intros j. rewrite atSlot_slot. destruct (Nat.eqb_spec j k) as [->|N]; split; reflexivity.
  + split; [reflexivity|]. split; [reflexivity|]. intros j. rewrite atSlot_slot. destruct (Nat.eqb_spec j k) as [->|N]; split; reflexivity.
Qed.
Definition push (k : nat) (m : emsg) (s : afed) : afed := atSlot k (fun x => set_sl_box (sl_box x ++ [m]) x) s.
(** nothing gets lost or changes its place while messages are moved *)
Definition flows (s s' : afed) : Prop := a_n s' = a_n s /\ a_time s' = a_time s /\ (ok s -> ok s') /\ forall k, readable s' k ++ waiting s' k = readable s k ++ waiting s k.
Lemma stepped_flows s s' k m : stepped s s' k m -> flows s (push k m s').
Proof.
  intros (N & TM & L & W & AV & R & O). split; [exact N|]. split; [exact TM|]. split.
  - intros K j. unfold push. rewrite atSlot_slot. destruct (Nat.eqb_spec j k) as [->|NE]; [|rewrite (O j NE); apply K]. cbn [sl_ep set_sl_box]. specialize (K k). unfold qordered in *. unfold waiting in W. rewrite W in K. eapply ordered_tail, K.
  - intros j. unfold readable, waiting, push in *. rewrite atSlot_slot. destruct (Nat.eqb_spec j k) as [->|NE]; [|rewrite (O j NE); reflexivity]. cbn. rewrite R, W, <- app_assoc. reflexivity.
Qed.
Lemma flows_trans a b c : flows a b -> flows b c -> flows a c.
Proof. intros (A1 & A2 & A3 & A4) (B1 & B2 & B3 & B4). split; [congruence|]. split; [congruence|]. split; [auto|]. intros k. rewrite B4. apply A4. Qed.
Lemma move_flows n : forall s, flows s (moveMessages n s).
Proof.
  induction n as [|n IH]; intros s; [repeat split; auto|]. cbn [moveMessages]. pose proof (receiveAny_spec s) as R. destruct (receiveAny s) as [s' [[k m]|]].
  - apply (flows_trans s (push k m s')); [apply stepped_flows, R|apply IH].
  - destruct R as (N & TM & J). split; [exact N|]. split; [exact TM|]. split; [intros K k; destruct (J k) as [-> _]; apply K|]. intros k. unfold readable, waiting. destruct (J k) as [-> ->]. reflexivity.
Qed.
Lemma fill_flows mode t s : ok s -> ok (fillEvents mode t s) /\ a_n (fillEvents mode t s) = a_n s /\ forall k, readable (fillEvents mode t s) k = readable s k /\ waiting (fillEvents mode t s) k = waiting s k /\ ep_avail (sl_ep (a_slot (fillEvents mode t s) k)) = dueCount mode t (waiting s k).
Proof.
  intros K. split; [intros k; cbn; apply (estep_ordered (sl_ep (a_slot s k)) (E_advance mode t)), K|]. split; [reflexivity|]. intros k. destruct (update_avail mode (sl_ep (a_slot s k)) t (K k)) as [A B]. cbn. unfold waiting. split; [reflexivity|]. cbn. split; assumption.
Qed.

(** ** a grant *)
Definition total (s : afed) (l : list nat) : Z := fold_left (fun c k => c + ep_avail (sl_ep (a_slot s k))) l 0.
Lemma total_from s l : forall c, fold_left (fun c k => c + ep_avail (sl_ep (a_slot s k))) l c = c + total s l.
Proof. unfold total. induction l as [|k l IH]; intros c; [cbn; lia|]. cbn [fold_left]. rewrite IH, (IH (0 + _)). lia. Qed.
Lemma total_cons s k l : total s (k :: l) = ep_avail (sl_ep (a_slot s k)) + total s l.
Proof. unfold total at 1. cbn [fold_left]. rewrite total_from. lia. Qed.
Lemma total_ext s s' l : (forall k, In k l -> ep_avail (sl_ep (a_slot s' k)) = ep_avail (sl_ep (a_slot s k))) -> total s' l = total s l.
Proof. induction l as [|k l IH]; intros H; [reflexivity|]. rewrite !total_cons, IH, (H k) by (intros; apply H; right; assumption) || (left; reflexivity). reflexivity. Qed.
Lemma total_drop s s' k l : NoDup l -> In k l -> ep_avail (sl_ep (a_slot s k)) = ep_avail (sl_ep (a_slot s' k)) + 1 -> (forall j, j <> k -> ep_avail (sl_ep (a_slot s' j)) = ep_avail (sl_ep (a_slot s j))) -> total s l = total s' l + 1.
Proof.
  intros ND I E O. induction l as [|j l IH]; [destruct I|]. inversion ND as [|j0 l0 NI ND']. subst j0 l0. rewrite !total_cons. destruct I as [->|I].
  - rewrite (total_ext s s' l); [lia|]. intros x X. apply O. intros ->. contradiction.
  - rewrite (O j) by (intros ->; contradiction). rewrite (IH ND' I). lia.
Qed.
Lemma total_pos s l : (forall k, 0 <= ep_avail (sl_ep (a_slot s k))) -> 0 <= total s l.
Proof. intros H. induction l as [|k l IH]; [unfold total; cbn; lia|]. rewrite total_cons. specialize (H k). lia. Qed.
Lemma total_zero s l : (forall k, 0 <= ep_avail (sl_ep (a_slot s k))) -> total s l = 0 -> forall k, In k l -> ep_avail (sl_ep (a_slot s k)) = 0.
Proof. intros H. induction l as [|j l IH]; intros Z k I; [destruct I|]. rewrite total_cons in Z. pose proof (total_pos s l H). pose proof (H j). destruct I as [->|I]; [lia|]. apply IH; [lia|exact I]. Qed.
Lemma total_some s l : 0 < total s l -> exists k, In k l /\ 0 < ep_avail (sl_ep (a_slot s k)).
Proof. induction l as [|j l IH]; [unfold total; cbn; lia|]. rewrite total_cons. intros H. destruct (Z.lt_ge_cases 0 (ep_avail (sl_ep (a_slot s j)))) as [C|C]; [exists j; split; [left; reflexivity|exact C]|]. destruct IH as (k & I & P); [lia|]. exists k. split; [right; exact I|exact P]. Qed.
Lemma filter_nil_all {A} (p : A -> bool) l : filter p l = [] -> filter (fun x => negb (p x)) l = l.
Proof. induction l as [|x l IH]; [reflexivity|]. cbn. destruct (p x) eqn:E; [discriminate|]. cbn. intros H. f_equal. apply IH, H. Qed.
Lemma dueCount_due mode t q : dueCount mode t q = Z.of_nat (length (filter (due mode t) q)).
Proof. reflexivity. Qed.
Lemma head_due mode t m r : ordered mlt (m :: r) -> 0 < dueCount mode t (m :: r) -> due mode t m = true.
Proof.
  intros S P. destruct (due mode t m) eqn:D; [reflexivity|]. exfalso. rewrite dueCount_due, filter_none in P; [cbn in P; lia|]. inversion S as [|? ? _ F]; subst. rewrite Forall_forall in F.
  intros y [<-|Y]; [exact D|]. specialize (F y Y). apply mle_time in F. unfold due in *. destruct mode; lia.
Qed.
(** the loop of updateTime gets every due message out, and it gets nothing else out *)
Lemma move_all mode t n : t < maxVal -> forall s, ok s -> a_time s = t -> (forall k, ep_avail (sl_ep (a_slot s k)) = dueCount mode t (waiting s k)) -> total s (seq 0 (a_n s)) = Z.of_nat n ->
  forall k, (k < a_n s)%nat -> readable (moveMessages n s) k = readable s k ++ filter (due mode t) (waiting s k) /\ waiting (moveMessages n s) k = filter (fun m => negb (due mode t m)) (waiting s k).
Proof.
  intros TM. induction n as [|n IH]; intros s K AT AV SUM k L.
  - cbn [moveMessages]. assert (Z0 : ep_avail (sl_ep (a_slot s k)) = 0) by (apply (total_zero s (seq 0 (a_n s))); [intros j; rewrite AV; unfold dueCount; lia|lia|apply in_seq; lia]).
    rewrite AV, dueCount_due in Z0. assert (E : filter (due mode t) (waiting s k) = []) by (destruct (filter (due mode t) (waiting s k)); [reflexivity|cbn [length] in Z0; lia]). rewrite E, app_nil_r. split; [reflexivity|]. symmetry. apply filter_nil_all, E.
  - cbn [moveMessages]. destruct (total_some s (seq 0 (a_n s)) ltac:(lia)) as (i & I & P). apply in_seq in I.
    (* the endpoint i has a due message *)
    rewrite AV in P. destruct (waiting s i) as [|mi ri] eqn:WI; [unfold dueCount in P; cbn in P; lia|]. pose proof (K i) as Si. unfold qordered in Si. unfold waiting in WI. rewrite WI in Si. pose proof (head_due mode t mi ri Si P) as DI.
    destruct (earliest_spec s) as (_ & MIN & WHO).
    specialize (MIN i ltac:(lia)). unfold firstMessageTime in MIN. rewrite WI in MIN.
    assert (DT : em_time mi <= t) by (unfold due in DI; destruct mode; lia).
    pose proof (receiveAny_spec s) as RS. unfold receiveAny in *. destruct (earliest s) as [te [j|]] eqn:EE; cbn [fst snd] in *; [|lia]. destruct WHO as (LJ & TE & _).
    replace (te <=? a_time s) with true in * by lia.
    destruct (ep_queue (sl_ep (a_slot s j))) as [|mj rj] eqn:WJ; [unfold firstMessageTime in TE; rewrite WJ in TE; lia|]. unfold firstMessageTime in TE. rewrite WJ in TE.
    assert (DJ : due mode t mj = true) by (unfold due in *; destruct mode; lia).
    assert (AJ : 0 < ep_avail (sl_ep (a_slot s j))) by (rewrite AV, dueCount_due; unfold waiting; rewrite WJ; cbn [filter]; rewrite DJ; cbn [length]; lia).
    unfold getMessage in *. replace (0 <? ep_avail (sl_ep (a_slot s j))) with true in * by lia. rewrite WJ in *. replace (em_time mj <=? a_time s) with true in * by lia.
    set (s' := atSlot j _ s) in *. change (atSlot j (fun x => set_sl_box (sl_box x ++ [mj]) x) s') with (push j mj s').
    pose proof (stepped_flows _ _ _ _ RS) as (F1 & F2 & F3 & F4). destruct RS as (_ & _ & _ & W & A1 & R & O).
    assert (WP : forall x, waiting (push j mj s') x = if Nat.eqb x j then rj else waiting s x).
    { intros x. unfold waiting, push. rewrite atSlot_slot. destruct (Nat.eqb_spec x j) as [->|N]; [|rewrite (O x N); reflexivity]. cbn [sl_ep set_sl_box]. unfold waiting in W. rewrite WJ in W. injection W as W. symmetry. exact W. }
    assert (AP : forall x, ep_avail (sl_ep (a_slot (push j mj s') x)) = if Nat.eqb x j then ep_avail (sl_ep (a_slot s j)) - 1 else ep_avail (sl_ep (a_slot s x))).
    { intros x. unfold push. rewrite atSlot_slot. destruct (Nat.eqb_spec x j) as [->|N]; [|rewrite (O x N); reflexivity]. cbn [sl_ep set_sl_box]. lia. }
    assert (RP : forall x, readable (push j mj s') x = if Nat.eqb x j then readable s j ++ [mj] else readable s x).
    { intros x. unfold readable, push. rewrite atSlot_slot. destruct (Nat.eqb_spec x j) as [->|N]; [|rewrite (O x N); reflexivity]. cbn [sl_box set_sl_box]. unfold readable in R. rewrite R. reflexivity. }
    destruct (IH (push j mj s')) with (k := k) as [B1 B2].
    + apply F3, K.
    + congruence.
    + intros x. rewrite AP, WP. destruct (Nat.eqb_spec x j) as [->|N]; [|apply AV]. rewrite AV, !dueCount_due. unfold waiting. rewrite WJ. cbn [filter]. rewrite DJ. cbn [length]. lia.
    + assert (TD : total s (seq 0 (a_n s)) = total (push j mj s') (seq 0 (a_n s)) + 1).
      { apply (total_drop s _ j); [apply seq_NoDup|apply in_seq; lia|rewrite AP, Nat.eqb_refl; lia|]. intros x N. rewrite AP. destruct (Nat.eqb_spec x j); [contradiction|reflexivity]. }
      rewrite F1. lia.
    + rewrite F1. exact L.
    + rewrite B1, B2, RP, WP. destruct (Nat.eqb_spec k j) as [->|N]; [|split; reflexivity]. unfold waiting. rewrite WJ. cbn [filter]. rewrite DJ. cbn [negb]. rewrite <- app_assoc. split; reflexivity.
Qed.

(** ** histories *)
Lemma arun_snoc n es e : arun n (es ++ [e]) = (fst (astep (after n es) e), reads n es ++ match snd (astep (after n es) e) with Some x => [x] | None => [] end).
Proof. unfold after, reads, arun. rewrite fold_left_app. cbn [fold_left]. destruct (fold_left _ es _) as [s out]. cbn [fst snd]. destruct (astep s e) as [s' [x|]]; cbn [fst snd]; rewrite ?app_nil_r; reflexivity. Qed.
Lemma after_snoc n es e : after n (es ++ [e]) = fst (astep (after n es) e). Proof. unfold after at 1. rewrite arun_snoc. reflexivity. Qed.
Lemma reads_snoc n es e : reads n (es ++ [e]) = reads n es ++ match snd (astep (after n es) e) with Some x => [x] | None => [] end. Proof. unfold reads at 1. rewrite arun_snoc. reflexivity. Qed.
Lemma came_app k a b : cameFor k (a ++ b) = cameFor k a ++ cameFor k b.
Proof. induction a as [|e a IH]; [reflexivity|]. destruct e as [j m|mode t|j|]; cbn; try exact IH. destruct (Nat.eqb j k); cbn; rewrite IH; reflexivity. Qed.
Lemma readOf_app k a b : readOf k (a ++ b) = readOf k a ++ readOf k b.
Proof. unfold readOf. rewrite filter_app, map_app. reflexivity. Qed.
(** reading takes the first message of the endpoint *)
Definition took (s s' : afed) (r : option (nat * emsg)) : Prop :=
  a_n s' = a_n s /\ (forall j, sl_ep (a_slot s' j) = sl_ep (a_slot s j)) /\ forall j, readable s j = match r with Some (k, m) => if Nat.eqb k j then [m] else [] | None => [] end ++ readable s' j.
Lemma getFrom_took k s : took s (fst (getFrom k s)) (snd (getFrom k s)).
Proof.
  unfold getFrom. destruct (Nat.ltb k (a_n s)); [|repeat split]. destruct (sl_box (a_slot s k)) as [|m r] eqn:B; [repeat split|]. cbn [fst snd]. split; [reflexivity|]. split.
  - intros j. rewrite atSlot_slot. destruct (Nat.eqb_spec j k) as [->|N]; reflexivity.
  - intros j. unfold readable. rewrite atSlot_slot. rewrite (Nat.eqb_sym k j). destruct (Nat.eqb_spec j k) as [->|N]; [|reflexivity]. cbn. exact B.
Qed.
Lemma getAny_took s : took s (fst (getAny s)) (snd (getAny s)).
Proof. unfold getAny. destruct (find _ _); [apply getFrom_took|repeat split]. Qed.
Lemma grant_flows mode t s : ok s -> a_n (grant mode t s) = a_n s /\ ok (grant mode t s) /\ forall k, readable (grant mode t s) k ++ waiting (grant mode t s) k = readable s k ++ waiting s k.
Proof.
  intros K. destruct (fill_flows mode t s K) as (A & B & C). unfold grant, updateTime. destruct (move_flows (Z.to_nat (receiveCountAny (fillEvents mode t s))) (fillEvents mode t s)) as (D & _ & E & F).
  split; [congruence|]. split; [auto|]. intros k. rewrite F. destruct (C k) as (-> & -> & _). reflexivity.
Qed.
Lemma deliver_slot k m s j : a_slot (deliverTo k m s) j = if Nat.ltb k (a_n s) && Nat.eqb j k then set_sl_ep (addMessage (sl_ep (a_slot s k)) m) (a_slot s k) else a_slot s j.
Proof. unfold deliverTo. destruct (Nat.ltb k (a_n s)); [|reflexivity]. rewrite atSlot_slot. reflexivity. Qed.
Lemma deliver_ok k m s : ok s -> ok (deliverTo k m s).
Proof. intros K j. rewrite deliver_slot. destruct (Nat.ltb k (a_n s) && Nat.eqb j k); [|apply K]. cbn [sl_ep set_sl_ep]. apply (estep_ordered _ (E_add m)), K. Qed.
Lemma took_ok s s' r : took s s' r -> ok s -> ok s'. Proof. intros (_ & E & _) K j. rewrite E. apply K. Qed.
Lemma after_ok n es : ok (after n es) /\ a_n (after n es) = n.
Proof.
  induction es as [|e es [K N]] using rev_ind; [split; [intros k; constructor|reflexivity]|]. rewrite after_snoc. set (s := after n es) in *. destruct e as [k m|mode t|k|]; cbn [astep fst].
  - split; [apply deliver_ok, K|]. unfold deliverTo. destruct (Nat.ltb k (a_n s)); exact N.
  - destruct (grant_flows mode t s K) as (A & B & _). split; [exact B|congruence].
  - pose proof (getFrom_took k s) as T. split; [apply (took_ok _ _ _ T), K|destruct T as (A & _); congruence].
  - pose proof (getAny_took s) as T. split; [apply (took_ok _ _ _ T), K|destruct T as (A & _); congruence].
Qed.
Lemma took_read k s s' r : took s s' r -> readOf k (match r with Some x => [x] | None => [] end) ++ readable s' k = readable s k /\ waiting s' k = waiting s k.
Proof.
  intros (_ & E & R). split; [|unfold waiting; rewrite E; reflexivity]. rewrite R. destruct r as [[j m]|]; [|reflexivity]. unfold readOf. cbn. destruct (Nat.eqb j k); reflexivity.
Qed.
(** each message which comes for an endpoint is read there once, or it can be read, or it waits for its time *)
Theorem C53_each_message_once n es k : (k < n)%nat -> Permutation (readOf k (reads n es) ++ readable (after n es) k ++ waiting (after n es) k) (cameFor k es).
Proof.
  intros L. induction es as [|e es IH] using rev_ind; [constructor|]. rewrite after_snoc, reads_snoc, readOf_app, came_app. destruct (after_ok n es) as [K N]. set (s := after n es) in *. set (R := readOf k (reads n es)) in *.
  assert (TK : forall s' r, took s s' r -> Permutation ((R ++ readOf k (match r with Some x => [x] | None => [] end)) ++ readable s' k ++ waiting s' k) (cameFor k es ++ [])).
  { intros s' r T. destruct (took_read k s s' r T) as [A B]. rewrite B, <- app_assoc, (app_assoc (readOf k _)), A, app_nil_r. exact IH. }
  destruct e as [j m|mode t|j|]; cbn [astep fst snd cameFor].
  - change (readOf k []) with (@nil emsg). rewrite app_nil_r. unfold readable, waiting. rewrite deliver_slot. rewrite (Nat.eqb_sym j k). destruct (Nat.eqb_spec k j) as [<-|NE].
    + replace (Nat.ltb k (a_n s)) with true by (symmetry; apply Nat.ltb_lt; lia). cbn [andb sl_box sl_ep set_sl_ep]. rewrite add_queue by apply K. rewrite <- IH, <- !app_assoc. apply Permutation_app_head. apply Permutation_app_head. rewrite <- ins_perm. apply Permutation_cons_append.
    + rewrite andb_false_r, app_nil_r. exact IH.
  - change (readOf k []) with (@nil emsg). rewrite !app_nil_r. destruct (grant_flows mode t s K) as (_ & _ & F). rewrite F. exact IH.
  - apply TK, getFrom_took.
  - apply TK, getAny_took.
Qed.
(** no message comes which belongs before one that was already handed over (C10) *)
Definition inTime (n k : nat) (es : list aevent) : Prop := forall a m b, es = a ++ A_deliver k m :: b -> forall d, In d (readOf k (reads n a) ++ readable (after n a) k) -> ~ before m d.
Lemma inTime_app n k a b : inTime n k (a ++ b) -> inTime n k a.
Proof. intros H x m y -> d D. apply (H x m (y ++ b)); [rewrite <- app_assoc; reflexivity|exact D]. Qed.
(** then the messages of an endpoint are read by time, those with the same time by original source, and then as they came *)
Theorem C53_read_in_order n es k : (k < n)%nat -> inTime n k es -> readOf k (reads n es) ++ readable (after n es) k ++ waiting (after n es) k = readingOrder (cameFor k es).
Proof.
  intros L. induction es as [|e es IH] using rev_ind; intros IT; [reflexivity|]. specialize (IH (inTime_app _ _ _ _ IT)). rewrite after_snoc, reads_snoc, readOf_app, came_app. destruct (after_ok n es) as [K N].
  assert (ITE : forall m, e = A_deliver k m -> forall d, In d (readOf k (reads n es) ++ readable (after n es) k) -> ~ before m d) by (intros m -> ; apply (IT es m []); reflexivity).
  set (s := after n es) in *. set (R := readOf k (reads n es)) in *. clearbody R.
  assert (TK : forall s' r, took s s' r -> (R ++ readOf k (match r with Some x => [x] | None => [] end)) ++ readable s' k ++ waiting s' k = readingOrder (cameFor k es ++ [])).
  { intros s' r T. destruct (took_read k s s' r T) as [A B]. rewrite B, <- app_assoc, (app_assoc (readOf k _)), A, app_nil_r. exact IH. }
  destruct e as [j m|mode t|j|]; cbn [astep fst snd cameFor].
  - change (readOf k []) with (@nil emsg). rewrite app_nil_r. unfold readable, waiting. rewrite deliver_slot. rewrite (Nat.eqb_sym j k). destruct (Nat.eqb_spec k j) as [<-|NE].
    + replace (Nat.ltb k (a_n s)) with true by (symmetry; apply Nat.ltb_lt; lia). cbn [andb sl_box sl_ep set_sl_ep]. rewrite add_queue by apply K. unfold readingOrder in *. rewrite isort_snoc, <- IH. rewrite !app_assoc. symmetry. apply ins_app. intros d D.
      destruct (mlt m d) eqn:E; [|reflexivity]. exfalso. apply (ITE m eq_refl d D). rewrite mlt_eq in E. unfold before. destruct (blt (em_osrc m) (em_osrc d)); lia.
    + rewrite andb_false_r, app_nil_r. exact IH.
  - change (readOf k []) with (@nil emsg). rewrite !app_nil_r. destruct (grant_flows mode t s K) as (_ & _ & F). rewrite F. exact IH.
  - apply TK, getFrom_took.
  - apply TK, getAny_took.
Qed.
(** a grant makes exactly the due messages readable, at every endpoint *)
Theorem C53_grant_hands_over n es mode t k : (k < n)%nat -> t < maxVal ->
  readable (after n (es ++ [A_grant mode t])) k = readable (after n es) k ++ filter (due mode t) (waiting (after n es) k)
  /\ waiting (after n (es ++ [A_grant mode t])) k = filter (fun m => negb (due mode t m)) (waiting (after n es) k).
Proof.
  intros L TM. rewrite after_snoc. cbn [astep fst]. destruct (after_ok n es) as [K N]. set (s := after n es) in *. clearbody s. destruct (fill_flows mode t s K) as (A & B & C). unfold grant, updateTime.
  assert (TP : 0 <= total (fillEvents mode t s) (seq 0 (a_n (fillEvents mode t s)))) by (apply total_pos; intros j; destruct (C j) as (_ & _ & ->); unfold dueCount; lia).
  destruct (move_all mode t (Z.to_nat (receiveCountAny (fillEvents mode t s))) TM (fillEvents mode t s) A eq_refl) with (k := k) as [D E].
  - intros j. destruct (C j) as (_ & -> & ->). reflexivity.
  - change (receiveCountAny (fillEvents mode t s)) with (total (fillEvents mode t s) (seq 0 (a_n (fillEvents mode t s)))). lia.
  - lia.
  - rewrite D, E. destruct (C k) as (-> & -> & _). split; reflexivity.
Qed.
(** so after a grant nothing which is due is missing: it was read or it can be read *)
Theorem C53_due_messages_are_there n es mode t k m : (k < n)%nat -> t < maxVal -> In m (cameFor k es) -> due mode t m = true ->
  In m (readOf k (reads n es) ++ readable (after n (es ++ [A_grant mode t])) k).
Proof.
  intros L TM I D. destruct (C53_grant_hands_over n es mode t k L TM) as [E _]. rewrite E. pose proof (C53_each_message_once n es k L) as P. apply (Permutation_in _ (Permutation_sym P)) in I. apply in_app_or in I as [I|I]; [apply in_or_app; auto|]. apply in_or_app. right. apply in_app_or in I as [I|I]; apply in_or_app; [auto|]. right. apply filter_In. auto.
Qed.
(** and nothing is handed over early *)
Theorem C53_nothing_early n es mode t k m : (k < n)%nat -> t < maxVal -> In m (readable (after n (es ++ [A_grant mode t])) k) -> In m (readable (after n es) k) \/ em_time m <= t.
Proof.
  intros L TM I. destruct (C53_grant_hands_over n es mode t k L TM) as [E _]. rewrite E in I. apply in_app_or in I as [I|I]; [auto|]. apply filter_In in I as [_ D]. right. unfold due in D. destruct mode; lia.
Qed.

(** ** reading any message *)
Lemma pending_from s l : forall c, fold_left (fun c k => (c + length (sl_box (a_slot s k)))%nat) l c = (c + length (concat (map (readable s) l)))%nat.
Proof. induction l as [|k l IH]; intros c; [cbn; lia|]. cbn [fold_left map concat]. rewrite IH, app_length. unfold readable. lia. Qed.
Lemma pending_spec s : pendingMessageCount s = length (concat (map (readable s) (seq 0 (a_n s)))).
Proof. unfold pendingMessageCount. rewrite pending_from. reflexivity. Qed.
(** hasMessage tells whether there is one, and pendingMessageCount how many there are *)
Theorem C53_counts n es : let s := after n es in
  pendingMessageCount s = length (concat (map (readable s) (seq 0 n))) /\ (hasMessage s = true <-> exists k, (k < n)%nat /\ readable s k <> []).
Proof.
  cbv zeta. destruct (after_ok n es) as [_ N]. set (s := after n es) in *. split; [rewrite pending_spec, N; reflexivity|]. unfold hasMessage. rewrite existsb_exists, N. split.
  - intros (k & I & H). exists k. apply in_seq in I. split; [lia|]. unfold readable. destruct (sl_box (a_slot s k)); [discriminate|congruence].
  - intros (k & L & H). exists k. split; [apply in_seq; lia|]. unfold readable in H. destruct (sl_box (a_slot s k)); [congruence|reflexivity].
Qed.
Definition anyReads (s : afed) (n : nat) : list (nat * emsg) := flat_map (fun k => map (pair k) (readable s k)) (seq 0 n).
(** as documented: all messages of the first endpoint, then all of the second, and so on; and nothing when there is none *)
Theorem C53_any_reads_by_endpoint n es i : let s := after n es in reads n (es ++ repeat A_getAny i) = reads n es ++ firstn i (anyReads s n).
Proof.
  cbv zeta. assert (ONE : forall es, match anyReads (after n es) n with [] => getAny (after n es) = (after n es, None) | x :: r => snd (getAny (after n es)) = Some x /\ anyReads (fst (getAny (after n es))) n = r end).
  { clear. intros es. destruct (after_ok n es) as [_ N]. set (s := after n es) in *. clearbody s. unfold getAny. rewrite N. pose proof (getFrom_took) as GT.
    assert (G : forall l, NoDup l -> (forall k, In k l -> (k < n)%nat) -> match flat_map (fun k => map (pair k) (readable s k)) l with [] => find (fun k => negb (Nat.eqb (length (sl_box (a_slot s k))) 0)) l = None
      | x :: r => exists k, find (fun k => negb (Nat.eqb (length (sl_box (a_slot s k))) 0)) l = Some k /\ snd (getFrom k s) = Some x /\ flat_map (fun k' => map (pair k') (readable (fst (getFrom k s)) k')) l = r end).
    { induction l as [|k l IH]; intros ND LT; [reflexivity|]. inversion ND as [|k0 l0 NI ND']. subst k0 l0. specialize (IH ND' ltac:(intros j J; apply LT; right; exact J)). cbn [flat_map find]. change (sl_box (a_slot s k)) with (readable s k). destruct (readable s k) as [|m r] eqn:B.
      - cbn. destruct (flat_map (fun k0 => map (pair k0) (readable s k0)) l) as [|x r]; [exact IH|]. destruct IH as (j & F & S1 & S2). exists j. split; [exact F|]. split; [exact S1|]. destruct (GT j s) as (_ & _ & R). specialize (R k). rewrite B in R. destruct (readable (fst (getFrom j s)) k); [cbn; exact S2|]. destruct (snd (getFrom j s)) as [[? ?]|]; [destruct (Nat.eqb n0 k)|]; discriminate.
      - cbn. exists k. split; [reflexivity|]. unfold getFrom. rewrite N. replace (Nat.ltb k n) with true by (symmetry; apply Nat.ltb_lt, LT; left; reflexivity). unfold readable in B. rewrite B. cbn [fst snd]. split; [reflexivity|]. unfold readable at 1. rewrite atSlot_slot, Nat.eqb_refl. cbn [sl_box set_sl_box]. f_equal. rewrite !flat_map_concat_map. f_equal. apply map_ext_in. intros j J. unfold readable. rewrite atSlot_slot. destruct (Nat.eqb_spec j k) as [->|NE]; [contradiction|reflexivity]. }
    specialize (G (seq 0 n) (seq_NoDup n 0) ltac:(intros k I; apply in_seq in I; lia)). unfold anyReads in *. destruct (flat_map (fun k => map (pair k) (readable s k)) (seq 0 n)) as [|x r]; [rewrite G; reflexivity|]. destruct G as (k & -> & A & B). split; assumption. }
  revert es. induction i as [|i IH]; intros es; [cbn; rewrite !app_nil_r; reflexivity|]. cbn [repeat]. replace (es ++ A_getAny :: repeat A_getAny i) with ((es ++ [A_getAny]) ++ repeat A_getAny i) by (rewrite <- app_assoc; reflexivity). rewrite IH, reads_snoc, after_snoc. cbn [astep]. specialize (ONE es).
  destruct (anyReads (after n es) n) as [|x r] eqn:E.
  - rewrite ONE. cbn [fst snd]. rewrite E, !firstn_nil, !app_nil_r. reflexivity.
  - destruct ONE as [-> ->]. cbn [firstn]. rewrite <- app_assoc. reflexivity.
Qed.

(** ** Examples *)
Definition exA1 : list aevent := [A_deliver 0 (msg1 5 [66] 1); A_deliver 1 (msg1 3 [65] 2); A_deliver 0 (msg1 5 [65] 3); A_deliver 1 (msg1 9 [65] 4)].
Definition exA2 : list aevent := exA1 ++ [A_grant Inclusive 5; A_getAny; A_get 1; A_deliver 0 (msg1 7 [65] 5)].
Example C53_example :
  readable (after 2 (exA1 ++ [A_grant UpTo 5])) 0 = [] /\ readable (after 2 (exA1 ++ [A_grant UpTo 5])) 1 = [msg1 3 [65] 2]
  /\ readable (after 2 (exA1 ++ [A_grant Inclusive 5])) 0 = [msg1 5 [65] 3; msg1 5 [66] 1] /\ waiting (after 2 (exA1 ++ [A_grant Inclusive 5])) 1 = [msg1 9 [65] 4]
  /\ pendingMessageCount (after 2 (exA1 ++ [A_grant Inclusive 5])) = 3%nat
  /\ reads 2 (exA2 ++ [A_grant Inclusive 10] ++ repeat A_getAny 5) = [(0%nat, msg1 5 [65] 3); (1%nat, msg1 3 [65] 2); (0%nat, msg1 5 [66] 1); (0%nat, msg1 7 [65] 5); (1%nat, msg1 9 [65] 4)]
  /\ inTime 2 0 exA2.
Proof.
  repeat (split; [vm_compute; reflexivity|]). intros a m b E. unfold exA2, exA1 in E. cbn [app] in E.
  intros d D. do 8 (destruct a as [|? a]; [first [discriminate E | injection E as E1 E2; subst m; vm_compute in D; repeat (destruct D as [<-|D]; [intros [B|[B B2]]; vm_compute in B; discriminate|]); destruct D]|injection E as <- E]).
  destruct a; discriminate.
Qed.
(** ** what does not hold *)
(** the documentation of getMessage says "in order of endpoint creation then order of arrival" (MessageFederate.hpp:203): of
    two messages with the same time the one from the source with the smaller name comes first *)
Theorem C53_arrival_order_refuted : ~ (forall n es k t, (k < n)%nat -> inTime n k es -> Forall (fun m => em_time m = t) (cameFor k es) -> exists rest, readOf k (reads n es) ++ rest = cameFor k es).
Proof.
  intros H. destruct (H 1%nat [A_deliver 0 (msg1 5 [66] 1); A_deliver 0 (msg1 5 [65] 2); A_grant Inclusive 5; A_getAny; A_getAny] 0%nat 5) as [rest E].
  - lia.
  - intros x m y E d D. do 2 (destruct x as [|? x]; [injection E as E1 E2; subst m; vm_compute in D; destruct D|injection E as <- E]). do 3 (destruct x as [|? x]; [discriminate E|injection E as <- E]). destruct x; discriminate.
  - repeat constructor.
  - vm_compute in E. discriminate.
Qed.
(** a message for the greatest time is never handed over, although it is counted as available then (FederateState.cpp:319 has
    < where the start value is that time): the bound in C53_grant_hands_over is needed *)
Theorem C53_last_time_refuted : ~ (forall n es mode t k, (k < n)%nat -> t <= maxVal -> waiting (after n (es ++ [A_grant mode t])) k = filter (fun m => negb (due mode t m)) (waiting (after n es) k)).
Proof. intros H. specialize (H 1%nat [A_deliver 0 (msg1 maxVal [65] 1)] Inclusive maxVal 0%nat ltac:(lia) (Z.le_refl _)). vm_compute in H. discriminate. Qed.
