(** * C56: the Player *)
From Coq Require Import ZArith Bool List Lia ZifyBool.
From Verif Require Import PlayerApp.
Import ListNotations.
Open Scope Z_scope.

(** ** the specification *)
Definition published (s : player) : list point := flat_map (fun e => match e with Pub _ _ p => [p] | _ => [] end) (y_out s).
Definition sentOut (s : player) : list mess := flat_map (fun e => match e with Send _ m => [m] | _ => [] end) (y_out s).
(** by time, then iteration *)
Definition before (a b : point) : Prop := pt a < pt b \/ (pt a = pt b /\ pit a <= pit b).
Fixpoint inOrder (l : list point) : Prop := match l with [] => True | p :: r => (forall q, In q r -> before p q) /\ inOrder r end.
Fixpoint inOrderM (l : list mess) : Prop := match l with [] => True | m :: r => (forall q, In q r -> mt m <= mt q) /\ inOrderM r end.
(** time goes on, and a request is granted not before the asked time *)
Definition grants (G : Z -> Z -> Z -> Prop) : Prop := forall now t g, G now t g -> now < g /\ t <= g.
(** and exactly then, when it lies in the future *)
Definition exact (G : Z -> Z -> Z -> Prop) : Prop := grants G /\ forall now t g, G now t g -> now < t -> g = t.

(** ** the loops *)
Lemma take_drop {A} f (l : list A) : takeW f l ++ dropW f l = l.
Proof. induction l as [|x l IH]; [reflexivity|]. cbn. destruct (f x); cbn; congruence. Qed.
Lemma take_in {A} f (l : list A) x : In x (takeW f l) -> f x = true /\ In x l.
Proof. induction l as [|y l IH]; [contradiction|]. cbn. destruct (f y) eqn:E; [|contradiction]. intros [<-|I]; [auto|]. destruct (IH I). auto. Qed.
Lemma drop_in {A} f (l : list A) x : In x (dropW f l) -> In x l.
Proof. induction l as [|y l IH]; [contradiction|]. cbn. destruct (f y); auto. Qed.
Lemma drop_head {A} f (l : list A) x r : dropW f l = x :: r -> f x = false.
Proof. induction l as [|y l IH]; [discriminate|]. cbn. destruct (f y) eqn:E; [exact IH|]. intros H. injection H as <- _. exact E. Qed.
Lemma drop_none {A} f (l : list A) : (forall x, In x l -> f x = false) -> dropW f l = l /\ takeW f l = [].
Proof. destruct l as [|x l]; [split; reflexivity|]. intros H. cbn. rewrite (H x (or_introl eq_refl)). split; reflexivity. Qed.
Lemma order_app a b : inOrder (a ++ b) -> inOrder b.
Proof. induction a as [|x a IH]; [auto|]. cbn. intros [_ H]. apply IH, H. Qed.
Lemma orderM_app a b : inOrderM (a ++ b) -> inOrderM b.
Proof. induction a as [|x a IH]; [auto|]. cbn. intros [_ H]. apply IH, H. Qed.
Lemma order_drop f l : inOrder l -> inOrder (dropW f l).
Proof. intros H. rewrite <- (take_drop f l) in H. apply order_app in H. exact H. Qed.
Lemma orderM_drop f l : inOrderM l -> inOrderM (dropW f l).
Proof. intros H. rewrite <- (take_drop f l) in H. apply orderM_app in H. exact H. Qed.
Lemma order_head p r q : inOrder (p :: r) -> In q (p :: r) -> before p q.
Proof. intros [H _] [<-|I]; [right; lia|apply H, I]. Qed.
Lemma orderM_head p r q : inOrderM (p :: r) -> In q (p :: r) -> mt p <= mt q.
Proof. intros [H _] [<-|I]; [lia|apply H, I]. Qed.
Lemma published_send t it s : published (sendInformation t it s) ++ y_points (sendInformation t it s) = published s ++ y_points s.
Proof.
  unfold published, sendInformation. cbn [y_out y_points]. rewrite !flat_map_app. assert (A : forall n i l, flat_map (fun e => match e with Pub _ _ p => [p] | _ => [] end) (map (Pub n i) l) = l) by (intros n i l; induction l; cbn; congruence).
  assert (B : forall n l, flat_map (fun e => match e with Pub _ _ p => [p] | _ => [] end) (map (Send n) l) = []) by (intros n l; induction l; cbn; congruence).
  rewrite A, B, app_nil_r, <- !app_assoc. f_equal. rewrite take_drop. apply take_drop.
Qed.
Lemma sent_send t it s : sentOut (sendInformation t it s) ++ y_messages (sendInformation t it s) = sentOut s ++ y_messages s.
Proof.
  unfold sentOut, sendInformation. cbn [y_out y_messages]. rewrite !flat_map_app. assert (A : forall n l, flat_map (fun e => match e with Send _ p => [p] | _ => [] end) (map (Send n) l) = l) by (intros n l; induction l; cbn; congruence).
  assert (B : forall n i l, flat_map (fun e => match e with Send _ p => [p] | _ => [] end) (map (Pub n i) l) = []) by (intros n i l; induction l; cbn; congruence).
  rewrite A, B. cbn [app]. rewrite <- !app_assoc. f_equal. apply take_drop.
Qed.
(** an invariant: nothing is lost, the lists stay ordered, nothing was early *)
Definition onlyLate (e : event) : Prop := match e with Pub now _ p => pt p <= now | Send now m => mt m <= now end.
Definition good ps ms (s : player) : Prop :=
  published s ++ y_points s = ps /\ sentOut s ++ y_messages s = ms /\ Forall onlyLate (y_out s).
Lemma good_send ps ms t it s : good ps ms s -> t <= y_now s -> good ps ms (sendInformation t it s).
Proof.
  intros (A & B & C) T. split; [rewrite published_send; exact A|]. split; [rewrite sent_send; exact B|]. unfold sendInformation. cbn [y_out]. apply Forall_app. split; [exact C|]. apply Forall_app. split; apply Forall_forall; intros e I; apply in_map_iff in I as (x & <- & I); cbn.
  - apply in_app_or in I as [I|I]; apply take_in in I as [E _]; lia.
  - apply take_in in I as [E _]. lia.
Qed.
Lemma good_at ps ms g s : good ps ms s -> good ps ms (at_ g s). Proof. intros H. exact H. Qed.
Lemma good_start ps ms : good ps ms (startUp ps ms).
Proof. unfold startUp. apply good_send; [|cbn; lia]. apply good_at, good_send; [|cbn; unfold initTime; lia]. repeat split; constructor. Qed.
Lemma nextSend_le s : (forall p, In p (y_points s) -> pt p < maxTime) -> (forall m, In m (y_messages s) -> mt m < maxTime) -> inOrder (y_points s) -> inOrderM (y_messages s) ->
  (fst (nextSend s) = maxTime -> y_points s = [] /\ y_messages s = []) /\ (forall p, In p (y_points s) -> fst (nextSend s) <= pt p) /\ (forall m, In m (y_messages s) -> fst (nextSend s) <= mt m).
Proof.
  intros P M O OM. unfold nextSend. destruct (y_points s) as [|p r], (y_messages s) as [|m k]; cbn [fst].
  - repeat split; try contradiction.
  - repeat split; try contradiction; [specialize (M m (or_introl eq_refl)); lia|]. intros q I. pose proof (orderM_head m k q OM I). lia.
  - repeat split; try contradiction; [specialize (P p (or_introl eq_refl)); lia|]. intros q I. pose proof (order_head p r q O I) as [H|[H _]]; lia.
  - repeat split; [specialize (P p (or_introl eq_refl)); specialize (M m (or_introl eq_refl)); lia|specialize (P p (or_introl eq_refl)); specialize (M m (or_introl eq_refl)); lia| |].
    + intros q I. pose proof (order_head p r q O I) as [H|[H _]]; lia.
    + intros q I. pose proof (orderM_head m k q OM I). lia.
Qed.
Definition tidy (s : player) : Prop := inOrder (y_points s) /\ inOrderM (y_messages s) /\ (forall p, In p (y_points s) -> pt p < maxTime) /\ (forall m, In m (y_messages s) -> mt m < maxTime).
Lemma tidy_send t it s : tidy s -> tidy (sendInformation t it s).
Proof.
  intros (A & B & C & D). unfold tidy, sendInformation. cbn [y_points y_messages]. split; [apply order_drop, order_drop, A|]. split; [apply orderM_drop, B|]. split; intros x I.
  - apply C. apply drop_in in I. apply drop_in in I. exact I.
  - apply D. apply drop_in in I. exact I.
Qed.
Lemma loop_good G stop ps ms (GR : grants G) s it s' : loop G stop s it s' -> good ps ms s -> good ps ms s'.
Proof.
  induction 1 as [|s it H1 H2|s it g s' H1 H2 H3 H4 L IH|s it s' H1 H2 H3 L IH]; intros GD; auto.
  - apply IH. apply good_send; [apply good_at, GD|cbn; lia].
  - apply IH. apply good_send; [exact GD|]. lia.
Qed.
Lemma loop_tidy G stop s it s' : loop G stop s it s' -> tidy s -> tidy s' /\ (forall p, In p (y_points s') -> stop < pt p) /\ (forall m, In m (y_messages s') -> stop < mt m).
Proof.
  induction 1 as [s it H|s it H1 H2|s it g s' H1 H2 H3 H4 L IH|s it s' H1 H2 H3 L IH]; intros T.
  - split; [exact T|]. destruct T as (A & B & C & D). destruct (nextSend_le s C D A B) as (E & _). destruct (E H) as [-> ->]. split; contradiction.
  - split; [exact T|]. destruct T as (A & B & C & D). destruct (nextSend_le s C D A B) as (_ & E & F). split; intros x I; [specialize (E x I)|specialize (F x I)]; lia.
  - apply IH, tidy_send. exact T.
  - apply IH, tidy_send, T.
Qed.
Lemma finish_good G stop ps ms s s' : finish G stop s s' -> y_points s' = y_points s /\ y_messages s' = y_messages s /\ y_out s' = y_out s /\ stop <= y_now s' /\ (good ps ms s -> good ps ms s').
Proof. induction 1 as [s H|s g s' H1 H2 F (A & B & C & D & E)]; [auto 10|]. repeat split; try assumption; apply E; exact H. Qed.
Lemma tidy_start ps ms : inOrder ps -> inOrderM ms -> (forall p, In p ps -> pt p < maxTime) -> (forall m, In m ms -> mt m < maxTime) -> tidy (startUp ps ms).
Proof. intros A B C D. unfold startUp. apply tidy_send. apply (tidy_send (-1) 0 (mkPlayer ps ms initTime [])). repeat split; assumption. Qed.

(** one run: everything up to the stop time is published and sent, each once and in order, and nothing before its time *)
Theorem C56_one_run G ps ms stop s : grants G -> inOrder ps -> inOrderM ms -> (forall p, In p ps -> pt p < maxTime) -> (forall m, In m ms -> mt m < maxTime) -> runs G ps ms [stop] s ->
  (exists restP, published s ++ restP = ps /\ forall p, In p restP -> stop < pt p) /\ (exists restM, sentOut s ++ restM = ms /\ forall m, In m restM -> stop < mt m) /\ Forall onlyLate (y_out s).
Proof.
  intros GR OP OM CP CM R. inversion R as [stop' s'' (s1 & L & F) E1 E2|stops s0 stop' s'' R0 N E1 E2]; subst.
  - pose proof (loop_good G stop ps ms GR _ _ _ L (good_start ps ms)) as GD. destruct (loop_tidy _ _ _ _ _ L (tidy_start ps ms OP OM CP CM)) as (_ & A & B). destruct (finish_good G stop ps ms _ _ F) as (X & Y & Z0 & _ & K). destruct (K GD) as (P1 & P2 & P3). split; [|split; [|exact P3]].
    + exists (y_points s). split; [exact P1|]. rewrite X. exact A.
    + exists (y_messages s). split; [exact P2|]. rewrite Y. exact B.
  - destruct stops as [|x stops]; [inversion R0 as [|stops' s2 st s3 R1 N1 E3 E4]; subst; destruct stops'; discriminate|]. destruct stops; discriminate.
Qed.

(** ** on time *)
Definition onTime (e : event) : Prop := match e with Pub now it p => pt p = now /\ pit p = it | Send now m => mt m = now end.
(** what remains at time t after iteration it *)
Definition later (t it : Z) (p : point) : Prop := t < pt p \/ (pt p = t /\ it < pit p).
Lemma send_onTime it s : inOrder (y_points s) -> inOrderM (y_messages s) -> Forall onTime (y_out s) -> (forall p, In p (y_points s) -> y_now s < pt p \/ (pt p = y_now s /\ it <= pit p)) -> (forall m, In m (y_messages s) -> y_now s <= mt m) ->
  let s' := sendInformation (y_now s) it s in Forall onTime (y_out s') /\ (forall p, In p (y_points s') -> later (y_now s) it p) /\ (forall m, In m (y_messages s') -> y_now s < mt m).
Proof.
  intros O OM F P M. unfold sendInformation. cbv zeta. cbn [y_out y_points y_messages]. set (t := y_now s) in *.
  destruct (drop_none (fun p => pt p <? t) (y_points s)) as [-> ->]. { intros p I. destruct (P p I) as [H|[H _]]; lia. }
  set (due := fun p => (pt p =? t) && (pit p =? it)). split; [|split].
  - apply Forall_app. split; [exact F|]. apply Forall_app. split; apply Forall_forall; intros e I; apply in_map_iff in I as (x & <- & I).
    + cbn [app] in I. apply take_in in I as [E _]. unfold due in E. cbn. lia.
    + apply take_in in I as [E I]. specialize (M x I). cbn. lia.
  - intros p I. pose proof (order_drop due _ O) as OD. destruct (dropW due (y_points s)) as [|x r] eqn:E; [contradiction|]. pose proof (drop_head _ _ _ _ E) as X. pose proof (order_head x r p OD I) as B.
    assert (IX : In x (y_points s)) by (apply (drop_in due); rewrite E; left; reflexivity). pose proof (P x IX) as PX. unfold due in X. unfold later, before in *. lia.
  - intros m I. pose proof (orderM_drop (fun m => mt m <=? t) _ OM) as OD. destruct (dropW _ (y_messages s)) as [|x r] eqn:E; [contradiction|]. pose proof (drop_head _ _ _ _ E) as X. pose proof (orderM_head x r m OD I). cbn in X. lia.
Qed.
Lemma start_onTime ps ms : inOrder ps -> inOrderM ms -> (forall p, In p ps -> 0 <= pt p /\ 0 <= pit p) -> (forall m, In m ms -> 0 <= mt m) ->
  let s := startUp ps ms in y_now s = 0 /\ Forall onTime (y_out s) /\ (forall p, In p (y_points s) -> later 0 0 p) /\ (forall m, In m (y_messages s) -> 0 < mt m).
Proof.
  intros O OM P M. cbv zeta. split; [reflexivity|]. unfold startUp.
  assert (E : sendInformation (-1) 0 (mkPlayer ps ms initTime []) = mkPlayer ps ms initTime []).
  { unfold sendInformation. cbn [y_points y_messages y_now y_out app]. destruct (drop_none (fun p => pt p <? -1) ps) as [-> ->]; [intros p I; destruct (P p I); lia|]. destruct (drop_none (fun p => (pt p =? -1) && (pit p =? 0)) ps) as [-> ->]; [intros p I; destruct (P p I); lia|]. destruct (drop_none (fun m => mt m <=? -1) ms) as [-> ->]; [intros m I; specialize (M m I); lia|]. reflexivity. }
  rewrite E. apply (send_onTime 0 (at_ 0 (mkPlayer ps ms initTime []))); cbn [at_ y_points y_messages y_out y_now]; auto. intros p I. destruct (P p I). lia.
Qed.
(** *** points with iterations, no messages *)
Lemma loop_iterations G stop (EX : exact G) s it s' : loop G stop s it s' -> tidy s -> y_messages s = [] -> 0 <= it -> (forall p, In p (y_points s) -> 0 <= pit p) -> Forall onTime (y_out s) -> (forall p, In p (y_points s) -> later (y_now s) it p) -> Forall onTime (y_out s').
Proof.
  destruct EX as [GR EX]. induction 1 as [s it H|s it H1 H2|s it g s' H1 H2 H3 H4 L IH|s it s' H1 H2 H3 L IH]; intros T N I0 NN F P; auto.
  - destruct T as (OP & OM & CP & CM). unfold nextSend in *. rewrite N in *. destruct (y_points s) as [|p r] eqn:E; [destruct H1; reflexivity|]. cbn [fst snd] in *. pose proof (CP p (or_introl eq_refl)) as PM. replace (Z.min maxTime (pt p)) with (pt p) in * by lia.
    assert (NP : y_now s < pt p). { destruct (P p (or_introl eq_refl)) as [H|[H H']]; [exact H|]. destruct H3 as [H3|H3]; lia. }
    pose proof (EX _ _ _ H4 NP) as ->.
    destruct (send_onTime 0 (at_ (pt p) s)) as (A & B & C); cbn [at_ y_points y_messages y_now y_out]; rewrite ?N, ?E; auto.
    { intros q I. specialize (NN q I). pose proof (order_head p r q OP I) as [K|[K K']]; lia. }
    { intros m []. }
    apply IH; try assumption; try lia.
    + apply tidy_send. unfold tidy. cbn [at_ y_points y_messages]. rewrite N, E. auto.
    + unfold sendInformation. cbn [y_messages at_]. rewrite N. reflexivity.
    + intros q I. apply NN. rewrite <- E. unfold sendInformation in I. cbn [y_points at_] in I. apply drop_in in I. apply drop_in in I. exact I.
  - pose proof T as (OP & OM & CP & CM). unfold nextSend in *. rewrite N in *. destruct (y_points s) as [|p r] eqn:E; [destruct H1; reflexivity|]. cbn [fst snd] in *. pose proof (CP p (or_introl eq_refl)) as PM. replace (Z.min maxTime (pt p)) with (pt p) in * by lia.
    assert (NP : pt p = y_now s). { destruct (P p (or_introl eq_refl)) as [H|[H H']]; lia. }
    rewrite NP in *. destruct (send_onTime (it + 1) s) as (A & B & C); rewrite ?N, ?E; auto.
    { intros q I. destruct (P q I) as [Q|[Q Q']]; lia. }
    { intros m []. }
    apply IH; try assumption; try lia.
    + apply tidy_send, T.
    + unfold sendInformation. cbn [y_messages at_]. rewrite N. reflexivity.
    + intros q I. apply NN. rewrite <- E. unfold sendInformation in I. cbn [y_points at_] in I. apply drop_in in I. apply drop_in in I. exact I.
Qed.
(** a player without messages publishes every point at its time and its iteration *)
Theorem C56_iterations_on_time G ps stop s : exact G -> inOrder ps -> (forall p, In p ps -> 0 <= pt p < maxTime /\ 0 <= pit p) -> runs G ps [] [stop] s -> Forall onTime (y_out s).
Proof.
  intros EX O P R. inversion R as [stop' s'' (s1 & L & F) E1 E2|stops s0 stop' s'' R0 N E1 E2]; subst.
  - destruct (start_onTime ps [] O I) as (A & B & C & _); [intros p Hp; destruct (P p Hp); lia|intros m []|].
    destruct (finish_good G stop ps [] _ _ F) as (_ & _ & -> & _). refine (loop_iterations G stop EX _ _ _ L _ _ _ _ B _).
    + apply tidy_start; auto; [exact I|intros p Hp; apply P, Hp|intros m []].
    + reflexivity.
    + lia.
    + intros p Hp. assert (In p ps); [|apply P; assumption]. unfold startUp, sendInformation in Hp. cbn [y_points at_] in Hp. do 4 apply drop_in in Hp. exact Hp.
    + rewrite A. exact C.
  - destruct stops as [|x stops]; [inversion R0 as [|stops' s2 st s3 R1 N1 E3 E4]; subst; destruct stops'; discriminate|]. destruct stops; discriminate.
Qed.
(** *** points of iteration 0 and messages, any number of runs *)
Definition ahead (s : player) : Prop := 0 <= y_now s /\ Forall onTime (y_out s) /\ (forall p, In p (y_points s) -> y_now s < pt p /\ pit p = 0) /\ (forall m, In m (y_messages s) -> y_now s < mt m).
Lemma next_cases s : fst (nextSend s) <> maxTime -> (exists p, In p (y_points s) /\ pt p = fst (nextSend s)) \/ (exists m, In m (y_messages s) /\ mt m = fst (nextSend s)).
Proof.
  unfold nextSend. destruct (y_points s) as [|p r], (y_messages s) as [|m k]; cbn [fst]; intros H; [lia| | |].
  - right. exists m. split; [left; reflexivity|lia].
  - left. exists p. split; [left; reflexivity|lia].
  - destruct (Z.le_gt_cases (pt p) (mt m)); [left; exists p|right; exists m]; (split; [left; reflexivity|lia]).
Qed.
Lemma loop_ahead G stop (EX : exact G) s it s' : loop G stop s it s' -> tidy s -> ahead s -> ahead s' /\ y_now s <= y_now s'.
Proof.
  destruct EX as [GR EX]. induction 1 as [s it H|s it H1 H2|s it g s' H1 H2 H3 H4 L IH|s it s' H1 H2 H3 L IH]; intros T A; try (split; [exact A|lia]).
  - pose proof T as (OP & OM & CP & CM). destruct A as (A0 & A1 & A2 & A3). assert (NP : y_now s < fst (nextSend s)). { destruct (next_cases s H1) as [(p & Ip & E)|(m & Im & E)]; rewrite <- E; [apply A2, Ip|apply A3, Im]. }
    pose proof (EX _ _ _ H4 NP) as ->. destruct (nextSend_le s CP CM OP OM) as (_ & LP & LM). set (t := fst (nextSend s)) in *.
    destruct (send_onTime 0 (at_ t s)) as (B & C & D); cbn [at_ y_points y_messages y_now y_out]; auto.
    { intros q Iq. destruct (A2 q Iq). specialize (LP q Iq). lia. }
    destruct IH as [B1 B2]; [apply tidy_send; exact T| |split; [exact B1|cbn [sendInformation y_now at_] in B2; lia]].
    split; [cbn [sendInformation y_now at_]; lia|]. split; [exact B|]. split; [|exact D]. intros p Ip. cbn [sendInformation y_now at_]. assert (In p (y_points s)) by (unfold sendInformation in Ip; cbn [y_points at_] in Ip; do 2 apply drop_in in Ip; exact Ip). destruct (A2 p H) as [_ Z0]. specialize (C p Ip). unfold later in C. cbn [at_ y_now] in C. lia.
  - destruct H3. right. destruct A as (A0 & A1 & A2 & A3). destruct (next_cases s H1) as [(p & Ip & E)|(m & Im & E)]; rewrite <- E; [apply A2, Ip|apply A3, Im].
Qed.
Lemma finish_ahead G stop (EX : exact G) s s' : finish G stop s s' -> ahead s -> (forall p, In p (y_points s) -> stop < pt p) -> (forall m, In m (y_messages s) -> stop < mt m) -> ahead s' /\ y_now s <= y_now s'.
Proof.
  destruct EX as [GR EX]. induction 1 as [s H|s g s' H1 H2 F IH]; intros A P M; [split; [exact A|lia]|]. pose proof (EX _ _ _ H2 H1) as ->. destruct A as (A0 & A1 & A2 & A3). destruct IH as [B1 B2]; [|exact P|exact M|split; [exact B1|cbn [at_ y_now] in B2; lia]].
  split; [cbn; lia|]. split; [exact A1|]. split; [|exact M]. intros p Ip. split; [apply P, Ip|apply A2, Ip].
Qed.
Lemma skip_ahead s : ahead s -> skipOld s = s.
Proof.
  intros (_ & _ & P & M). unfold skipOld. destruct (drop_none (fun p => pt p <=? y_now s) (y_points s)) as [-> _]; [intros p Ip; destruct (P p Ip); lia|]. destruct (drop_none (fun m => mt m <=? y_now s) (y_messages s)) as [-> _]; [intros m Im; specialize (M m Im); lia|]. destruct s. reflexivity.
Qed.
Lemma tidy_skip G stop s1 s s' : tidy s1 -> finish G stop s1 s -> skipOld s = s' -> s = s' -> tidy s'.
Proof. intros T F _ <-. destruct (finish_good G stop [] [] _ _ F) as (A & B & _). unfold tidy. rewrite A, B. exact T. Qed.
(** points of iteration 0 and messages go out exactly at their times, each once, over any number of runs, up to the last stop *)
Theorem C56_all_runs G ps ms stops s : exact G -> inOrder ps -> inOrderM ms -> (forall p, In p ps -> 0 <= pt p < maxTime /\ pit p = 0) -> (forall m, In m ms -> 0 <= mt m < maxTime) -> runs G ps ms stops s ->
  Forall onTime (y_out s) /\ (exists restP, published s ++ restP = ps /\ forall p stop, In p restP -> In stop stops -> stop < pt p) /\ (exists restM, sentOut s ++ restM = ms /\ forall m stop, In m restM -> In stop stops -> stop < mt m).
Proof.
  intros EX OP OM P M R. assert (G0 : good ps ms s /\ tidy s /\ ahead s /\ forall stop, In stop stops -> stop <= y_now s).
  { pose proof EX as [GR _]. induction R as [stop s (s1 & L & F)|stops s stop s' R (GD & TD & AH & ST) (s1 & L & F)].
    - pose proof (tidy_start ps ms OP OM (fun p Hp => proj2 (proj1 (P p Hp))) (fun m Hm => proj2 (M m Hm))) as TD.
      destruct (start_onTime ps ms OP OM) as (A & B & C & D); [intros p Hp; destruct (P p Hp); lia|intros m Hm; apply M, Hm|].
      assert (AH : ahead (startUp ps ms)).
      { split; [rewrite A; lia|]. split; [exact B|]. rewrite A. split; [|exact D]. intros p Hp. assert (In p ps) by (unfold startUp, sendInformation in Hp; cbn [y_points at_] in Hp; do 4 apply drop_in in Hp; exact Hp). destruct (P p H) as [_ Z0]. specialize (C p Hp). unfold later in C. lia. }
      destruct (loop_tidy _ _ _ _ _ L TD) as (TD1 & R1 & R2). destruct (loop_ahead G stop EX _ _ _ L TD AH) as [AH1 _]. destruct (finish_ahead G stop EX _ _ F AH1 R1 R2) as [AH2 _]. destruct (finish_good G stop ps ms _ _ F) as (X & Y & _ & SN & K).
      split; [apply K, (loop_good G stop ps ms GR _ _ _ L), good_start|]. split; [unfold tidy; rewrite X, Y; exact TD1|]. split; [exact AH2|]. intros st [<-|[]]. exact SN.
    - rewrite (skip_ahead s AH) in L. destruct (loop_tidy _ _ _ _ _ L TD) as (TD1 & R1 & R2). destruct (loop_ahead G stop EX _ _ _ L TD AH) as [AH1 N1]. destruct (finish_ahead G stop EX _ _ F AH1 R1 R2) as [AH2 N2]. destruct (finish_good G stop ps ms _ _ F) as (X & Y & _ & SN & K).
      split; [apply K, (loop_good G stop ps ms GR _ _ _ L), GD|]. split; [unfold tidy; rewrite X, Y; exact TD1|]. split; [exact AH2|]. intros st I0. apply in_app_or in I0 as [I0|[<-|[]]]; [specialize (ST st I0); lia|exact SN]. }
  destruct G0 as ((P1 & P2 & _) & _ & (_ & A1 & A2 & A3) & ST). split; [exact A1|]. split.
  - exists (y_points s). split; [exact P1|]. intros p stop Ip Is. specialize (ST stop Is). destruct (A2 p Ip). lia.
  - exists (y_messages s). split; [exact P2|]. intros m stop Im Is. specialize (ST stop Is). specialize (A3 m Im). lia.
Qed.

(** ** every run ends *)
Lemma order_ge t l x : inOrder l -> In x (dropW (fun p => pt p <? t) l) -> t <= pt x.
Proof. intros O Ix. pose proof (order_drop (fun p => pt p <? t) l O) as OD. destruct (dropW _ l) as [|h r] eqn:E; [contradiction|]. pose proof (drop_head _ _ _ _ E) as H. cbn in H. destruct (order_head h r x OD Ix) as [B|[B _]]; lia. Qed.
Lemma send_later t it s p : inOrder (y_points s) -> (forall q, In q (y_points s) -> pt q = t -> it <= pit q) -> In p (y_points (sendInformation t it s)) -> later t it p.
Proof.
  intros O P Ip. unfold sendInformation in Ip. cbn [y_points] in Ip. pose proof (order_drop (fun p => pt p <? t) _ O) as O1. set (due := fun p => (pt p =? t) && (pit p =? it)) in *. pose proof (order_drop due _ O1) as O2.
  destruct (dropW due _) as [|x r] eqn:E; [contradiction|]. pose proof (drop_head _ _ _ _ E) as X. assert (Ix : In x (dropW (fun p => pt p <? t) (y_points s))) by (apply (drop_in due); rewrite E; left; reflexivity).
  pose proof (order_ge t _ x O Ix) as GE. apply drop_in in Ix. specialize (P x Ix). pose proof (order_head x r p O2 Ip) as B. unfold due in X. unfold later, before in *. lia.
Qed.
Lemma drop_length {A} f (l : list A) : (length (dropW f l) <= length l)%nat.
Proof. induction l as [|x l IH]; [reflexivity|]. cbn. destruct (f x); cbn; lia. Qed.
Lemma drop_shorter {A} f (x : A) l : f x = true -> (length (dropW f (x :: l)) < length (x :: l))%nat.
Proof. intros H. cbn [dropW]. rewrite H. pose proof (drop_length f l). cbn [length]. lia. Qed.
Definition left_ (s : player) : nat := (length (y_points s) + length (y_messages s))%nat.
Lemma send_left t it s : (left_ (sendInformation t it s) <= left_ s)%nat.
Proof. unfold left_, sendInformation. cbn [y_points y_messages]. pose proof (drop_length (fun m => mt m <=? t) (y_messages s)). pose proof (drop_length (fun p => pt p <? t) (y_points s)). pose proof (drop_length (fun p => (pt p =? t) && (pit p =? it)) (dropW (fun p => pt p <? t) (y_points s))). lia. Qed.
(** a message or a point which is due is sent *)
Lemma send_message t it s m k : y_messages s = m :: k -> mt m <= t -> (left_ (sendInformation t it s) < left_ s)%nat.
Proof.
  intros E H. unfold left_, sendInformation. cbn [y_points y_messages]. rewrite E. pose proof (drop_shorter (fun m => mt m <=? t) m k ltac:(cbn; lia)). pose proof (drop_length (fun p => pt p <? t) (y_points s)). pose proof (drop_length (fun p => (pt p =? t) && (pit p =? it)) (dropW (fun p => pt p <? t) (y_points s))). lia.
Qed.
Lemma send_point t it s p r : y_points s = p :: r -> pt p < t \/ (pt p = t /\ pit p = it) -> (left_ (sendInformation t it s) < left_ s)%nat.
Proof.
  intros E H. unfold left_, sendInformation. cbn [y_points y_messages]. rewrite E. pose proof (drop_length (fun m => mt m <=? t) (y_messages s)). set (due := fun p => (pt p =? t) && (pit p =? it)). destruct (Z.ltb_spec (pt p) t) as [L|L].
  - pose proof (drop_shorter (fun p => pt p <? t) p r ltac:(cbn; lia)). pose proof (drop_length due (dropW (fun p => pt p <? t) (p :: r))). lia.
  - replace (dropW (fun p => pt p <? t) (p :: r)) with (p :: r) by (cbn; replace (pt p <? t) with false by lia; reflexivity). pose proof (drop_shorter due p r ltac:(unfold due; lia)). lia.
Qed.
Lemma in_send t it s p : In p (y_points (sendInformation t it s)) -> In p (y_points s).
Proof. unfold sendInformation. cbn [y_points]. intros H. do 2 apply drop_in in H. exact H. Qed.
Lemma loop_ends G stop (GR : grants G) (TOT : forall now t, exists g, G now t g) : forall n s it, (left_ s < n)%nat -> tidy s -> 0 <= it -> (forall p, In p (y_points s) -> 0 <= pit p /\ later (y_now s) it p) -> exists s', loop G stop s it s'.
Proof.
  induction n as [|n IHn]; intros s it LN T I0 P; [lia|].
  (* an iteration of the same time *)
  assert (ITER : forall k s it p r, (Z.to_nat (pit p - it) <= k)%nat -> (left_ s <= n)%nat -> tidy s -> 0 <= it -> (forall p, In p (y_points s) -> 0 <= pit p /\ later (y_now s) it p) -> y_points s = p :: r -> y_messages s = [] -> pt p = y_now s -> pt p <= stop -> exists s', loop G stop s it s').
  { clear s it LN T I0 P. induction k as [|k IHk]; intros s it p r K LN T I0 P E N Q S.
    - destruct (P p) as [_ L]; [rewrite E; left; reflexivity|]. unfold later in L. lia.
    - pose proof T as (OP & OM & CP & CM). assert (PM : pt p < maxTime) by (apply CP; rewrite E; left; reflexivity). destruct (P p) as [PN L]; [rewrite E; left; reflexivity|]. unfold later in L.
      assert (NX : nextSend s = (pt p, pit p)) by (unfold nextSend; rewrite E, N; f_equal; lia).
      assert (LATER : forall q, In q (y_points (sendInformation (pt p) (it + 1) s)) -> 0 <= pit q /\ later (y_now s) (it + 1) q).
      { intros q Iq. split; [apply P, (in_send _ _ _ _ Iq)|]. rewrite <- Q. apply (send_later _ _ s); [exact OP| |exact Iq]. intros x Ix Ex. destruct (P x Ix) as [_ LX]. unfold later in LX. lia. }
      assert (GO : exists s', loop G stop (sendInformation (pt p) (it + 1) s) (it + 1) s').
      { destruct (Z.eq_dec (pit p) (it + 1)) as [D|D].
        - apply IHn; [pose proof (send_point (pt p) (it + 1) s p r E ltac:(right; lia)); lia|apply tidy_send, T|lia|exact LATER].
        - assert (SAME : y_points (sendInformation (pt p) (it + 1) s) = p :: r).
          { unfold sendInformation. cbn [y_points]. rewrite E. cbn [dropW]. replace (pt p <? pt p) with false by lia. cbn [dropW]. replace ((pt p =? pt p) && (pit p =? it + 1)) with false by lia. reflexivity. }
          apply (IHk _ (it + 1) p r); [lia|pose proof (send_left (pt p) (it + 1) s); lia|apply tidy_send, T|lia|exact LATER|exact SAME| |exact Q|exact S]. unfold sendInformation. cbn [y_messages]. rewrite N. reflexivity. }
      destruct GO as (s' & GO). exists s'. apply L_iterate; rewrite NX; cbn [fst snd]; [lia|lia|lia|exact GO]. }
  pose proof T as (OP & OM & CP & CM). destruct (nextSend_le s CP CM OP OM) as (_ & LP & LM).
  destruct (Z.eq_dec (fst (nextSend s)) maxTime) as [D|D]; [exists s; apply L_nothing, D|]. destruct (Z.lt_ge_cases stop (fst (nextSend s))) as [S|S]; [exists s; apply L_stop; assumption|].
  assert (REQ : forall s, tidy s -> (forall p, In p (y_points s) -> 0 <= pit p) -> forall g, y_now s < g -> tidy (sendInformation g 0 (at_ g s)) /\ forall p, In p (y_points (sendInformation g 0 (at_ g s))) -> 0 <= pit p /\ later g 0 p).
  { clear - GR. intros s T P g H. split; [apply tidy_send; exact T|]. intros p Ip. split; [apply P; apply in_send in Ip; exact Ip|]. apply (send_later g 0 (at_ g s)); [apply T| |exact Ip]. intros q Iq _. apply P, Iq. }
  destruct (Z.eq_dec (snd (nextSend s)) 0) as [C|C]; [|destruct (Z.lt_ge_cases (y_now s) (fst (nextSend s))) as [C'|C']].
  3: { (* iterate *)
    unfold nextSend in *. destruct (y_points s) as [|p r] eqn:E, (y_messages s) as [|m k] eqn:N; cbn [fst snd] in *; try lia. assert (PM : pt p < maxTime) by (apply CP; left; reflexivity). destruct (P p (or_introl eq_refl)) as [_ L]. unfold later in L.
    apply (ITER (Z.to_nat (pit p - it)) s it p r); auto; try lia; rewrite ?E; assumption. }
  all: assert (CC : snd (nextSend s) = 0 \/ y_now s < fst (nextSend s)) by auto; destruct (TOT (y_now s) (fst (nextSend s))) as (g & Hg); destruct (GR _ _ _ Hg) as [G1 G2]; destruct (REQ s T (fun p Ip => proj1 (P p Ip)) g G1) as [T1 P1]; pose proof (send_left g 0 (at_ g s)) as SL; change (left_ (at_ g s)) with (left_ s) in SL.
  all: cut (exists s', loop G stop (sendInformation g 0 (at_ g s)) 0 s'); [intros (s' & L); exists s'; eapply L_request; eassumption|].
  all: destruct (Nat.eq_dec (left_ (sendInformation g 0 (at_ g s))) (left_ s)) as [SAME|LESS]; [|apply IHn; [lia|exact T1|lia|exact P1]].
  (* nothing was sent: the head is a point of a later iteration at the granted time *)
  all: destruct (y_points s) as [|p r] eqn:E; [exfalso; unfold nextSend in *; rewrite E in *; destruct (y_messages s) as [|m k] eqn:N; cbn [fst] in *; [lia|]; pose proof (send_message g 0 (at_ g s) m k N) as X; change (left_ (at_ g s)) with (left_ s) in X; lia|].
  all: assert (NP : ~ (pt p < g \/ (pt p = g /\ pit p = 0))) by (intros X; pose proof (send_point g 0 (at_ g s) p r E X) as Y; change (left_ (at_ g s)) with (left_ s) in Y; lia).
  all: assert (NM : forall m k, y_messages s = m :: k -> g < mt m) by (intros m k N; destruct (Z.lt_ge_cases g (mt m)) as [X|X]; [exact X|]; pose proof (send_message g 0 (at_ g s) m k N X) as Y; change (left_ (at_ g s)) with (left_ s) in Y; lia).
  all: assert (PG : pt p = g) by (unfold nextSend in *; rewrite E in *; destruct (y_messages s) as [|m k] eqn:N; cbn [fst] in *; [lia|specialize (NM m k eq_refl); lia]).
  all: assert (PP : y_points (sendInformation g 0 (at_ g s)) = p :: r) by (unfold sendInformation; cbn [y_points at_]; rewrite E; cbn [dropW]; replace (pt p <? g) with false by lia; cbn [dropW]; replace ((pt p =? g) && (pit p =? 0)) with false by lia; reflexivity).
  all: assert (MM : y_messages (sendInformation g 0 (at_ g s)) = y_messages s) by (unfold sendInformation; cbn [y_messages at_]; destruct (y_messages s) as [|m k]; [reflexivity|]; cbn [dropW]; specialize (NM m k eq_refl); replace (mt m <=? g) with false by lia; reflexivity).
  all: assert (TS : pt p <= stop) by (unfold nextSend in *; rewrite E in *; destruct (y_messages s) as [|m k] eqn:N; cbn [fst] in *; [lia|specialize (NM m k eq_refl); lia]).
  all: assert (PM : pt p < maxTime) by (apply CP; left; reflexivity).
  all: set (s1 := sendInformation g 0 (at_ g s)) in *; assert (NOW : y_now s1 = g) by reflexivity; clearbody s1.
  all: destruct (y_messages s) as [|m k] eqn:N; [apply (ITER (Z.to_nat (pit p - 0)) s1 0 p r); auto; try lia; rewrite ?NOW; auto|].
  all: specialize (NM m k eq_refl); assert (NX : nextSend s1 = (pt p, 0)) by (unfold nextSend; rewrite PP, MM; f_equal; lia).
  all: destruct (TOT (y_now s1) (pt p)) as (g2 & Hg2); destruct (GR _ _ _ Hg2) as [G3 G4]; destruct (REQ s1 T1 (fun p Ip => proj1 (P1 p Ip)) g2 G3) as [T2 P2].
  all: assert (LL : (left_ (sendInformation g2 0 (at_ g2 s1)) < n)%nat) by (pose proof (send_point g2 0 (at_ g2 s1) p r PP ltac:(left; lia)) as Y; change (left_ (at_ g2 s1)) with (left_ s1) in Y; lia).
  all: destruct (IHn _ 0 LL T2 ltac:(lia) P2) as (s' & L); exists s'; apply (L_request G stop s1 0 g2 s'); rewrite ?NX; cbn [fst snd]; [lia|lia|left; reflexivity|exact Hg2|exact L].
Qed.
Lemma finish_ends G stop (GR : grants G) (TOT : forall now t, exists g, G now t g) s : exists s', finish G stop s s'.
Proof.
  destruct (Z.lt_ge_cases (y_now s) stop) as [H|H]; [|exists s; apply F_done, H]. destruct (TOT (y_now s) stop) as (g & Hg). destruct (GR _ _ _ Hg). exists (at_ g s). eapply F_more; [exact H|exact Hg|]. apply F_done. cbn. lia.
Qed.
(** when every request is granted at some time, a run ends *)
Theorem C56_run_ends G ps ms stop : grants G -> (forall now t, exists g, G now t g) -> inOrder ps -> inOrderM ms -> (forall p, In p ps -> pt p < maxTime /\ 0 <= pit p) -> (forall m, In m ms -> mt m < maxTime) -> exists s, runs G ps ms [stop] s.
Proof.
  intros GR TOT OP OM P M. assert (T : tidy (startUp ps ms)) by (apply tidy_start; auto; intros p Hp; apply P, Hp).
  destruct (loop_ends G stop GR TOT (S (left_ (startUp ps ms))) (startUp ps ms) 0) as (s1 & L); [lia|exact T|lia| |].
  - intros p Ip. unfold startUp in *. assert (In p ps) by (do 2 apply in_send in Ip; exact Ip). split; [apply P; assumption|]. apply (send_later 0 0 (at_ 0 (sendInformation (-1) 0 (mkPlayer ps ms initTime [])))); [cbn [at_ y_points]; apply order_drop, order_drop, OP| |exact Ip]. intros q Iq _. apply P. apply (in_send (-1) 0 (mkPlayer ps ms initTime []) q), Iq.
  - destruct (finish_ends G stop GR TOT s1) as (s' & F). exists s'. apply R_first. exists s1. split; assumption.
Qed.

(** ** Examples *)
(** grants without a period: the asked time, or the next time step *)
Definition plainG (now t g : Z) : Prop := g = Z.max t (now + 1).
(** grants at the multiples of ten *)
Definition tens (now t g : Z) : Prop := now < g /\ t <= g /\ g mod 10 = 0.
Lemma plain_exact : exact plainG. Proof. split; intros now t g H; unfold plainG in H; lia. Qed.
Lemma tens_grants : grants tens. Proof. intros now t g (A & B & _). lia. Qed.
Example C56_example_iterations : let ps := [mkPoint 0 0 1; mkPoint 3 0 2; mkPoint 3 2 3; mkPoint 9 0 4] in inOrder ps /\ exists s, runs plainG ps [] [5] s /\ y_out s = [Pub 0 0 (mkPoint 0 0 1); Pub 3 0 (mkPoint 3 0 2); Pub 3 2 (mkPoint 3 2 3)] /\ y_now s = 5.
Proof.
  cbv zeta. split.
  { cbn. unfold before. repeat split; intros q Q; repeat (destruct Q as [<-|Q]; [cbn; lia|]); contradiction. }
  eexists. split; [apply R_first; eexists; split|].
  - eapply L_request; [vm_compute; discriminate|vm_compute; discriminate|left; reflexivity|reflexivity|].
    eapply L_iterate; [vm_compute; discriminate|vm_compute; discriminate|intros [H|H]; [discriminate|vm_compute in H; discriminate]|].
    eapply L_iterate; [vm_compute; discriminate|vm_compute; discriminate|intros [H|H]; [discriminate|vm_compute in H; discriminate]|].
    apply L_stop; [vm_compute; discriminate|reflexivity].
  - eapply F_more; [reflexivity|reflexivity|]. apply F_done. vm_compute. discriminate.
  - split; reflexivity.
Qed.
Example C56_example_runs : let ps := [mkPoint 0 0 1; mkPoint 3 0 2; mkPoint 9 0 3] in let ms := [mkMess 3 1; mkMess 4 2] in exists s, runs plainG ps ms [3; 6] s
  /\ y_out s = [Pub 0 0 (mkPoint 0 0 1); Pub 3 0 (mkPoint 3 0 2); Send 3 (mkMess 3 1); Send 4 (mkMess 4 2)] /\ y_points s = [mkPoint 9 0 3] /\ y_now s = 6.
Proof.
  eexists. split; [eapply (R_next plainG _ _ [3])|].
  - apply R_first. eexists. split.
    + eapply L_request; [vm_compute; discriminate|vm_compute; discriminate|left; reflexivity|reflexivity|]. apply L_stop; [vm_compute; discriminate|reflexivity].
    + apply F_done. vm_compute. discriminate.
  - eexists. split.
    + eapply L_request; [vm_compute; discriminate|vm_compute; discriminate|left; reflexivity|reflexivity|]. apply L_stop; [vm_compute; discriminate|reflexivity].
    + eapply F_more; [reflexivity|reflexivity|]. apply F_done. vm_compute. discriminate.
  - split; [|split]; reflexivity.
Qed.

(** ** what does not hold *)
(** iterations are not kept while a message, even a later one, waits: the second point goes out a time step too late *)
Theorem C56_iterations_with_messages_refuted : ~ (forall G ps ms stop s, exact G -> inOrder ps -> inOrderM ms -> (forall p, In p ps -> 0 <= pt p < maxTime /\ 0 <= pit p) -> (forall m, In m ms -> 0 <= mt m < maxTime) -> runs G ps ms [stop] s -> Forall onTime (y_out s)).
Proof.
  intros H. assert (R : exists s, runs plainG [mkPoint 3 0 1; mkPoint 3 1 2] [mkMess 100 1] [50] s /\ In (Pub 4 0 (mkPoint 3 1 2)) (y_out s)).
  { eexists. split; [apply R_first; eexists; split|].
    - eapply L_request; [vm_compute; discriminate|vm_compute; discriminate|left; reflexivity|reflexivity|].
      eapply L_request; [vm_compute; discriminate|vm_compute; discriminate|left; reflexivity|reflexivity|].
      apply L_stop; [vm_compute; discriminate|reflexivity].
    - eapply F_more; [reflexivity|reflexivity|]. apply F_done. vm_compute. discriminate.
    - right. left. reflexivity. }
  destruct R as (s & R & I0). assert (F : Forall onTime (y_out s)).
  { apply (H plainG [mkPoint 3 0 1; mkPoint 3 1 2] [mkMess 100 1] 50 s plain_exact); [| | | |exact R].
    - cbn. unfold before. repeat split; intros q Q; repeat (destruct Q as [<-|Q]; [cbn; lia|]); contradiction.
    - cbn. repeat split; intros q Q; contradiction.
    - intros p Q. unfold maxTime. repeat (destruct Q as [<-|Q]; [cbn; lia|]). contradiction.
    - intros p Q. unfold maxTime. repeat (destruct Q as [<-|Q]; [cbn; lia|]). contradiction. }
  rewrite Forall_forall in F. apply F in I0. destruct I0. discriminate.
Qed.
(** with a period the stop time of a run is overshot, and the next run skips what lies between: it is never published *)
Theorem C56_later_runs_refuted : ~ (forall G ps stops s, grants G -> inOrder ps -> (forall p, In p ps -> 0 <= pt p < maxTime /\ pit p = 0) -> runs G ps [] stops s -> forall p stop, In p ps -> In stop stops -> pt p <= stop -> In p (published s)).
Proof.
  intros H. assert (R : exists s, runs tens [mkPoint 7 0 1] [] [5; 20] s /\ published s = []).
  { eexists. split; [eapply (R_next tens [mkPoint 7 0 1] [] [5])|].
    - apply R_first. eexists. split.
      + apply L_stop; [vm_compute; discriminate|reflexivity].
      + eapply (F_more tens 5 _ 10); [reflexivity|repeat split; discriminate|]. apply F_done. vm_compute. discriminate.
    - eexists. split.
      + apply L_nothing. reflexivity.
      + eapply (F_more tens 20 _ 20); [reflexivity|repeat split; discriminate|]. apply F_done. vm_compute. discriminate.
    - reflexivity. }
  destruct R as (s & R & E). assert (I0 : In (mkPoint 7 0 1) (published s)); [|rewrite E in I0; contradiction].
  apply (H tens [mkPoint 7 0 1] [5; 20] s tens_grants) with (stop := 20); [| |exact R| | |].
  - cbn. repeat split; intros q Q; contradiction.
  - intros p [<-|[]]. unfold maxTime. cbn. lia.
  - left. reflexivity.
  - right. left. reflexivity.
  - cbn. lia.
Qed.
(** a point with a negative iteration keeps the player iterating at its time for ever *)
Lemma negative_stuck G stop s it s' : 3 <= stop -> loop G stop s it s' -> y_points s = [mkPoint 3 (-1) 1] -> y_messages s = [] -> 3 = y_now s -> 0 <= it -> False.
Proof.
  intros S3. induction 1 as [s it H|s it H1 H2|s it g s' H1 H2 H3 H4 L IH|s it s' H1 H2 H3 L IH]; intros E N Q I0; unfold nextSend in *; rewrite E, N in *; cbn [fst snd pt pit] in *; try (vm_compute in H; discriminate); replace (Z.min maxTime 3) with 3 in * by reflexivity; try lia.
  apply IH; try lia; unfold sendInformation; cbn [y_points y_messages y_now]; rewrite ?E, ?N; try reflexivity; try exact Q. cbn [dropW pt pit]. change (3 <? 3) with false. cbn [dropW pt pit]. replace (-1 =? it + 1) with false by lia. reflexivity.
Qed.
Theorem C56_negative_iterations_refuted : ~ (forall G ps stop, exact G -> (forall now t, exists g, G now t g) -> inOrder ps -> (forall p, In p ps -> 0 <= pt p < maxTime) -> exists s, runs G ps [] [stop] s).
Proof.
  intros H. destruct (H plainG [mkPoint 3 (-1) 1] 5 plain_exact) as (s & R).
  - intros now t. eexists. reflexivity.
  - cbn. repeat split; intros q [].
  - intros p [<-|[]]. unfold maxTime. cbn. lia.
  - inversion R as [stop' s'' (s1 & L & F) E1 E2|stops s0 stop' s'' R0 N E1 E2]; subst.
    + inversion L as [s2 it2 H1|s2 it2 H1 H2|s2 it2 g s2' H1 H2 H3 H4 L2|s2 it2 s2' H1 H2 H3 L2]; subst.
      * vm_compute in H1. discriminate.
      * vm_compute in H2. discriminate.
      * assert (g = 3) by exact H4. subst g. apply (negative_stuck _ 5 _ _ _ ltac:(lia) L2); try reflexivity; lia.
      * apply H3. right. reflexivity.
    + destruct stops as [|x stops]; [inversion R0 as [|stops' s2 st s3 R1 N1 E3 E4]; subst; destruct stops'; discriminate|]. destruct stops; discriminate.
Qed.
