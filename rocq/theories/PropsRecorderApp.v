(** * C58: a Recorder records every value and every message it receives, once, in order, with its time *)
From Coq Require Import String ZArith Bool List Lia Arith Sorting.Sorted.
From Verif Require Import RecorderApp.
Import ListNotations.
Open Scope list_scope.
Open Scope Z_scope.

(** ** Specification *)
(** the points of the [j]-th subscription, in order *)
Definition points_of (j : nat) (ps : list point) : list point := filter (fun p => Nat.eqb (p_sub p) j) ps.
(** the values which the [j]-th subscription got, with the time *)
Definition given (j : nat) (g : grant) : list (Z * string) :=
  match nth_error (g_upd g) j with Some (Some v) => [(g_time g, v)] | _ => [] end.
(** the messages which came *)
Definition messages_in (g : grant) : list string := concat (g_msgs g) ++ g_clone g.
(** the same with the time at which it is recorded *)
Definition at_time (t : Z) (g : grant) : grant := mkGrant t (g_next g) (g_upd g) (g_msgs g) (g_clone g).
(** the part of the grants which a run to [stop] uses: up to the first one not before [stop] *)
Definition used_by (stop : Z) (gs used rest : list grant) : Prop :=
  gs = used ++ rest /\
  ((exists u g, used = u ++ [g] /\ (forall x, In x u -> g_time x < stop) /\ stop <= g_time g) \/
   (rest = [] /\ forall x, In x used -> g_time x < stop)).
(** the order on times and iterations *)
Definition before (p q : point) : Prop := p_time p < p_time q \/ (p_time p = p_time q /\ p_iter p < p_iter q).
(** the grants a federate at [now] gets: a next step is later, an iteration is not *)
Fixpoint steps_from (now : Z) (gs : list grant) : Prop :=
  match gs with
  | [] => True
  | g :: r => (if g_next g then now < g_time g else g_time g = now) /\ steps_from (g_time g) r
  end.

(** ** One capture *)
Definition stored (it : Z) : Z := if 0 <? it then int16 it else 0.
(** the counters count, and only first points are marked *)
Definition Cnt (r : recorder) : Prop :=
  (forall j, r_cnt r j = length (points_of j (r_points r))) /\
  (forall l1 p l2, r_points r = l1 ++ p :: l2 -> (p_first p = true <-> forall q, In q l1 -> p_sub q <> p_sub p)).

Lemma points_of_app j a b : points_of j (a ++ b) = points_of j a ++ points_of j b.
Proof. apply filter_app. Qed.
Lemma snoc_split {A} (l : list A) a l1 p l2 : l ++ [a] = l1 ++ p :: l2 -> (l2 = [] /\ l = l1 /\ a = p) \/ (exists l2', l2 = l2' ++ [a] /\ l = l1 ++ p :: l2').
Proof.
  destruct l2 as [|x l2 _] using rev_ind; intros E.
  - left. apply app_inj_tail in E. intuition.
  - right. exists l2. rewrite app_comm_cons, app_assoc in E. apply app_inj_tail in E as (E & ->). auto.
Qed.

Lemma capSubs_spec t it : forall us i r, let r' := capSubs i t it us r in
  r_msgs r' = r_msgs r /\ (Cnt r -> Cnt r') /\
  exists ps, r_points r' = r_points r ++ ps /\ (forall p, In p ps -> p_time p = t /\ p_iter p = stored it) /\
    (forall j, (j < i)%nat -> points_of j ps = []) /\
    (forall j, map (fun p => (p_time p, p_value p)) (points_of (i + j) ps) = match nth_error us j with Some (Some v) => [(t, v)] | _ => [] end).
Proof.
  induction us as [|[v|] us IH]; intros i r; cbn [capSubs].
  - split; [reflexivity|]. split; [auto|]. exists []. rewrite app_nil_r. repeat split; try contradiction; auto. intros [|j]; reflexivity.
  - match goal with |- context [capSubs (S i) t it us ?r0] => set (r1 := r0) end.
    destruct (IH (S i) r1) as (A & B & ps & C & D & E & F). split; [exact A|]. split.
    + intros K. apply B. clear - K. destruct K as (K1 & K2). split.
      * intros j. subst r1. cbn [r_cnt r_points]. rewrite points_of_app, app_length. unfold setCnt, points_of at 2. cbn [filter p_sub].
        rewrite (Nat.eqb_sym j i). destruct (Nat.eqb_spec i j) as [->|]; cbn [length]; rewrite K1; lia.
      * intros l1 p l2 Ep. subst r1. cbn [r_points] in Ep. apply snoc_split in Ep as [(-> & <- & <-)|(l2' & -> & Ep)]; [|now apply (K2 l1 p l2')].
        cbn [p_first p_sub]. rewrite K1, Nat.eqb_eq. unfold points_of. split.
        -- intros L q Hq Eq. assert (In q (filter (fun p => Nat.eqb (p_sub p) i) (r_points r))) as X.
           { apply filter_In. split; [exact Hq|]. now apply Nat.eqb_eq. }
           destruct (filter _ _); [destruct X|discriminate L].
        -- intros N. destruct (filter _ _) as [|q l] eqn:Ef; [reflexivity|]. exfalso.
           assert (In q (q :: l)) as X by now left. rewrite <- Ef in X. apply filter_In in X as (X & Y). apply Nat.eqb_eq in Y. now apply (N q).
    + subst r1. cbn [r_points] in C. rewrite <- app_assoc in C. eexists. split; [exact C|]. cbn [app]. split; [|split].
      * intros p [<-|Hp]; [split; reflexivity|now apply D].
      * intros j Hj. unfold points_of in *. cbn [filter p_sub]. destruct (Nat.eqb_spec i j); [lia|]. apply E. lia.
      * intros [|j]; cbn [nth_error].
        -- unfold points_of in *. cbn [filter p_sub]. rewrite Nat.add_0_r, Nat.eqb_refl. cbn [map p_time p_value]. rewrite E by lia. reflexivity.
        -- unfold points_of in *. cbn [filter p_sub]. destruct (Nat.eqb_spec i (i + S j)); [lia|]. replace (i + S j)%nat with (S i + j)%nat by lia. apply F.
  - destruct (IH (S i) r) as (A & B & ps & C & D & E & F). split; [exact A|]. split; [exact B|]. exists ps. split; [exact C|]. split; [exact D|]. split.
    + intros j Hj. apply E. lia.
    + intros [|j]; cbn [nth_error]; [rewrite Nat.add_0_r, E by lia; reflexivity|]. replace (i + S j)%nat with (S i + j)%nat by lia. apply F.
Qed.

Lemma capture_spec t it g r : let r' := capture t it g r in
  r_msgs r' = r_msgs r ++ messages_in g /\ (Cnt r -> Cnt r') /\
  exists ps, r_points r' = r_points r ++ ps /\ (forall p, In p ps -> p_time p = t /\ p_iter p = stored it) /\
    (forall j, map (fun p => (p_time p, p_value p)) (points_of j ps) = given j (at_time t g)).
Proof.
  cbv zeta. unfold capture. destruct (capSubs_spec t it (g_upd g) 0 r) as (A & B & ps & C & D & _ & F). cbn [r_msgs r_points].
  split; [now rewrite A|]. split; [exact B|]. exists ps. split; [exact C|]. split; [exact D|]. exact F.
Qed.

(** ** All of it *)
(** all the values and messages of [gs] are added to those of [r] *)
Definition adds (gs : list grant) (r r' : recorder) : Prop :=
  (forall j, map (fun p => (p_time p, p_value p)) (points_of j (r_points r')) =
     map (fun p => (p_time p, p_value p)) (points_of j (r_points r)) ++ flat_map (given j) gs) /\
  r_msgs r' = r_msgs r ++ flat_map messages_in gs /\ (Cnt r -> Cnt r').
Lemma adds_nil r : adds [] r r.
Proof. split; [intros j|split]; cbn [flat_map]; rewrite ?app_nil_r; auto. Qed.
Lemma adds_app a b r r1 r2 : adds a r r1 -> adds b r1 r2 -> adds (a ++ b) r r2.
Proof.
  intros (A1 & A2 & A3) (B1 & B2 & B3). split; [|split; [|auto]].
  - intros j. now rewrite B1, A1, flat_map_app, app_assoc.
  - now rewrite B2, A2, flat_map_app, app_assoc.
Qed.
Lemma adds_capture t it g r : adds [at_time t g] r (capture t it g r).
Proof.
  destruct (capture_spec t it g r) as (A & B & ps & C & D & E). split; [|split; [|exact B]].
  - intros j. cbn [flat_map]. rewrite app_nil_r, C, points_of_app, map_app, E. reflexivity.
  - cbn [flat_map]. rewrite app_nil_r. exact A.
Qed.
Lemma at_time_id g : at_time (g_time g) g = g.
Proof. now destruct g. Qed.

Lemma runLoop_spec allow stop : forall gs it r r' rest, runLoop allow stop it gs r = (r', rest) -> exists used, used_by stop gs used rest /\ adds used r r'.
Proof.
  induction gs as [|g gs IH]; intros it r r' rest; cbn [runLoop].
  { intros E; inversion E; subst. exists []. split; [|apply adds_nil]. split; [reflexivity|]. right. split; [reflexivity|]. intros x []. }
  pose proof (adds_capture (g_time g) (if allow then if g_next g then 0 else it else 0) g r) as AC. rewrite at_time_id in AC.
  destruct (Z.leb_spec stop (g_time g)); intros E.
  - inversion E; subst. exists [g]. split; [|exact AC]. split; [reflexivity|]. left. exists [], g. repeat split; auto. intros x [].
  - apply IH in E as (used & (U1 & U2) & A). exists (g :: used). split; [|exact (adds_app [g] used _ _ _ AC A)]. split; [now rewrite U1|].
    destruct U2 as [(u & g' & -> & U3 & U4)|(U3 & U4)].
    + left. exists (g :: u), g'. repeat split; auto. intros x [<-|Hx]; auto.
    + right. split; [exact U3|]. intros x [<-|Hx]; auto.
Qed.

(** which grants several runs use *)
Inductive used_by_all : list Z -> list grant -> list grant -> list grant -> Prop :=
| U_nil gs : used_by_all [] gs [] gs
| U_cons stop stops gs u rest us rest' : used_by stop gs u rest -> used_by_all stops rest us rest' -> used_by_all (stop :: stops) gs (u ++ us) rest'.

Lemma runsTo_spec allow : forall stops gs r r' rest, runsTo allow stops gs r = (r', rest) -> exists used, used_by_all stops gs used rest /\ adds used r r'.
Proof.
  induction stops as [|stop stops IH]; intros gs r r' rest; cbn [runsTo].
  { intros E; inversion E; subst. exists []. split; [constructor|apply adds_nil]. }
  unfold runTo. destruct (runLoop allow stop 0 gs r) as [r1 rest1] eqn:E1. intros E.
  apply runLoop_spec in E1 as (u & U & A). apply IH in E as (us & V & B). exists (u ++ us). split; [econstructor; eauto|eapply adds_app; eauto].
Qed.

Lemma init_adds g0 g1 : adds [at_time (-1000000000) g0; at_time 0 g1] (mkRecorder [] [] (fun _ => 0%nat)) (initialize g0 g1).
Proof. unfold initialize. apply (adds_app [_] [_] _ (capture (-1000000000) 0 g0 (mkRecorder [] [] (fun _ => 0%nat)))); apply adds_capture. Qed.

(** Whatever the federation gives, whatever the stop times: every subscription's values of the grants used are recorded,
    each once, in order and with its time (what came before execution at -1 and 0), and nothing else; so are the messages *)
Theorem C58_everything_recorded allow g0 g1 stops gs r rest : runsTo allow stops gs (initialize g0 g1) = (r, rest) ->
  exists used, used_by_all stops gs used rest /\
  (forall j, map (fun p => (p_time p, p_value p)) (points_of j (r_points r)) =
     flat_map (given j) (at_time (-1000000000) g0 :: at_time 0 g1 :: used)) /\
  r_msgs r = flat_map messages_in (at_time (-1000000000) g0 :: at_time 0 g1 :: used).
Proof.
  intros H. apply runsTo_spec in H as (used & U & A). exists used. split; [exact U|].
  destruct (adds_app _ _ _ _ _ (init_adds g0 g1) A) as (A1 & A2 & _). split; [intros j; exact (A1 j)|exact A2].
Qed.

(** the mark "first" is on the first point of every subscription and on no other *)
Theorem C58_first_marked allow g0 g1 stops gs r rest : runsTo allow stops gs (initialize g0 g1) = (r, rest) ->
  forall l1 p l2, r_points r = l1 ++ p :: l2 -> (p_first p = true <-> forall q, In q l1 -> p_sub q <> p_sub p).
Proof.
  intros H. apply runsTo_spec in H as (used & U & A).
  destruct (adds_app _ _ _ _ _ (init_adds g0 g1) A) as (_ & _ & C). apply C. split; [reflexivity|].
  intros l1 p l2 E. destruct l1; discriminate E.
Qed.

(** ** Iterations *)
(** all points lie before or at this time and iteration, and the points of one subscription are in strict order *)
Definition Ord (t it : Z) (r : recorder) : Prop :=
  (forall p, In p (r_points r) -> p_time p < t \/ (p_time p = t /\ p_iter p <= it)) /\
  forall j, StronglySorted before (points_of j (r_points r)).

Lemma sorted_snoc (l : list point) ps : StronglySorted before l -> (forall p q, In p l -> In q ps -> before p q) -> (length ps <= 1)%nat -> StronglySorted before (l ++ ps).
Proof.
  intros S H L. destruct ps as [|q [|q' ps]]; [now rewrite app_nil_r| |cbn in L; lia].
  induction S as [|a l S IH F]; cbn [app].
  - constructor; constructor.
  - constructor; [apply IH; intros p x Hp; apply H; now right|]. apply Forall_app. split; [exact F|]. constructor; [|constructor].
    apply H; now left.
Qed.

Lemma stored_id it : 0 <= it < 32768 -> stored it = it.
Proof.
  intros H. unfold stored, int16. destruct (Z.ltb_spec 0 it); [|lia]. rewrite Z.mod_small; lia.
Qed.

Lemma ord_capture t it t' it' g r : Ord t it r -> 0 <= it' < 32768 -> (t < t' \/ (t = t' /\ it < it')) -> Ord t' it' (capture t' it' g r).
Proof.
  intros (A & B) I L. destruct (capture_spec t' it' g r) as (_ & _ & ps & C & D & E). rewrite stored_id in D by exact I. split.
  - intros p Hp. rewrite C in Hp. apply in_app_or in Hp as [Hp|Hp]; [specialize (A p Hp)|specialize (D p Hp)]; lia.
  - intros j. rewrite C, points_of_app. apply sorted_snoc; [apply B| |].
    + intros p q Hp Hq. unfold points_of in *. apply filter_In in Hp as (Hp & _). apply filter_In in Hq as (Hq & _).
      specialize (A p Hp). specialize (D q Hq). unfold before. lia.
    + pose proof (f_equal (@length _) (E j)) as X. rewrite map_length in X. rewrite X. unfold given.
      destruct (nth_error _ j) as [[v|]|]; cbn; lia.
Qed.

Lemma runLoop_ord stop : forall gs t it m r r' rest, Ord t it r -> runLoop true stop m gs r = (r', rest) -> steps_from t gs ->
  0 <= it -> (it < m \/ (exists g gs', gs = g :: gs' /\ g_next g = true)) -> 0 <= m -> m + Z.of_nat (length gs) < 32768 -> exists t' it', Ord t' it' r' /\ 0 <= it' /\ steps_from t' rest.
Proof.
  induction gs as [|g gs IH]; intros t it m r r' rest O E S I M Mp N; cbn [runLoop] in E.
  { inversion E; subst. exists t, it. auto. }
  destruct S as (S1 & S2). cbn [length] in N.
  assert (Ord (g_time g) (if g_next g then 0 else m) (capture (g_time g) (if g_next g then 0 else m) g r)) as O'.
  { apply (ord_capture t it); [exact O|destruct (g_next g); lia|]. destruct (g_next g) eqn:En; [lia|].
    destruct M as [M|(g' & gs' & M & M')]; [lia|inversion M; congruence]. }
  destruct (Z.leb_spec stop (g_time g)).
  - inversion E; subst. eexists. eexists. split; [exact O'|]. split; [destruct (g_next g); lia|exact S2].
  - apply (IH (g_time g) (if g_next g then 0 else m) _ _ _ _ O' E S2); destruct (g_next g); lia.
Qed.

Lemma init_ord g0 g1 : Ord 0 0 (initialize g0 g1).
Proof.
  unfold initialize. apply (ord_capture (-1000000000) 0); [|lia|lia]. apply (ord_capture (-2000000000) 0); [|lia|lia].
  split; [intros p []|]. intros j. constructor.
Qed.

(** the grants left after a run to [stop] *)
Fixpoint left_after (stop : Z) (gs : list grant) : list grant :=
  match gs with [] => [] | g :: r => if stop <=? g_time g then r else left_after stop r end.
(** the first grant of every run is a next step *)
Fixpoint next_first (stops : list Z) (gs : list grant) : Prop :=
  match stops with
  | [] => True
  | stop :: more => match gs with g :: _ => g_next g = true | [] => True end /\ next_first more (left_after stop gs)
  end.
Lemma runLoop_left allow stop : forall gs it r, snd (runLoop allow stop it gs r) = left_after stop gs.
Proof. induction gs as [|g gs IH]; intros it r; cbn [runLoop left_after]; [reflexivity|]. destruct (stop <=? g_time g); [reflexivity|apply IH]. Qed.
Lemma left_length stop gs : (length (left_after stop gs) <= length gs)%nat.
Proof. induction gs as [|g gs IH]; cbn [left_after length]; [lia|]. destruct (stop <=? g_time g); lia. Qed.

Lemma runsTo_ord : forall stops gs t it r r' rest, Ord t it r -> 0 <= it -> runsTo true stops gs r = (r', rest) -> steps_from t gs ->
  next_first stops gs -> Z.of_nat (length gs) < 32768 -> exists t' it', Ord t' it' r'.
Proof.
  induction stops as [|stop stops IH]; intros gs t it r r' rest O I E S F N; cbn [runsTo] in E.
  { inversion E; subst. eauto. }
  unfold runTo in E. pose proof (runLoop_left true stop gs 0 r) as L. destruct (runLoop true stop 0 gs r) as [r1 rest1] eqn:E1. cbn [snd] in L.
  destruct F as (F1 & F2). pose proof (left_length stop gs) as LL.
  assert (exists t' it', Ord t' it' r1 /\ 0 <= it' /\ steps_from t' rest1) as (t' & it' & O' & I' & S').
  { destruct gs as [|g gs]; [inversion E1; subst; exists t, it; auto|].
    apply (runLoop_ord stop (g :: gs) t it 0 r r1 rest1 O E1 S I); [right; eauto|lia|lia]. }
  apply (IH rest1 t' it' r1 r' rest O' I' E S'); [now rewrite L|rewrite L; lia].
Qed.

(** with iterations allowed, any number of runs each of whose first grant is a next step: no two points of a subscription have
    the same time and iteration, and they are recorded in that order *)
Theorem C58_iterations_distinct stops g0 g1 gs r rest : runsTo true stops gs (initialize g0 g1) = (r, rest) -> steps_from 0 gs ->
  next_first stops gs -> Z.of_nat (length gs) < 32768 ->
  forall j, StronglySorted before (points_of j (r_points r)).
Proof.
  intros E S F N j. destruct (runsTo_ord stops gs 0 0 _ r rest (init_ord g0 g1) ltac:(lia) E S F N) as (t' & it' & (_ & O)). apply O.
Qed.

(** ** The numbers of the iterations *)
(** grants with the number of their iteration: zero for a next step, one more for every iteration after it; [k] for the first one
    when it is an iteration *)
Fixpoint numbered (k : Z) (gs : list grant) : list (grant * Z) :=
  match gs with [] => [] | g :: r => let n := if g_next g then 0 else k in (g, n) :: numbered (n + 1) r end.
(** indeed: after a next step the iterations are 1, 2, 3, ... *)
Lemma numbered_length k gs : length (numbered k gs) = length gs.
Proof. revert k. induction gs as [|g gs IH]; intros k; cbn [numbered length]; [reflexivity|now rewrite IH]. Qed.
Lemma numbered_its : forall its k w i g, (forall x, In x its -> g_next x = false) -> nth_error its i = Some g -> nth_error (numbered k (its ++ w)) i = Some (g, k + Z.of_nat i).
Proof.
  induction its as [|x its IH]; intros k w i g N H; [destruct i; discriminate H|].
  cbn [app numbered]. rewrite (N x (or_introl eq_refl)). destruct i as [|i]; cbn [nth_error] in *.
  - inversion H; subst. do 2 f_equal. lia.
  - rewrite (IH (k + 1) w i g); [do 2 f_equal; lia|intros y Hy; apply N; now right|exact H].
Qed.
Theorem C58_numbered_meaning : forall u k n its w i g, g_next n = true -> (forall x, In x its -> g_next x = false) -> nth_error (n :: its) i = Some g ->
  nth_error (numbered k (u ++ n :: its ++ w)) (length u + i) = Some (g, Z.of_nat i).
Proof.
  induction u as [|x u IH]; intros k n its w i g Hn Hi H; cbn [app numbered length Nat.add].
  - rewrite Hn. destruct i as [|i]; cbn [nth_error] in *; [now inversion H|]. rewrite (numbered_its its _ w i g Hi H). do 2 f_equal. lia.
  - cbn [nth_error]. now apply IH.
Qed.
(** what the [j]-th subscription got with such a grant *)
Definition given_it (j : nat) (x : grant * Z) : list (Z * Z * string) :=
  match nth_error (g_upd (fst x)) j with Some (Some v) => [(g_time (fst x), snd x, v)] | _ => [] end.
Definition stamp (p : point) : Z * Z * string := (p_time p, p_iter p, p_value p).

Lemma capture_stamps it g r j : 0 <= it < 32768 ->
  map stamp (points_of j (r_points (capture (g_time g) it g r))) = map stamp (points_of j (r_points r)) ++ given_it j (g, it).
Proof.
  intros B. destruct (capture_spec (g_time g) it g r) as (_ & _ & ps & C & D & E). rewrite stored_id in D by exact B.
  rewrite C, points_of_app, map_app. f_equal. specialize (E j). rewrite at_time_id in E.
  transitivity (map (fun x : Z * string => (fst x, it, snd x)) (map (fun p => (p_time p, p_value p)) (points_of j ps))).
  - rewrite map_map. apply map_ext_in. intros p Hp. unfold points_of in Hp. apply filter_In in Hp as (Hp & _).
    destruct (D p Hp) as (_ & X). unfold stamp. now rewrite X.
  - rewrite E. unfold given, given_it. cbn [fst snd]. destruct (nth_error (g_upd g) j) as [[v|]|]; reflexivity.
Qed.

Lemma runLoop_numbers stop : forall gs it r r' rest, runLoop true stop it gs r = (r', rest) -> 0 <= it -> it + Z.of_nat (length gs) < 32768 ->
  exists used, used_by stop gs used rest /\
  forall j, map stamp (points_of j (r_points r')) = map stamp (points_of j (r_points r)) ++ flat_map (given_it j) (numbered it used).
Proof.
  induction gs as [|g gs IH]; intros it r r' rest E I N; cbn [runLoop] in E.
  { inversion E; subst. exists []. split; [|intros j; cbn [numbered flat_map]; now rewrite app_nil_r]. split; [reflexivity|]. right. split; [reflexivity|]. intros x []. }
  cbn [length] in N. set (n := if g_next g then 0 else it) in *. assert (0 <= n <= it) as B by (subst n; destruct (g_next g); lia).
  destruct (Z.leb_spec stop (g_time g)).
  - inversion E; subst. exists [g]. split.
    + split; [reflexivity|]. left. exists [], g. repeat split; auto. intros x [].
    + intros j. cbn [numbered flat_map]. rewrite app_nil_r. apply capture_stamps. subst n. lia.
  - apply IH in E as (used & (U1 & U2) & A); [|lia|lia]. exists (g :: used). split.
    + split; [now rewrite U1|]. destruct U2 as [(u & g' & -> & U3 & U4)|(U3 & U4)].
      * left. exists (g :: u), g'. repeat split; auto. intros x [<-|Hx]; auto.
      * right. split; [exact U3|]. intros x [<-|Hx]; auto.
    + intros j. rewrite A, capture_stamps by lia. cbn [numbered flat_map]. now rewrite app_assoc.
Qed.
(** with iterations allowed a run records every value with the time and the number of the iteration at which it came *)
Theorem C58_iteration_numbers stop gs r r' rest : runTo true stop gs r = (r', rest) -> Z.of_nat (length gs) < 32768 ->
  exists used, used_by stop gs used rest /\
  forall j, map stamp (points_of j (r_points r')) = map stamp (points_of j (r_points r)) ++ flat_map (given_it j) (numbered 0 used).
Proof. intros E N. apply (runLoop_numbers stop gs 0 r r' rest E); lia. Qed.

(** without iterations every point is recorded as iteration zero *)
Definition Zero (r : recorder) : Prop := forall p, In p (r_points r) -> p_iter p = 0.
Lemma zero_capture t g r : Zero r -> Zero (capture t 0 g r).
Proof.
  intros Z0 p Hp. destruct (capture_spec t 0 g r) as (_ & _ & ps & C & D & _). rewrite C in Hp. apply in_app_or in Hp as [Hp|Hp]; [now apply Z0|].
  destruct (D p Hp) as (_ & ->). reflexivity.
Qed.
Theorem C58_no_iterations g0 g1 : forall stops gs r rest, runsTo false stops gs (initialize g0 g1) = (r, rest) -> forall p, In p (r_points r) -> p_iter p = 0.
Proof.
  assert (Zero (initialize g0 g1)) as Z0 by (unfold initialize; apply zero_capture, zero_capture; intros p []).
  assert (forall stop gs it r, Zero r -> Zero (fst (runLoop false stop it gs r))) as A.
  { intros stop. induction gs as [|g gs IH]; intros it r Z1; cbn [runLoop]; [exact Z1|].
    destruct (stop <=? g_time g); [cbn [fst]|apply IH]; now apply zero_capture. }
  intros stops. revert Z0. generalize (initialize g0 g1). induction stops as [|stop stops IH]; intros r0 Z0 gs r rest; cbn [runsTo].
  { intros E; inversion E; subst. exact Z0. }
  unfold runTo. pose proof (A stop gs 0 r0 Z0) as Z1. destruct (runLoop false stop 0 gs r0) as [r1 rest1]. apply IH. exact Z1.
Qed.

(** the counter of iterations starts at zero in every run: when the first grant of a run is an iteration of the current time,
    what it brings gets the same time and iteration as what is recorded already *)
Theorem C58_first_iteration_refuted : ~ forall stop g0 g1 gs r rest, runTo true stop gs (initialize g0 g1) = (r, rest) -> steps_from 0 gs ->
  Z.of_nat (length gs) < 32768 -> forall j, StronglySorted before (points_of j (r_points r)).
Proof.
  intros H. set (g := fun t n v => mkGrant t n [Some v] [] []).
  specialize (H 5 (mkGrant 0 true [] [] []) (g 0 true "a"%string) [g 0 false "b"%string; g 5 true "c"%string] _ _ eq_refl).
  assert (steps_from 0 [g 0 false "b"%string; g 5 true "c"%string]) as S by (cbn; repeat split; lia).
  assert (Z.of_nat (length [g 0 false "b"%string; g 5 true "c"%string]) < 32768) as N by (cbn; lia).
  specialize (H S N 0%nat). cbn in H. inversion H as [|? ? _ F]; subst. inversion F as [|? ? X _]; subst. unfold before in X. cbn in X. lia.
Qed.

(** ** A concrete case *)
Definition ex_g (t : Z) (n : bool) (us : list (option string)) (ms : list (list string)) := mkGrant t n us ms [].
Definition ex_gs : list grant :=
  [ex_g 2 true [Some "a"; None] [["m1"; "m2"]; []]; ex_g 2 false [Some "b"; Some "x"] [[]; ["m3"]]; ex_g 4 true [None; Some "y"] []; ex_g 9 true [] []]%string.
Example ex_recorded : let '(r, rest) := runsTo true [4; 8] ex_gs (initialize (ex_g 0 true [] []) (ex_g 0 true [None; Some "w"%string] [])) in
  map (fun p => (p_time p, p_iter p, p_value p, p_first p)) (r_points r) =
    [(0, 0, "w", true); (2, 0, "a", true); (2, 1, "b", false); (2, 1, "x", false); (4, 0, "y", false)]%string /\
  r_msgs r = ["m1"; "m2"; "m3"]%string /\ rest = [] /\ steps_from 0 ex_gs /\ next_first [4; 8] ex_gs.
Proof. cbn. repeat split; lia. Qed.
