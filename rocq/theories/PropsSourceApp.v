(** * C57: a Source publishes each of its publications at start, start + period, start + 2 period, ... and at no other time *)
From Coq Require Import String ZArith Bool List Lia Arith.
From Verif Require Import SourceApp.
Import ListNotations.
Open Scope list_scope.
Open Scope Z_scope.

(** ** Specification *)
(** the first [n] times of a schedule *)
Definition progression (start p : Z) (n : nat) : list Z := map (fun k => start + Z.of_nat k * p) (seq 0 n).
(** all the times of a schedule up to [stop], in order *)
Definition schedule (start p stop : Z) (l : list Z) : Prop :=
  exists n, l = progression start p n /\ stop < start + Z.of_nat n * p /\ (forall k, (k < n)%nat -> start + Z.of_nat k * p <= stop).
(** what was published by the [j]-th publication, in order *)
Definition of_pub (j : nat) (log : list event) : list event := filter (fun e => Nat.eqb (e_pub e) j) log.
(** a request for a time to come is granted at exactly that time *)
Definition exact (G : Z -> Z -> Z -> Prop) : Prop := forall now t g, now < t -> G now t g -> g = t.
(** the generator [g] makes the values of a publication *)
Definition generator_of (gens : list string) (c : config) (g : Z) : Prop :=
  (0 <= cf_index c /\ g = cf_index c /\ g < Z.of_nat (length gens)) \/
  (cf_index c < 0 /\ cf_name c <> ""%string /\ 0 <= g /\ nth_error gens (Z.to_nat g) = Some (cf_name c) /\
     (forall k, (k < Z.to_nat g)%nat -> nth_error gens k <> Some (cf_name c))) \/
  (cf_index c < 0 /\ cf_name c = ""%string /\ g = 0 /\ gens <> []).
(** the last of some stop times, from zero on *)
Definition latest (stops : list Z) : Z := fold_right Z.max 0 stops.

(** ** Facts about one sweep *)
Lemma of_pub_app j a b : of_pub j (a ++ b) = of_pub j a ++ of_pub j b.
Proof. apply filter_app. Qed.
Lemma of_pub_self j g ts : of_pub j (map (mkEvent j g) ts) = map (mkEvent j g) ts.
Proof. induction ts as [|t ts IH]; [reflexivity|]. unfold of_pub in *. cbn [map filter e_pub]. rewrite Nat.eqb_refl. now rewrite IH. Qed.
Lemma of_pub_other j i g ts : i <> j -> of_pub j (map (mkEvent i g) ts) = [].
Proof.
  intros N. induction ts as [|t ts IH]; [reflexivity|]. unfold of_pub in *. cbn [map filter e_pub].
  destruct (Nat.eqb_spec i j); [contradiction|exact IH].
Qed.

Section Sweep.
Variable ngen : Z.
Variable jump : Z -> Z -> Z -> Z.
Variable G : Z -> Z -> Z -> Prop.
Let runS := runSource ngen jump.
Let sweep := sweep ngen jump.

Definition newSource (now : Z) (s : source) : source := fst (fst (runS 0%nat now s)).
Definition newTimes (now : Z) (s : source) : list Z := if (sc_next s <=? now) && negb (ngen <=? sc_gen s) then [now] else [].

Lemma runSource_eq i now s : runS i now s =
  (newSource now s, map (mkEvent i (sc_gen s)) (newTimes now s), snd (runS 0%nat now s)).
Proof.
  unfold newSource, newTimes, runS, runSource. destruct (sc_next s <=? now); [|reflexivity].
  destruct (ngen <=? sc_gen s); reflexivity.
Qed.

Lemma sweep_spec now : forall ss i ss' es m, sweep i now ss = (ss', es, m) ->
  ss' = map (newSource now) ss /\
  (forall j s, nth_error ss j = Some s -> of_pub (i + j) es = map (mkEvent (i + j)%nat (sc_gen s)) (newTimes now s)) /\
  (forall j, (j < i)%nat -> of_pub j es = []).
Proof.
  induction ss as [|s r IH]; intros i ss' es m; cbn [sweep SourceApp.sweep].
  { intros E; inversion E; subst. split; [reflexivity|]. split; [intros [|j] ? H; discriminate H|reflexivity]. }
  unfold sweep in *. cbn [SourceApp.sweep]. fold runS. rewrite (runSource_eq i now s).
  destruct (SourceApp.sweep ngen jump (S i) now r) as [[r' es'] m'] eqn:E1. intros E; inversion E; subst; clear E.
  destruct (IH _ _ _ _ E1) as (A & B & C). subst r'. split; [reflexivity|]. split.
  - intros [|j] x H; cbn [nth_error] in H.
    + inversion H; subst. rewrite Nat.add_0_r. rewrite of_pub_app, of_pub_self, C by lia. apply app_nil_r.
    + rewrite of_pub_app, of_pub_other by lia. replace (i + S j)%nat with (S i + j)%nat by lia. now rewrite (B j x H).
  - intros j H. rewrite of_pub_app, of_pub_other by lia. apply C. lia.
Qed.

Lemma sweep_min now : forall ss i, (forall s, In s ss -> sc_next s <= now -> sc_gen s < ngen) ->
  snd (sweep i now ss) = fold_right (fun x m => Z.min (sc_next x) m) maxTime (map (newSource now) ss).
Proof.
  induction ss as [|s r IH]; intros i H; [reflexivity|].
  unfold sweep in *. cbn [SourceApp.sweep map fold_right]. fold runS. rewrite (runSource_eq i now s).
  specialize (IH (S i)). destruct (SourceApp.sweep ngen jump (S i) now r) as [[r' es'] m']. cbn [snd] in *.
  rewrite IH by (intros x Hx; apply H; right; exact Hx). f_equal.
  unfold newSource, runS, runSource. specialize (H s (or_introl eq_refl)).
  destruct (Z.leb_spec (sc_next s) now); [|reflexivity]. destruct (Z.leb_spec ngen (sc_gen s)); [lia|reflexivity].
Qed.

Lemma min_le ss s : In s ss -> fold_right (fun x m => Z.min (sc_next x) m) maxTime ss <= sc_next s.
Proof. induction ss as [|x r IH]; intros []; cbn [fold_right]; [subst; lia|]. specialize (IH H). lia. Qed.
Lemma min_gt ss c : c < maxTime -> (forall s, In s ss -> c < sc_next s) -> c < fold_right (fun x m => Z.min (sc_next x) m) maxTime ss.
Proof.
  intros C. induction ss as [|x r IH]; intros H; cbn [fold_right]; [exact C|].
  pose proof (H x (or_introl eq_refl)). specialize (IH (fun s Hs => H s (or_intror Hs))). lia.
Qed.

(** ** The invariant *)
(** publication [j], which began as [s0], at the time [c], all of whose times up to [M] are published *)
Definition SInv (c M : Z) (j : nat) (s0 s : source) (log : list event) : Prop :=
  sc_period s = sc_period s0 /\ sc_gen s = sc_gen s0 /\ c < sc_next s /\ M < sc_next s /\
  exists n, sc_next s = Z.max 0 (sc_next s0) + Z.of_nat n * sc_period s0 /\
    (forall k, (k < n)%nat -> Z.max 0 (sc_next s0) + Z.of_nat k * sc_period s0 <= c) /\
    of_pub j log = map (mkEvent j (sc_gen s0)) ((if sc_next s0 <? 0 then [-1] else []) ++ progression (Z.max 0 (sc_next s0)) (sc_period s0) n).
Definition Inv (ss0 : list source) (M : Z) (st : state) : Prop :=
  length (st_src st) = length ss0 /\
  forall j s0 s, nth_error ss0 j = Some s0 -> nth_error (st_src st) j = Some s -> SInv (st_now st) M j s0 s (st_log st).
(** the publications are well set up *)
Definition good (ss0 : list source) : Prop :=
  forall s0, In s0 ss0 -> 1 <= sc_period s0 /\ (sc_gen s0 < ngen \/ sc_next s0 = maxTime).

Lemma progression_S st p n : progression st p (S n) = progression st p n ++ [st + Z.of_nat n * p].
Proof. unfold progression. rewrite seq_S, map_app. reflexivity. Qed.

Lemma step_eq g st : st_now (step ngen jump g st) = g /\ st_src (step ngen jump g st) = map (newSource g) (st_src st) /\
  (forall j s, nth_error (st_src st) j = Some s -> of_pub j (st_log (step ngen jump g st)) = of_pub j (st_log st) ++ map (mkEvent j (sc_gen s)) (newTimes g s)).
Proof.
  unfold step. destruct (SourceApp.sweep ngen jump 0 g (st_src st)) as [[ss' es] m] eqn:E.
  destruct (sweep_spec g _ _ _ _ _ E) as (A & B & _). cbn [st_now st_src st_log]. split; [reflexivity|]. split; [exact A|].
  intros j s H. rewrite of_pub_app. f_equal. exact (B j s H).
Qed.

(** one publication through one step: no publication is overdue *)
Lemma step_one c M j s0 s g log log' : 1 <= sc_period s0 -> (sc_gen s0 < ngen \/ sc_next s0 = maxTime) -> g < maxTime ->
  c <= g -> g <= sc_next s -> M < sc_next s ->
  sc_period s = sc_period s0 -> sc_gen s = sc_gen s0 ->
  (exists n, sc_next s = Z.max 0 (sc_next s0) + Z.of_nat n * sc_period s0 /\
    (forall k, (k < n)%nat -> Z.max 0 (sc_next s0) + Z.of_nat k * sc_period s0 <= c) /\
    of_pub j log = map (mkEvent j (sc_gen s0)) ((if sc_next s0 <? 0 then [-1] else []) ++ progression (Z.max 0 (sc_next s0)) (sc_period s0) n)) ->
  of_pub j log' = of_pub j log ++ map (mkEvent j (sc_gen s)) (newTimes g s) ->
  SInv g M j s0 (newSource g s) log'.
Proof.
  intros P V GM CG GN MN Ep Eg (n & En & Hk & El) El'.
  unfold newSource, newTimes, runS, runSource, SInv in *. rewrite Ep, Eg in *.
  destruct (Z.leb_spec (sc_next s) g).
  - assert (g = sc_next s) by lia. assert (sc_gen s0 < ngen) as Hg by (destruct V as [V|V]; [exact V|nia]).
    destruct (Z.leb_spec ngen (sc_gen s0)); [lia|].
    destruct (Z.ltb_spec (sc_next s + sc_period s0) g); [lia|]. cbn [fst snd sc_next sc_period sc_gen andb negb] in *.
    repeat split; try lia. exists (S n). split; [lia|]. split.
    + intros k Hlt. destruct (Nat.eq_dec k n) as [->|]; [lia|]. specialize (Hk k ltac:(lia)). lia.
    + rewrite El', El, progression_S, !app_assoc, (map_app _ _ [_]). cbn [map]. do 3 f_equal. lia.
  - cbn [fst snd sc_next sc_period sc_gen andb] in *. repeat split; try lia. exists n. split; [lia|]. split.
    + intros k Hlt. specialize (Hk k Hlt). lia.
    + cbn [map] in El'. now rewrite El', app_nil_r.
Qed.

Lemma in_nth_pair (ss0 ss : list source) s : length ss = length ss0 -> In s ss -> exists j s0, nth_error ss j = Some s /\ nth_error ss0 j = Some s0.
Proof.
  intros L H. apply In_nth_error in H as (j & H). exists j. destruct (nth_error ss0 j) as [s0|] eqn:E; [now exists s0|].
  apply nth_error_None in E. assert (j < length ss)%nat by (apply nth_error_Some; now rewrite H). lia.
Qed.

Lemma step_inv ss0 M st g : good ss0 -> Inv ss0 M st -> g = firstRequest st -> st_now st < g -> g < maxTime ->
  Inv ss0 M (step ngen jump g st) /\ stepNext ngen jump g st = firstRequest (step ngen jump g st) /\ st_now (step ngen jump g st) = g.
Proof.
  intros Gd (L & I) Eg Lg GM. destruct (step_eq g st) as (A & B & C).
  assert (K : forall s, In s (st_src st) -> g <= sc_next s) by (intros s Hs; subst g; now apply min_le).
  split; [|split; [|exact A]].
  - split; [rewrite B, map_length; exact L|]. intros j s0 s' H0 H'. rewrite B, nth_error_map in H'.
    destruct (nth_error (st_src st) j) as [s|] eqn:Es; [|discriminate]. inversion H'; subst s'. rewrite A.
    destruct (I j s0 s H0 Es) as (P1 & P2 & P3 & P4 & P5). destruct (Gd s0 (nth_error_In _ _ H0)) as (Q1 & Q2).
    apply (step_one (st_now st) M j s0 s g (st_log st)); auto; try lia; eauto using nth_error_In.
  - unfold stepNext, firstRequest. rewrite B. apply sweep_min. intros s Hs Hd.
    destruct (in_nth_pair ss0 _ s L Hs) as (j & s0 & E1 & E2). destruct (I j s0 s E2 E1) as (P1 & P2 & P3 & P4 & (n & P5 & P6 & _)).
    destruct (Gd s0 (nth_error_In _ _ E2)) as (Q1 & [Q2|Q2]); [lia|nia].
Qed.

Lemma loop_inv ss0 stop : exact G -> good ss0 -> forall n st st', loop ngen jump G stop n st st' -> forall M, Inv ss0 M st -> n = firstRequest st ->
  st_now st < maxTime -> stop < maxTime -> Inv ss0 (Z.max M stop) st' /\ st_now st <= st_now st' <= Z.max (st_now st) stop /\ st_now st' < maxTime.
Proof.
  intros EX Gd n st st' H. induction H as [n st H|n st g st' H1 H2 HG H IH]; intros M I En Nm Sm.
  - split; [|lia]. destruct I as (L & I). split; [exact L|]. intros j s0 s H0 Hs. destruct (I j s0 s H0 Hs) as (P1 & P2 & P3 & P4 & P5).
    repeat split; auto. pose proof (min_le _ s (nth_error_In _ _ Hs)). unfold firstRequest in En. lia.
  - assert (Lt : st_now st < n).
    { subst n. apply min_gt; [exact Nm|]. intros s Hs. destruct I as (L & I). destruct (in_nth_pair ss0 _ s L Hs) as (j & s0 & E1 & E2).
      now destruct (I j s0 s E2 E1) as (_ & _ & P3 & _). }
    assert (g = n) by (eapply EX; eauto). subst g.
    destruct (step_inv ss0 M st n Gd I En Lt H1) as (A & B & C). destruct (IH M A B ltac:(lia) Sm) as (D & E & F). split; [exact D|]. lia.
Qed.

Lemma early_spec : forall ss i ss' es, early ngen jump i (-1) ss = (ss', es) ->
  length ss' = length ss /\
  (forall j s s', nth_error ss j = Some s -> nth_error ss' j = Some s' ->
     sc_next s' = Z.max 0 (sc_next s) /\ sc_period s' = sc_period s /\ sc_gen s' = sc_gen s /\
     of_pub (i + j) es = map (mkEvent (i + j)%nat (sc_gen s)) (if (sc_next s <? 0) && negb (ngen <=? sc_gen s) then [-1] else [])) /\
  (forall j, (j < i)%nat -> of_pub j es = []).
Proof.
  induction ss as [|s r IH]; intros i ss' es; cbn [early].
  { intros E; inversion E; subst. split; [reflexivity|]. split; [intros [|j] ? ? H; discriminate H|reflexivity]. }
  destruct (early ngen jump (S i) (-1) r) as [r' es'] eqn:E1. destruct (IH _ _ _ E1) as (A & B & C).
  fold runS. rewrite (runSource_eq i (-1) s). unfold newTimes.
  destruct (Z.ltb_spec (sc_next s) 0) as [N|N]; intros E; inversion E; subst; clear E.
  - split; [cbn [length]; lia|]. split.
    + intros [|j] x x' H H'; cbn [nth_error] in H, H'.
      * inversion H; inversion H'; subst. cbn [sc_next sc_period sc_gen]. rewrite Nat.add_0_r, of_pub_app, of_pub_self, C, app_nil_r by lia.
        destruct (Z.ltb_spec (sc_next x) 0); [|lia]. destruct (Z.leb_spec (sc_next x) (-1)); [|lia].
        split; [lia|]. unfold newSource, runS, runSource. destruct (sc_next x <=? -1); [|auto]. destruct (ngen <=? sc_gen x); auto.
      * rewrite of_pub_app, of_pub_other by lia. replace (i + S j)%nat with (S i + j)%nat by lia. destruct (B j x x' H H') as (B1 & B2 & B3 & B4).
        repeat split; auto.
    + intros j H. rewrite of_pub_app, of_pub_other by lia. apply C. lia.
  - split; [cbn [length]; lia|]. split.
    + intros [|j] x x' H H'; cbn [nth_error] in H, H'.
      * inversion H; inversion H'; subst. destruct (Z.ltb_spec (sc_next x') 0); [lia|]. rewrite Nat.add_0_r, C by lia. repeat split; auto; lia.
      * replace (i + S j)%nat with (S i + j)%nat by lia. apply (B j x x' H H').
    + intros j H. apply C. lia.
Qed.

Lemma start_inv ss0 : good ss0 ->
  let st := step ngen jump 0 (startUp ngen jump ss0) in
  Inv ss0 (-1) st /\ stepNext ngen jump 0 (startUp ngen jump ss0) = firstRequest st /\ st_now st = 0.
Proof.
  intros Gd st. subst st. unfold startUp. destruct (early ngen jump 0 (-1) ss0) as [ss1 es] eqn:E.
  destruct (early_spec _ _ _ _ E) as (L & B & _). set (s1 := mkState 0 ss1 es). destruct (step_eq 0 s1) as (A & D & C).
  split; [|split; [|exact A]].
  - split; [rewrite D, map_length; exact L|]. intros j s0 s' H0 H'. rewrite D, nth_error_map in H'. cbn [st_src s1] in H'.
    destruct (nth_error ss1 j) as [s|] eqn:Es; [|discriminate]. inversion H'; subst s'. rewrite A.
    destruct (Gd s0 (nth_error_In _ _ H0)) as (Q1 & Q2). destruct (B j s0 s H0 Es) as (P1 & P2 & P3 & P4).
    apply (step_one 0 (-1) j s0 s 0 es); auto; try (unfold maxTime; lia).
    + exists 0%nat. split; [lia|]. split; [intros; lia|]. rewrite (P4 : of_pub j es = _). f_equal. cbn [progression seq map].
      rewrite app_nil_r. destruct (Z.ltb_spec (sc_next s0) 0); [|reflexivity]. destruct (Z.leb_spec ngen (sc_gen s0)); [|reflexivity].
      destruct Q2; [lia|]. unfold maxTime in *; lia.
  - unfold stepNext, firstRequest. rewrite D. apply sweep_min. intros s Hs Hd. cbn [st_src s1] in Hs.
    destruct (in_nth_pair ss0 _ s L Hs) as (j & s0 & E1 & E2). destruct (B j s0 s E2 E1) as (P1 & P2 & P3 & _).
    destruct (Gd s0 (nth_error_In _ _ E2)) as (Q1 & [Q2|Q2]); [lia|unfold maxTime in *; lia].
Qed.

Lemma fold_max_app a l x : fold_right Z.max a (l ++ [x]) = Z.max (fold_right Z.max a l) (Z.max x a).
Proof. induction l as [|y l IH]; cbn [fold_right app]; [|rewrite IH]; lia. Qed.
Lemma fold_max_ge a l : a <= fold_right Z.max a l.
Proof. induction l; cbn [fold_right]; lia. Qed.

Lemma runs_inv ss0 : exact G -> good ss0 -> forall stops st, runs ngen jump G ss0 stops st -> (forall x, In x stops -> x < maxTime) ->
  Inv ss0 (fold_right Z.max (-1) stops) st /\ 0 <= st_now st <= latest stops /\ st_now st < maxTime.
Proof.
  intros EX Gd stops st H. unfold latest. induction H as [stop st H|stops st stop st' H IH HL]; intros Mx.
  - destruct (start_inv ss0 Gd) as (A & B & C). rewrite B in H. pose proof (Mx stop (or_introl eq_refl)).
    destruct (loop_inv ss0 stop EX Gd _ _ _ H (-1) A eq_refl) as (D & E & F); [rewrite C; unfold maxTime; lia|lia|].
    cbn [fold_right]. rewrite Z.max_comm. split; [exact D|]. lia.
  - destruct IH as (A & B & C); [intros x Hx; apply Mx, in_or_app; now left|].
    pose proof (Mx stop ltac:(apply in_or_app; right; left; reflexivity)).
    destruct (loop_inv ss0 stop EX Gd _ _ _ HL _ A eq_refl C) as (D & E & F); [lia|].
    rewrite !fold_max_app. pose proof (fold_max_ge (-1) stops). split; [|lia].
    replace (Z.max (fold_right Z.max (-1) stops) (Z.max stop (-1))) with (Z.max (fold_right Z.max (-1) stops) stop) by lia. exact D.
Qed.

Lemma runs_schedule ss0 : exact G -> good ss0 -> forall stops st, runs ngen jump G ss0 stops st -> (forall x, In x stops -> x < maxTime) ->
  forall j s0, nth_error ss0 j = Some s0 ->
  exists l, schedule (Z.max 0 (sc_next s0)) (sc_period s0) (latest stops) l /\
    of_pub j (st_log st) = map (mkEvent j (sc_gen s0)) ((if sc_next s0 <? 0 then [-1] else []) ++ l).
Proof.
  intros EX Gd stops st H Mx j s0 H0. destruct (runs_inv ss0 EX Gd stops st H Mx) as ((L & I) & B & C).
  assert (exists s, nth_error (st_src st) j = Some s) as (s & Hs).
  { destruct (nth_error (st_src st) j) as [s|] eqn:E; [now exists s|]. apply nth_error_None in E.
    assert (j < length ss0)%nat by (apply nth_error_Some; now rewrite H0). lia. }
  destruct (I j s0 s H0 Hs) as (P1 & P2 & P3 & P4 & (n & P5 & P6 & P7)). eexists. split; [|exact P7].
  exists n. split; [reflexivity|]. rewrite <- P5. split.
  - assert (latest stops = 0 \/ latest stops <= fold_right Z.max (-1) stops) as [Z0|Z0]; [|lia|lia].
    unfold latest. clear. induction stops as [|x r [IH|IH]]; cbn [fold_right]; [now left| |]; lia.
  - intros k Hk. specialize (P6 k Hk). lia.
Qed.
End Sweep.

(** ** Which generator *)
Lemma lookup_spec name : forall gens i, 0 <= i ->
  match lookup gens i name with
  | Some g => i <= g /\ nth_error gens (Z.to_nat (g - i)) = Some name /\ (forall k, (k < Z.to_nat (g - i))%nat -> nth_error gens k <> Some name)
  | None => forall k, nth_error gens k <> Some name
  end.
Proof.
  induction gens as [|x r IH]; intros i Hi; cbn [lookup]; [intros [|k]; discriminate|].
  destruct (String.eqb_spec x name) as [->|N].
  - rewrite Z.sub_diag. repeat split; [lia|]. cbn. intros; lia.
  - specialize (IH (i + 1) ltac:(lia)). destruct (lookup r (i + 1) name) as [g|].
    + destruct IH as (A & B & C). split; [lia|]. replace (Z.to_nat (g - i)) with (S (Z.to_nat (g - (i + 1)))) by lia. cbn [nth_error].
      split; [exact B|]. intros [|k] Hk; cbn [nth_error]; [congruence|]. apply C. lia.
    + intros [|k]; cbn [nth_error]; [congruence|apply IH].
Qed.

Lemma init_enabled gens c g : generator_of gens c g -> initSource gens c = mkSource (cf_start c) (cf_period c) g /\ g < Z.of_nat (length gens).
Proof.
  unfold generator_of, initSource. intros [(A & -> & B)|[(A & N & P & B & C)|(A & E & -> & B)]].
  - destruct (Z.ltb_spec (cf_index c) 0); [lia|]. destruct (Z.leb_spec (Z.of_nat (length gens)) (cf_index c)); [lia|]. auto.
  - destruct (Z.ltb_spec (cf_index c) 0); [|lia]. destruct (String.eqb_spec (cf_name c) ""); [contradiction|]. cbn [negb].
    pose proof (lookup_spec (cf_name c) gens 0 ltac:(lia)) as L. destruct (lookup gens 0 (cf_name c)) as [g'|].
    + rewrite Z.sub_0_r in L. destruct L as (L1 & L2 & L3).
      assert (Z.to_nat g = Z.to_nat g') as Eg.
      { destruct (lt_eq_lt_dec (Z.to_nat g) (Z.to_nat g')) as [[X|X]|X]; [|exact X|]; [now apply L3 in X|now apply C in X]. }
      assert (g = g') as -> by lia. split; [reflexivity|].
      assert (Z.to_nat g' < length gens)%nat by (apply nth_error_Some; now rewrite L2). lia.
    + now apply L in B.
  - destruct (Z.ltb_spec (cf_index c) 0); [|lia]. rewrite E. cbn [String.eqb negb]. destruct gens as [|x r]; [contradiction|]. split; [|cbn [length]; lia].
    destruct (0 <? Z.of_nat (length (x :: r))); reflexivity.
Qed.

Lemma init_disabled gens c : gens <> [] -> (forall g, ~ generator_of gens c g) -> sc_next (initSource gens c) = maxTime /\ sc_period (initSource gens c) = cf_period c.
Proof.
  unfold generator_of, initSource. intros NE H. destruct (Z.ltb_spec (cf_index c) 0).
  - destruct (String.eqb_spec (cf_name c) "") as [E|N]; cbn [negb].
    + exfalso. apply (H 0). right. right. auto.
    + pose proof (lookup_spec (cf_name c) gens 0 ltac:(lia)) as L. destruct (lookup gens 0 (cf_name c)) as [g|]; [|split; reflexivity].
      exfalso. apply (H g). right. left. rewrite Z.sub_0_r in L. tauto.
  - destruct (Z.leb_spec (Z.of_nat (length gens)) (cf_index c)); [split; reflexivity|]. exfalso. apply (H (cf_index c)). left. lia.
Qed.

Lemma generator_dec gens c : gens <> [] -> (exists g, generator_of gens c g) \/ (forall g, ~ generator_of gens c g).
Proof.
  intros NE. unfold generator_of. destruct (Z.ltb_spec (cf_index c) 0).
  - destruct (String.eqb_spec (cf_name c) "") as [E|N].
    + left. exists 0. right. right. auto.
    + pose proof (lookup_spec (cf_name c) gens 0 ltac:(lia)) as L. destruct (lookup gens 0 (cf_name c)) as [g|].
      * left. exists g. right. left. rewrite Z.sub_0_r in L. tauto.
      * right. intros g [X|[X|X]]; [lia| |tauto]. destruct X as (_ & _ & _ & X & _). now apply L in X.
  - destruct (Z.ltb_spec (cf_index c) (Z.of_nat (length gens))); [left; exists (cf_index c); left; lia|].
    right. intros g [X|[X|X]]; lia.
Qed.

Lemma init_good gens cfgs : gens <> [] -> (forall c, In c cfgs -> 1 <= cf_period c) -> good (Z.of_nat (length gens)) (map (initSource gens) cfgs).
Proof.
  intros NE P s0 H. apply in_map_iff in H as (c & <- & Hc). specialize (P c Hc).
  destruct (generator_dec gens c NE) as [(g & X)|X].
  - destruct (init_enabled gens c g X) as (E & L). rewrite E. cbn [sc_period sc_gen sc_next]. auto.
  - destruct (init_disabled gens c NE X) as (E & L). rewrite L. auto.
Qed.

(** ** C57 *)
(** A Source with at least one generator, all periods positive, on a federate which is granted what it asks for: whatever the
    publications, the generators and the sequence of runTo calls, a publication linked to a generator publishes that generator's
    value at start, start + period, ... up to the latest stop time, in order and nowhere else; one with a start before zero
    publishes once before the federate executes and then from time zero on *)
Theorem C57_publishes_on_schedule jump G gens cfgs stops st : exact G -> gens <> [] -> (forall c, In c cfgs -> 1 <= cf_period c) ->
  (forall x, In x stops -> x < maxTime) -> sourceRuns jump G gens cfgs stops st ->
  forall j c g, nth_error cfgs j = Some c -> generator_of gens c g ->
  exists l, schedule (Z.max 0 (cf_start c)) (cf_period c) (latest stops) l /\
    of_pub j (st_log st) = map (mkEvent j g) ((if cf_start c <? 0 then [-1] else []) ++ l).
Proof.
  intros EX NE P Mx H j c g Hj Hg. destruct (init_enabled gens c g Hg) as (E & _).
  pose proof (runs_schedule _ jump G _ EX (init_good gens cfgs NE P) stops st H Mx j (initSource gens c)) as R.
  rewrite nth_error_map, Hj in R. specialize (R eq_refl). rewrite E in R. exact R.
Qed.

(** a publication linked to a generator which does not exist publishes nothing, and does not disturb the others *)
Theorem C57_unknown_generator_silent jump G gens cfgs stops st : exact G -> gens <> [] -> (forall c, In c cfgs -> 1 <= cf_period c) ->
  (forall x, In x stops -> x < maxTime) -> sourceRuns jump G gens cfgs stops st ->
  forall j c, nth_error cfgs j = Some c -> (forall g, ~ generator_of gens c g) -> of_pub j (st_log st) = [].
Proof.
  intros EX NE P Mx H j c Hj Hg. destruct (init_disabled gens c NE Hg) as (E & Ep).
  pose proof (runs_schedule _ jump G _ EX (init_good gens cfgs NE P) stops st H Mx j (initSource gens c)) as R.
  rewrite nth_error_map, Hj in R. destruct (R eq_refl) as (l & (n & -> & S1 & S2) & ->). rewrite E in *.
  replace (maxTime <? 0) with false by (unfold maxTime; reflexivity). cbn [app].
  destruct n as [|n]; [reflexivity|]. specialize (S2 0%nat ltac:(lia)).
  assert (latest stops < maxTime); [|lia]. unfold latest. clear - Mx.
  induction stops as [|x r IH]; cbn [fold_right]; [unfold maxTime; lia|].
  pose proof (Mx x (or_introl eq_refl)). specialize (IH (fun y Hy => Mx y (or_intror Hy))). lia.
Qed.

(** ** Whatever the grants *)
(** what was published before the federate executes, and then [l]: the [k]-th time is not before start + k period *)
Definition LInv (ngen : Z) (j : nat) (s0 s : source) (log : list event) : Prop :=
  sc_period s = sc_period s0 /\ sc_gen s = sc_gen s0 /\
  exists l, of_pub j log = map (mkEvent j (sc_gen s0)) ((if (sc_next s0 <? 0) && negb (ngen <=? sc_gen s0) then [-1] else []) ++ l) /\
    (ngen <= sc_gen s0 -> l = []) /\
    Z.max 0 (sc_next s0) + Z.of_nat (length l) * sc_period s0 <= sc_next s /\
    (forall k t, nth_error l k = Some t -> Z.max 0 (sc_next s0) + Z.of_nat k * sc_period s0 <= t).
Definition LInvs ngen ss0 st : Prop := length (st_src st) = length ss0 /\
  forall j s0 s, nth_error ss0 j = Some s0 -> nth_error (st_src st) j = Some s -> LInv ngen j s0 s (st_log st).

Lemma late_step ngen jump ss0 st g : (forall n p now, n < now -> n <= jump n p now) -> LInvs ngen ss0 st -> LInvs ngen ss0 (step ngen jump g st).
Proof.
  intros J (L & I). destruct (step_eq ngen jump g st) as (A & B & C). split; [rewrite B, map_length; exact L|].
  intros j s0 s' H0 H'. rewrite B, nth_error_map in H'. destruct (nth_error (st_src st) j) as [s|] eqn:Es; [|discriminate].
  inversion H'; subst s'; clear H'. destruct (I j s0 s H0 Es) as (P1 & P2 & (l & P3 & Pd & P4 & P5)). specialize (C j s Es).
  unfold LInv. rewrite C, P3, P2. unfold newSource, newTimes, runSource. rewrite P1, P2.
  destruct (Z.leb_spec (sc_next s) g); [|cbn [fst snd andb map]; rewrite app_nil_r; repeat split; auto; exists l; auto].
  destruct (Z.leb_spec ngen (sc_gen s0)) as [D|D]; cbn [fst snd andb negb sc_next sc_period sc_gen].
  - cbn [map]. rewrite app_nil_r. repeat split; auto. exists l. auto.
  - split; [reflexivity|]. split; [reflexivity|]. exists (l ++ [g]). rewrite <- map_app, app_assoc. split; [reflexivity|]. split; [lia|].
    rewrite app_length. cbn [length]. split.
    + destruct (Z.ltb_spec (sc_next s + sc_period s0) g) as [X|X]; [specialize (J _ (sc_period s0) _ X)|]; lia.
    + intros k t Hk. destruct (lt_dec k (length l)) as [X|X].
      * rewrite nth_error_app1 in Hk by exact X. now apply P5.
      * rewrite nth_error_app2 in Hk by lia. destruct (k - length l)%nat as [|m] eqn:Em; [|destruct m; discriminate].
        cbn in Hk. inversion Hk; subst. assert (k = length l) by lia. subst k. lia.
Qed.

Lemma late_loop ngen jump G stop ss0 : (forall n p now, n < now -> n <= jump n p now) ->
  forall n st st', loop ngen jump G stop n st st' -> LInvs ngen ss0 st -> LInvs ngen ss0 st'.
Proof. intros J n st st' H. induction H; intros I; [exact I|]. apply IHloop. now apply late_step. Qed.

Lemma late_runs ngen jump G ss0 : (forall n p now, n < now -> n <= jump n p now) ->
  forall stops st, runs ngen jump G ss0 stops st -> LInvs ngen ss0 st.
Proof.
  intros J stops st H. induction H as [stop st H|stops st stop st' H IH HL].
  - eapply late_loop; [exact J|exact H|]. apply late_step; [exact J|]. unfold startUp.
    destruct (early ngen jump 0 (-1) ss0) as [ss1 es] eqn:E. destruct (early_spec _ _ _ _ _ _ E) as (L & B & _).
    split; [exact L|]. cbn [st_src st_log]. intros j s0 s H0 Hs. destruct (B j s0 s H0 Hs) as (P1 & P2 & P3 & P4).
    repeat split; auto. exists []. rewrite app_nil_r. split; [exact P4|]. split; [auto|]. cbn [length]. split; [lia|]. intros [|k] t X; discriminate X.
  - eapply late_loop; eauto.
Qed.

(** Whatever times are granted (early, late, repeated) and however the lost periods are skipped, as long as skipping does not
    go back: no publication is ever ahead of its schedule *)
Theorem C57_never_ahead jump G gens cfgs stops st : (forall n p now, n < now -> n <= jump n p now) -> sourceRuns jump G gens cfgs stops st ->
  forall j c g, nth_error cfgs j = Some c -> generator_of gens c g ->
  exists l, of_pub j (st_log st) = map (mkEvent j g) ((if cf_start c <? 0 then [-1] else []) ++ l) /\
    (forall k t, nth_error l k = Some t -> Z.max 0 (cf_start c) + Z.of_nat k * cf_period c <= t).
Proof.
  intros J H j c g Hj Hg. destruct (init_enabled gens c g Hg) as (E & Lt). destruct (late_runs _ jump G _ J stops st H) as (L & I).
  assert (nth_error (map (initSource gens) cfgs) j = Some (initSource gens c)) as H0 by now rewrite nth_error_map, Hj.
  assert (exists s, nth_error (st_src st) j = Some s) as (s & Hs).
  { destruct (nth_error (st_src st) j) as [s|] eqn:X; [now exists s|]. apply nth_error_None in X.
    assert (j < length (map (initSource gens) cfgs))%nat by (apply nth_error_Some; now rewrite H0). lia. }
  destruct (I j _ s H0 Hs) as (_ & _ & (l & A & _ & _ & B)). rewrite E in A, B. cbn [sc_next sc_gen sc_period] in A, B.
  exists l. split; [|exact B]. destruct (Z.leb_spec (Z.of_nat (length gens)) g); [lia|]. rewrite andb_true_r in A. exact A.
Qed.

(** a Source without generators publishes nothing *)
Theorem C57_no_generator_silent jump G cfgs stops st : (forall n p now, n < now -> n <= jump n p now) -> sourceRuns jump G [] cfgs stops st ->
  forall j, (j < length cfgs)%nat -> of_pub j (st_log st) = [].
Proof.
  intros J H j Lj. destruct (late_runs _ jump G _ J stops st H) as (L & I). rewrite map_length in L.
  destruct (nth_error cfgs j) as [c|] eqn:Hj; [|apply nth_error_None in Hj; lia].
  destruct (nth_error (st_src st) j) as [s|] eqn:Hs; [|apply nth_error_None in Hs; lia].
  destruct (I j (initSource [] c) s) as (_ & _ & (l & A & D & _)); [now rewrite nth_error_map, Hj|exact Hs|]. cbn [length] in *.
  assert (0 <= sc_gen (initSource [] c)) as N.
  { unfold initSource. destruct (Z.ltb_spec (cf_index c) 0).
    - destruct (cf_name c =? "")%string; cbn [negb lookup sc_gen length]; [|discriminate].
      destruct (0 <? Z.of_nat 0); discriminate.
    - destruct (_ <=? cf_index c); cbn [sc_gen]; lia. }
  rewrite A, (D ltac:(lia)). destruct (Z.leb_spec (Z.of_nat 0) (sc_gen (initSource [] c))); [|lia]. now rewrite andb_false_r.
Qed.

(** ** Every runTo ends *)
Lemma loop_ends ngen jump (G : Z -> Z -> Z -> Prop) ss0 stop : exact G -> (forall now t, now < t -> exists g, G now t g) -> good ngen ss0 -> stop < maxTime ->
  forall f st M, Inv ss0 M st -> st_now st < maxTime -> stop - st_now st < Z.of_nat f -> exists st', loop ngen jump G stop (firstRequest st) st st'.
Proof.
  intros EX T Gd Sm. induction f as [|f IH]; intros st M I Nm F.
  - assert (st_now st < firstRequest st) as Lt.
    { apply min_gt; [exact Nm|]. intros s Hs. destruct I as (L & I). destruct (in_nth_pair ss0 _ s L Hs) as (j & s0 & E1 & E2).
      now destruct (I j s0 s E2 E1) as (_ & _ & P3 & _). }
    exists st. apply L_end. lia.
  - assert (st_now st < firstRequest st) as Lt.
    { apply min_gt; [exact Nm|]. intros s Hs. destruct I as (L & I). destruct (in_nth_pair ss0 _ s L Hs) as (j & s0 & E1 & E2).
      now destruct (I j s0 s E2 E1) as (_ & _ & P3 & _). }
    destruct (Z_lt_dec (firstRequest st) maxTime) as [A|A]; [|exists st; apply L_end; lia].
    destruct (Z_le_dec (firstRequest st) stop) as [B|B]; [|exists st; apply L_end; lia].
    destruct (T _ _ Lt) as (g & Hg). pose proof (EX _ _ _ Lt Hg) as Eg.
    destruct (step_inv ngen jump ss0 M st g Gd I Eg ltac:(lia) ltac:(lia)) as (I' & N' & W').
    destruct (IH (step ngen jump g st) M I' ltac:(lia) ltac:(lia)) as (st' & H). exists st'.
    apply L_more with (g := g); auto. now rewrite N'.
Qed.

(** with positive periods and every request granted, every sequence of runTo calls comes to an end *)
Theorem C57_runs_end jump (G : Z -> Z -> Z -> Prop) gens cfgs : exact G -> (forall now t, now < t -> exists g, G now t g) -> gens <> [] ->
  (forall c, In c cfgs -> 1 <= cf_period c) ->
  forall stops, stops <> [] -> (forall x, In x stops -> x < maxTime) -> exists st, sourceRuns jump G gens cfgs stops st.
Proof.
  intros EX T NE P. pose proof (init_good gens cfgs NE P) as Gd. unfold sourceRuns. set (ss0 := map (initSource gens) cfgs) in *.
  intros stops. induction stops as [|stop stops IH] using rev_ind; [contradiction|]. intros _ Mx.
  assert (stop < maxTime) as Sm by (apply Mx, in_or_app; right; left; reflexivity).
  destruct stops as [|x r].
  - destruct (start_inv _ jump ss0 Gd) as (A & B & C).
    destruct (loop_ends _ jump G ss0 stop EX T Gd Sm (S (Z.to_nat stop)) _ _ A) as (st & H); [rewrite C; unfold maxTime; lia|rewrite C; lia|].
    exists st. apply R_first. rewrite B. exact H.
  - destruct IH as (st & H); [discriminate|intros y Hy; apply Mx, in_or_app; now left|].
    destruct (runs_inv _ jump G ss0 EX Gd _ _ H) as (A & B & C); [intros y Hy; apply Mx, in_or_app; now left|].
    destruct (loop_ends _ jump G ss0 stop EX T Gd Sm (S (Z.to_nat (stop - st_now st))) st _ A C ltac:(lia)) as (st' & H').
    exists st'. now apply R_next with (s := st).
Qed.

(** ** Concrete cases *)
(** the grants of a federate alone, without period or offset: what it asks for, or the next instant *)
Definition alone (now t g : Z) : Prop := g = Z.max t (now + 1).
Lemma alone_exact : exact alone.
Proof. intros now t g L ->. lia. Qed.
(** three generators, a publication every 3 from 2 on, one by name every 4 from before zero, one with an unknown name *)
Definition ex_gens : list string := ["ramp"; "sine"; "phasor"]%string.
Definition ex_cfgs : list config :=
  [mkConfig 2 3 1 ""; mkConfig (-5) 4 (-1) "phasor"; mkConfig 0 1 (-1) "nothing"; mkConfig 7 2 (-1) ""]%string.
Definition ex_jump (n p now : Z) : Z := n + (now - n) / p * p + p.
Example ex_hypotheses : exact alone /\ ex_gens <> [] /\ (forall c, In c ex_cfgs -> 1 <= cf_period c) /\
  (exists st, sourceRuns ex_jump alone ex_gens ex_cfgs [6; 9] st) /\
  generator_of ex_gens (mkConfig (-5) 4 (-1) "phasor") 2.
Proof.
  assert (forall c, In c ex_cfgs -> 1 <= cf_period c) as P.
  { intros c H. repeat (destruct H as [<-|H]; [cbn; lia|]). destruct H. }
  repeat split; auto using alone_exact; try discriminate.
  - apply C57_runs_end; auto using alone_exact; try discriminate.
    + intros now t L. eexists. reflexivity.
    + intros x [<-|[<-|[]]]; unfold maxTime; lia.
  - right. left. cbn. split; [lia|]. split; [discriminate|]. split; [lia|]. split; [reflexivity|].
    intros [|[|k]] Hk; cbn; try discriminate. change (Z.to_nat 2) with 2%nat in Hk. lia.
Qed.
(** what they publish: 2, 5, 8 for the first, once before zero and then 0, 4, 8 for the second *)
Example ex_published st : sourceRuns ex_jump alone ex_gens ex_cfgs [6; 9] st ->
  map e_time (of_pub 0 (st_log st)) = [2; 5; 8] /\ map e_time (of_pub 1 (st_log st)) = [-1; 0; 4; 8].
Proof.
  intros H. destruct ex_hypotheses as (A & B & C & _ & D).
  assert (forall x, In x [6; 9] -> x < maxTime) as Mx by (intros x [<-|[<-|[]]]; unfold maxTime; lia).
  split.
  - destruct (C57_publishes_on_schedule _ _ _ _ _ _ A B C Mx H 0%nat _ 1 eq_refl) as (l & (n & -> & S1 & S2) & ->); [left; cbn; lia|].
    cbn [cf_start cf_period latest fold_right] in *. assert (n = 3)%nat as ->; [|reflexivity].
    destruct (le_lt_dec n 3) as [X|X]; [lia|specialize (S2 3%nat X); lia].
  - destruct (C57_publishes_on_schedule _ _ _ _ _ _ A B C Mx H 1%nat _ 2 eq_refl D) as (l & (n & -> & S1 & S2) & ->).
    cbn [cf_start cf_period latest fold_right] in *. assert (n = 3)%nat as ->; [|reflexivity].
    destruct (le_lt_dec n 3) as [X|X]; [lia|specialize (S2 3%nat X); lia].
Qed.
(** the loop of initialize counts the publications but never increments the counter: two publications without a link
    and two generators do not get one each *)
Theorem C57_own_generator_refuted : ~ forall gens cfgs j c, nth_error cfgs j = Some c -> cf_index c < 0 -> cf_name c = ""%string ->
  (j < length gens)%nat -> sc_gen (initSource gens c) = Z.of_nat j.
Proof.
  intros H. specialize (H ["a"; "b"]%string [mkConfig 0 1 (-1) ""; mkConfig 0 1 (-1) ""] 1%nat _ eq_refl).
  cbn in H. specialize (H ltac:(lia) eq_refl ltac:(lia)). discriminate H.
Qed.

(** ** A grant which comes late *)
(** the arithmetic of 374-377 without rounding *)
Definition skip_exact (n p now : Z) : Z := n + (now - n) / p * p + p.
(** a publication which was due is made, and the next one falls on the schedule, not before now and within a period *)
Theorem C57_late_grant ngen i now s : 1 <= sc_period s -> sc_next s <= now -> sc_gen s < ngen ->
  exists s' n, runSource ngen skip_exact i now s = (s', [mkEvent i (sc_gen s) now], sc_next s') /\
    sc_next s' = sc_next s + n * sc_period s /\ 1 <= n /\ now <= sc_next s' <= now + sc_period s /\
    (now - sc_next s <> sc_period s -> now < sc_next s').
Proof.
  intros P L V. unfold runSource, skip_exact. destruct (Z.leb_spec (sc_next s) now); [|lia]. destruct (Z.leb_spec ngen (sc_gen s)); [lia|].
  set (n := sc_next s + sc_period s). destruct (Z.ltb_spec n now).
  - exists (mkSource (n + (now - n) / sc_period s * sc_period s + sc_period s) (sc_period s) (sc_gen s)), (2 + (now - n) / sc_period s). split; [reflexivity|]. cbn [sc_next].
    pose proof (Z.div_pos (now - n) (sc_period s) ltac:(lia) ltac:(lia)).
    pose proof (Z.mul_div_le (now - n) (sc_period s) ltac:(lia)). pose proof (Z.mul_succ_div_gt (now - n) (sc_period s) ltac:(lia)).
    subst n. repeat split; nia.
  - exists (mkSource n (sc_period s) (sc_gen s)), 1. split; [reflexivity|]. cbn [sc_next]. subst n. repeat split; lia.
Qed.
(** when the grant is late by exactly one period the next publication is due now again, so that it goes out at the next instant *)
Theorem C57_late_by_one_period_refuted : ~ forall ngen i now s, 1 <= sc_period s -> sc_next s <= now -> sc_gen s < ngen ->
  now < snd (runSource ngen skip_exact i now s).
Proof. intros H. specialize (H 1 0%nat 5 (mkSource 2 3 0)). cbn in H. specialize (H ltac:(lia) ltac:(lia) ltac:(lia)). lia. Qed.
