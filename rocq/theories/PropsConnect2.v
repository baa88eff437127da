(** * C29, continued: the start of the federation, and what is left open *)
From Coq Require Import ZArith Bool List Lia.
From Verif Require Import HTime Action Interfaces InputSpec PropsInput Ids PropsIds Handles HandlesAlias HandlesInv Connect PropsConnect.
Import ListNotations.

(** ** the registry only grows while requests are worked off *)
Definition grows (s s' : hm) : Prop := (forall t n i, find n (tab t s) = Some i -> find n (tab t s') = Some i) /\ (forall i h, nth_error (handles s) i = Some h -> nth_error (handles s') i = Some h) /\ aliases s' = aliases s.
Lemma grows_refl s : grows s s.
Proof. split; [|split]; auto. Qed.
Lemma grows_trans a b c : grows a b -> grows b c -> grows a c.
Proof. intros (A & B & C) (D & E & F). split; [auto|split; [auto|congruence]]. Qed.
Lemma grows_found n t s s' i x : grows s s' -> getInterfaceHandle n (tabKind t) s = Found i x -> getInterfaceHandle n (tabKind t) s' = Found i x.
Proof.
  intros (A & B & _). unfold getInterfaceHandle, deref. rewrite tabKind_map. destruct (find n (tab t s)) as [j|] eqn:F; [|discriminate]. rewrite (A _ _ _ F).
  destruct (nth_error (handles s) j) as [h|] eqn:N; [rewrite (B _ _ N)|]; destruct t; (discriminate || auto).
Qed.
Lemma grows_resolves t n b b' : grows (hs b) (hs b') -> resolves b t n -> resolves b' t n.
Proof. intros G (i & x & R). exists i, x. apply (grows_found _ _ _ _ _ _ G R). Qed.
(** a name made up by the broker *)
Definition madeUp (gen : kind -> nat -> name) (n : name) : Prop := exists k i, gen k i = n.
Lemma enter_grows gen k key id ty u fg b b' : enter gen k key id ty u fg b = Some b' -> grows (hs b) (hs b').
Proof.
  unfold enter. destruct (addHandle _ _ _ _ _ _ _ _) as [s []] eqn:E; [discriminate|]. injection 1 as <-. destruct (addHandle_facts _ _ _ _ _ _ _ _ _ E) as (A & B & C & _). cbn [hs]. split; [exact A|split; [|exact C]].
  intros i h N. rewrite B. rewrite nth_error_app1; [exact N|]. apply nth_error_Some. congruence.
Qed.
Lemma anonymous_grows gen q b b' out : enterAnonymous gen q b = Ok b' out -> grows (hs b) (hs b').
Proof.
  unfold enterAnonymous. intros E. destruct (q_strings q) as [[ty u]|], (q_tab q); try (injection E as <- _; apply grows_refl).
  all: destruct (findHandle (q_src q) (hs b)); try (injection E as <- _; apply grows_refl).
  all: destruct (enter _ _ _ _ _ _ _ _) eqn:EN; [|discriminate]; injection E as <- _; apply (enter_grows _ _ _ _ _ _ _ _ _ EN).
Qed.
Lemma named_grows gen q b b' out : checkForNamedInterface gen q b = Ok b' out -> grows (hs b) (hs b').
Proof.
  unfold checkForNamedInterface. set (b0 := if checkActionFlag (q_flags q) reconnectable_flag then _ else b). assert (H0 : hs b0 = hs b) by (unfold b0; destruct (checkActionFlag _ _); reflexivity). clearbody b0. intros E. rewrite <- H0.
  destruct (getInterfaceHandle _ _ _); [apply anonymous_grows in E; exact E|injection E as <- _; apply grows_refl|apply anonymous_grows in E; exact E].
Qed.
Lemma link_grows gen l s d fg b b' out : link gen l s d fg b = Ok b' out -> grows (hs b) (hs b').
Proof.
  unfold link. intros E. destruct l; repeat (match type of E with context [match ?X with Null => _ | _ => _ end] => destruct X end); try (apply (named_grows _ _ _ _ _ E)); injection E as <- _; apply grows_refl.
Qed.
Lemma linkKnown_spec gen l : forall b b' out, linkKnown gen l b = Ok b' out -> grows (hs b) (hs b') /\ operating b' = operating b /\ forall t n, exists new, waiting b' t n = waiting b t n ++ new /\ (resolves b t n -> new = []).
Proof.
  induction l as [|[[s ks] [d kd]] l IH]; intros b b' out E; [injection E as <- _; split; [apply grows_refl|]; split; [reflexivity|]; intros t n; exists []; rewrite app_nil_r; split; reflexivity|].
  cbn [linkKnown] in E. apply bind_ok in E. destruct E as (b1 & o1 & o2 & E1 & E2 & _).
  assert (G : grows (hs b) (hs b1) /\ operating b1 = operating b /\ forall t n, exists new, waiting b1 t n = waiting b t n ++ new /\ (resolves b t n -> new = [])).
  { assert (LK : forall lt x y, link gen lt x y 0 b = Ok b1 o1 -> grows (hs b) (hs b1) /\ operating b1 = operating b /\ forall t n, exists new, waiting b1 t n = waiting b t n ++ new /\ (resolves b t n -> new = [])).
    { intros lt x y L. split; [apply (link_grows _ _ _ _ _ _ _ _ L)|]. apply link_spec in L. destruct L as (A & _ & B). split; [exact A|exact B]. }
    assert (NO : Ok b [] = Ok b1 o1 -> grows (hs b) (hs b1) /\ operating b1 = operating b /\ forall t n, exists new, waiting b1 t n = waiting b t n ++ new /\ (resolves b t n -> new = [])).
    { injection 1 as <- _. split; [apply grows_refl|]. split; [reflexivity|]. intros t n. exists []. rewrite app_nil_r. split; reflexivity. }
    destruct (getInterfaceHandle s ks (hs b)); try (apply (NO E1)). destruct (getInterfaceHandle d kd (hs b)); try (apply (NO E1)). destruct ks; try (apply (NO E1)); try (apply (LK _ _ _ E1)). destruct kd; try (apply (NO E1)). apply (LK _ _ _ E1). }
  destruct G as (G1 & G2 & G3). destruct (IH _ _ _ E2) as (K1 & K2 & K3). split; [apply (grows_trans _ _ _ G1 K1)|]. split; [congruence|]. intros t n. destruct (G3 t n) as (n1 & A & A'), (K3 t n) as (n2 & B & B').
  exists (n1 ++ n2). split; [rewrite B, A, app_assoc; reflexivity|]. intros R. rewrite (A' R), (B' (grows_resolves _ _ _ _ G1 R)). reflexivity.
Qed.

(** ** names which have become known *)
Lemma notifyNames_spec gen t l : forall b b' out, faithful (hs b) -> notifyNames gen t l b = Ok b' out ->
  hs b' = hs b /\ operating b' = operating b /\
  (forall n, In n l -> waiting b' t n = [] /\ exists i x pre o post, getInterfaceHandle n (tabKind t) (hs b) = Found i x /\ out = pre ++ o ++ post /\ introductions t (h_id x) (waiting b t n) o) /\
  (forall t' n, ~ (t' = t /\ In n l) -> exists new, waiting b' t' n = waiting b t' n ++ new /\ (resolves b t' n -> new = [])).
Proof.
  induction l as [|n l IH]; intros b b' out FA E.
  - injection E as <- <-. split; [reflexivity|]. split; [reflexivity|]. split; [intros n []|]. intros t' n _. exists []. rewrite app_nil_r. split; reflexivity.
  - cbn [notifyNames] in E. apply bind_ok in E. destruct E as (b1 & o1 & o2 & E1 & E2 & ->). destruct (getInterfaceHandle n (tabKind t) (hs b)) as [|i x|] eqn:G; try discriminate.
    assert (IF : isFound n (tabKind t) (hs b) = true) by (unfold isFound; rewrite G; reflexivity).
    destruct (notify_spec _ _ _ _ _ _ _ FA IF E1) as (H1 & _ & H3 & (ps & rest & EO & F2 & _) & W & _ & _). pose proof FA as FA1. rewrite <- H1 in FA1. destruct (IH _ _ _ FA1 E2) as (K1 & K2 & K3 & K4).
    assert (OF : forall t' m, resolves b t' m -> opened (linkReqs t x b n) (hs b) t' m = []) by (intros t' m R; apply opened_found, isFound_iff, R).
    assert (RS : forall t' m, resolves b t' m -> resolves b1 t' m) by (intros t' m (j & y & R); exists j, y; rewrite H1; exact R).
    split; [congruence|]. split; [congruence|]. split.
    + intros m M. destruct (in_dec name_dec m l) as [ML|ML].
      * destruct (K3 m ML) as (A & j & y & pre & o & post & GY & -> & IN). rewrite H1 in GY. split; [exact A|]. rewrite W in IN.
        destruct (beq n m) eqn:B; [|].
        { apply beq_eq in B. subst m. exists i, x, [], (concat ps), (rest ++ pre ++ o ++ post). split; [exact G|]. split; [rewrite EO, <- !app_assoc; reflexivity|]. exists ps. split; [reflexivity|exact F2]. }
        { exists j, y, (o1 ++ pre), o, post. split; [exact GY|]. split; [rewrite <- !app_assoc; reflexivity|]. rewrite table_eqb_refl in IN. cbn [andb] in IN.
          rewrite (OF t m) in IN by (exists j, y; exact GY). rewrite app_nil_r in IN. exact IN. }
      * destruct M as [<-|M]; [|contradiction]. split.
        { destruct (K4 t n) as (new & A & B); [tauto|]. rewrite A, W, table_eqb_refl, beq_refl. cbn [andb]. rewrite (OF t n) by (exists i, x; exact G). apply B, RS. exists i, x. exact G. }
        exists i, x, [], (concat ps), (rest ++ o2). split; [exact G|]. split; [rewrite EO, <- app_assoc; reflexivity|]. exists ps. split; [reflexivity|exact F2].
    + intros t' m N. destruct (K4 t' m) as (new & A & B); [intros [T M]; apply N; split; [exact T|right; exact M]|]. rewrite W in A.
      assert (TF : table_eqb t t' && beq n m = false). { destruct (table_eqb t t') eqn:TE; [|reflexivity]. apply table_eqb_eq in TE. subst t'. destruct (beq n m) eqn:BE; [|reflexivity]. apply beq_eq in BE. subst m. destruct N. split; [reflexivity|left; reflexivity]. }
      rewrite TF in A. exists (opened (linkReqs t x b n) (hs b) t' m ++ new). split; [rewrite A, app_assoc; reflexivity|]. intros R. rewrite (OF _ _ R), (B (RS _ _ R)). reflexivity.
Qed.
Lemma found_waiting b t n : resolves b t n -> waiting b t n <> [] -> In n (foundNames t b (hs b)).
Proof.
  intros R W. unfold foundNames. apply filter_In. split; [|apply isFound_iff; exact R]. destruct (waiting b t n) as [|e l] eqn:E; [congruence|]. assert (I : In e (waiting b t n)) by (rewrite E; left; reflexivity).
  unfold waiting in I. apply in_map_iff in I. destruct I as (p & _ & I). apply filter_In in I. destruct I as [I B]. apply beq_eq in B. apply in_map_iff. exists p. split; [exact B|exact I].
Qed.
Lemma foundNames_resolve b t n : In n (foundNames t b (hs b)) -> resolves b t n.
Proof. unfold foundNames. rewrite filter_In. intros [_ H]. apply isFound_iff. exact H. Qed.
(** all the calls for the names found: [b1] the state in which they were collected *)
Definition four (l : table -> list name) (gen : kind -> nat -> name) (b : rb) : res :=
  bind (bind (bind (notifyNames gen Pubs (l Pubs) b) (notifyNames gen Inps (l Inps))) (notifyNames gen Epts (l Epts))) (notifyNames gen Filts (l Filts)).
Lemma list_sub {A} (a b c d o : list A) : exists pre post, a ++ (b ++ o ++ c) ++ d = pre ++ o ++ post.
Proof. exists (a ++ b), (c ++ d). rewrite <- !app_assoc. reflexivity. Qed.
Lemma four_spec gen l b b' out : faithful (hs b) -> (forall t n, In n (l t) -> resolves b t n) -> four l gen b = Ok b' out ->
  hs b' = hs b /\ operating b' = operating b /\
  (forall t n, In n (l t) -> waiting b' t n = [] /\ exists i x pre o post, getInterfaceHandle n (tabKind t) (hs b) = Found i x /\ out = pre ++ o ++ post /\ introductions t (h_id x) (waiting b t n) o) /\
  (forall t n, ~ In n (l t) -> exists new, waiting b' t n = waiting b t n ++ new /\ (resolves b t n -> new = [])).
Proof.
  intros FA RL E. unfold four in E. apply bind_ok in E. destruct E as (b3 & o3 & p4 & E & E4 & ->). apply bind_ok in E. destruct E as (b2 & o2 & p3 & E & E3 & ->). apply bind_ok in E. destruct E as (b1 & o1 & p2 & E1 & E2 & ->).
  assert (F1 := FA). destruct (notifyNames_spec _ _ _ _ _ _ F1 E1) as (A1 & A2 & A3 & A4).
  assert (F2 : faithful (hs b1)) by (rewrite A1; exact FA). destruct (notifyNames_spec _ _ _ _ _ _ F2 E2) as (B1 & B2 & B3 & B4). rewrite A1 in B1, B3.
  assert (F3 : faithful (hs b2)) by (rewrite B1; exact FA). destruct (notifyNames_spec _ _ _ _ _ _ F3 E3) as (C1 & C2 & C3 & C4). rewrite B1 in C1, C3.
  assert (F4 : faithful (hs b3)) by (rewrite C1; exact FA). destruct (notifyNames_spec _ _ _ _ _ _ F4 E4) as (D1 & D2 & D3 & D4). rewrite C1 in D1, D3.
  assert (RS : forall c, hs c = hs b -> forall t n, resolves b t n -> resolves c t n) by (intros c H t n (i & x & R); exists i, x; rewrite H; exact R).
  split; [exact D1|]. split; [congruence|]. split.
  - intros t n I. pose proof (RL t n I) as R. destruct t.
    + destruct (A3 n I) as (W & i & x & pre & o & post & G & EO & IN). split.
      * destruct (B4 Pubs n) as (n2 & X2 & Y2); [intros []; discriminate|]. destruct (C4 Pubs n) as (n3 & X3 & Y3); [intros []; discriminate|]. destruct (D4 Pubs n) as (n4 & X4 & Y4); [intros []; discriminate|].
        rewrite X4, X3, X2, W, (Y2 (RS _ A1 _ _ R)), (Y3 (RS _ B1 _ _ R)), (Y4 (RS _ C1 _ _ R)). reflexivity.
      * exists i, x, pre, o, (post ++ p2 ++ p3 ++ p4). split; [exact G|]. split; [rewrite EO, <- !app_assoc; reflexivity|exact IN].
    + destruct (C3 n I) as (W & i & x & pre & o & post & G & EO & IN). split.
      * destruct (D4 Epts n) as (n4 & X4 & Y4); [intros []; discriminate|]. rewrite X4, W, (Y4 (RS _ C1 _ _ R)). reflexivity.
      * exists i, x, (o1 ++ p2 ++ pre), o, (post ++ p4). split; [exact G|]. split; [rewrite EO, <- !app_assoc; reflexivity|].
        destruct (A4 Epts n) as (n1 & X1 & Y1); [intros []; discriminate|]. destruct (B4 Epts n) as (n2 & X2 & Y2); [intros []; discriminate|]. rewrite X2, X1, (Y1 R), (Y2 (RS _ A1 _ _ R)), !app_nil_r in IN. exact IN.
    + destruct (B3 n I) as (W & i & x & pre & o & post & G & EO & IN). split.
      * destruct (C4 Inps n) as (n3 & X3 & Y3); [intros []; discriminate|]. destruct (D4 Inps n) as (n4 & X4 & Y4); [intros []; discriminate|]. rewrite X4, X3, W, (Y3 (RS _ B1 _ _ R)), (Y4 (RS _ C1 _ _ R)). reflexivity.
      * exists i, x, (o1 ++ pre), o, (post ++ p3 ++ p4). split; [exact G|]. split; [rewrite EO, <- !app_assoc; reflexivity|].
        destruct (A4 Inps n) as (n1 & X1 & Y1); [intros []; discriminate|]. rewrite X1, (Y1 R), app_nil_r in IN. exact IN.
    + destruct (D3 n I) as (W & i & x & pre & o & post & G & EO & IN). split; [exact W|].
      exists i, x, (o1 ++ p2 ++ p3 ++ pre), o, post. split; [exact G|]. split; [rewrite EO, <- !app_assoc; reflexivity|].
      destruct (A4 Filts n) as (n1 & X1 & Y1); [intros []; discriminate|]. destruct (B4 Filts n) as (n2 & X2 & Y2); [intros []; discriminate|]. destruct (C4 Filts n) as (n3 & X3 & Y3); [intros []; discriminate|].
      rewrite X3, X2, X1, (Y1 R), (Y2 (RS _ A1 _ _ R)), (Y3 (RS _ B1 _ _ R)), !app_nil_r in IN. exact IN.
  - intros t n I. destruct (A4 t n) as (n1 & X1 & Y1); [intros [-> J]; exact (I J)|]. destruct (B4 t n) as (n2 & X2 & Y2); [intros [-> J]; exact (I J)|]. destruct (C4 t n) as (n3 & X3 & Y3); [intros [-> J]; exact (I J)|]. destruct (D4 t n) as (n4 & X4 & Y4); [intros [-> J]; exact (I J)|].
    exists (n1 ++ n2 ++ n3 ++ n4). split; [rewrite X4, X3, X2, X1, <- !app_assoc; reflexivity|]. intros R. rewrite (Y1 R), (Y2 (RS _ A1 _ _ R)), (Y3 (RS _ B1 _ _ R)), (Y4 (RS _ C1 _ _ R)). reflexivity.
Qed.
Lemma regex_waiting b t n : waiting (setUn (clearUnknownsIf (fun _ e => isRegex (fst e)) (un b)) b) t n = if isRegex n then [] else waiting b t n.
Proof.
  unfold waiting. cbn [un setUn clearUnknownsIf unk]. generalize isRegex as rx. intros rx. induction (unk (un b) t) as [|[m v] l IH]; [cbn; destruct (rx n); reflexivity|]. cbn [filter fst]. destruct (rx m) eqn:M; cbn [negb filter fst].
  - rewrite IH. destruct (beq m n) eqn:B; [apply beq_eq in B; subst m; rewrite M; reflexivity|reflexivity].
  - destruct (beq m n) eqn:B; [apply beq_eq in B; subst m; rewrite M in *; cbn [map snd]; rewrite IH; reflexivity|exact IH].
Qed.
Lemma resolve_spec gen m b b' out : faithful (hs b) -> resolve gen m b = Ok b' out ->
  grows (hs b) (hs b') /\ operating b' = operating b /\
  (forall t n, resolves b' t n -> waiting b' t n = []) /\
  (forall t n, ~ resolves b' t n -> isRegex n = false -> exists new, waiting b' t n = waiting b t n ++ new) /\
  (forall t n e, resolves b' t n -> In e (waiting b t n) -> exists i x pre p post, getInterfaceHandle n (tabKind t) (hs b') = Found i x /\ out = pre ++ p ++ post /\ introduces t (h_id x) (fst e) p).
Proof.
  intros FA E. unfold resolve in E. destruct (hasUnknowns (un b)) eqn:HU.
  2:{ injection E as <- <-. assert (W : forall t n, waiting b t n = []).
      { intros t n. destruct (waiting b t n) eqn:WE; [reflexivity|]. assert (hasUnknowns (un b) = true) by (apply hasUnknowns_iff; left; exists t, n; rewrite WE; discriminate). congruence. }
      split; [apply grows_refl|]. split; [reflexivity|]. split; [intros; apply W|]. split; [intros; exists []; rewrite app_nil_r; reflexivity|]. intros t n e _ I. rewrite W in I. destruct I. }
  apply bind_ok in E. destruct E as (b1 & o1 & o2 & E1 & E2 & ->). pose proof (linkKnown_faithful _ _ _ _ _ E1 FA) as FA1. apply linkKnown_spec in E1. destruct E1 as (G1 & G2 & G3).
  apply bind_ok in E2. destruct E2 as (b2 & o3 & o4 & E2 & E3 & ->). pose proof (four_spec gen (fun t => foundNames t b1 (hs b1)) b1 b2 o3 FA1 (fun t n => foundNames_resolve b1 t n) E2) as (F1 & F2 & F3 & F4).
  assert (NR : forall t n, resolves b2 t n <-> resolves b1 t n) by (intros; unfold resolves; rewrite F1; reflexivity).
  assert (WR : forall t n, resolves b2 t n -> waiting b2 t n = []).
  { intros t n R. apply NR in R. destruct (in_dec name_dec n (foundNames t b1 (hs b1))) as [I|I]; [apply (F3 t n I)|]. destruct (F4 t n I) as (new & A & B). rewrite A, (B R), app_nil_r.
    destruct (waiting b1 t n) eqn:WE; [reflexivity|]. destruct I. apply found_waiting; [exact R|rewrite WE; discriminate]. }
  assert (WN : forall t n, ~ resolves b2 t n -> exists new, waiting b2 t n = waiting b t n ++ new).
  { intros t n R. destruct (F4 t n) as (new & A & _); [intros I; apply R, NR, (foundNames_resolve b1 t n I)|]. destruct (G3 t n) as (n1 & B & _). exists (n1 ++ new). rewrite A, B, app_assoc. reflexivity. }
  assert (OUT : forall t n e, resolves b2 t n -> In e (waiting b t n) -> exists i x pre p post, getInterfaceHandle n (tabKind t) (hs b2) = Found i x /\ o1 ++ o3 ++ o4 = pre ++ p ++ post /\ introduces t (h_id x) (fst e) p).
  { intros t n e R I. apply NR in R. destruct (G3 t n) as (n1 & B & _). assert (I1 : In e (waiting b1 t n)) by (rewrite B; apply in_or_app; left; exact I).
    destruct (F3 t n) as (_ & i & x & pre & o & post & GX & -> & IN); [apply found_waiting; [exact R|intros Z0; rewrite Z0 in I1; destruct I1]|].
    destruct (introductions_in _ _ _ _ _ IN I1) as (pre' & p & post' & -> & IP). exists i, x, (o1 ++ pre ++ pre'), p, (post' ++ post ++ o4). rewrite F1. split; [exact GX|]. split; [rewrite <- !app_assoc; reflexivity|exact IP]. }
  assert (GR : grows (hs b) (hs b2)) by (rewrite F1; exact G1).
  destruct (existsb _ _); injection E3 as <- <-.
  - split; [exact GR|]. split; [cbn [operating setUn]; congruence|]. split; [|split].
    + intros t n R. rewrite regex_waiting. destruct (isRegex n); [reflexivity|apply WR; exact R].
    + intros t n R X. rewrite regex_waiting, X. apply WN. exact R.
    + intros t n e R I. apply (OUT t n e R I).
  - split; [exact GR|]. split; [congruence|]. split; [exact WR|]. split; [intros t n R _; apply WN; exact R|]. exact OUT.
Qed.

(** ** the start *)
Definition isAdd (v : verb) : Prop := match v with ADD_SUBSCRIBER | ADD_PUBLISHER | ADD_ENDPOINT | ADD_FILTER => True | _ => False end.
Definition adds (o : list notice) : Prop := Forall (fun a => isAdd (n_verb a)) o.
Lemma adds_app a b : adds a -> adds b -> adds (a ++ b).
Proof. intros A B. apply Forall_app. split; assumption. Qed.
Lemma adds_flat {A} (f : A -> list notice) l : (forall e, adds (f e)) -> adds (flat_map f l).
Proof. intros H. induction l as [|e l IH]; [constructor|]. cbn [flat_map]. apply adds_app; auto. Qed.
Lemma adds_bind r f b' out : bind r f = Ok b' out -> (forall b o, r = Ok b o -> adds o) -> (forall b b' o, f b = Ok b' o -> adds o) -> adds out.
Proof. intros E A B. apply bind_ok in E. destruct E as (b1 & o1 & o2 & E1 & E2 & ->). apply adds_app; [apply (A _ _ E1)|apply (B _ _ _ E2)]. Qed.
Lemma connectInterfaces_adds o f t g v w : isAdd v -> isAdd w -> adds (connectInterfaces o f t g v w).
Proof. intros. repeat constructor; assumption. Qed.
Lemma connectNow_adds q x b : adds (connectNow q x b).
Proof.
  unfold connectNow. destruct (q_tab q); [| | |].
  - destruct (bad _ _); repeat constructor.
  - destruct (bad _ _); [repeat constructor|]. destruct (q_ept q); [repeat constructor|]. destruct (match findHandle (q_src q) (hs b) with Found _ p => _ | _ => _ end) as [[f ty] u]. repeat constructor.
  - destruct (bad _ _); [repeat constructor|]. destruct (match findHandle (q_src q) (hs b) with Found _ p => _ | _ => _ end) as [ty u]. repeat constructor.
  - destruct (empty (h_type x) && empty (h_units x)); repeat constructor.
Qed.
Lemma named_adds gen q b b' out : checkForNamedInterface gen q b = Ok b' out -> adds out.
Proof. intros E. apply named_spec in E. destruct E as (_ & _ & _ & [(i & x & _ & -> & _)|(_ & -> & _)]); [apply connectNow_adds|constructor]. Qed.
Lemma nameAll_adds gen l : forall b b' out, nameAll gen l b = Ok b' out -> adds out.
Proof. induction l as [|q l IH]; intros b b' out E; [injection E as _ <-; constructor|]. cbn [nameAll] in E. apply (adds_bind _ _ _ _ E); [intros; eapply named_adds; eassumption|exact IH]. Qed.
Lemma connectEndpoints_adds x b l : forall o, connectEndpoints x b l = Some o -> adds o.
Proof.
  induction l as [|e l IH]; intros o E; cbn [connectEndpoints] in E; [injection E as <-; constructor|]. destruct (findHandle (fst e) (hs b)); try discriminate. destruct (connectEndpoints x b l) as [o'|]; [|discriminate]. injection E as <-.
  apply adds_app; [destruct (h_kind h); apply connectInterfaces_adds; exact I|apply IH; reflexivity].
Qed.
Lemma connectInput_adds x b e : adds (connectInput x b e).
Proof. apply connectInterfaces_adds; exact I. Qed.
Lemma notify_adds gen t x key b b' out : findAndNotify gen t x key b = Ok b' out -> adds out.
Proof.
  intros E. destruct t; cbn [findAndNotify] in E.
  - unfold findAndNotifyPublicationTargets in E. apply (adds_bind _ _ _ _ E).
    + intros c o E'. apply (adds_bind _ _ _ _ E'); [injection 1 as _ <-; apply adds_flat; intros; apply connectInterfaces_adds; exact I|intros; eapply nameAll_adds; eassumption].
    + intros c c' o. injection 1 as _ <-. destruct (operating _); [apply adds_flat; intros; apply connectInterfaces_adds; exact I|constructor].
  - unfold findAndNotifyEndpointTargets in E. apply (adds_bind _ _ _ _ E).
    + intros c o E'. apply (adds_bind _ _ _ _ E'); [|intros; eapply nameAll_adds; eassumption]. intros d p. destruct (connectEndpoints x b (checkFor Epts key (un b))) eqn:CE; [|discriminate]. injection 1 as _ <-. apply (connectEndpoints_adds _ _ _ _ CE).
    + intros c c' o. match goal with |- (if operating ?X then _ else _) = _ -> _ => set (b2 := X) end. destruct (operating b2); [|injection 1 as _ <-; constructor].
      destruct (connectEndpoints x b2 (checkForReconnection Epts key (un b2))) eqn:CE; [|discriminate]. injection 1 as _ <-. apply (connectEndpoints_adds _ _ _ _ CE).
  - unfold findAndNotifyInputTargets in E. injection E as _ <-. apply adds_app; [apply adds_flat; intros; apply connectInput_adds|]. destruct (operating _); [apply adds_flat; intros; apply connectInput_adds|constructor].
  - unfold findAndNotifyFilterTargets in E. apply (adds_bind _ _ _ _ E).
    + intros c o E'. apply (adds_bind _ _ _ _ E'); [|intros; eapply nameAll_adds; eassumption]. intros d p E2. apply (adds_bind _ _ _ _ E2); [injection 1 as _ <-; apply adds_flat; intros; apply connectInterfaces_adds; exact I|intros; eapply nameAll_adds; eassumption].
    + intros c c' o. injection 1 as _ <-. destruct (operating _); [apply adds_flat; intros; apply connectInterfaces_adds; exact I|constructor].
Qed.
Lemma link_adds gen l s d fg b b' out : link gen l s d fg b = Ok b' out -> adds out.
Proof.
  unfold link. intros E. destruct l; repeat (match type of E with context [match ?X with Null => _ | _ => _ end] => destruct X end); try (apply (named_adds _ _ _ _ _ E)); injection E as _ <-; constructor.
Qed.
Lemma linkKnown_adds gen l : forall b b' out, linkKnown gen l b = Ok b' out -> adds out.
Proof.
  induction l as [|[[s ks] [d kd]] l IH]; intros b b' out E; [injection E as _ <-; constructor|]. cbn [linkKnown] in E. apply (adds_bind _ _ _ _ E); [|exact IH].
  intros c o. assert (N : Ok b [] = Ok c o -> adds o) by (injection 1 as _ <-; constructor).
  destruct (getInterfaceHandle s ks (hs b)); try exact N. destruct (getInterfaceHandle d kd (hs b)); try exact N. destruct ks; try exact N; try (apply link_adds). destruct kd; try exact N. apply link_adds.
Qed.
Lemma notifyNames_adds gen t l : forall b b' out, notifyNames gen t l b = Ok b' out -> adds out.
Proof. induction l as [|n l IH]; intros b b' out E; [injection E as _ <-; constructor|]. cbn [notifyNames] in E. apply (adds_bind _ _ _ _ E); [|exact IH]. intros c o. destruct (getInterfaceHandle _ _ _); try discriminate. apply notify_adds. Qed.
Lemma regexOne_adds m b e : adds (regexOne m b e).
Proof.
  destruct e as [t [n [q f]]]. unfold regexOne. apply adds_flat. intros h. destruct (findHandle h (hs b)) as [|i x|]; try constructor.
  cbv zeta. match goal with |- context [verbsFor t ?K] => generalize K end. intros k. destruct t; cbn [verbsFor]; apply connectInterfaces_adds; try exact I. destruct k; exact I.
Qed.
Lemma resolve_adds gen m b b' out : resolve gen m b = Ok b' out -> adds out.
Proof.
  unfold resolve. intros E. destruct (hasUnknowns (un b)); [|injection E as _ <-; constructor]. apply (adds_bind _ _ _ _ E); [intros; eapply linkKnown_adds; eassumption|]. clear E. intros c c' o E.
  apply (adds_bind _ _ _ _ E); [|intros d d' p; destruct (existsb _ _); injection 1 as _ <-; [apply adds_flat; intros; apply regexOne_adds|constructor]].
  intros d p E2. apply (adds_bind _ _ _ _ E2); [|intros; eapply notifyNames_adds; eassumption]. intros d2 p2 E3. apply (adds_bind _ _ _ _ E3); [|intros; eapply notifyNames_adds; eassumption].
  intros d3 p3 E4. apply (adds_bind _ _ _ _ E4); intros; eapply notifyNames_adds; eassumption.
Qed.
(** The start connects every request whose target is known by then, also under an alias ... *)
Theorem C29_known_at_the_start_is_connected gen strict m b b' out : reachable gen b -> step gen (OInit strict m) b = Ok b' out ->
  (forall t n, resolves b' t n -> waiting b' t n = []) /\
  (forall t n e, resolves b' t n -> In e (waiting b t n) -> exists i x pre p post, getInterfaceHandle n (tabKind t) (hs b') = Found i x /\ out = pre ++ p ++ post /\ introduces t (h_id x) (fst e) p) /\
  (forall t n, ~ resolves b' t n -> isRegex n = false -> exists new, waiting b' t n = waiting b t n ++ new).
Proof.
  intros R E. cbn [step] in E. unfold executeInitializationOperations in E. pose proof (reachable_faithful _ _ R) as FA. destruct (hasUnknowns (un b)) eqn:HU.
  - apply bind_ok in E. destruct E as (b1 & o1 & o2 & E1 & E2 & ->). apply resolve_spec in E1; [|exact FA]. destruct E1 as (_ & _ & A & B & C). apply begin_same in E2.
    assert (H : hs b' = hs b1 /\ un b' = un b1) by (destruct E2 as [->| ->]; split; reflexivity). destruct H as [H1 H2].
    assert (RS : forall t n, resolves b' t n <-> resolves b1 t n) by (intros; unfold resolves; rewrite H1; reflexivity). assert (WS : forall t n, waiting b' t n = waiting b1 t n) by (intros; unfold waiting; rewrite H2; reflexivity).
    split; [intros t n X; rewrite WS; apply A, RS, X|]. split.
    + intros t n e X I. destruct (C t n e (proj1 (RS t n) X) I) as (i & x & pre & p & post & G & -> & IP). exists i, x, pre, p, (post ++ o2). rewrite H1. split; [exact G|]. split; [rewrite <- !app_assoc; reflexivity|exact IP].
    + intros t n X Y. rewrite WS. apply B; [intros Z0; apply X, RS, Z0|exact Y].
  - injection E as <- <-. assert (W : forall t n, waiting b t n = []).
    { intros t n. destruct (waiting b t n) eqn:WE; [reflexivity|]. assert (hasUnknowns (un b) = true) by (apply hasUnknowns_iff; left; exists t, n; rewrite WE; discriminate). congruence. }
    split; [intros; apply W|]. split; [intros t n e _ I; rewrite W in I; destruct I|]. intros t n _ _. exists []. rewrite app_nil_r. reflexivity.
Qed.
(** ... and reports the rest.  A request is required or optional by its flags *)
Definition required (e : target) : Prop := checkActionFlag (snd e) required_flag = true.
Definition optional (e : target) : Prop := checkActionFlag (snd e) optional_flag = true.
Definition open (b : rb) (n : name) (e : target) : Prop := exists t, In e (waiting b t n).
Definition told (out : list notice) (v : verb) (n : name) (e : target) : Prop := exists a, In a out /\ n_verb a = v /\ n_dst a = fst e /\ n_name a = n.
Lemma open_all b n e : open b n e <-> exists t, In (t, (n, e)) (allUnknowns (un b)).
Proof. split; intros (t & H); exists t; apply allUnknowns_in; exact H. Qed.
Lemma forall_tables u (p : name * target -> bool) : forallb p (unk u Pubs) && forallb p (unk u Inps) && forallb p (unk u Epts) && forallb p (unk u Filts) = true <-> forall x, In x (allUnknowns u) -> p (snd x) = true.
Proof.
  unfold allUnknowns. rewrite !andb_true_iff, !forallb_forall. split.
  - intros [[[A B] C] D] x. rewrite !in_app_iff, !in_map_iff. intros [(y & <- & I)|[(y & <- & I)|[(y & <- & I)|(y & <- & I)]]]; cbn [snd]; auto.
  - intros H. repeat split; intros y I; match goal with |- p y = true => idtac end; [apply (H (Pubs, y))|apply (H (Inps, y))|apply (H (Epts, y))|apply (H (Filts, y))]; rewrite !in_app_iff, !in_map_iff; eauto 8.
Qed.
Lemma exists_tables u (p : name * target -> bool) : existsb p (unk u Pubs) || existsb p (unk u Inps) || existsb p (unk u Epts) || existsb p (unk u Filts) = true <-> exists x, In x (allUnknowns u) /\ p (snd x) = true.
Proof.
  unfold allUnknowns. rewrite !orb_true_iff, !existsb_exists. split.
  - intros [[[(y & I & P)|(y & I & P)]|(y & I & P)]|(y & I & P)]; [exists (Pubs, y)|exists (Inps, y)|exists (Epts, y)|exists (Filts, y)]; (split; [|exact P]); rewrite !in_app_iff, !in_map_iff; eauto 8.
  - intros (x & I & P). rewrite !in_app_iff, !in_map_iff in I. destruct I as [(y & <- & I)|[(y & <- & I)|[(y & <- & I)|(y & <- & I)]]]; cbn [snd] in P; eauto 8.
Qed.
Lemma required_iff b : hasRequiredUnknowns (un b) = true <-> exists n e, open b n e /\ required e.
Proof.
  unfold hasRequiredUnknowns. rewrite exists_tables. split.
  - intros ([t [n e]] & I & P). exists n, e. split; [apply open_all; exists t; exact I|exact P].
  - intros (n & e & O & P). apply open_all in O. destruct O as (t & I). exists (t, (n, e)). split; [exact I|exact P].
Qed.
Definition noLinks (b : rb) : Prop := forall l n, linked_to b l n = [].
Lemma links_iff b : empty (lnk (un b) LData) && empty (lnk (un b) LEpt) && empty (lnk (un b) LDst) && empty (lnk (un b) LSrc) = true <-> noLinks b.
Proof.
  assert (W : forall l, empty (lnk (un b) l) = true <-> forall n, linked_to b l n = []).
  { intros l. rewrite empty_iff. unfold linked_to. split; [intros -> n; reflexivity|]. intros H. destruct (lnk (un b) l) as [|[n v] m]; [reflexivity|]. specialize (H n). cbn [filter fst] in H. rewrite beq_refl in H. discriminate. }
  rewrite !andb_true_iff, !W. unfold noLinks. split; [intros [[[A B] C] D] []; assumption|auto].
Qed.
Lemma nonOptional_iff b : hasNonOptionalUnknowns (un b) = false <-> noLinks b /\ forall n e, open b n e -> optional e.
Proof.
  unfold hasNonOptionalUnknowns. destruct (empty (lnk (un b) LData) && empty (lnk (un b) LEpt) && empty (lnk (un b) LDst) && empty (lnk (un b) LSrc)) eqn:L; cbn [negb].
  - apply links_iff in L. rewrite negb_false_iff, forall_tables. split.
    + intros H. split; [exact L|]. intros n e O. apply open_all in O. destruct O as (t & I). apply (H _ I).
    + intros [_ H] [t [n e]] I. apply (H n e). apply open_all. exists t. exact I.
  - split; [discriminate|]. intros [N _]. apply links_iff in N. congruence.
Qed.
Lemma map_verb v l : Forall (fun a => n_verb a = v) (map (report v) l).
Proof. apply Forall_forall. intros a I. apply in_map_iff in I. destruct I as (x & <- & _). reflexivity. Qed.
Lemma told_report v l n e : told (map (report v) l) v n e <-> exists t e', fst e' = fst e /\ In (t, (n, e')) l.
Proof.
  split.
  - intros (a & I & _ & D & N). apply in_map_iff in I. destruct I as ([t [n' e']] & <- & I). cbn in D, N. subst n'. exists t, e'. split; assumption.
  - intros (t & e' & F & I). eexists. split; [apply in_map, I|]. cbn. auto.
Qed.
(** The broker which is not operating yet.  With no request open and no link left, the federation starts and nobody is told anything
    but connections; otherwise: *)
Theorem C29_what_stays_open_is_reported gen strict m b b' out : operating b = false -> step gen (OInit strict m) b = Ok b' out ->
  (** nothing required is open, and under strict matching nothing at all: the federation starts, and exactly the requesters of the open requests which are not optional are warned *)
  ((forall n e, open b' n e -> ~ required e /\ strict = false) -> (strict = true -> noLinks b') ->
     operating b' = true /\ (forall n e, open b' n e -> ~ optional e -> told out MISSING_WARNING n e) /\
     (forall a, In a out -> isAdd (n_verb a) \/ n_verb a = MISSING_WARNING /\ exists e, open b' (n_name a) e /\ ~ optional e /\ n_dst a = fst e)) /\
  (** a required request is open: the federation does not start; everyone is told to stop, and without strict matching each such requester gets an error with the name *)
  ((exists n e, open b' n e /\ required e /\ ~ optional e) ->
     operating b' = false /\ In stop out /\ (strict = false -> forall n e, open b' n e -> required e -> told out MISSING_ERROR n e) /\
     (forall a, In a out -> isAdd (n_verb a) \/ a = stop \/ n_verb a = MISSING_ERROR /\ exists e, open b' (n_name a) e /\ required e /\ n_dst a = fst e)) /\
  (** strict matching and a request is open *)
  ((exists n e, open b' n e) -> strict = true -> operating b' = false /\ In stop out).
Proof.
  intros OP E. cbn [step] in E. unfold executeInitializationOperations in E. destruct (hasUnknowns (un b)) eqn:HU.
  2:{ injection E as <- <-. assert (W : forall t n, waiting (operate b) t n = []).
      { intros t n. change (waiting b t n = []). destruct (waiting b t n) eqn:WE; [reflexivity|]. assert (hasUnknowns (un b) = true) by (apply hasUnknowns_iff; left; exists t, n; rewrite WE; discriminate). congruence. }
      assert (NO : forall n e, ~ open (operate b) n e) by (intros n e (t & I); rewrite W in I; exact I).
      split; [|split]. - intros _ _. split; [reflexivity|]. split; [intros n e O; destruct (NO _ _ O)|intros a []]. - intros (n & e & O & _). destruct (NO _ _ O). - intros (n & e & O). destruct (NO _ _ O). }
  apply bind_ok in E. destruct E as (b1 & o1 & o2 & E1 & E2 & ->). pose proof (resolve_adds _ _ _ _ _ E1) as AD. assert (O1 : operating b1 = false).
  { revert E1. clear - OP. intros E1. unfold resolve in E1. destruct (hasUnknowns (un b)); [|injection E1 as <- _; exact OP]. apply bind_ok in E1. destruct E1 as (c1 & p1 & p2 & E1 & E2 & _). apply linkKnown_spec in E1. destruct E1 as (_ & A & _).
    apply bind_ok in E2. destruct E2 as (c2 & p3 & p4 & E2 & E3 & _).
    assert (NN : forall t l c c' o, notifyNames gen t l c = Ok c' o -> operating c' = operating c).
    { intros t l. induction l as [|n l IH]; intros c c' o E; [injection E as <- _; reflexivity|]. cbn [notifyNames] in E. apply bind_ok in E. destruct E as (d & q1 & q2 & F1 & F2 & _). rewrite (IH _ _ _ F2). clear - F1.
      destruct (getInterfaceHandle n (tabKind t) (hs c)); try discriminate. destruct t; cbn [findAndNotify] in F1.
      - unfold findAndNotifyPublicationTargets in F1. apply bind_ok in F1. destruct F1 as (e1 & r1 & r2 & F1 & F2 & _). apply bind_ok in F1. destruct F1 as (e2 & r3 & r4 & F1 & F3 & _). injection F1 as <- _.
        apply nameAll_spec in F3; [|apply Forall_forall; intros q I; apply in_map_iff in I; destruct I as (? & <- & _); reflexivity]. destruct F3 as ((_ & _ & A) & _). injection F2 as <- _. rewrite <- A. destruct (_ && _); reflexivity.
      - unfold findAndNotifyEndpointTargets in F1. apply bind_ok in F1. destruct F1 as (e1 & r1 & r2 & F1 & F2 & _). apply bind_ok in F1. destruct F1 as (e2 & r3 & r4 & F1 & F3 & _).
        assert (e2 = c) as -> by (destruct (connectEndpoints _ _ _); [injection F1 as <- _; reflexivity|discriminate]).
        apply nameAll_spec in F3; [|apply Forall_forall; intros q I; apply in_map_iff in I; destruct I as (? & <- & _); reflexivity]. destruct F3 as ((_ & _ & A) & _). rewrite <- A. clear - F2.
        revert F2. match goal with |- (if operating ?X then _ else _) = _ -> _ => set (b2 := X) end. assert (B2 : operating b2 = operating e1) by (unfold b2; destruct (_ && _); reflexivity). clearbody b2.
        destruct (operating b2) eqn:OB; [destruct (connectEndpoints _ b2 _); [|discriminate]|]; injection 1 as <- _; congruence.
      - unfold findAndNotifyInputTargets in F1. injection F1 as <- _. destruct (empty _); reflexivity.
      - unfold findAndNotifyFilterTargets in F1. apply bind_ok in F1. destruct F1 as (e1 & r1 & r2 & F1 & F2 & _). apply bind_ok in F1. destruct F1 as (e2 & r3 & r4 & F1 & F3 & _). apply bind_ok in F1. destruct F1 as (e3 & r5 & r6 & F1 & F4 & _). injection F1 as <- _.
        apply nameAll_spec in F3; [|apply Forall_forall; intros q I; apply in_map_iff in I; destruct I as (? & <- & _); reflexivity]. destruct F3 as ((_ & _ & A) & _).
        apply nameAll_spec in F4; [|apply Forall_forall; intros q I; apply in_map_iff in I; destruct I as (? & <- & _); reflexivity]. destruct F4 as ((_ & _ & B) & _). injection F2 as <- _. rewrite <- B, <- A. destruct (_ && _); reflexivity. }
    apply bind_ok in E2. destruct E2 as (c3 & p5 & p6 & E2 & E4 & _). apply bind_ok in E2. destruct E2 as (c4 & p7 & p8 & E2 & E5 & _). apply bind_ok in E2. destruct E2 as (c5 & p9 & p10 & E2 & E6 & _).
    assert (operating c2 = false) by (rewrite (NN _ _ _ _ _ E4), (NN _ _ _ _ _ E5), (NN _ _ _ _ _ E6), (NN _ _ _ _ _ E2); congruence). destruct (existsb _ _); injection E3 as <- _; assumption. }
  assert (SAME : forall c, un c = un b1 -> forall n e, open c n e <-> open b1 n e) by (intros c U n e; unfold open, waiting; rewrite U; reflexivity).
  assert (LSAME : forall c, un c = un b1 -> noLinks c <-> noLinks b1) by (intros c U; unfold noLinks, linked_to; rewrite U; reflexivity).
  assert (UN : un b' = un b1) by (apply begin_same in E2; destruct E2 as [->| ->]; reflexivity). specialize (SAME _ UN). specialize (LSAME _ UN).
  assert (UC : (exists n e, open b1 n e) -> hasUnknowns (un b1) = true /\ (0 <? Z.of_nat (unmatched b1))%Z = true).
  { intros (n & e & (t & I)). split; [apply hasUnknowns_iff; left; exists t, n; intros Z0; rewrite Z0 in I; destruct I|]. apply Z.ltb_lt. unfold unmatched. apply allUnknowns_in in I. destruct (allUnknowns (un b1)); [destruct I|]. cbn [length]. lia. }
  unfold begin in E2. destruct (strict && hasUnknowns (un b1) && (0 <? Z.of_nat (unmatched b1))%Z) eqn:ST.
  - injection E2 as <- <-. apply andb_true_iff in ST. destruct ST as [ST1 ST2]. apply andb_true_iff in ST1. destruct ST1 as [-> ST1]. assert (IS : In stop (o1 ++ [stop])) by (apply in_or_app; right; left; reflexivity).
    split; [|split].
    + intros H L. exfalso. apply hasUnknowns_iff in ST1. destruct ST1 as [(t & n & W)|(l & n & W)].
      * destruct (waiting b1 t n) as [|e r] eqn:WE; [congruence|]. destruct (H n e); [exists t; rewrite WE; left; reflexivity|discriminate].
      * apply W, L. reflexivity.
    + intros _. split; [exact O1|]. split; [exact IS|]. split; [discriminate|]. intros a I. apply in_app_or in I. destruct I as [I|[<-|[]]]; [left; apply (proj1 (Forall_forall _ _) AD _ I)|right; left; reflexivity].
    + intros _ _. split; [exact O1|exact IS].
  - assert (SF : strict = true -> ~ exists n e, open b1 n e) by (intros -> X; destruct (UC X) as [A B]; rewrite A, B in ST; discriminate).
    destruct (hasNonOptionalUnknowns (un b1)) eqn:HN.
    + destruct (hasRequiredUnknowns (un b1)) eqn:HR.
      * injection E2 as <- <-. pose proof HR as HR'. apply required_iff in HR'. destruct HR' as (rn & re & RO & RR). split; [|split].
        -- intros H _. destruct (H rn re RO) as [X _]. contradiction.
        -- intros _. split; [exact O1|]. split; [rewrite !in_app_iff; right; right; left; reflexivity|]. split.
           ++ intros _ n e O RE. assert (T : told (map (report MISSING_ERROR) (requiredUnknowns (un b1))) MISSING_ERROR n e).
              { apply told_report. apply open_all in O. destruct O as (t & I). exists t, e. split; [reflexivity|]. apply filter_In. split; [exact I|exact RE]. }
              destruct T as (a & I & T). exists a. split; [rewrite !in_app_iff; right; left; exact I|exact T].
           ++ intros a I. rewrite !in_app_iff in I. destruct I as [I|[I|[<-|[]]]]; [left; apply (proj1 (Forall_forall _ _) AD _ I)| |right; left; reflexivity].
              right. right. apply in_map_iff in I. destruct I as ([t [n e]] & <- & I). apply filter_In in I. destruct I as [I P]. split; [reflexivity|]. exists e. split; [apply open_all; exists t; exact I|]. split; [exact P|reflexivity].
        -- intros X ->. destruct (SF eq_refl X).
      * injection E2 as <- <-. split; [|split].
        -- intros _ _. split; [reflexivity|]. split.
           ++ intros n e O NO. assert (T : told (map (report MISSING_WARNING) (nonOptionalUnknowns (un b1))) MISSING_WARNING n e).
              { apply told_report. apply SAME, open_all in O. destruct O as (t & I). exists t, e. split; [reflexivity|]. apply filter_In. split; [exact I|]. cbn [snd flagged]. unfold flagged. cbn [snd]. destruct (checkActionFlag (snd e) optional_flag) eqn:C; [destruct NO; exact C|reflexivity]. }
              destruct T as (a & I & T). exists a. split; [rewrite !in_app_iff; right; exact I|exact T].
           ++ intros a I. rewrite !in_app_iff in I. destruct I as [I|I]; [left; apply (proj1 (Forall_forall _ _) AD _ I)|].
              right. apply in_map_iff in I. destruct I as ([t [n e]] & <- & I). apply filter_In in I. destruct I as [I P]. split; [reflexivity|]. exists e. split; [apply SAME, open_all; exists t; exact I|].
              split; [|reflexivity]. intros OE. cbn [snd] in P. unfold flagged in P. cbn [snd] in P. unfold optional in OE. rewrite OE in P. discriminate.
        -- intros (n & e & O & RE & _). exfalso. assert (hasRequiredUnknowns (un b1) = true) by (apply required_iff; exists n, e; split; [apply SAME; exact O|exact RE]). congruence.
        -- intros (n & e & O) ->. exfalso. apply (SF eq_refl). exists n, e. apply SAME, O.
    + injection E2 as <- <-. apply nonOptional_iff in HN. destruct HN as [NL HO]. split; [|split].
      * intros _ _. split; [reflexivity|]. split; [intros n e O NO; destruct NO; apply (HO n e), SAME, O|]. intros a I. rewrite app_nil_r in I. left. apply (proj1 (Forall_forall _ _) AD _ I).
      * intros (n & e & O & _ & NO). destruct NO. apply (HO n e), SAME, O.
      * intros (n & e & O) ->. exfalso. apply (SF eq_refl). exists n, e. apply SAME, O.
Qed.

(** ** without aliases, no request stays open beside its target *)
Definition inRange (s : hm) : Prop := forall t n i, find n (tab t s) = Some i -> nth_error (handles s) i <> None.
Lemma inRange_resolves b t n : inRange (hs b) -> find n (tab t (hs b)) <> None -> resolves b t n.
Proof. intros R F. apply isFound_iff, find_isFound. destruct (find n (tab t (hs b))) as [i|] eqn:E; [|congruence]. exists i. split; [reflexivity|apply (R _ _ _ E)]. Qed.
Lemma resolves_find b t n : resolves b t n -> find n (tab t (hs b)) <> None.
Proof. intros (i & x & G). unfold getInterfaceHandle in G. rewrite tabKind_map in G. destruct (find n (tab t (hs b))); [discriminate|]. destruct t; discriminate. Qed.
Lemma addToTables_new key i : forall l s s' th, aliases s = [] -> addToTables l key i s = (s', th) -> forall t n j, find n (tab t s') = Some j -> find n (tab t s) = Some j \/ n = key /\ j = i /\ In t l.
Proof.
  induction l as [|t0 l IH]; intros s s' th AL E t n j F; cbn [addToTables] in E; [injection E as <- _; left; exact F|].
  destruct (addFields key i (aliases s) (tab t0 s)) as [m thr] eqn:AF. destruct (setTab_frame t0 m s) as (F1 & F2 & F3).
  assert (K : forall t' n j, find n (tab t' (setTab t0 m s)) = Some j -> find n (tab t' s) = Some j \/ n = key /\ j = i /\ In t' (t0 :: l)).
  { intros t' n' j' F'. rewrite tab_setTab in F'. destruct (table_dec t' t0) as [->|]; [|left; exact F']. rewrite AL in AF. unfold addFields in AF. destruct (find key (tab t0 s)) eqn:FK; [injection AF as <- _; left; exact F'|].
    cbn [find] in AF. injection AF as <- _. rewrite find_emplace in F'. destruct (find n' (tab t0 s)) eqn:FN; [left; congruence|]. destruct (beq key n') eqn:B; [|discriminate]. apply beq_eq in B. injection F' as <-. right. split; [congruence|]. split; [reflexivity|left; reflexivity]. }
  destruct thr; [injection E as <- _; apply (K _ _ _ F)|]. assert (AL' : aliases (setTab t0 m s) = []) by congruence. destruct (IH _ _ _ AL' E _ _ _ F) as [G|(-> & -> & I)]; [apply (K _ _ _ G)|right; split; [reflexivity|split; [reflexivity|right; exact I]]].
Qed.
Lemma enter_new gen k key id ty u fg b b' : enter gen k key id ty u fg b = Some b' -> aliases (hs b) = [] -> inRange (hs b) ->
  aliases (hs b') = [] /\ inRange (hs b') /\ forall t n, find n (tab t (hs b')) <> None -> find n (tab t (hs b)) <> None \/ n = actKey gen k key (hs b) /\ In t (tablesOf k).
Proof.
  intros E AL IR. unfold enter in E. destruct (addHandle _ _ _ _ _ _ _ _) as [s []] eqn:A; [discriminate|]. injection E as <-. destruct (addHandle_facts _ _ _ _ _ _ _ _ _ A) as (_ & H & AE & _). cbn [hs].
  assert (NEW : forall t n j, find n (tab t s) = Some j -> find n (tab t (hs b)) = Some j \/ n = actKey gen k key (hs b) /\ j = length (handles (hs b)) /\ In t (tablesOf k)).
  { intros t n j F. unfold addHandle, addSearchFields in A. cbn [h_key h_kind h_id] in A. set (s1 := setHandles _ (hs b)) in A. assert (T1 : forall t, tab t s1 = tab t (hs b)) by (intros []; reflexivity).
    destruct (actKey gen k key (hs b)) as [|c r] eqn:AK; [injection A as <-; left; destruct t; exact F|]. destruct (addToTables (tablesOf k) (c :: r) (length (handles (hs b))) s1) as [s2 []] eqn:AT; [discriminate|]. injection A as <-.
    assert (AL1 : aliases s1 = []) by exact AL. assert (F' : find n (tab t s2) = Some j) by (destruct t; exact F). destruct (addToTables_new _ _ _ _ _ _ AL1 AT _ _ _ F') as [G|G]; [left; rewrite <- T1; exact G|right; exact G]. }
  split; [congruence|]. split.
  - intros t n j F. rewrite H. destruct (NEW _ _ _ F) as [G|(_ & -> & _)]; [|rewrite nth_last; discriminate]. pose proof (IR _ _ _ G) as N. rewrite nth_error_app1; [exact N|]. apply nth_error_Some. exact N.
  - intros t n F. destruct (find n (tab t s)) as [j|] eqn:FE; [|congruence]. destruct (NEW _ _ _ FE) as [G|(-> & _ & T)]; [left; congruence|right; auto].
Qed.
Lemma actKey_made gen k s : madeUp gen (actKey gen k [] s).
Proof. exists k, (length (handles s)). reflexivity. Qed.
(** what is known afterwards was known before, or is a name made up by the broker *)
Definition within (gen : kind -> nat -> name) (b b' : rb) : Prop := aliases (hs b') = [] /\ inRange (hs b') /\ forall t n, resolves b' t n -> resolves b t n \/ madeUp gen n.
Lemma within_refl gen b b' : hs b' = hs b -> aliases (hs b) = [] -> inRange (hs b) -> within gen b b'.
Proof. intros H A R. unfold within, resolves. rewrite H. auto. Qed.
Lemma named_within gen q b b' out : checkForNamedInterface gen q b = Ok b' out -> aliases (hs b) = [] -> inRange (hs b) -> within gen b b'.
Proof.
  intros E AL IR. unfold checkForNamedInterface in E. set (b0 := if checkActionFlag (q_flags q) reconnectable_flag then _ else b) in E. assert (H0 : hs b0 = hs b) by (unfold b0; destruct (checkActionFlag _ _); reflexivity). clearbody b0.
  assert (AN : forall c, hs c = hs b -> enterAnonymous gen q c = Ok b' out -> within gen b b').
  { intros c HC EA. unfold enterAnonymous in EA.
    assert (EN : forall k ty u fg d, enter gen k [] (q_src q) ty u fg c = Some d -> Ok d [] = Ok b' out -> within gen b b').
    { intros k ty u fg d EN. injection 1 as <- _. apply enter_new in EN; [|rewrite HC; assumption|rewrite HC; assumption]. destruct EN as (A & B & C). split; [exact A|]. split; [exact B|]. intros t n R. apply resolves_find in R.
      destruct (C t n R) as [G|[-> _]]; [left; apply inRange_resolves; [exact IR|rewrite <- HC; exact G]|right; apply actKey_made]. }
    destruct (q_strings q) as [[ty u]|], (q_tab q); try (injection EA as <- _; apply within_refl; assumption).
    all: destruct (findHandle (q_src q) (hs c)); try (injection EA as <- _; apply within_refl; assumption).
    all: match type of EA with context [enter ?g ?k ?n ?i ?ty ?u ?f ?c] => destruct (enter g k n i ty u f c) as [d|] eqn:EE; [apply (EN _ _ _ _ _ EE EA)|discriminate] end. }
  destruct (getInterfaceHandle _ _ _); [apply (fun H => AN _ H E); exact H0|injection E as <- _; apply within_refl; assumption|apply (fun H => AN _ H E); exact H0].
Qed.
Lemma link_within gen l s d fg b b' out : link gen l s d fg b = Ok b' out -> aliases (hs b) = [] -> inRange (hs b) -> within gen b b'.
Proof.
  unfold link. intros E AL IR. destruct l; repeat (match type of E with context [match ?X with Null => _ | _ => _ end] => destruct X end); try (apply (named_within _ _ _ _ _ E AL IR)); injection E as <- _; apply within_refl; auto.
Qed.
Lemma remove_only h s : inRange s -> inRange (removeHandle h s) /\ aliases (removeHandle h s) = aliases s /\ length (handles (removeHandle h s)) = length (handles s) /\ forall t n i, find n (tab t (removeHandle h s)) = Some i -> find n (tab t s) = Some i.
Proof.
  intros IR. unfold removeHandle. destruct (findUid h (uids s)) as [i0|]; [|auto]. set (inf := nth i0 (handles s) blank). set (s1 := setUids (eraseUid h (uids s)) s).
  set (s2 := match h_key inf with [] => s1 | _ => _ end). assert (P : handles s2 = handles s /\ aliases s2 = aliases s /\ forall t n i, find n (tab t s2) = Some i -> find n (tab t s) = Some i).
  { unfold s2. destruct (h_key inf) as [|c r]; [repeat split; intros [] n i F; exact F|]. destruct (eraseTables_spec (c :: r) (removeTables (h_kind inf)) s1) as (A & _ & C & D). split; [exact A|]. split; [exact C|].
    intros t n i F. rewrite D in F. destruct (_ && _); [discriminate|]. destruct t; exact F. }
  destruct P as (P1 & P2 & P3). cbv zeta. assert (T : forall l t, tab t (setHandles l s2) = tab t s2) by (intros l []; reflexivity). split; [|split; [exact P2|split; [cbn [handles setHandles]; rewrite length_setNth, P1; reflexivity|]]].
  - intros t n i F. rewrite T in F. apply P3, IR in F. cbn [handles setHandles]. rewrite nth_setNth, P1. destruct (Nat.eqb i0 i); [destruct (nth_error (handles s) i); [discriminate|congruence]|exact F].
  - intros t n i F. rewrite T in F. apply P3, F.
Qed.
Lemma removeFed_only fed s : inRange s -> inRange (removeFederateHandles fed s) /\ aliases (removeFederateHandles fed s) = aliases s /\ forall t n i, find n (tab t (removeFederateHandles fed s)) = Some i -> find n (tab t s) = Some i.
Proof.
  unfold removeFederateHandles. generalize (seq 0 (length (handles s))) as l. intros l. revert s. induction l as [|j l IH]; intros s IR; [auto|]. cbn [fold_left].
  destruct (fst (h_id (nth j (handles s) blank)) =? fed)%Z; [|apply IH, IR]. destruct (remove_only (h_id (nth j (handles s) blank)) s IR) as (A & B & _ & C). destruct (IH _ A) as (D & E & F). split; [exact D|]. split; [congruence|]. intros t n i G. apply C, F, G.
Qed.
Lemma dropFed_within gen p b : aliases (hs b) = [] -> inRange (hs b) -> within gen b (dropFed p b).
Proof.
  intros AL IR. destruct p as [f []]; [|apply within_refl; auto]. unfold dropFed. cbn [fst snd]. destruct (removeFed_only f (hs b) IR) as (A & B & C). cbn [hs setBad setHs]. split; [cbn [hs setBad setHs]; congruence|]. split; [exact A|].
  intros t n R. apply resolves_find in R. left. apply inRange_resolves; [exact IR|]. cbn [hs setBad setHs] in R. destruct (find n (tab t (removeFederateHandles f (hs b)))) as [i|] eqn:F; [|congruence]. rewrite (C _ _ _ F). discriminate.
Qed.
Lemma within_trans gen a b c : within gen a b -> within gen b c -> within gen a c.
Proof. intros (_ & _ & B) (C & D & E). split; [exact C|]. split; [exact D|]. intros t n R. destruct (E t n R) as [X|X]; [apply B, X|right; exact X]. Qed.
Lemma dropFeds_within gen l : forall b, aliases (hs b) = [] -> inRange (hs b) -> within gen b (fold_left (fun b p => dropFed p b) l b).
Proof.
  induction l as [|p l IH]; intros b AL IR; [apply within_refl; auto|]. cbn [fold_left]. pose proof (dropFed_within gen p b AL IR) as W. destruct W as (A & B & _). apply (within_trans _ _ (dropFed p b)); [apply dropFed_within; assumption|apply IH; assumption].
Qed.
Lemma linkKnown_within gen l : forall b b' out, linkKnown gen l b = Ok b' out -> aliases (hs b) = [] -> inRange (hs b) -> within gen b b'.
Proof.
  induction l as [|[[s ks] [d kd]] l IH]; intros b b' out E AL IR; [injection E as <- _; apply within_refl; auto|]. cbn [linkKnown] in E. apply bind_ok in E. destruct E as (b1 & o1 & o2 & E1 & E2 & _).
  assert (W : within gen b b1). { assert (NO : Ok b [] = Ok b1 o1 -> within gen b b1) by (injection 1 as <- _; apply within_refl; auto).
    destruct (getInterfaceHandle s ks (hs b)); try (apply (NO E1)). destruct (getInterfaceHandle d kd (hs b)); try (apply (NO E1)). destruct ks; try (apply (NO E1)); try (apply (link_within _ _ _ _ _ _ _ _ E1 AL IR)). destruct kd; try (apply (NO E1)). apply (link_within _ _ _ _ _ _ _ _ E1 AL IR). }
  destruct W as (A & B & C). apply (within_trans _ _ b1); [split; [exact A|split; [exact B|exact C]]|apply (IH _ _ _ E2 A B)].
Qed.
Lemma resolve_within gen m b b' out : faithful (hs b) -> resolve gen m b = Ok b' out -> aliases (hs b) = [] -> inRange (hs b) -> within gen b b'.
Proof.
  intros FA E AL IR. unfold resolve in E. destruct (hasUnknowns (un b)); [|injection E as <- _; apply within_refl; auto].
  apply bind_ok in E. destruct E as (b1 & o1 & o2 & E1 & E2 & ->). pose proof (linkKnown_faithful _ _ _ _ _ E1 FA) as FA1. apply linkKnown_within in E1; try assumption. destruct E1 as (A & B & C).
  apply bind_ok in E2. destruct E2 as (b2 & o3 & o4 & E2 & E3 & ->). pose proof (four_spec gen (fun t => foundNames t b1 (hs b1)) b1 b2 o3 FA1 (fun t n => foundNames_resolve b1 t n) E2) as (F1 & _).
  assert (H : hs b' = hs b1) by (destruct (existsb _ _); injection E3 as <- _; exact F1). unfold within, resolves. rewrite H. split; [exact A|]. split; [exact B|]. exact C.
Qed.
(** histories without aliases *)
Inductive plainly (gen : kind -> nat -> name) : rb -> Prop :=
| plainly_start : plainly gen start
| plainly_step b o b' out : plainly gen b -> (forall i a f, o <> OAlias i a f) -> step gen o b = Ok b' out -> plainly gen b'.
Lemma plainly_reachable gen b : plainly gen b -> reachable gen b.
Proof. induction 1; [constructor|econstructor; eassumption]. Qed.
Lemma plainly_inv gen b : (forall k i, gen k i <> []) -> plainly gen b -> aliases (hs b) = [] /\ inRange (hs b) /\ forall t n, ~ madeUp gen n -> resolves b t n -> waiting b t n = [].
Proof.
  intros GN. induction 1 as [|b o b' out R IH NA E]; [split; [reflexivity|split; [intros [] n i F; discriminate|reflexivity]]|]. pose proof (reachable_faithful _ _ (plainly_reachable _ _ R)) as FA. destruct IH as (AL & IR & IH).
  assert (KEEP : within gen b b' -> (forall t n, resolves b' t n -> resolves b t n -> waiting b t n = [] -> waiting b' t n = []) -> aliases (hs b') = [] /\ inRange (hs b') /\ forall t n, ~ madeUp gen n -> resolves b' t n -> waiting b' t n = []).
  { intros (A & B & C) W. split; [exact A|]. split; [exact B|]. intros t n M RS. destruct (C t n RS) as [X|X]; [|contradiction]. apply (W t n RS X), IH; assumption. }
  assert (FG : forall f b0, un b0 = un b -> operating b0 = operating b -> b' = forget f b0 -> forall t n, waiting b t n = [] -> waiting b' t n = []).
  { intros f b0 U O -> t n W. rewrite forget_waiting. assert (waiting b0 t n = []) as -> by (unfold waiting in *; rewrite U; exact W). destruct (operating b0); reflexivity. }
  assert (FW : forall f b0, within gen b b0 -> within gen b (forget f b0)). { intros f b0 (A & B & C). assert (H : hs (forget f b0) = hs b0) by (unfold forget; destruct (operating b0); reflexivity). unfold within, resolves. rewrite H. auto. }
  destruct o.
  - apply KEEP; [apply (named_within _ _ _ _ _ E AL IR)|]. intros t n _ RS W. apply named_spec in E. destruct E as (_ & _ & _ & [(_ & _ & _ & _ & _ & H)|(N & _ & H)]); [rewrite H; exact W|]. rewrite H, W.
    destruct (table_eqb (q_tab q) t) eqn:T; [|reflexivity]. apply table_eqb_eq in T. destruct (beq (q_name q) n) eqn:B; [|reflexivity]. apply beq_eq in B. subst t n. contradiction.
  - assert (KN : actKey gen k n (hs b) <> []) by (unfold actKey; destruct n; [apply GN|discriminate]). destruct (register_spec _ _ _ _ _ _ _ _ _ _ _ FA KN E) as [(-> & _)|(_ & _ & H1 & H2 & _ & b1 & EN & HB)]; [split; [exact AL|split; [exact IR|exact IH]]|].
    destruct (enter_new _ _ _ _ _ _ _ _ _ EN AL IR) as (A & B & C). split; [congruence|]. split; [rewrite HB; exact B|]. intros t m M RS.
    destruct (in_dec table_dec t (tablesOf k)) as [T|T]; [destruct (name_dec m (actKey gen k n (hs b))) as [->|N]; [apply H1; exact T|]|].
    + destruct (H2 t m) as (new & -> & _ & X & _); [intros []; contradiction|]. rewrite (X RS), app_nil_r. apply IH; [exact M|]. apply resolves_find in RS. rewrite HB in RS. destruct (C _ _ RS) as [G|[G _]]; [apply inRange_resolves; assumption|contradiction].
    + destruct (H2 t m) as (new & -> & _ & X & _); [intros []; contradiction|]. rewrite (X RS), app_nil_r. apply IH; [exact M|]. apply resolves_find in RS. rewrite HB in RS. destruct (C _ _ RS) as [G|[_ G]]; [apply inRange_resolves; assumption|contradiction].
  - apply KEEP; [apply (link_within _ _ _ _ _ _ _ _ E AL IR)|]. intros t n _ RS W. apply link_spec in E. destruct E as (_ & _ & E). destruct (E t n) as (new & -> & X). rewrite W, (X RS). reflexivity.
  - destruct (NA i a from eq_refl).
  - injection E as E' _. apply KEEP; [rewrite <- E'; apply FW, dropFed_within; assumption|]. intros t n _ _. eapply FG; [apply (dropFed_frame (fed, reentrant) b)|apply dropFed_frame|symmetry; exact E'].
  - injection E as E' _. apply KEEP; [rewrite <- E'; apply FW, dropFeds_within; assumption|]. intros t n _ _. eapply FG; [apply (dropFeds_frame feds b)|apply dropFeds_frame|symmetry; exact E'].
  - injection E as <- _. destruct (remove_only h (hs b) IR) as (A & B & _ & C). apply KEEP; [|intros; assumption]. split; [cbn [hs setHs]; congruence|]. split; [exact A|]. intros t n RS. left. apply inRange_resolves; [exact IR|]. apply resolves_find in RS. cbn [hs setHs] in RS.
    destruct (find n (tab t (removeHandle h (hs b)))) as [i|] eqn:F; [|congruence]. rewrite (C _ _ _ F). discriminate.
  - injection E as <- _. split; [exact AL|]. split; [exact IR|exact IH].
  - pose proof (C29_known_at_the_start_is_connected _ _ _ _ _ _ (plainly_reachable _ _ R) E) as (K & _). cbn [step] in E. unfold executeInitializationOperations in E. destruct (hasUnknowns (un b)).
    + apply bind_ok in E. destruct E as (b1 & o1 & o2 & E1 & E2 & _). apply resolve_within in E1; try assumption. apply begin_same in E2. assert (H : hs b' = hs b1) by (destruct E2 as [->| ->]; reflexivity). destruct E1 as (A & B & _). rewrite H. split; [exact A|]. split; [exact B|]. intros t n _ RS. apply K, RS.
    + injection E as <- _. split; [exact AL|]. split; [exact IR|exact IH].
Qed.
(** In a federation without aliases, a request is open only while its target is unknown. *)
Theorem C29_open_only_while_unknown gen b t n : (forall k i, gen k i <> []) -> plainly gen b -> ~ madeUp gen n -> waiting b t n <> [] -> ~ resolves b t n.
Proof. intros GN P M W R. apply W. apply (plainly_inv gen b GN P); assumption. Qed.

(** ** concrete cases *)
Definition gname (k : kind) (i : nat) : name := [255; Z.of_nat i]%Z.
Fixpoint play (l : list op) (b : rb) : res := match l with [] => Ok b [] | o :: r => bind (step gname o b) (play r) end.
Lemma play_steps l : forall b b' out, play l b = Ok b' out -> steps gname b l b'.
Proof. induction l as [|o l IH]; intros b b' out E; [injection E as <- _; constructor|]. cbn [play] in E. apply bind_ok in E. destruct E as (b1 & o1 & o2 & E1 & E2 & _). econstructor; [exact E1|apply (IH _ _ _ E2)]. Qed.
Lemma play_reachable l b' out : play l start = Ok b' out -> reachable gname b'.
Proof. intros E. apply (steps_reachable _ _ _ _ (play_steps _ _ _ _ E)). constructor. Qed.
Definition stateOf (r : res) : rb := match r with Ok b _ => b | Crash => start end.
Definition outOf (r : res) : list notice := match r with Ok _ o => o | Crash => [] end.
Definition speed : name := [115; 112]%Z.
Definition meter : name := [109; 101]%Z.
(** input (131072,0) of federate 131072 asks for the publication "sp" *)
Definition ask : op := ORequest (mkReq Pubs speed (131072, 0)%Z 0 false None).
Definition askRequired : op := ORequest (mkReq Pubs speed (131072, 0)%Z (setActionFlag 0 required_flag) false None).
Definition publish : op := ORegister PUBLICATION speed (131073, 4)%Z [100]%Z [] 0%Z true.
Example open_request : waiting (stateOf (play [ask] start)) Pubs speed = [((131072, 0), 0)]%Z /\ ~ resolves start Pubs speed.
Proof. split; [vm_compute; reflexivity|]. intros (i & x & G). vm_compute in G. discriminate. Qed.
Example other_op_keeps : Forall (fun o => ~ mayClose Pubs speed 131072%Z o) [ORegister INPUT speed (131073, 1)%Z [] [] 0%Z true; ODisconnect 131074 true; OLink LData meter speed 0%Z].
Proof. repeat constructor; cbn; intuition congruence. Qed.
Example answered : outOf (play [ask; ORegister INPUT meter (131073, 1)%Z [] [] 0%Z true; publish] start) =
  [mkN ADD_PUBLISHER (131073, 4)%Z (131072, 0)%Z 0%Z speed [100]%Z []; mkN ADD_SUBSCRIBER (131072, 0)%Z (131073, 4)%Z 0%Z [] [] []].
Proof. vm_compute. reflexivity. Qed.
Example started_with_warning : map n_verb (outOf (play [ask; OInit false (fun _ _ => [])] start)) = [MISSING_WARNING] /\ operating (stateOf (play [ask; OInit false (fun _ _ => [])] start)) = true.
Proof. vm_compute. split; reflexivity. Qed.
Example stopped : map n_verb (outOf (play [askRequired; OInit false (fun _ _ => [])] start)) = [MISSING_ERROR; STOP_ERROR] /\ operating (stateOf (play [askRequired; OInit false (fun _ _ => [])] start)) = false.
Proof. vm_compute. split; reflexivity. Qed.
Example stopped_strict : outOf (play [ask; OInit true (fun _ _ => [])] start) = [stop].
Proof. vm_compute. reflexivity. Qed.
Example answered_by_alias : map n_verb (outOf (play [ORegister PUBLICATION meter (131073, 4)%Z [] [] 0%Z true; ask; OAlias meter speed (131072, 0)%Z; OInit false (fun _ _ => [])] start)) = [ADD_PUBLISHER; ADD_SUBSCRIBER].
Proof. vm_compute. reflexivity. Qed.
Lemma gname_made : ~ madeUp gname speed /\ (forall k i, gname k i <> []).
Proof. split; [intros (k & i & H); discriminate|discriminate]. Qed.

(** ** where the claim fails *)
(** An endpoint asks to be connected to "me" and is closed again; its request stays, and the registration of "me" dereferences the
    closed endpoint, which is no longer there (CoreBroker.cpp:3163-3165). *)
Theorem C29_closed_requester_is_forgotten_refuted : exists b, reachable gname b /\ waiting b Epts meter <> [] /\ findHandle (131072, 0)%Z (hs b) = Null /\
  step gname (ORegister ENDPOINT meter (131073, 1)%Z [] [] 0%Z true) b = Crash.
Proof.
  set (l := [ORegister ENDPOINT speed (131072, 0)%Z [] [] 0%Z true; ORequest (mkReq Epts meter (131072, 0)%Z (setActionFlag 0 destination_target) true None); OClose (131072, 0)%Z]).
  exists (stateOf (play l start)). split; [apply (play_reachable l _ (outOf (play l start))); vm_compute; reflexivity|]. split; [vm_compute; discriminate|]. split; vm_compute; reflexivity.
Qed.
(** A reconnectable request made while the federation runs is answered twice by the registration of its target
    (CoreBroker.cpp:1781-1783, 1967 and 3123-3131, 3147-3153). *)
Theorem C29_answered_once_while_operating_refuted : exists b out b', reachable gname b /\ operating b = true /\ waiting b Pubs speed = [((131072, 0), setActionFlag 0 reconnectable_flag)]%Z /\
  step gname publish b = Ok b' out /\ map n_verb out = [ADD_PUBLISHER; ADD_SUBSCRIBER; ADD_PUBLISHER; ADD_SUBSCRIBER] /\ Forall (fun a => n_dst a = (131072, 0)%Z \/ n_src a = (131072, 0)%Z) out.
Proof.
  set (l := [OInit false (fun _ _ => []); ORequest (mkReq Pubs speed (131072, 0)%Z (setActionFlag 0 reconnectable_flag) false None)]).
  exists (stateOf (play l start)), (outOf (step gname publish (stateOf (play l start)))), (stateOf (step gname publish (stateOf (play l start)))).
  split; [apply (play_reachable l _ (outOf (play l start))); vm_compute; reflexivity|]. split; [vm_compute; reflexivity|]. split; [vm_compute; reflexivity|]. split; [vm_compute; reflexivity|]. split; [vm_compute; reflexivity|]. vm_compute. repeat apply Forall_cons; try apply Forall_nil; auto.
Qed.
(** An endpoint's reconnectable request for a filter is answered when the filter appears, but not when it appears again after its
    federate left: lines 3259-3275 look among the open requests instead of the reconnectable ones. *)
Theorem C29_filters_are_reconnected_refuted : exists b b' out, reachable gname b /\ operating b = true /\ reconnections b Filts speed = [((131072, 0), setActionFlag 0 reconnectable_flag)]%Z /\
  step gname (ORegister FILTER speed (131074, 2)%Z [] [] 0%Z true) b = Ok b' out /\ resolves b' Filts speed /\ out = [].
Proof.
  set (l := [ORequest (mkReq Filts speed (131072, 0)%Z (setActionFlag 0 reconnectable_flag) false None); ORegister FILTER speed (131073, 4)%Z [] [] 0%Z true; OInit false (fun _ _ => []); ODisconnect 131073 true]).
  set (f := ORegister FILTER speed (131074, 2)%Z [] [] 0%Z true).
  exists (stateOf (play l start)), (stateOf (step gname f (stateOf (play l start)))), [].
  split; [apply (play_reachable l _ (outOf (play l start))); vm_compute; reflexivity|]. split; [vm_compute; reflexivity|]. split; [vm_compute; reflexivity|]. split; [vm_compute; reflexivity|]. split; [|reflexivity].
  eexists. eexists. vm_compute. reflexivity.
Qed.
(** When a core is lost, the requests of its federates stay: the broker's id is looked for among the requesters, which are federates
    (CoreBroker.cpp:3560-3562). *)
Theorem C29_forgotten_when_the_core_leaves_refuted : exists b b' out, reachable gname b /\ operating b = false /\ waiting b Pubs speed = [((131072, 0), 0)]%Z /\
  step gname (OBroker 1879048193 [(131072%Z, false)]) b = Ok b' out /\ waiting b' Pubs speed = [((131072, 0), 0)]%Z.
Proof.
  exists (stateOf (play [ask] start)), (stateOf (step gname (OBroker 1879048193 [(131072%Z, false)]) (stateOf (play [ask] start)))), [].
  split; [apply (play_reachable [ask] _ []); vm_compute; reflexivity|]. repeat split; vm_compute; reflexivity.
Qed.
(** A request which is both required and optional does not stop the federation and is not reported. *)
Theorem C29_required_and_optional_is_silent_refuted : exists b b', reachable gname b /\ step gname (OInit false (fun _ _ => [])) b = Ok b' [] /\ operating b' = true /\ exists e, waiting b' Pubs speed = [e] /\ required e.
Proof.
  set (l := [ORequest (mkReq Pubs speed (131072, 0)%Z (setActionFlag (setActionFlag 0 required_flag) optional_flag) false None)]).
  exists (stateOf (play l start)), (stateOf (step gname (OInit false (fun _ _ => [])) (stateOf (play l start)))).
  split; [apply (play_reachable l _ []); vm_compute; reflexivity|]. split; [vm_compute; reflexivity|]. split; [vm_compute; reflexivity|]. eexists. split; [vm_compute; reflexivity|]. vm_compute. reflexivity.
Qed.

Print Assumptions C29_known_at_the_start_is_connected.
Print Assumptions C29_what_stays_open_is_reported.
Print Assumptions C29_open_only_while_unknown.
