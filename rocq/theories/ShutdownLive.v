(** * C46: when everybody has called finalize, or the root is disconnected, everything stops *)
From Coq Require Import ZArith Bool List Lia.
From Verif Require Import Route Shutdown PropsShutdown.
Import ListNotations.
Open Scope nat_scope.

Section Live.
Context (T : topology) (N : fedn) (HT : tree T) (WF : wf T N).
Local Notation root := (t_root T).
Local Notation step := (step T N).

(** the core is terminating; every child of the broker has disconnected *)
Definition left_ (n : nat) (x : nd) : Prop := if t_core T n then rs x <> Run else forall k, In k (kids N n) -> In k (gone x).
Definition nodeL (n : nat) (x : nd) : Prop :=
  (stopping x = true \/ rs x = Stop -> left_ n x /\ forall k, In k (kids N n) -> In k (told x)) /\
  (armed x = true -> rs x <> Run) /\
  (glob N = false -> forall k, In k (kids N n) -> In k (gone x) -> In k (told x) \/ (n <> root /\ left_ n x)) /\
  (n = root -> kids N n <> [] -> left_ n x -> stopping x = true \/ rs x = Stop) /\
  (t_core T n = true -> rs x = Run -> feds N n = [] \/ allFeds N n x = false) /\
  (t_core T n = false -> rs x <> Term) /\
  (In UDisc (up x) -> left_ n x) /\ (In DAck (dn x) -> left_ n x).
Definition pairL (p k : nat) (xp xk : nd) : Prop :=
  (In k (gone xp) -> left_ k xk \/ (In DGlobal (dn xk) /\ In k (told xp))) /\
  (In k (told xp) -> In DAck (dn xk) \/ In DGlobal (dn xk) \/ stopping xk = true \/ rs xk = Stop) /\
  (left_ k xk -> t_core T k = true \/ kids N k <> [] -> In UDisc (up xk) \/ In k (gone xp) \/ rs xp = Stop) /\
  (In DGlobal (dn xk) -> In k (gone xp)).
Definition linv (s : gs) : Prop :=
  (forall n, nodeL n (nodes s n)) /\ (forall p k, In k (kids N p) -> pairL p k (nodes s p) (nodes s k)).

Lemma left_same n x y : rs y = rs x -> gone y = gone x -> left_ n x -> left_ n y.
Proof. unfold left_. intros -> ->. exact (fun h => h). Qed.
Lemma left_more n x l : (forall m, In m (gone x) -> In m l) -> left_ n x -> left_ n (set_gone l x).
Proof. unfold left_. fields. intros G. destruct (t_core T n); [exact (fun h => h)|]. intros H k I. apply G, H, I. Qed.
Lemma left_core n x : t_core T n = true -> rs x <> Run -> left_ n x.
Proof. unfold left_. intros ->. exact (fun h => h). Qed.
Lemma left_root n x : t_core T n = false -> kids N n <> [] -> allKids N n x = true <-> left_ n x.
Proof.
  intros K NE. unfold left_, allKids. rewrite K. destruct (kids N n) as [|a l] eqn:E; [elim NE; reflexivity|]. rewrite forallb_forall. split; intros H k I; apply isIn_iff, H, I.
Qed.
Lemma allKids_left n x : t_core T n = false -> allKids N n x = true -> left_ n x /\ kids N n <> [].
Proof.
  intros K A. assert (kids N n <> []) as NE by (unfold allKids in A; destruct (kids N n); [discriminate|discriminate]). split; [apply (left_root n x K NE); exact A|exact NE].
Qed.
Lemma kid_parent p q k : In k (kids N p) -> In k (kids N q) -> p = q.
Proof. intros I J. apply WF in I, J. congruence. Qed.

(** messages into the queue from the parent *)
Definition addDn (l : list dmsg) (x : nd) : nd := set_dn (dn x ++ l) x.
Lemma addDn_nil x : addDn [] x = x.
Proof. unfold addDn. rewrite app_nil_r. destruct x. reflexivity. Qed.
Lemma nodeL_addDn n x l : nodeL n x -> (In DAck l -> left_ n x) -> nodeL n (addDn l x).
Proof.
  intros [A [B [C [D [E [F [G H]]]]]]] HL. unfold addDn. repeat (split; [assumption|]). fields. rewrite in_app_iff. intros [I|I]; [apply H, I|apply HL, I].
Qed.
Lemma pairL_child p k xp xk l : pairL p k xp xk -> (In DGlobal l -> In k (gone xp)) -> pairL p k xp (addDn l xk).
Proof.
  intros [A [B [C D]]] HL. unfold addDn. split; [|split; [|split]]; fields.
  - intros G. destruct (A G) as [H|[H H']]; [left; exact H|right; split; [apply in_or_app; left; exact H|exact H']].
  - rewrite !in_app_iff. intros G. destruct (B G) as [H|[H|H]]; auto.
  - exact C.
  - rewrite in_app_iff. intros [H|H]; auto.
Qed.
Lemma pairL_parent p k xp xk l : pairL p k xp xk -> pairL p k (addDn l xp) xk.
Proof. exact (fun h => h). Qed.

(** a step at the node n which turns its record into y and sends out to its children; s1 may differ from s at others *)
Lemma linv_op s1 n y out :
  (forall j m, In (j, m) out -> In j (kids N n)) ->
  (forall m, m <> n -> nodeL m (nodes s1 m)) -> (forall p k, In k (kids N p) -> p <> n -> k <> n -> pairL p k (nodes s1 p) (nodes s1 k)) ->
  nodeL n y -> (forall k, In k (kids N n) -> (In DAck (to k out) -> left_ k (nodes s1 k)) /\ pairL n k y (addDn (to k out) (nodes s1 k))) ->
  (forall p, In n (kids N p) -> pairL p n (nodes s1 p) y) -> linv (sendD out (setN n y s1)).
Proof.
  intros HO H1 H2 H3 H4 H5.
  assert (forall k, ~ In k (kids N n) -> to k out = []) as TO.
  { intros k NI. destruct (to k out) as [|m l] eqn:E; [reflexivity|]. exfalso. apply NI, (HO k m). apply in_to. rewrite E. left. reflexivity. }
  assert (~ In n (kids N n)) as NN by (intros I; apply (kid_neq T N HT WF n n I); reflexivity).
  split.
  - intros m. rewrite sendD_nd. destruct (Nat.eq_dec m n) as [->|NE].
    + rewrite setN_eq. rewrite (TO n NN). change (nodeL n (addDn [] y)). rewrite addDn_nil. exact H3.
    + rewrite setN_neq by exact NE. change (nodeL m (addDn (to m out) (nodes s1 m))). destruct (in_dec Nat.eq_dec m (kids N n)) as [I|I].
      * apply nodeL_addDn; [apply H1, NE|apply H4, I].
      * rewrite (TO m I), addDn_nil. apply H1, NE.
  - intros p k I. rewrite !sendD_nd. change (pairL p k (addDn (to p out) (nodes (setN n y s1) p)) (addDn (to k out) (nodes (setN n y s1) k))). apply pairL_parent.
    destruct (Nat.eq_dec p n) as [->|NP].
    + rewrite setN_eq, setN_neq by (intros ->; exact (NN I)). apply H4, I.
    + rewrite (setN_neq n y s1 p NP). rewrite TO by (intros J; apply NP; apply (kid_parent p n k I J)). rewrite addDn_nil.
      destruct (Nat.eq_dec k n) as [->|NK]; [rewrite setN_eq; apply H5, I|rewrite setN_neq by exact NK; apply (H2 p k I NP NK)].
Qed.

(** an operation of the node which leaves rs, stopping, gone, told and armed alone, adds no CMD_DISCONNECT and takes only broadcasts *)
Lemma linv_idle s n y : linv s -> rs y = rs (nodes s n) -> stopping y = stopping (nodes s n) -> armed y = armed (nodes s n) -> gone y = gone (nodes s n) -> told y = told (nodes s n) ->
  (In UDisc (up y) <-> In UDisc (up (nodes s n))) -> (forall m, m <> DBcast -> In m (dn y) <-> In m (dn (nodes s n))) -> linv (setN n y s).
Proof.
  intros [NV PV] E1 E2 E3 E4 E5 E6 E7.
  assert (left_ n y <-> left_ n (nodes s n)) as EL by (unfold left_; rewrite E1, E4; reflexivity).
  split.
  - intros m. destruct (Nat.eq_dec m n) as [->|NE]; [|rewrite setN_neq by exact NE; apply NV]. rewrite setN_eq.
    destruct (NV n) as [A [B [C [D [E [F [G H]]]]]]]. unfold nodeL. rewrite E1, E2, E3, E4, E5, E6, (E7 DAck) by discriminate. rewrite !EL. unfold allFeds in *. rewrite E4.
    do 2 (split; [assumption|]). split; [intros g k I1 I2; destruct (C g k I1 I2) as [X|[X Y]]; [left; exact X|right; split; [exact X|apply EL, Y]]|]. repeat (split; [assumption|]). exact H.
  - intros p k I. pose proof (PV p k I) as O. pose proof (kid_neq T N HT WF p k I) as NPK.
    destruct (Nat.eq_dec p n) as [->|NP].
    + rewrite setN_eq, setN_neq by (intros ->; apply NPK; reflexivity). unfold pairL. rewrite E4, E5, E1. exact O.
    + rewrite (setN_neq n y s p NP). destruct (Nat.eq_dec k n) as [->|NK]; [|rewrite setN_neq by exact NK; exact O]. rewrite setN_eq.
      destruct O as [A [B [C D]]]. unfold pairL. rewrite !(E7 DAck), !(E7 DGlobal), E6, EL, E2, E1 by discriminate. repeat (split; [assumption|]). exact D.
Qed.

(** the core has begun to terminate: CMD_DISCONNECT is sent *)
Lemma linv_core s c y : linv s -> t_core T c = true -> rs y <> Run -> (In UDisc (up (nodes s c)) \/ rs (nodes s c) = Run -> In UDisc (up y)) ->
  (rs (nodes s c) = Stop -> rs y = Stop) -> (stopping (nodes s c) = true -> stopping y = true \/ rs y = Stop) ->
  (In DAck (dn (nodes s c)) \/ In DGlobal (dn (nodes s c)) -> stopping y = true \/ rs y = Stop \/ (forall m, m <> DBcast -> In m (dn y) <-> In m (dn (nodes s c)))) ->
  (In DGlobal (dn y) -> In DGlobal (dn (nodes s c))) -> linv (setN c y s).
Proof.
  intros [NV PV] K R U S1 S2 D1 D2. assert (kids N c = []) as KN by (apply WF; exact K). pose proof (left_core c y K R) as LY. split.
  - intros m. destruct (Nat.eq_dec m c) as [->|NE]; [|rewrite setN_neq by exact NE; apply NV]. rewrite setN_eq.
    unfold nodeL. rewrite KN. split; [intros _; split; [exact LY|intros k []]|]. split; [intros _; exact R|]. split; [intros _ k []|]. split; [intros _ NE; elim NE; reflexivity|].
    split; [intros _ E; elim (R E)|]. split; [rewrite K; discriminate|]. split; intros _; exact LY.
  - intros p k I. pose proof (PV p k I) as O. assert (p <> c) as NP by (intros ->; rewrite KN in I; destruct I). rewrite (setN_neq c y s p NP).
    destruct (Nat.eq_dec k c) as [->|NK]; [|rewrite setN_neq by exact NK; exact O]. rewrite setN_eq. destruct O as [A [B [C D]]].
    split; [intros _; left; exact LY|]. split; [|split].
    + intros G. destruct (B G) as [H|[H|[H|H]]].
      * destruct (D1 (or_introl H)) as [X|[X|X]]; auto. left. apply X; [discriminate|exact H].
      * destruct (D1 (or_intror H)) as [X|[X|X]]; auto. right. left. apply X; [discriminate|exact H].
      * destruct (S2 H); auto.
      * auto.
    + intros _ _. destruct (rs (nodes s c)) eqn:RC.
      * left. apply U. right. reflexivity.
      * destruct (C (left_core c (nodes s c) K ltac:(congruence)) (or_introl K)) as [H|H]; [left; apply U; left; exact H|right; exact H].
      * destruct (C (left_core c (nodes s c) K ltac:(congruence)) (or_introl K)) as [H|H]; [left; apply U; left; exact H|right; exact H].
    + intros G. apply D, D2, G.
Qed.

Definition fair (h : list event) : Prop := forall n, In (EUser n) h -> t_core T n = true \/ n = root.

Lemma sendF_linv out s : linv s -> linv (sendF out s).
Proof. exact (fun h => h). Qed.
Lemma setF_linv f y s : linv s -> linv (setF f y s).
Proof. exact (fun h => h). Qed.

(** sendDisconnect of a broker *)
Lemma linv_global s n r : linv s -> t_core T n = false -> rs (nodes s n) <> Stop -> (n = root \/ In DGlobal (dn (nodes s n))) ->
  (forall m, In m r -> In m (dn (nodes s n))) ->
  let x := set_dn r (nodes s n) in linv (sendD (snd (brokerGlobal N n x)) (setN n (fst (brokerGlobal N n x)) s)).
Proof.
  intros [NV PV] K NS GO RI. cbv zeta. unfold brokerGlobal. cbn [fst snd]. set (out := flat_map _ _).
  assert (forall j m, In (j, m) out -> In j (kids N n) /\ ((m = DGlobal /\ ~ In j (gone (nodes s n))) \/ (m = DAck /\ In j (gone (nodes s n)) /\ ~ In j (told (nodes s n))))) as HO.
  { intros j m I. apply in_flat_map in I as [i [I J]]. fields. destruct (isIn i (gone (nodes s n))) eqn:G; cbn [negb] in J.
    - apply isIn_iff in G. destruct (isIn i (told (nodes s n))) eqn:TD; cbn [negb] in J; [destruct J|]. destruct J as [J|[]]. injection J as <- <-. split; [exact I|right]. split; [reflexivity|]. split; [exact G|]. intros X. apply isIn_iff in X. congruence.
    - destruct J as [J|[]]. injection J as <- <-. split; [exact I|left]. split; [reflexivity|]. intros X. apply isIn_iff in X. congruence. }
  assert (forall j, In j (kids N n) -> ~ In j (gone (nodes s n)) -> In (j, DGlobal) out) as HG.
  { intros j I G. apply in_flat_map. exists j. split; [exact I|]. fields. destruct (isIn j (gone (nodes s n))) eqn:X; [apply isIn_iff in X; contradiction|]. left. reflexivity. }
  assert (forall j, In j (kids N n) -> In j (gone (nodes s n)) -> ~ In j (told (nodes s n)) -> In (j, DAck) out) as HA.
  { intros j I G TD. apply in_flat_map. exists j. split; [exact I|]. fields. apply isIn_iff in G. rewrite G. cbn [negb]. destruct (isIn j (told (nodes s n))) eqn:X; [apply isIn_iff in X; contradiction|]. left. reflexivity. }
  clearbody out. set (y := set_stopping true _).
  assert (left_ n y) as LY by (unfold left_, y; rewrite K; fields; exact (fun k i => i)).
  apply linv_op.
  - intros j m I. apply (HO j m I).
  - intros m _. apply NV.
  - intros p k I _ _. apply PV, I.
  - destruct (NV n) as [A [B [C [D [E [F [G H]]]]]]]. unfold nodeL. split; [intros _; split; [exact LY|exact (fun k i => i)]|]. split; [exact B|]. split; [intros _ k I _; left; exact I|].
    split; [intros _ _ _; left; reflexivity|]. split; [rewrite K; discriminate|]. split; [exact F|]. split; intros _; exact LY.
  - intros k I. pose proof (PV n k I) as [A [B [C D]]]. split.
    + intros J. apply in_to in J. destruct (HO _ _ J) as [_ [[E _]|[_ [G TD]]]]; [discriminate|]. destruct (A G) as [L|[_ L]]; [exact L|contradiction].
    + destruct (in_dec Nat.eq_dec k (gone (nodes s n))) as [G|G].
      * split; [|split; [|split]]; unfold addDn, y; fields; rewrite ?in_app_iff, ?in_to.
        -- intros _. destruct (A G) as [L|[L L']]; [left; exact L|right; split; [left; exact L|exact I]].
        -- intros _. destruct (in_dec Nat.eq_dec k (told (nodes s n))) as [TD|TD]; [destruct (B TD) as [X|[X|X]]; auto|]. left. right. apply (HA k I G TD).
        -- intros _ _. right. left. exact I.
        -- intros _. exact I.
      * split; [|split; [|split]]; unfold addDn, y; fields; rewrite ?in_app_iff, ?in_to.
        -- intros _. right. split; [right; apply (HG k I G)|exact I].
        -- intros _. right. left. right. apply (HG k I G).
        -- intros _ _. right. left. exact I.
        -- intros _. exact I.
  - intros p I. pose proof (PV p n I) as [A [B [C D]]]. split; [intros _; left; exact LY|]. split; [intros _; right; right; left; reflexivity|]. split.
    + intros _ _. right. destruct GO as [->|GO]; [|left; apply D, GO]. apply (proj1 WF) in I. rewrite (proj1 HT) in I. discriminate.
    + unfold y. fields. intros J. apply D, RI, J.
Qed.

(** the core goes on running *)
Lemma linv_quiet s c y : linv s -> t_core T c = true -> rs y = rs (nodes s c) -> stopping y = stopping (nodes s c) -> armed y = armed (nodes s c) ->
  (rs y = Run -> feds N c = [] \/ allFeds N c y = false) ->
  (In UDisc (up y) <-> In UDisc (up (nodes s c))) -> (forall m, m <> DBcast -> In m (dn y) <-> In m (dn (nodes s c))) -> linv (setN c y s).
Proof.
  intros [NV PV] K E1 E2 E3 E4 E6 E7. assert (kids N c = []) as KN by (apply WF; exact K).
  assert (left_ c y <-> left_ c (nodes s c)) as EL by (unfold left_; rewrite K, E1; reflexivity). split.
  - intros m. destruct (Nat.eq_dec m c) as [->|NE]; [|rewrite setN_neq by exact NE; apply NV]. rewrite setN_eq.
    destruct (NV c) as [A [B [C [D [E [F [G H]]]]]]]. unfold nodeL. rewrite KN in *. rewrite E2, E3, E6, (E7 DAck) by discriminate. rewrite !EL, E1.
    split; [intros X; split; [apply A, X|intros k []]|]. split; [exact B|]. split; [intros _ k []|]. split; [intros _ NE; elim NE; reflexivity|]. split; [intros _ X; apply E4; congruence|].
    split; [exact F|]. split; assumption.
  - intros p k I. pose proof (PV p k I) as O. assert (p <> c) as NP by (intros ->; rewrite KN in I; destruct I). rewrite (setN_neq c y s p NP).
    destruct (Nat.eq_dec k c) as [->|NK]; [|rewrite setN_neq by exact NK; exact O]. rewrite setN_eq. destruct O as [A [B [C D]]].
    unfold pairL. rewrite !(E7 DAck), !(E7 DGlobal), E6, EL, E2, E1 by discriminate. repeat (split; [assumption|]). exact D.
Qed.
Lemma linv_bcast s out : linv s -> (forall j m, In (j, m) out -> m = DBcast) -> linv (sendD out s).
Proof.
  intros [NV PV] H. assert (forall m n, m <> DBcast -> ~ In m (to n out)) as TO by (intros m n NB I; apply in_to in I; apply NB, (H _ _ I)). split.
  - intros n. rewrite sendD_nd. apply nodeL_addDn; [apply NV|]. intros I. elim (TO DAck n ltac:(discriminate) I).
  - intros p k I. rewrite !sendD_nd. apply pairL_parent, pairL_child; [apply PV, I|]. intros J. elim (TO DGlobal k ltac:(discriminate) J).
Qed.
Lemma isRun_iff r : isRun r = true <-> r = Run. Proof. destruct r; cbn; split; intros; try discriminate; reflexivity. Qed.
Lemma isStop_iff r : isStop r = true <-> r = Stop. Proof. destruct r; cbn; split; intros; try discriminate; reflexivity. Qed.
Lemma isRun_not r : isRun r = false <-> r <> Run. Proof. destruct r; cbn; split; intros; try discriminate; try reflexivity; congruence. Qed.
Lemma isStop_not r : isStop r = false <-> r <> Stop. Proof. destruct r; cbn; split; intros; try discriminate; try reflexivity; congruence. Qed.
(** the core's record after check, and after a federate's disconnect *)
Lemma linv_check s c x : linv s -> t_core T c = true -> rs x = rs (nodes s c) -> stopping x = stopping (nodes s c) -> armed x = armed (nodes s c) ->
  up x = up (nodes s c) -> (forall m, m <> DBcast -> In m (dn x) <-> In m (dn (nodes s c))) -> linv (setN c (check N c x) s).
Proof.
  intros L K E1 E2 E3 E4 E5. unfold check. destruct (isRun (rs x) && allFeds N c x) eqn:E.
  - apply andb_true_iff in E as [E _]. apply isRun_iff in E. apply (linv_core s c); fields; try assumption.
    + discriminate.
    + intros _. apply in_or_app. right. left. reflexivity.
    + congruence.
    + intros H. left. congruence.
    + intros _. right. right. exact E5.
    + apply E5. discriminate.
  - apply linv_quiet; try assumption; [|rewrite E4; reflexivity]. intros R. right. rewrite R in E. exact E.
Qed.
Lemma linv_coreDisc s c f r : linv s -> t_core T c = true -> linv (setN c (fst (coreDisc N c f (set_cq r (nodes s c)))) s).
Proof.
  intros L K. unfold coreDisc. cbv zeta. set (x := set_gone _ _).
  pose proof (linv_check s c x L K eq_refl eq_refl eq_refl eq_refl (fun m _ => conj (fun h => h) (fun h => h))) as LC.
  destruct (_ || _ || _); cbn [fst]; [|exact LC].
  set (z := check N c x) in *.
  assert (linv (setN c (set_up (up z ++ [UFed f]) z) (setN c z s))) as L2.
  { apply linv_idle; [exact LC|..]; rewrite setN_eq; fields; try reflexivity. rewrite in_app_iff. split; [|auto]. intros [H|[H|[]]]; [exact H|discriminate]. }
  destruct L2 as [A B]. split.
  - intros n. specialize (A n). destruct (Nat.eq_dec n c) as [->|NE]; [rewrite setN_eq in *; exact A|]. rewrite !setN_neq in * by exact NE. exact A.
  - intros p k I. specialize (B p k I). destruct (Nat.eq_dec p c) as [->|NP]; [rewrite (proj1 (proj2 WF) c K) in I; destruct I|]. rewrite !(setN_neq c _ _ p NP) in *.
    destruct (Nat.eq_dec k c) as [->|NE]; [rewrite setN_eq in *; exact B|]. rewrite !setN_neq in * by exact NE. exact B.
Qed.
(** the core's CMD_STOP is on its way *)
Lemma linv_stopping s c y : linv s -> t_core T c = true -> rs (nodes s c) <> Run -> rs y = rs (nodes s c) \/ rs y = Stop -> stopping y = true -> up y = up (nodes s c) ->
  (forall m, In m (dn y) -> In m (dn (nodes s c))) -> linv (setN c y s).
Proof.
  intros L K R E1 E2 E3 E4. apply (linv_core s c); try assumption.
  - destruct E1; congruence.
  - rewrite E3. intros [H|H]; [exact H|contradiction].
  - destruct E1; congruence.
  - intros _. left. exact E2.
  - intros _. left. exact E2.
  - apply E4.
Qed.
Lemma linv_coreGlobal s c r : linv s -> t_core T c = true -> (forall m, In m r -> In m (dn (nodes s c))) -> linv (setN c (fst (coreGlobal (set_dn r (nodes s c)))) s).
Proof.
  intros L K D. unfold coreGlobal. fields. destruct (isRun (rs (nodes s c))) eqn:R; cbn [fst].
  - apply isRun_iff in R. apply (linv_core s c); fields; try assumption.
    + discriminate.
    + intros _. apply in_or_app. right. left. reflexivity.
    + congruence.
    + intros _. left. reflexivity.
    + intros _. left. reflexivity.
    + apply D.
  - apply isRun_not in R. apply linv_stopping; fields; try assumption; try reflexivity. left. reflexivity.
Qed.
(** the parent takes CMD_DISCONNECT of its child k *)
Lemma linv_disc s p k r : linv s -> In k (kids N p) -> up (nodes s k) = UDisc :: r -> rs (nodes s p) <> Stop ->
  linv (sendD (snd (brokerDisc T N p k (nodes s p))) (setN p (fst (brokerDisc T N p k (nodes s p))) (setN k (set_up r (nodes s k)) s))).
Proof.
  intros [NV PV] I U NS. pose proof (kid_neq T N HT WF p k I) as NPK. set (s1 := setN k (set_up r (nodes s k)) s). set (x := nodes s p).
  assert (t_core T p = false) as KP. { destruct (t_core T p) eqn:E; [|reflexivity]. rewrite (proj1 (proj2 WF) p E) in I. destruct I. }
  assert (left_ k (nodes s k)) as LK by (apply (proj1 (proj2 (proj2 (proj2 (proj2 (proj2 (proj2 (NV k)))))))); rewrite U; left; reflexivity).
  assert (forall j, nodes s1 j = if Nat.eqb j k then set_up r (nodes s k) else nodes s j) as S1 by reflexivity.
  assert (forall j, left_ j (nodes s1 j) <-> left_ j (nodes s j)) as LE by (intros j; rewrite S1; destruct (Nat.eqb_spec j k); [subst; reflexivity|reflexivity]).
  assert (forall j, dn (nodes s1 j) = dn (nodes s j) /\ stopping (nodes s1 j) = stopping (nodes s j) /\ rs (nodes s1 j) = rs (nodes s j) /\ gone (nodes s1 j) = gone (nodes s j) /\
     (forall m, In m (up (nodes s1 j)) -> In m (up (nodes s j))) /\ (j <> k -> up (nodes s1 j) = up (nodes s j))) as SE.
  { intros j. rewrite S1. destruct (Nat.eqb_spec j k) as [->|NE]; fields; [|repeat split; intros m H; exact H].
    split; [reflexivity|]. split; [reflexivity|]. split; [reflexivity|]. split; [reflexivity|]. split; [intros m H; rewrite U; right; exact H|congruence]. }
  (* what the disconnect does *)
  assert (exists y out, brokerDisc T N p k x = (y, out) /\ gone y = k :: gone x /\ rs y = rs x /\ armed y = armed x /\ dn y = dn x /\
    (forall j m, In (j, m) out -> In j (kids N p)) /\ (forall j, ~ In (j, DGlobal) out) /\
    (forall j, In (j, DAck) out -> j = k \/ (left_ p y /\ In j (kids N p) /\ ~ In j (told x))) /\
    (forall j, In j (told y) -> In j (told x) \/ In (j, DAck) out) /\
    (forall j, In j (told x) -> In j (kids N p) -> In j (told y)) /\
    (In UDisc (up x) -> In UDisc (up y)) /\ (In UDisc (up y) -> In UDisc (up x) \/ left_ p y) /\
    (left_ p y -> p <> root -> In UDisc (up y)) /\ (left_ p y -> p = root -> stopping y = true) /\ (stopping x = true -> stopping y = true) /\
    (stopping y = true -> stopping x = true \/ (p = root /\ left_ p y)) /\
    (glob N = true -> p = root -> left_ p y -> forall j, In j (kids N p) -> In j (told y)) /\
    (glob N = false -> In k (told y) \/ (p <> root /\ left_ p y))) as [y [out [EB [G1 [G2 [G3 [G4 [G5 [G6 [G7 [G8 [G9 [G10 [G11 [G12 [G13 [G14 [G15 [G16 G17]]]]]]]]]]]]]]]]]]].
  { unfold brokerDisc. cbv zeta. set (x1 := set_gone (k :: gone x) x). set (o := if _ && _ then bcast N p x1 else []).
    assert (forall j m, In (j, m) o -> m = DBcast /\ In j (kids N p)) as HO.
    { subst o. intros j m J. destruct (_ && _); [|destruct J]. split; [apply (bcast_in _ _ _ _ _ J)|]. unfold bcast in J. apply in_map_iff in J as [i [E J]]. injection E as -> _. apply filter_In in J. apply J. }
    clearbody o.
    assert (kids N p <> []) as NE by (intros E; rewrite E in I; destruct I).
    assert (forall y, gone y = gone x1 -> left_ p y <-> allKids N p x1 = true) as LA.
    { intros y E. rewrite (left_root p x1 KP NE). unfold left_. rewrite KP, E. reflexivity. }
    assert (forall l j, In (j, DAck) (o ++ l) -> In (j, DAck) l) as OA by (intros l j J; apply in_app_iff in J as [J|J]; [destruct (HO _ _ J); discriminate|exact J]).
    destruct (allKids N p x1) eqn:AK.
    - destruct (Nat.eqb_spec p root) as [RT|RT].
      + destruct (glob N) eqn:GL.
        * do 2 eexists. split; [reflexivity|]. fields. do 4 (split; [reflexivity|]).
          assert (forall j m, In (j, m) (ackAll N p x1) -> m = DAck /\ In j (kids N p) /\ ~ In j (told x)) as HA.
          { intros j m J. unfold ackAll in J. apply in_map_iff in J as [i [E J]]. injection E as -> <-. apply filter_In in J as [J1 J2]. split; [reflexivity|]. split; [exact J1|].
            intros X. apply isIn_iff in X. change (told x1) with (told x) in J2. rewrite X in J2. discriminate. }
          split; [intros j m J; apply in_app_iff in J as [J|J]; [apply (HO _ _ J)|apply (HA _ _ J)]|].
          split; [intros j J; apply in_app_iff in J as [J|J]; [destruct (HO _ _ J); discriminate|destruct (HA _ _ J); discriminate]|].
          split; [intros j J; right; split; [apply LA; reflexivity|apply OA in J; apply (HA _ _ J)]|].
          split. { intros j J. destruct (in_dec Nat.eq_dec j (told x)) as [X|X]; [left; exact X|right]. apply in_or_app. right. unfold ackAll. apply in_map_iff. exists j. split; [reflexivity|].
            apply filter_In. split; [exact J|]. destruct (isIn j (told x1)) eqn:Y; [apply isIn_iff in Y; contradiction|reflexivity]. }
          split; [intros j _ J; exact J|]. split; [exact (fun h => h)|]. split; [intros J; left; exact J|]. split; [intros _ X; contradiction|]. split; [reflexivity|]. split; [reflexivity|].
          split; [intros _; right; split; [exact RT|apply LA; reflexivity]|]. split; [intros _ _ _ j J; exact J|discriminate].
        * do 2 eexists. split; [reflexivity|]. fields. do 4 (split; [reflexivity|]).
          split; [intros j m J; apply in_app_iff in J as [J|[J|[]]]; [apply (HO _ _ J)|injection J as <- _; exact I]|].
          split; [intros j J; apply in_app_iff in J as [J|[J|[]]]; [destruct (HO _ _ J); discriminate|discriminate]|].
          split; [intros j J; apply OA in J as [J|[]]; injection J as <-; left; reflexivity|].
          split; [intros j [<-|J]; [right; apply in_or_app; right; left; reflexivity|left; exact J]|].
          split; [intros j J _; right; exact J|]. split; [exact (fun h => h)|]. split; [intros J; left; exact J|]. split; [intros _ X; contradiction|]. split; [reflexivity|]. split; [reflexivity|].
          split; [intros _; right; split; [exact RT|apply LA; reflexivity]|]. split; [discriminate|]. intros _. left. left. reflexivity.
      + do 2 eexists. split; [reflexivity|]. fields. do 4 (split; [reflexivity|]).
        split; [intros j m J; apply (HO _ _ J)|]. split; [intros j J; destruct (HO _ _ J); discriminate|]. split; [intros j J; destruct (HO _ _ J); discriminate|].
        split; [intros j J; left; exact J|]. split; [intros j J _; exact J|]. split; [intros J; apply in_or_app; left; exact J|].
        split; [intros _; right; apply LA; reflexivity|]. split; [intros _ _; apply in_or_app; right; left; reflexivity|]. split; [intros _ X; contradiction|]. split; [exact (fun h => h)|].
        split; [intros J; left; exact J|]. split; [intros _ X; contradiction|]. intros _. right. split; [exact RT|apply LA; reflexivity].
    - assert (forall y, gone y = gone x1 -> ~ left_ p y) as NL by (intros y E X; apply (LA y E) in X; discriminate).
      assert (forall z : nd, (In UDisc (up z) <-> In UDisc (up (if negb (p =? root) && negb (oper x1) then set_up (up z ++ [UNode k]) z else z)))) as UU.
      { intros z. destruct (_ && _); fields; [rewrite in_app_iff|reflexivity]. split; [auto|]. intros [H|[H|[]]]; [exact H|discriminate]. }
      assert (forall z : nd, let w := if negb (p =? root) && negb (oper x1) then set_up (up z ++ [UNode k]) z else z in
         gone w = gone z /\ rs w = rs z /\ armed w = armed z /\ dn w = dn z /\ told w = told z /\ stopping w = stopping z) as WE by (intros z; cbv zeta; destruct (_ && _); repeat split).
      destruct (glob N) eqn:GL.
      + do 2 eexists. split; [reflexivity|]. rewrite app_nil_r. destruct (WE x1) as [W1 [W2 [W3 [W4 [W5 W6]]]]]. specialize (UU x1).
        set (w := if negb (p =? root) && negb (oper x1) then set_up (up x1 ++ [UNode k]) x1 else x1) in *. clearbody w.
        split; [exact W1|]. split; [exact W2|]. split; [exact W3|]. split; [exact W4|].
        split; [intros j m J; apply (HO _ _ J)|]. split; [intros j J; destruct (HO _ _ J); discriminate|]. split; [intros j J; destruct (HO _ _ J); discriminate|].
        rewrite W5, W6. split; [intros j J; left; exact J|]. split; [intros j J _; exact J|]. split; [apply UU|]. split; [intros J; left; apply UU, J|].
        split; [intros X; elim (NL w W1 X)|]. split; [intros X; elim (NL w W1 X)|]. split; [exact (fun h => h)|]. split; [intros J; left; exact J|]. split; [intros _ _ X; elim (NL w W1 X)|discriminate].
      + do 2 eexists. split; [reflexivity|]. destruct (WE (set_told (k :: told x1) x1)) as [W1 [W2 [W3 [W4 [W5 W6]]]]]. specialize (UU (set_told (k :: told x1) x1)).
        set (w := if negb (p =? root) && negb (oper x1) then _ else _) in *. clearbody w.
        split; [exact W1|]. split; [exact W2|]. split; [exact W3|]. split; [exact W4|].
        split; [intros j m J; apply in_app_iff in J as [J|[J|[]]]; [apply (HO _ _ J)|injection J as <- _; exact I]|].
        split; [intros j J; apply in_app_iff in J as [J|[J|[]]]; [destruct (HO _ _ J); discriminate|discriminate]|].
        split; [intros j J; apply OA in J as [J|[]]; injection J as <-; left; reflexivity|].
        rewrite W5, W6. split; [intros j [<-|J]; [right; apply in_or_app; right; left; reflexivity|left; exact J]|].
        split; [intros j J _; right; exact J|]. split; [apply UU|]. split; [intros J; left; apply UU, J|].
        split; [intros X; elim (NL w W1 X)|]. split; [intros X; elim (NL w W1 X)|]. split; [exact (fun h => h)|]. split; [intros J; left; exact J|]. split; [discriminate|]. intros _. left. left. reflexivity. }
  rewrite EB. cbn [fst snd]. clear EB.
  assert (left_ p x -> left_ p y) as LM by (unfold left_; rewrite KP, G1; intros H j J; right; apply H, J).
  destruct (NV p) as [A [B [C [D [E [F [G H]]]]]]]. fold x in A, B, C, D, E, F, G, H.
  assert (glob N = false -> left_ p y -> p = root -> forall j, In j (kids N p) -> In j (told y)) as NG.
  { intros GL L RT j J. unfold left_ in L. rewrite KP, G1 in L. destruct (L j J) as [<-|X]; [destruct (G17 GL) as [Y|[Y _]]; [exact Y|contradiction]|].
    destruct (C GL j J X) as [Y|[Y _]]; [apply (G9 j Y J)|contradiction]. }
  assert (forall j, In j (kids N p) -> In j (gone y) -> left_ j (nodes s j) \/ (In DGlobal (dn (nodes s j)) /\ In j (told y))) as GY.
  { intros j J GJ. rewrite G1 in GJ. destruct GJ as [<-|GJ]; [left; exact LK|]. destruct (PV p j J) as [X _]. destruct (X GJ) as [Y|[Y Z]]; [left; exact Y|right; split; [exact Y|apply (G9 j Z J)]]. }
  apply linv_op.
  - exact G5.
  - intros m NE. rewrite S1. destruct (Nat.eqb_spec m k) as [->|NK]; [|apply NV]. destruct (NV k) as [A' [B' [C' [D' [E' [F' [G' H']]]]]]]. 
    repeat (split; [assumption|]). split; [|exact H']. intros J. apply G'. rewrite U. right. exact J.
  - intros q j J NQ NJ. assert (j <> k) as JK by (intros ->; apply NQ; apply (kid_parent q p k J I)).
    destruct (SE q) as [Q1 [Q2 [Q3 [Q4 [Q5 Q6]]]]]. rewrite (S1 j). destruct (Nat.eqb_spec j k); [contradiction|]. rewrite S1. destruct (Nat.eqb_spec q k); [subst q; exact (PV k j J)|apply PV, J].
  - unfold nodeL. rewrite G2, G3, G4. split; [|split; [|split; [|split; [|split; [|split; [|split]]]]]].
    + intros [S|S]; [|contradiction]. destruct (G15 S) as [X|[X Y]].
      * split; [apply LM, A; left; exact X|]. intros j J. apply (G9 j); [apply A; [left; exact X|exact J]|exact J].
      * split; [exact Y|]. destruct (glob N) eqn:GL; [apply (G16 eq_refl X Y)|apply (NG eq_refl Y X)].
    + exact B.
    + intros GL j J GJ. rewrite G1 in GJ. destruct GJ as [<-|GJ]; [apply (G17 GL)|]. destruct (C GL j J GJ) as [X|[X Y]]; [left; apply (G9 j X J)|right; split; [exact X|apply LM, Y]].
    + intros RT _ L. left. apply (G13 L RT).
    + rewrite KP. discriminate.
    + exact F.
    + intros J. destruct (G11 J) as [X|X]; [apply LM, G, X|exact X].
    + intros J. apply LM, H, J.
  - intros j J. pose proof (PV p j J) as [A' [B' [C' D']]]. fold x in A', B', C', D'. destruct (SE j) as [Q1 [Q2 [Q3 [Q4 [Q5 Q6]]]]]. split.
    + intros X. apply in_to in X. apply LE. destruct (G7 j X) as [->|[X1 [_ X2]]]; [exact LK|]. unfold left_ in X1. rewrite KP in X1. destruct (GY j J (X1 j J)) as [Y|[Y Z]]; [exact Y|].
      specialize (X1 j J). rewrite G1 in X1. destruct X1 as [<-|X1]; [exact LK|]. destruct (A' X1) as [W|[_ W]]; [exact W|contradiction].
    + split; [|split; [|split]]; unfold addDn; fields; rewrite ?in_app_iff, ?in_to, ?Q1, ?Q2, ?Q3.
      * intros X. destruct (GY j J X) as [Y|[Y Z]]; [left|right; auto]. apply (left_same j (nodes s1 j)); [fields; auto|fields; auto|apply LE, Y].
      * intros X. destruct (G8 j X) as [Y|Y]; [|auto]. destruct (B' Y) as [Z|[Z|[Z|Z]]]; auto.
      * intros X NE. rewrite G2. rewrite G1. destruct (Nat.eq_dec j k) as [->|NK]; [right; left; left; reflexivity|]. rewrite (Q6 NK).
        destruct (C' (proj1 (LE j) (left_same j _ _ eq_refl eq_refl X)) NE) as [Y|[Y|Y]]; [left; exact Y|right; left; right; exact Y|right; right; exact Y].
      * rewrite G1. intros [X|X]; [right; apply D', X|elim (G6 j X)].
  - intros q J. pose proof (PV q p J) as [A' [B' [C' D']]]. fold x in A', B', C', D'. destruct (SE q) as [Q1 [Q2 [Q3 [Q4 [Q5 Q6]]]]].
    assert (told (nodes s1 q) = told (nodes s q)) as Q7 by (rewrite S1; destruct (Nat.eqb_spec q k); [subst; reflexivity|reflexivity]).
    assert (p <> root) as NR by (intros ->; apply WF in J; rewrite (proj1 HT) in J; discriminate).
    unfold pairL. rewrite Q4, Q7, G4, G2, Q3. split; [intros X; destruct (A' X) as [Y|Y]; [left; apply LM, Y|right; exact Y]|].
    split; [intros X; destruct (B' X) as [Y|[Y|[Y|Y]]]; auto|]. split; [|exact D']. intros X _. left. apply (G12 X NR).
Qed.

Lemma linv_ext s s' : (forall n, nodes s' n = nodes s n) -> linv s -> linv s'.
Proof. intros E [A B]. split; [intros n; rewrite E; apply A|intros p k I; rewrite !E; apply B, I]. Qed.
Lemma set_dn_same x : set_dn (dn x) x = x. Proof. destruct x. reflexivity. Qed.
Lemma nodeL_left n x : nodeL n x -> stopping x = true \/ rs x = Stop -> left_ n x /\ forall k, In k (kids N n) -> In k (told x).
Proof. intros H. apply H. Qed.
Lemma nodeL_ack n x : nodeL n x -> In DAck (dn x) -> left_ n x.
Proof. intros H. apply (proj2 (proj2 (proj2 (proj2 (proj2 (proj2 (proj2 H))))))). Qed.
Lemma left_Run c x : t_core T c = true -> left_ c x -> rs x <> Run.
Proof. unfold left_. intros ->. exact (fun h => h). Qed.
Lemma linv_step s e : (forall n, e = EUser n -> t_core T n = true \/ n = root) -> linv s -> linv (step s e).
Proof.
  intros FE L. pose proof L as [NV PV].
  assert (forall n y, rs y = rs (nodes s n) -> stopping y = stopping (nodes s n) -> armed y = armed (nodes s n) -> gone y = gone (nodes s n) -> told y = told (nodes s n) ->
    up y = up (nodes s n) -> dn y = dn (nodes s n) -> linv (setN n y s)) as IDLE.
  { intros n y E1 E2 E3 E4 E5 E6 E7. apply linv_idle; try assumption; [rewrite E6; reflexivity|intros m _; rewrite E7; reflexivity]. }
  destruct e as [f|f|c|k|n|n|c|n|n].
  - cbn [step]. destruct (called (fds s f) || negb (isIn f (feds N (coreOf N f)))) eqn:C; [exact L|]. apply orb_false_iff in C as [_ C]. apply negb_false_iff, isIn_iff in C.
    assert (t_core T (coreOf N f) = true) as K. { destruct (t_core T (coreOf N f)) eqn:E; [reflexivity|]. rewrite (proj1 (proj2 (proj2 WF)) _ E) in C. destruct C. }
    destruct (isRun (rs (nodes s (coreOf N f)))) eqn:R; apply setF_linv.
    + apply IDLE; reflexivity.
    + apply isRun_not in R. apply linv_stopping; try assumption; try reflexivity; [left; reflexivity|]. intros m H. exact H.
  - cbn [step]. destruct (isFin _); [exact L|]. destruct (fq (fds s f)) as [|[| |] r]; [exact L| |exact L|exact L]. destruct (fst_ (fds s f)); try exact L.
    apply setF_linv. apply IDLE; reflexivity.
  - cbn [step]. destruct (isStop (rs (nodes s c)) || negb (t_core T c)) eqn:G; [exact L|]. apply orb_false_iff in G as [_ G]. apply negb_false_iff in G.
    destruct (cq (nodes s c)) as [|[f|f] r]; [exact L| |].
    + apply sendF_linv. apply IDLE; reflexivity.
    + pose proof (linv_coreDisc s c f r L G) as LD. destruct (coreDisc N c f (set_cq r (nodes s c))) as [y a]. apply sendF_linv. exact LD.
  - cbn [step]. destruct (t_parent T k) as [p|] eqn:PP; [|exact L]. destruct (up (nodes s k)) as [|m r] eqn:UK; [exact L|]. destruct (isIn k (kids N p)) eqn:IK; [|exact L]. apply isIn_iff in IK.
    pose proof (kid_neq T N HT WF p k IK) as NPK. cbv zeta.
    assert (nodes (setN k (set_up r (nodes s k)) s) p = nodes s p) as EP by (apply setN_neq; exact NPK). rewrite EP.
    destruct (isStop (rs (nodes s p))) eqn:SP.
    + apply isStop_iff in SP. split.
      * intros n. destruct (Nat.eq_dec n k) as [->|NE]; [rewrite setN_eq|rewrite setN_neq by exact NE; apply NV]. destruct (NV k) as [A' [B' [C' [D' [E' [F' [G' H']]]]]]].
        repeat (split; [assumption|]). split; [|exact H']. intros J. apply G'. rewrite UK. right. exact J.
      * intros q j J. destruct (Nat.eq_dec j k) as [->|NE].
        -- rewrite (kid_parent q p k J IK). rewrite setN_eq, EP. destruct (PV p k IK) as [A [B [C D]]]. split; [exact A|]. split; [exact B|]. split; [intros _ _; right; right; exact SP|exact D].
        -- rewrite (setN_neq k _ s j NE). destruct (Nat.eq_dec q k) as [->|NQ]; [rewrite setN_eq; exact (PV k j J)|rewrite setN_neq by exact NQ; apply PV, J].
    + apply isStop_not in SP. assert (m = UDisc \/ m <> UDisc) as [->|NU] by (destruct m; [left; reflexivity|right; discriminate|right; discriminate]).
      * pose proof (linv_disc s p k r L IK UK SP) as LD. destruct (brokerDisc T N p k (nodes s p)) as [y out]. exact LD.
      * replace (match m with UDisc => brokerDisc T N p k (nodes s p) | _ => brokerPass T N p m (nodes s p) end) with (brokerPass T N p m (nodes s p)) by (destruct m; [elim NU|..]; reflexivity).
        assert (linv (setN k (set_up r (nodes s k)) s)) as L1.
        { apply linv_idle; fields; try reflexivity; [exact L|]. rewrite UK. split; [intros H; right; exact H|]. intros [H|H]; [elim NU; exact H|exact H]. }
        unfold brokerPass. destruct (p =? root).
        -- apply linv_bcast; [|intros j a J; destruct (oper (nodes s p)); [destruct J|apply (bcast_in _ _ _ _ _ J)]].
           apply linv_idle; try rewrite EP; try reflexivity. exact L1.
        -- apply linv_bcast; [|intros j a []]. apply linv_idle; try rewrite EP; fields; try reflexivity; [exact L1|]. rewrite in_app_iff. split; [|auto]. intros [H|[H|[]]]; [exact H|elim NU; exact H].
  - cbn [step]. destruct (isStop (rs (nodes s n))) eqn:SN; [exact L|]. apply isStop_not in SN. destruct (dn (nodes s n)) as [|m r] eqn:D; [exact L|]. cbv zeta.
    assert (forall a, In a r -> In a (dn (nodes s n))) as IR by (intros a H; rewrite D; right; exact H).
    destruct (t_core T n) eqn:K; destruct m.
    + apply sendF_linv. apply linv_stopping; fields; try assumption; try reflexivity; [|left; reflexivity]. apply (left_Run n); [exact K|]. apply nodeL_ack; [apply NV|]. rewrite D. left. reflexivity.
    + pose proof (linv_coreGlobal s n r L K IR) as LG. destruct (coreGlobal (set_dn r (nodes s n))) as [y a]. apply sendF_linv, LG.
    + apply linv_check; fields; try assumption; try reflexivity. intros m NB. rewrite D. split; [intros H; right; exact H|]. intros [H|H]; [elim NB; symmetry; exact H|exact H].
    + assert (left_ n (nodes s n)) as LN by (apply nodeL_ack; [apply NV|]; rewrite D; left; reflexivity).
      assert (forall k, In k (kids N n) -> In k (gone (nodes s n))) as AG by (unfold left_ in LN; rewrite K in LN; exact LN).
      cbn [brokerAck]. set (x := set_dn r (nodes s n)). set (y := set_stopping true _).
      assert (forall j a, In (j, a) (ackAll N n x) -> a = DAck /\ In j (kids N n) /\ ~ In j (told (nodes s n))) as HA.
      { intros j a J. unfold ackAll in J. apply in_map_iff in J as [i [E J]]. injection E as -> <-. apply filter_In in J as [J1 J2]. split; [reflexivity|]. split; [exact J1|].
        intros X. apply isIn_iff in X. unfold x in J2. fields. rewrite X in J2. discriminate. }
      assert (forall j, In j (kids N n) -> ~ In j (told (nodes s n)) -> In (j, DAck) (ackAll N n x)) as HB.
      { intros j J TD. unfold ackAll. apply in_map_iff. exists j. split; [reflexivity|]. apply filter_In. split; [exact J|]. unfold x. fields. destruct (isIn j (told (nodes s n))) eqn:Y; [apply isIn_iff in Y; contradiction|reflexivity]. }
      assert (left_ n y) as LY by (apply (left_same n (nodes s n)); [reflexivity|reflexivity|exact LN]).
      apply linv_op.
      * intros j a J. apply (HA _ _ J).
      * intros q _. apply NV.
      * intros p k I _ _. apply PV, I.
      * destruct (NV n) as [A' [B' [C' [D' [E' [F' [G' H']]]]]]]. unfold nodeL. split; [intros _; split; [exact LY|exact (fun k i => i)]|]. split; [exact B'|]. split; [intros _ k I _; left; exact I|].
        split; [intros _ _ _; left; reflexivity|]. split; [rewrite K; discriminate|]. split; [exact F'|]. split; intros _; exact LY.
      * intros k I. pose proof (PV n k I) as [A [B [C D']]]. specialize (AG k I). split.
        -- intros J. apply in_to in J. destruct (HA _ _ J) as [_ [_ TD]]. destruct (A AG) as [X|[_ X]]; [exact X|contradiction].
        -- split; [|split; [|split]]; unfold addDn, y; fields; rewrite ?in_app_iff, ?in_to.
           ++ intros _. destruct (A AG) as [X|[X _]]; [left; exact X|right; split; [left; exact X|exact I]].
           ++ intros _. destruct (in_dec Nat.eq_dec k (told (nodes s n))) as [TD|TD]; [destruct (B TD) as [X|[X|X]]; auto|]. left. right. apply (HB k I TD).
           ++ intros _ _. right. left. exact AG.
           ++ intros _. exact AG.
      * intros p I. pose proof (PV p n I) as [A [B [C D']]]. split; [intros _; left; exact LY|]. split; [intros _; right; right; left; reflexivity|]. split.
        -- intros _ NE. apply (C LN NE).
        -- unfold y, x. fields. intros J. apply D', IR, J.
    + apply (linv_global s n r L K SN); [right; rewrite D; left; reflexivity|exact IR].
    + apply linv_bcast; [|intros j a J; apply (bcast_in _ _ _ _ _ J)]. apply linv_idle; fields; try reflexivity; [exact L|]. intros m NB. rewrite D. split; [intros H; right; exact H|]. intros [H|H]; [elim NB; symmetry; exact H|exact H].
  - cbn [step]. destruct (stopping (nodes s n) && negb (isStop (rs (nodes s n)))) eqn:G; [|exact L]. apply andb_true_iff in G as [G1 G2]. apply negb_true_iff, isStop_not in G2.
    destruct (nodeL_left n _ (NV n) (or_introl G1)) as [LN TN]. destruct (t_core T n) eqn:K.
    + pose proof (left_Run n _ K LN) as NR. unfold coreStop. destruct (isRun (rs (nodes s n))) eqn:R; [apply isRun_iff in R; contradiction|]. apply sendF_linv.
      apply linv_stopping; fields; try assumption; try reflexivity; [right; reflexivity|]. intros m H. exact H.
    + unfold brokerStop. set (y := set_rs Stop _).
      assert (gone y = gone (nodes s n) /\ told y = told (nodes s n) /\ dn y = dn (nodes s n) /\ rs y = Stop /\ stopping y = true /\ armed y = armed (nodes s n) /\ (In UDisc (up (nodes s n)) -> In UDisc (up y))) as [E1 [E2 [E3 [E4 [E5 [E6 E7]]]]]].
      { unfold y. destruct (_ && _); fields; repeat split; try exact G1; intros H; [apply in_or_app; left|]; exact H. }
      clearbody y. assert (left_ n y) as LY by (unfold left_ in *; rewrite K in *; rewrite E1; exact LN).
      apply (linv_ext (sendD [] (setN n y s))); [intros m; rewrite sendD_nd; cbn [to map filter]; rewrite app_nil_r, set_dn_same; reflexivity|].
      apply linv_op.
      * intros j a [].
      * intros q _. apply NV.
      * intros p k I _ _. apply PV, I.
      * destruct (NV n) as [A' [B' [C' [D' [E' [F' [G' H']]]]]]]. unfold nodeL. rewrite E1, E2, E3, E4, E5, E6. split; [intros _; split; [exact LY|exact TN]|]. split; [intros _; discriminate|].
        split; [intros _ k I _; left; apply TN, I|]. split; [intros _ _ _; left; reflexivity|]. split; [rewrite K; discriminate|]. split; [intros _; discriminate|]. split; intros _; exact LY.
      * intros k I. split; [intros []|]. cbn [to map filter]. rewrite addDn_nil. pose proof (PV n k I) as [A [B [C D']]]. unfold pairL. rewrite E1, E2, E4. split; [exact A|]. split; [exact B|].
        split; [intros _ _; right; right; reflexivity|exact D'].
      * intros p I. pose proof (PV p n I) as [A [B [C D']]]. unfold pairL. rewrite E3. split; [intros _; left; exact LY|]. split; [intros _; right; right; left; exact E5|]. split; [|exact D'].
        intros _ NE. destruct (C LN NE) as [X|X]; [left; apply E7, X|right; exact X].
  - cbn [step]. destruct (t_core T c && armed (nodes s c) && negb (isStop (rs (nodes s c)))) eqn:G; [|exact L]. apply andb_true_iff in G as [G _]. apply andb_true_iff in G as [K G]. apply sendF_linv.
    apply linv_stopping; fields; try assumption; try reflexivity; [|left; reflexivity|intros m H; exact H]. apply (proj1 (proj2 (NV c)) G).
  - cbn [step]. apply IDLE; reflexivity.
  - cbn [step]. destruct (isStop (rs (nodes s n))) eqn:SN; [exact L|]. apply isStop_not in SN. destruct (t_core T n) eqn:K.
    + pose proof (linv_coreGlobal s n (dn (nodes s n)) L K (fun m h => h)) as LG. rewrite set_dn_same in LG. destruct (coreGlobal (nodes s n)) as [y a]. apply sendF_linv, LG.
    + destruct (FE n eq_refl) as [E|E]; [congruence|]. pose proof (linv_global s n (dn (nodes s n)) L K SN (or_introl E) (fun m h => h)) as LG. cbv zeta in LG. rewrite set_dn_same in LG.
      destruct (brokerGlobal N n (nodes s n)) as [y out]. exact LG.
Qed.
Lemma linv_run h : fair h -> linv (run T N h).
Proof.
  induction h as [|e h IH] using rev_ind; intros F.
  - split.
    + intros n. unfold nodeL. cbn. split; [intros [H|H]; discriminate|]. split; [discriminate|]. split; [intros _ k _ []|].
      split. { intros -> NE L. exfalso. unfold left_ in L. destruct (t_core T root) eqn:K; [apply L; reflexivity|]. destruct (kids N root) as [|k l]; [apply NE; reflexivity|]. apply (L k). left. reflexivity. }
      split. { intros _ _. unfold allFeds. destruct (feds N n) as [|f l]; [left|right]; reflexivity. }
      split; [intros _; discriminate|]. split; intros [].
    + intros p k I. cbn. split; [intros []|]. split; [intros []|]. split; [|intros []]. intros L NE. exfalso. unfold left_ in L. destruct (t_core T k) eqn:K; [apply L; reflexivity|].
      destruct NE as [NE|NE]; [discriminate|]. destruct (kids N k) as [|j l]; [apply NE; reflexivity|]. apply (L j). left. reflexivity.
  - unfold run. rewrite fold_left_app. apply linv_step.
    + intros n ->. apply F. apply in_or_app. right. left. reflexivity.
    + apply IH. intros n I. apply F. apply in_or_app. left. exact I.
Qed.
End Live.
