(** * C46: a node stops only when its federates have finalized; --global_disconnect *)
From Coq Require Import ZArith Bool List Lia.
From Verif Require Import Route Shutdown.
Import ListNotations.
Open Scope nat_scope.

(** ** Specification *)
(** c is n, or connected below n *)
Inductive under (N : fedn) : nat -> nat -> Prop :=
| under_refl n : under N n n
| under_kid n k c : In k (kids N n) -> under N k c -> under N n c.
(** the call of finalize has returned *)
Definition returned (s : gs) (f : nat) : Prop := called (fds s f) = true /\ fst_ (fds s f) = Fin.
(** somebody called disconnect() on the core c, or on a broker above it *)
Definition cut (N : fedn) (h : list event) (c : nat) : Prop := exists m, In (EUser m) h /\ under N m c.

(** ** Lists and updates *)
Lemma isIn_iff k l : isIn k l = true <-> In k l.
Proof. unfold isIn. rewrite existsb_exists. split; [intros [x [I E]]; apply Nat.eqb_eq in E; subst; exact I|intros I; exists k; split; [exact I|apply Nat.eqb_refl]]. Qed.
Lemma in_to {A} n (out : list (nat * A)) m : In m (to n out) <-> In (n, m) out.
Proof.
  unfold to. rewrite in_map_iff. split.
  - intros [[k a] [E I]]. apply filter_In in I as [I Q]. apply Nat.eqb_eq in Q. cbn in *. subst. exact I.
  - intros I. exists (n, m). split; [reflexivity|]. apply filter_In. split; [exact I|apply Nat.eqb_refl].
Qed.
Lemma setN_eq n x s : nodes (setN n x s) n = x.
Proof. unfold setN. cbn. rewrite Nat.eqb_refl. reflexivity. Qed.
Lemma setN_neq n x s k : k <> n -> nodes (setN n x s) k = nodes s k.
Proof. intros H. unfold setN. cbn. apply Nat.eqb_neq in H. rewrite H. reflexivity. Qed.
Lemma setF_eq n x s : fds (setF n x s) n = x.
Proof. unfold setF. cbn. rewrite Nat.eqb_refl. reflexivity. Qed.
Lemma setF_neq n x s k : k <> n -> fds (setF n x s) k = fds s k.
Proof. intros H. unfold setF. cbn. apply Nat.eqb_neq in H. rewrite H. reflexivity. Qed.
Lemma setN_fds n x s : fds (setN n x s) = fds s. Proof. reflexivity. Qed.
Lemma setF_nodes n x s : nodes (setF n x s) = nodes s. Proof. reflexivity. Qed.
Lemma sendF_nodes out s : nodes (sendF out s) = nodes s. Proof. reflexivity. Qed.
Lemma sendD_fds out s : fds (sendD out s) = fds s. Proof. reflexivity. Qed.
Lemma sendF_fd out s f : fds (sendF out s) f = set_fq (fq (fds s f) ++ to f out) (fds s f). Proof. reflexivity. Qed.
Lemma sendD_nd out s n : nodes (sendD out s) n = set_dn (dn (nodes s n) ++ to n out) (nodes s n). Proof. reflexivity. Qed.

Ltac fields := cbn [rs oper stopping armed gone told cq up dn called fst_ fq nodes fds set_rs set_oper set_stopping set_armed set_gone set_told
  set_cq set_up set_dn set_called set_fst_ set_fq set_nodes set_fds fst snd] in *.

Section Props.
Context (T : topology) (N : fedn) (HT : tree T) (WF : wf T N).
Local Notation root := (t_root T).
Local Notation under := (under N).

Lemma parent_neq k p : t_parent T k = Some p -> p <> k.
Proof. intros P ->. destruct HT as [_ [_ [_ D]]]. destruct (D k k P) as [_ E]. lia. Qed.
Lemma kid_neq n k : In k (kids N n) -> n <> k.
Proof. intros I. apply parent_neq. apply WF. exact I. Qed.
Lemma under_trans a b c : under a b -> under b c -> under a c.
Proof. induction 1 as [|a k b I U IH]; [exact (fun h => h)|]. intros H. apply (under_kid N a k c I). apply IH. exact H. Qed.

(** what is given for a federate of the core c, and for all federates below n *)
Definition P (h : list event) (s : gs) (c f : nat) : Prop := called (fds s f) = true \/ cut N h c.
Definition S_ (h : list event) (s : gs) (n : nat) : Prop := forall c f, under n c -> In f (feds N c) -> P h s c f.
Definition nodeOk (h : list event) (s : gs) (n : nat) (x : nd) : Prop :=
  (rs x <> Run \/ stopping x = true \/ armed x = true \/ In UDisc (up x) \/ In DAck (dn x) \/ In DGlobal (dn x) -> S_ h s n) /\
  (forall k, In k (kids N n) -> In k (gone x) -> S_ h s k) /\
  (forall c f, In f (feds N c) -> (c = n /\ In f (gone x)) \/ In (KReq f) (cq x) \/ In (KDisc f) (cq x) -> P h s c f).
Definition fedOk (h : list event) (s : gs) (f : nat) (y : fd) : Prop := forall c, In f (feds N c) -> fst_ y <> Act \/ fq y <> [] -> P h s c f.
Definition inv (h : list event) (s : gs) : Prop := (forall n, nodeOk h s n (nodes s n)) /\ (forall f, fedOk h s f (fds s f)).

Lemma S_up h s n k : S_ h s n -> In k (kids N n) -> S_ h s k.
Proof. intros H I c f U. apply H. apply (under_kid N n k c I U). Qed.
Lemma S_kids h s n : feds N n = [] -> (forall k, In k (kids N n) -> S_ h s k) -> S_ h s n.
Proof. intros F H c f U I. inversion U; subst; [rewrite F in I; destruct I|]. apply (H k); assumption. Qed.
Lemma S_core h s n : kids N n = [] -> (forall f, In f (feds N n) -> P h s n f) -> S_ h s n.
Proof. intros F H c f U I. inversion U; subst; [apply H; exact I|]. rewrite F in H0. destruct H0. Qed.

(** the histories and the calls only grow *)
Lemma called_step s e f : called (fds s f) = true -> called (fds (step T N s e) f) = true.
Proof.
  intros C. destruct e; cbn [step].
  - destruct (called (fds s f0) || _) eqn:E; [exact C|]. destruct (isRun _); (destruct (Nat.eq_dec f f0) as [->|]; [rewrite setF_eq; reflexivity|rewrite setF_neq by assumption; exact C]).
  - destruct (isFin _); [exact C|]. destruct (fq (fds s f0)) as [|[| |] r]; [exact C| | |].
    + destruct (fst_ (fds s f0)); (destruct (Nat.eq_dec f f0) as [->|]; [rewrite setF_eq; exact C|rewrite setF_neq by assumption; exact C]).
    + destruct (Nat.eq_dec f f0) as [->|]; [rewrite setF_eq; exact C|rewrite setF_neq by assumption; exact C].
    + destruct (Nat.eq_dec f f0) as [->|]; [rewrite setF_eq; exact C|rewrite setF_neq by assumption; exact C].
  - destruct (isStop _ || _); [exact C|]. destruct (cq (nodes s c)) as [|[g|g] r]; [exact C|exact C|]. destruct (coreDisc _ _ _ _) as [y a]. exact C.
  - destruct (t_parent T k); [|exact C]. destruct (up (nodes s k)) as [|m r]; [exact C|]. destruct (isIn _ _); [|exact C]. destruct (isStop _); [exact C|].
    cbv zeta. destruct (match m with UDisc => _ | _ => _ end) as [y out]. exact C.
  - destruct (isStop _); [exact C|]. destruct (dn (nodes s n)) as [|m r]; [exact C|]. destruct (t_core T n); destruct m; try exact C; try (destruct (coreGlobal _) as [y a]); exact C.
  - destruct (_ && _); [|exact C]. destruct (t_core T n); [|exact C]. destruct (coreStop _) as [y a]. exact C.
  - destruct (_ && _ && _); exact C.
  - exact C.
  - destruct (isStop _); [exact C|]. destruct (t_core T n); [destruct (coreGlobal _) as [y a]|]; exact C.
Qed.
Lemma P_step h s e c f : P h s c f -> P (h ++ [e]) (step T N s e) c f.
Proof.
  intros [C|[m [I U]]]; [left; apply called_step; exact C|]. right. exists m. split; [apply in_or_app; left; exact I|exact U].
Qed.
Lemma S_step h s e n : S_ h s n -> S_ (h ++ [e]) (step T N s e) n.
Proof. intros H c f U I. apply P_step, H; assumption. Qed.
Lemma nodeOk_step h s e n x : nodeOk h s n x -> nodeOk (h ++ [e]) (step T N s e) n x.
Proof.
  intros [A [B D]]. split; [intros H; apply S_step, A, H|]. split; [intros k I G; apply S_step, (B k I G)|]. intros c f I G. apply P_step, D; assumption.
Qed.
Lemma fedOk_step h s e f y : fedOk h s f y -> fedOk (h ++ [e]) (step T N s e) f y.
Proof. intros H c I G. apply P_step, (H c I G). Qed.

(** ** the single operations; h and s are those after the event *)
Lemma coreOk_shut h s c x : t_core T c = true -> nodeOk h s c x -> (forall f, In f (feds N c) -> P h s c f) ->
  forall y, (forall m, In m (cq y) -> In m (cq x)) -> nodeOk h s c y.
Proof.
  intros K [A [B D]] H y Q. split; [intros _; apply S_core; [apply WF; exact K|exact H]|]. split; [intros k I; rewrite (proj1 (proj2 WF) c K) in I; destruct I|].
  intros c' f I [[-> _]|G]; [apply H, I|]. apply (D c' f I). right. destruct G as [G|G]; auto.
Qed.
Lemma brokerOk_all h s n x : nodeOk h s n x -> t_core T n = false -> S_ h s n -> forall y, (cq y = cq x) -> nodeOk h s n y.
Proof.
  intros [A [B D]] K H y Q. split; [intros _; exact H|]. split; [intros k I _; apply (S_up _ _ n k H I)|].
  intros c f I [[-> _]|G]; [rewrite (proj1 (proj2 (proj2 WF)) n K) in I; destruct I|]. apply (D c f I). right. rewrite <- Q. exact G.
Qed.
Lemma allFeds_P h s c x : nodeOk h s c x -> allFeds N c x = true -> forall f, In f (feds N c) -> P h s c f.
Proof. intros [_ [_ D]] A f I. apply (D c f I). left. split; [reflexivity|]. unfold allFeds in A. rewrite forallb_forall in A. apply isIn_iff, A, I. Qed.
Lemma allKids_S h s n x : nodeOk h s n x -> t_core T n = false -> allKids N n x = true -> S_ h s n.
Proof.
  intros [_ [B _]] K A. apply S_kids; [apply WF; exact K|]. intros k I. apply (B k I).
  unfold allKids in A. destruct (kids N n) eqn:E; [discriminate|]. rewrite <- E in *. rewrite forallb_forall in A. apply isIn_iff, A, I.
Qed.
(** more messages of a harmless kind, or fewer of all *)
Lemma nodeOk_less h s n x y : nodeOk h s n x -> rs y = rs x -> stopping y = stopping x -> armed y = armed x ->
  (forall k, In k (gone y) -> In k (gone x)) -> (forall m, In m (cq y) -> In m (cq x)) ->
  (In UDisc (up y) -> In UDisc (up x)) -> (forall m, In m (dn y) -> In m (dn x) \/ m = DBcast) -> nodeOk h s n y.
Proof.
  intros [A [B D]] E1 E2 E3 E4 E5 E6 E7. split; [|split].
  - rewrite E1, E2, E3. intros H. apply A. destruct H as [H|[H|[H|[H|[H|H]]]]]; auto 8; destruct (E7 _ H) as [G|G]; try discriminate; auto 8.
  - intros k I G. apply (B k I (E4 k G)).
  - intros c f I G. apply (D c f I). destruct G as [[E G]|[G|G]]; auto.
Qed.

Lemma check_ok h s c x : t_core T c = true -> nodeOk h s c x -> nodeOk h s c (check N c x).
Proof.
  intros K O. unfold check. destruct (isRun (rs x) && allFeds N c x) eqn:E; [|exact O]. apply andb_true_iff in E as [_ E].
  apply (coreOk_shut h s c x K O); [apply (allFeds_P _ _ _ _ O E)|]; exact (fun k h => h).
Qed.
Lemma coreDisc_ok h s c f x : t_core T c = true -> nodeOk h s c x -> (In f (feds N c) -> P h s c f) -> nodeOk h s c (fst (coreDisc N c f x)).
Proof.
  intros K O PF. assert (nodeOk h s c (set_gone (f :: gone x) x)) as O1.
  { destruct O as [A [B D]]. split; [exact A|]. split; [intros k I; rewrite (proj1 (proj2 WF) c K) in I; destruct I|].
    intros c' g I G. fields. destruct G as [[-> [->|G]]|G]; [apply PF, I|apply (D c g I); auto|apply (D c' g I); auto]. }
  pose proof (check_ok _ _ _ _ K O1) as O2. unfold coreDisc. cbv zeta. destruct (_ || _ || _); cbn [fst]; [|exact O2].
  apply (nodeOk_less _ _ _ _ _ O2); fields; try reflexivity; try (intros; assumption); [|intros m H; left; exact H].
  rewrite in_app_iff. intros [H|[H|[]]]; [exact H|discriminate].
Qed.
Lemma coreGlobal_ok h s c x : t_core T c = true -> nodeOk h s c x -> (forall f, In f (feds N c) -> P h s c f) -> nodeOk h s c (fst (coreGlobal x)).
Proof. intros K O H. unfold coreGlobal. destruct (isRun _); cbn [fst]; apply (coreOk_shut h s c x K O H); exact (fun k h => h). Qed.
Lemma bcast_in n x k m : In (k, m) (bcast N n x) -> m = DBcast.
Proof. unfold bcast. rewrite in_map_iff. intros [j [E _]]. injection E as _ <-. reflexivity. Qed.
Lemma brokerDisc_ok h s n k x : t_core T n = false -> nodeOk h s n x -> S_ h s k -> nodeOk h s n (fst (brokerDisc T N n k x)) /\
  (forall j m, In (j, m) (snd (brokerDisc T N n k x)) -> m = DBcast \/ j = k \/ (In j (kids N n) /\ S_ h s n)).
Proof.
  intros K O SK. assert (nodeOk h s n (set_gone (k :: gone x) x)) as O1.
  { destruct O as [A [B D]]. split; [exact A|]. split; [intros j I [<-|G]; [exact SK|apply (B j I G)]|].
    intros c f I [[-> _]|G]; [rewrite (proj1 (proj2 (proj2 WF)) n K) in I; destruct I|]. apply (D c f I). right. exact G. }
  unfold brokerDisc. cbv zeta. set (x1 := set_gone _ _) in *. clearbody x1. set (o := if _ && _ then bcast N n x1 else []).
  assert (forall j m, In (j, m) o -> m = DBcast) as HO by (subst o; intros j m; destruct (_ && _); [apply bcast_in|intros []]). clearbody o.
  destruct (allKids N n x1) eqn:A.
  - pose proof (allKids_S _ _ _ _ O1 K A) as SN. destruct (n =? root); [destruct (glob N)|]; cbn [fst snd].
    + split; [apply (brokerOk_all _ _ _ x1 O1 K SN); reflexivity|]. intros j m. rewrite in_app_iff. intros [I|I]; [left; apply (HO _ _ I)|].
      right. right. unfold ackAll in I. apply in_map_iff in I as [i [E I]]. injection E as -> _. apply filter_In in I. split; [apply I|exact SN].
    + split; [apply (brokerOk_all _ _ _ x1 O1 K SN); reflexivity|]. intros j m. rewrite in_app_iff. intros [I|[I|[]]]; [left; apply (HO _ _ I)|]. injection I as -> _. right. left. reflexivity.
    + split; [apply (brokerOk_all _ _ _ x1 O1 K SN); reflexivity|]. intros j m I. left. apply (HO _ _ I).
  - destruct (glob N).
    + cbn [fst snd]. rewrite app_nil_r. split; [|intros j m I; left; apply (HO _ _ I)]. destruct (_ && _); [|exact O1].
      apply (nodeOk_less _ _ _ _ _ O1); fields; try reflexivity; try (intros; assumption); [|intros m H; left; exact H]. rewrite in_app_iff. intros [H|[H|[]]]; [exact H|discriminate].
    + cbn [fst snd]. split.
      * destruct (_ && _); apply (nodeOk_less _ _ _ _ _ O1); fields; try reflexivity; try (intros; assumption); try (intros m H; left; exact H). rewrite in_app_iff. intros [H|[H|[]]]; [exact H|discriminate].
      * intros j m. rewrite in_app_iff. intros [I|[I|[]]]; [left; apply (HO _ _ I)|]. injection I as -> _. right. left. reflexivity.
Qed.
Lemma brokerPass_ok h s n m x : m <> UDisc -> nodeOk h s n x -> nodeOk h s n (fst (brokerPass T N n m x)) /\ (forall j a, In (j, a) (snd (brokerPass T N n m x)) -> a = DBcast).
Proof.
  intros NU O. unfold brokerPass. destruct (n =? root); cbn [fst snd].
  - split; [exact O|]. destruct (oper x); [intros j a []|apply bcast_in].
  - split; [|intros j a []]. apply (nodeOk_less _ _ _ _ _ O); fields; try reflexivity; try (intros; assumption); [|intros a H; left; exact H]. rewrite in_app_iff. intros [H|[H|[]]]; [exact H|elim NU; exact H].
Qed.

(** a message to k which is no broadcast needs S_ k *)
Lemma sendD_ok h s n x l : nodeOk h s n x -> (forall m, In m l -> m = DBcast \/ S_ h s n) -> nodeOk h s n (set_dn (dn x ++ l) x).
Proof.
  intros [A [B D]] H. split; [|split; [exact B|exact D]]. fields. rewrite !in_app_iff.
  intros [G|[G|[G|[G|[[G|G]|[G|G]]]]]]; try (apply A; auto 8; fail); destruct (H _ G) as [E|E]; try discriminate; exact E.
Qed.
Lemma sendF_ok h s f y l : fedOk h s f y -> (l <> [] -> forall c, In f (feds N c) -> P h s c f) -> fedOk h s f (set_fq (fq y ++ l) y).
Proof.
  intros O H c I G. destruct l as [|m l]; [|apply H; [discriminate|exact I]]. fields. rewrite app_nil_r in G. apply (O c I G).
Qed.
Lemma toFeds_in c m s0 f : In m (to f (toFeds N c m s0)) -> In f (feds N c).
Proof. rewrite in_to. unfold toFeds. rewrite in_map_iff. intros [g [E I]]. injection E as ->. apply filter_In in I. apply I. Qed.
Lemma toFeds_ne c m s0 f : to f (toFeds N c m s0) <> [] -> In f (feds N c).
Proof.
  intros H. destruct (to f (toFeds N c m s0)) as [|a l] eqn:E; [elim H; reflexivity|]. assert (In a (to f (toFeds N c m s0))) as I by (rewrite E; left; reflexivity).
  apply (toFeds_in c a s0). rewrite in_to in *. unfold toFeds in *. apply in_map_iff in I as [g [E' I]]. injection E' as -> <-. apply in_map_iff. exists f. split; [reflexivity|exact I].
Qed.
Lemma core_of c c' f : In f (feds N c) -> In f (feds N c') -> c = c'.
Proof. intros I I'. destruct WF as [_ [_ [_ W]]]. rewrite <- (W c f I). apply (W c' f I'). Qed.
Lemma feds_core c f : In f (feds N c) -> t_core T c = true.
Proof. intros I. destruct (t_core T c) eqn:K; [reflexivity|]. rewrite (proj1 (proj2 (proj2 WF)) c K) in I. destruct I. Qed.

Lemma inv_step h s e : inv h s -> inv (h ++ [e]) (step T N s e).
Proof.
  intros [NV FV]. set (h' := h ++ [e]). set (s' := step T N s e).
  assert (forall n, nodeOk h' s' n (nodes s n)) as NV' by (intros n; apply nodeOk_step, NV).
  assert (forall f, fedOk h' s' f (fds s f)) as FV' by (intros f; apply fedOk_step, FV).
  assert (forall c, t_core T c = true -> stopping (nodes s c) = true \/ armed (nodes s c) = true \/ In DAck (dn (nodes s c)) \/ In DGlobal (dn (nodes s c)) -> forall f, In f (feds N c) -> P h' s' c f) as SC.
  { intros c K H f I. destruct (NV' c) as [A _]. apply (A ltac:(tauto) c f); [constructor|exact I]. }
  assert (forall n, EUser n = e -> S_ h' s' n) as SU.
  { intros n E c f U I. right. exists n. split; [unfold h'; rewrite E; apply in_or_app; right; left; reflexivity|exact U]. }
  (* a step which sets one node and sends to its federates *)
  assert (forall n x, (forall k, nodes (setN n x s) k = if Nat.eqb k n then x else nodes s k)) as PN by (intros; reflexivity).
  unfold inv. destruct e as [f|f|c|k|n|n|c|n|n]; cbn [step] in s'.
  - (* finalize *)
    destruct (called (fds s f) || negb (isIn f (feds N (coreOf N f)))); [split; assumption|].
    assert (called (fds s' f) = true) as C1 by (subst s'; destruct (isRun _); rewrite setF_eq; reflexivity).
    destruct (isRun (rs (nodes s (coreOf N f)))) eqn:R.
    + split.
      * intros n. subst s'. rewrite setF_nodes. rewrite PN. destruct (n =? coreOf N f) eqn:E; [|apply NV']. apply Nat.eqb_eq in E. subst n.
        destruct (NV' (coreOf N f)) as [A [B D]]. split; [exact A|]. split; [exact B|]. intros c g I G. fields. rewrite !in_app_iff in G.
        destruct G as [G|[[G|[G|[]]]|[G|[G|[]]]]]; try discriminate; try (apply (D c g I); auto; fail). injection G as <-. left. exact C1.
      * intros g. destruct (Nat.eq_dec g f) as [->|NE]; [intros c I _; left; exact C1|]. subst s'. rewrite setF_neq by exact NE. apply FV'.
    + split.
      * intros n. subst s'. rewrite setF_nodes. rewrite PN. destruct (n =? coreOf N f) eqn:E; [|apply NV']. apply Nat.eqb_eq in E. subst n.
        destruct (NV' (coreOf N f)) as [A [B D]]. split; [|split; [exact B|exact D]]. intros _. apply A. left. intros E. rewrite E in R. discriminate.
      * intros g. destruct (Nat.eq_dec g f) as [->|NE]; [intros c I _; left; exact C1|]. subst s'. rewrite setF_neq by exact NE. apply FV'.
  - (* the federate *)
    destruct (isFin (fst_ (fds s f))); [split; assumption|]. destruct (fq (fds s f)) as [|m r] eqn:Q; [split; assumption|].
    assert (forall c, In f (feds N c) -> P h' s' c f) as PF by (intros c I; apply (FV' f c I); right; rewrite Q; discriminate).
    assert (forall y, fedOk h' s' f y) as PY by (intros y c I _; apply PF, I).
    assert (forall y s1 g, fds s1 = fds s -> fedOk h' s' g (fds (setF f y s1) g)) as PS.
    { intros y s1 g E. destruct (Nat.eq_dec g f) as [->|NE]; [rewrite setF_eq; apply PY|rewrite setF_neq, E by exact NE; apply FV']. }
    destruct m.
    + destruct (fst_ (fds s f)).
      * split; [|intros g; apply PS; reflexivity]. intros n. subst s'. rewrite setF_nodes, PN. destruct (n =? coreOf N f) eqn:E; [|apply NV']. apply Nat.eqb_eq in E. subst n.
        destruct (NV' (coreOf N f)) as [A [B D]]. split; [exact A|]. split; [exact B|]. intros c g I G. fields. rewrite !in_app_iff in G.
        destruct G as [G|[[G|[G|[]]]|[G|[G|[]]]]]; try discriminate; try (apply (D c g I); auto; fail). injection G as <-. apply PF, I.
      * split; [exact NV'|intros g; apply PS; reflexivity].
      * split; [exact NV'|intros g; apply PS; reflexivity].
    + split; [exact NV'|intros g; apply PS; reflexivity].
    + split; [exact NV'|intros g; apply PS; reflexivity].
  - (* the core takes a command of a federate *)
    destruct (isStop _ || negb (t_core T c)) eqn:ST; [split; assumption|]. apply orb_false_iff in ST as [_ K]. apply negb_false_iff in K.
    destruct (cq (nodes s c)) as [|m r] eqn:Q; [split; assumption|].
    assert (nodeOk h' s' c (set_cq r (nodes s c))) as O1.
    { apply (nodeOk_less _ _ _ _ _ (NV' c)); fields; try reflexivity; try (intros; assumption); [|intros a H; left; exact H]. intros a H. rewrite Q. right. exact H. }
    destruct m as [f|f].
    + split.
      * intros n. subst s'. rewrite sendF_nodes, PN. destruct (n =? c) eqn:E; [|apply NV']. apply Nat.eqb_eq in E. subst n. exact O1.
      * intros g. subst s'. rewrite sendF_fd, setN_fds. apply sendF_ok; [apply FV'|]. intros NE c' I.
        destruct (isFin (fst_ (fds s f))); [elim NE; reflexivity|]. unfold to in NE. cbn [filter fst snd] in NE. destruct (f =? g) eqn:E; [|elim NE; reflexivity]. apply Nat.eqb_eq in E. subst g.
        apply (NV' c); [exact I|]. rewrite Q. right. left. left. reflexivity.
    + assert (forall c', In f (feds N c') -> P h' s' c' f) as PF by (intros c' I; apply (NV' c); [exact I|]; rewrite Q; right; right; left; reflexivity).
      pose proof (coreDisc_ok h' s' c f _ K O1 (fun I => PF c I)) as O2. destruct (coreDisc N c f (set_cq r (nodes s c))) as [y a]. cbn [fst] in O2. split.
      * intros n. subst s'. rewrite sendF_nodes, PN. destruct (n =? c) eqn:E; [|apply NV']. apply Nat.eqb_eq in E. subst n. exact O2.
      * intros g. subst s'. rewrite sendF_fd, setN_fds. apply sendF_ok; [apply FV'|]. intros NE c' I.
        destruct (a && negb _); [|elim NE; reflexivity]. unfold to in NE. cbn [filter fst snd] in NE. destruct (f =? g) eqn:E; [|elim NE; reflexivity]. apply Nat.eqb_eq in E. subst g. apply PF, I.
  - (* a broker takes a command of a child *)
    destruct (t_parent T k) as [p|] eqn:PP; [|split; assumption]. destruct (up (nodes s k)) as [|m r] eqn:U; [split; assumption|].
    destruct (isIn k (kids N p)) eqn:IK; [|split; assumption]. apply isIn_iff in IK.
    assert (nodeOk h' s' k (set_up r (nodes s k))) as O1.
    { apply (nodeOk_less _ _ _ _ _ (NV' k)); fields; try reflexivity; try (intros; assumption); [|intros a H; left; exact H]. intros H. rewrite U. right. exact H. }
    assert (forall n, nodeOk h' s' n (nodes (setN k (set_up r (nodes s k)) s) n)) as O2.
    { intros n. rewrite PN. destruct (n =? k) eqn:E; [apply Nat.eqb_eq in E; subst n; exact O1|apply NV']. }
    destruct (isStop (rs (nodes s p))); [split; [exact O2|exact FV']|].
    set (s1 := setN k (set_up r (nodes s k)) s) in *.
    assert (t_core T p = false) as K by (apply (proj2 (proj2 (proj2 HT))) with (x := k); exact PP).
    assert (forall y out, (y, out) = (match m with UDisc => brokerDisc T N p k (nodes s1 p) | _ => brokerPass T N p m (nodes s1 p) end) ->
      nodeOk h' s' p y /\ forall j a, In (j, a) out -> a = DBcast \/ S_ h' s' j) as ST.
    { intros y out E. assert (m = UDisc \/ m <> UDisc) as [M|M] by (destruct m; [left; reflexivity|right; discriminate|right; discriminate]).
      - subst m. assert (S_ h' s' k) as SK by (destruct (NV' k) as [A _]; apply A; rewrite U; right; right; right; left; left; reflexivity).
        destruct (brokerDisc_ok h' s' p k (nodes s1 p) K (O2 p) SK) as [Y O]. rewrite <- E in Y, O. cbn [fst snd] in Y, O. split; [exact Y|].
        intros j a I. destruct (O j a I) as [Q|[->|[I' SP]]]; [left; exact Q|right; exact SK|right; apply (S_up _ _ p j SP I')].
      - replace (match m with UDisc => _ | _ => _ end) with (brokerPass T N p m (nodes s1 p)) in E by (destruct m; [elim M|..]; reflexivity).
        destruct (brokerPass_ok h' s' p m (nodes s1 p) M (O2 p)) as [Y O]. rewrite <- E in Y, O. split; [exact Y|]. intros j a I. left. apply (O j a I). }
    cbv zeta in s'. fold s1 in s'. destruct (match m with UDisc => brokerDisc T N p k (nodes s1 p) | _ => brokerPass T N p m (nodes s1 p) end) as [y out].
    destruct (ST y out eq_refl) as [Y O]. split.
    + intros n. subst s'. rewrite sendD_nd. apply sendD_ok.
      * destruct (Nat.eq_dec n p) as [->|NE]; [rewrite setN_eq; exact Y|rewrite setN_neq by exact NE; apply O2].
      * intros a I. apply in_to in I. apply (O n a I).
    + intros g. subst s'. rewrite sendD_fds, setN_fds. apply FV'.
  - (* a command from the parent *)
    destruct (isStop (rs (nodes s n))); [split; assumption|]. destruct (dn (nodes s n)) as [|m r] eqn:D; [split; assumption|].
    assert (nodeOk h' s' n (set_dn r (nodes s n))) as O1.
    { apply (nodeOk_less _ _ _ _ _ (NV' n)); fields; try reflexivity; try (intros; assumption). intros a H. left. rewrite D. right. exact H. }
    assert (m <> DBcast -> S_ h' s' n) as SN.
    { intros NB. destruct (NV' n) as [A _]. apply A. rewrite D. right. right. right. right. destruct m; [left; left; reflexivity|right; left; reflexivity|elim NB; reflexivity]. }
    assert (m <> DBcast -> forall f c, In f (feds N n) -> In f (feds N c) -> P h' s' c f) as SF.
    { intros NB f c I1 I2. rewrite (core_of c n f I2 I1). apply (SN NB n f); [constructor|exact I1]. }
    destruct (t_core T n) eqn:K.
    + assert (forall y out, nodeOk h' s' n y -> m <> DBcast -> (forall f, to f out <> [] -> In f (feds N n)) -> s' = sendF out (setN n y s) ->
        (forall k, nodeOk h' s' k (nodes s' k)) /\ (forall f, fedOk h' s' f (fds s' f))) as FIN.
      { intros y out Y MB O E. split.
        - intros k. replace (nodes s' k) with (nodes (sendF out (setN n y s)) k) by (rewrite <- E; reflexivity).
          rewrite sendF_nodes, PN. destruct (k =? n) eqn:EK; [apply Nat.eqb_eq in EK; subst k; exact Y|apply NV'].
        - intros f. replace (fds s' f) with (fds (sendF out (setN n y s)) f) by (rewrite <- E; reflexivity).
          rewrite sendF_fd, setN_fds. apply sendF_ok; [apply FV'|]. intros NE c I. apply (SF MB f c (O f NE) I). }
      destruct m.
      * apply (FIN (set_stopping true (set_dn r (nodes s n))) (toFeds N n FAck s)); [|discriminate|intros f; apply toFeds_ne|reflexivity].
        apply (coreOk_shut h' s' n _ K O1); [|exact (fun k h => h)]. intros f I. apply (SF ltac:(discriminate) f n I I).
      * pose proof (coreGlobal_ok h' s' n _ K O1 (fun f I => SF ltac:(discriminate) f n I I)) as O2. destruct (coreGlobal (set_dn r (nodes s n))) as [y a].
        apply (FIN y (if a then toFeds N n FStop s else [])); [exact O2|discriminate| |reflexivity]. intros f. destruct a; [apply toFeds_ne|intros NE; elim NE; reflexivity].
      * split; [|exact FV']. intros k. change (nodes s' k) with (if k =? n then check N n (set_dn r (nodes s n)) else nodes s k).
        destruct (k =? n) eqn:EK; [apply Nat.eqb_eq in EK; subst k; apply (check_ok _ _ _ _ K O1)|apply NV'].
    + assert (forall y out, nodeOk h' s' n y -> (forall j a, In (j, a) out -> a = DBcast \/ S_ h' s' j) -> s' = sendD out (setN n y s) ->
        (forall k, nodeOk h' s' k (nodes s' k)) /\ (forall f, fedOk h' s' f (fds s' f))) as FIN.
      { intros y out Y O E. split.
        - intros k. replace (nodes s' k) with (nodes (sendD out (setN n y s)) k) by (rewrite <- E; reflexivity).
          rewrite sendD_nd. apply sendD_ok; [rewrite PN; destruct (k =? n) eqn:EK; [apply Nat.eqb_eq in EK; subst k; exact Y|apply NV']|].
          intros a I. apply in_to in I. apply (O k a I).
        - intros f. replace (fds s' f) with (fds (sendD out (setN n y s)) f) by (rewrite <- E; reflexivity). rewrite sendD_fds, setN_fds. apply FV'. }
      destruct m; cbn [brokerAck brokerGlobal] in s'.
      * refine (FIN _ _ _ _ eq_refl).
        -- apply (brokerOk_all _ _ _ _ O1 K (SN ltac:(discriminate))). reflexivity.
        -- intros j a I. right. unfold ackAll in I. apply in_map_iff in I as [i [E I]]. injection E as -> _. apply filter_In in I as [I _]. apply (S_up _ _ n j (SN ltac:(discriminate)) I).
      * refine (FIN _ _ _ _ eq_refl).
        -- apply (brokerOk_all _ _ _ _ O1 K (SN ltac:(discriminate))). reflexivity.
        -- intros j a I. right. apply in_flat_map in I as [i [I J]]. apply (S_up _ _ n j (SN ltac:(discriminate))).
           destruct (negb _); [destruct J as [J|[]]; injection J as -> _; exact I|]. destruct (negb _); [destruct J as [J|[]]; injection J as -> _; exact I|destruct J].
      * refine (FIN _ _ O1 _ eq_refl). intros j a I. left. apply (bcast_in _ _ _ _ I).
  - (* CMD_STOP *)
    destruct (stopping (nodes s n) && negb (isStop (rs (nodes s n)))) eqn:G; [|split; assumption]. apply andb_true_iff in G as [G _].
    assert (S_ h' s' n) as SN by (destruct (NV' n) as [A _]; apply A; right; left; exact G).
    destruct (t_core T n) eqn:K.
    + assert (forall f, In f (feds N n) -> P h' s' n f) as SF by (intros f I; apply (SN n f); [constructor|exact I]).
      assert (nodeOk h' s' n (fst (coreStop (nodes s n)))) as O2.
      { unfold coreStop. destruct (isRun _); cbn [fst]; apply (coreOk_shut h' s' n _ K (NV' n) SF); exact (fun k h => h). }
      destruct (coreStop (nodes s n)) as [y a]. cbn [fst] in O2. split.
      * intros k. subst s'. rewrite sendF_nodes, PN. destruct (k =? n) eqn:E; [apply Nat.eqb_eq in E; subst k; exact O2|apply NV'].
      * intros f. subst s'. rewrite sendF_fd, setN_fds. apply sendF_ok; [apply FV'|]. intros NE c I. destruct a; [|elim NE; reflexivity].
        pose proof (toFeds_ne _ _ _ _ NE) as I1. rewrite (core_of c n f I I1). apply SF, I1.
    + split; [|exact FV']. intros k. subst s'. rewrite PN. destruct (k =? n) eqn:E; [apply Nat.eqb_eq in E; subst k|apply NV'].
      apply (brokerOk_all _ _ _ _ (NV' n) K SN). unfold brokerStop. destruct (_ && _); reflexivity.
  - (* the timer *)
    destruct (t_core T c && armed (nodes s c) && negb (isStop (rs (nodes s c)))) eqn:G; [|split; assumption]. apply andb_true_iff in G as [G _]. apply andb_true_iff in G as [K G].
    pose proof (SC c K (or_intror (or_introl G))) as SF. split.
    + intros k. subst s'. rewrite sendF_nodes, PN. destruct (k =? c) eqn:E; [apply Nat.eqb_eq in E; subst k|apply NV'].
      apply (coreOk_shut _ _ c _ K (NV' c) SF). exact (fun k h => h).
    + intros f. subst s'. rewrite sendF_fd, setN_fds. apply sendF_ok; [apply FV'|]. intros NE c' I.
      pose proof (toFeds_ne _ _ _ _ NE) as I1. rewrite (core_of c' c f I I1). apply SF, I1.
  - (* operating *)
    split; [|exact FV']. intros k. subst s'. rewrite PN. destruct (k =? n) eqn:E; [apply Nat.eqb_eq in E; subst k; exact (NV' n)|apply NV'].
  - (* disconnect() *)
    destruct (isStop (rs (nodes s n))); [split; assumption|]. pose proof (SU n eq_refl) as SN. destruct (t_core T n) eqn:K.
    + assert (forall f, In f (feds N n) -> P h' s' n f) as SF by (intros f I; apply (SN n f); [constructor|exact I]).
      pose proof (coreGlobal_ok h' s' n _ K (NV' n) SF) as O2. destruct (coreGlobal (nodes s n)) as [y a]. cbn [fst] in O2. split.
      * intros k. subst s'. rewrite sendF_nodes, PN. destruct (k =? n) eqn:E; [apply Nat.eqb_eq in E; subst k; exact O2|apply NV'].
      * intros f. subst s'. rewrite sendF_fd, setN_fds. apply sendF_ok; [apply FV'|]. intros NE c I. destruct a; [|elim NE; reflexivity].
        pose proof (toFeds_ne _ _ _ _ NE) as I1. rewrite (core_of c n f I I1). apply SF, I1.
    + cbn [brokerGlobal] in s'. split; [|exact FV']. intros k. subst s'. rewrite sendD_nd. apply sendD_ok.
      * rewrite PN. destruct (k =? n) eqn:E; [apply Nat.eqb_eq in E; subst k|apply NV']. apply (brokerOk_all _ _ _ _ (NV' n) K SN). reflexivity.
      * intros a I. right. apply in_to in I. apply in_flat_map in I as [i [I J]]. apply (S_up _ _ n k SN).
        destruct (negb _); [destruct J as [J|[]]; injection J as -> _; exact I|]. destruct (negb _); [destruct J as [J|[]]; injection J as -> _; exact I|destruct J].
Qed.
Lemma inv_run h : inv h (run T N h).
Proof.
  induction h as [|e h IH] using rev_ind.
  - split.
    + intros n. split; [intros [H|[H|[H|[[]|[[]|[]]]]]]; [elim H; reflexivity|discriminate|discriminate]|]. split; [intros k _ []|intros c f _ [[_ []]|[[]|[]]]].
    + intros f c _ [H|H]; elim H; reflexivity.
  - unfold run. rewrite fold_left_app. apply (inv_step h (run T N h) e IH).
Qed.

(** C46: a core or broker stops only when every federate below it has called finalize, or was cut off by a disconnect() of its
    core or of a broker above it *)
Theorem C46_nodes_stop_last h n c f : rs (nodes (run T N h) n) = Stop -> under n c -> In f (feds N c) ->
  called (fds (run T N h) f) = true \/ cut N h c.
Proof.
  intros R U I. destruct (inv_run h) as [NV _]. destruct (NV n) as [A _]. apply (A ltac:(left; congruence) c f U I).
Qed.
(** a federate is taken out of the federation only when it asked, or was cut off *)
Theorem C46_no_federate_is_finished_unasked h c f : In f (feds N c) -> fst_ (fds (run T N h) f) <> Act ->
  called (fds (run T N h) f) = true \/ cut N h c.
Proof. intros I R. destruct (inv_run h) as [_ FV]. apply (FV f c I). left. exact R. Qed.

(** ** --global_disconnect *)
(** nobody called disconnect(), and no disconnect timer expired *)
Definition undisturbed (h : list event) : Prop := forall n, ~ In (EUser n) h /\ ~ In (ETick n) h.
Definition ginv (A : Prop) (s : gs) : Prop :=
  (forall n, (stopping (nodes s n) = true \/ rs (nodes s n) = Stop \/ In DAck (dn (nodes s n)) -> A) /\ ~ In DGlobal (dn (nodes s n))) /\
  (forall f, In FAck (fq (fds s f)) \/ In FStop (fq (fds s f)) \/ fst_ (fds s f) = Fin -> A).
Lemma undisturbed_app h e : undisturbed (h ++ [e]) -> undisturbed h.
Proof. intros U n. split; intros I; [apply (proj1 (U n))|apply (proj2 (U n))]; apply in_or_app; left; exact I. Qed.
Lemma uncut h c : undisturbed h -> ~ cut N h c.
Proof. intros U [m [I _]]. apply (proj1 (U m) I). Qed.

Lemma ginv_step h s e : glob N = true -> undisturbed (h ++ [e]) -> inv h s -> ginv (S_ h s root) s -> ginv (S_ (h ++ [e]) (step T N s e) root) (step T N s e).
Proof.
  intros GL U I0 [NV FV]. pose proof (inv_step h s e I0) as I1. set (h' := h ++ [e]) in *. set (A := S_ h' (step T N s e) root).
  assert (S_ h s root -> A) as M by (apply S_step).
  assert (forall n, (stopping (nodes s n) = true \/ rs (nodes s n) = Stop \/ In DAck (dn (nodes s n)) -> A) /\ ~ In DGlobal (dn (nodes s n))) as NV'.
  { intros n. split; [intros H; apply M, (proj1 (NV n)), H|apply NV]. }
  assert (forall f, In FAck (fq (fds s f)) \/ In FStop (fq (fds s f)) \/ fst_ (fds s f) = Fin -> A) as FV' by (intros f H; apply M, (FV f H)).
  (* one node changes, and nothing is sent to it *)
  assert (forall n x s1, nodes s1 = nodes (setN n x s) -> (stopping x = true -> stopping (nodes s n) = true \/ A) -> (rs x = Stop -> rs (nodes s n) = Stop \/ A) ->
    (forall m, In m (dn x) -> In m (dn (nodes s n)) \/ m = DBcast) ->
    forall k, (stopping (nodes s1 k) = true \/ rs (nodes s1 k) = Stop \/ In DAck (dn (nodes s1 k)) -> A) /\ ~ In DGlobal (dn (nodes s1 k))) as ONE.
  { intros n x s1 E H1 H2 H3 k. rewrite E. destruct (Nat.eq_dec k n) as [->|NE]; [rewrite setN_eq|rewrite setN_neq by exact NE; apply NV'].
    destruct (NV' n) as [B1 B2]. split.
    - intros [H|[H|H]]; [destruct (H1 H) as [G|G]; [apply B1; left; exact G|exact G]|destruct (H2 H) as [G|G]; [apply B1; right; left; exact G|exact G]|].
      destruct (H3 _ H) as [G|G]; [apply B1; right; right; exact G|discriminate].
    - intros H. destruct (H3 _ H) as [G|G]; [apply B2; exact G|discriminate]. }
  assert (forall f y s1, fds s1 = fds (setF f y s) -> (forall m, In m (fq y) -> In m (fq (fds s f)) \/ m = FDisc) -> (fst_ y = Fin -> fst_ (fds s f) = Fin \/ A) ->
    forall g, In FAck (fq (fds s1 g)) \/ In FStop (fq (fds s1 g)) \/ fst_ (fds s1 g) = Fin -> A) as ONEF.
  { intros f y s1 E H1 H2 g. rewrite E. destruct (Nat.eq_dec g f) as [->|NE]; [rewrite setF_eq|rewrite setF_neq by exact NE; apply FV'].
    intros [H|[H|H]]; [destruct (H1 _ H) as [G|G]; [|discriminate]|destruct (H1 _ H) as [G|G]; [|discriminate]|destruct (H2 H) as [G|G]; [|exact G]]; apply (FV' f); auto. }
  (* sends *)
  assert (forall s1 out, (forall n, (stopping (nodes s1 n) = true \/ rs (nodes s1 n) = Stop \/ In DAck (dn (nodes s1 n)) -> A) /\ ~ In DGlobal (dn (nodes s1 n))) ->
     (forall j m, In (j, m) out -> m = DBcast \/ (m = DAck /\ A)) ->
     (forall n, (stopping (nodes (sendD out s1) n) = true \/ rs (nodes (sendD out s1) n) = Stop \/ In DAck (dn (nodes (sendD out s1) n)) -> A) /\ ~ In DGlobal (dn (nodes (sendD out s1) n)))) as SD.
  { intros s1 out H1 H2 n. rewrite sendD_nd. fields. rewrite !in_app_iff, !in_to. destruct (H1 n) as [B1 B2]. split.
    - intros [H|[H|[H|H]]]; auto. destruct (H2 _ _ H) as [E|[_ E]]; [discriminate|exact E].
    - intros [H|H]; [exact (B2 H)|]. destruct (H2 _ _ H) as [E|[E _]]; discriminate. }
  assert (forall s1 out, (forall f, In FAck (fq (fds s1 f)) \/ In FStop (fq (fds s1 f)) \/ fst_ (fds s1 f) = Fin -> A) -> (forall j m, In (j, m) out -> m = FDisc \/ A) ->
     (forall f, In FAck (fq (fds (sendF out s1) f)) \/ In FStop (fq (fds (sendF out s1) f)) \/ fst_ (fds (sendF out s1) f) = Fin -> A)) as SF.
  { intros s1 out H1 H2 f. rewrite sendF_fd. fields. rewrite !in_app_iff, !in_to. intros [[H|H]|[[H|H]|H]]; try (apply (H1 f); auto; fail);
      destruct (H2 _ _ H) as [E|E]; try discriminate; exact E. }
  assert (forall c m s0 j a, In (j, a) (toFeds N c m s0) -> a = m) as TF by (intros c m s0 j a I; unfold toFeds in I; apply in_map_iff in I as [x [E _]]; injection E as _ <-; reflexivity).
  destruct e as [f|f|c|k|n|n|c|n|n]; cbn [step].
  - destruct (called (fds s f) || negb (isIn f (feds N (coreOf N f)))) eqn:C; [split; assumption|]. apply orb_false_iff in C as [C1 C2]. apply negb_false_iff, isIn_iff in C2.
    destruct (isRun (rs (nodes s (coreOf N f)))) eqn:R.
    + split; [|apply (ONEF f (set_called true (fds s f))); [reflexivity| |intros H; left; exact H]; intros m H; left; exact H].
      apply (ONE (coreOf N f) (set_cq (cq (nodes s (coreOf N f)) ++ [KReq f]) (nodes s (coreOf N f)))); [reflexivity|intros H; left; exact H|intros H; left; exact H|intros m H; left; exact H].
    + exfalso. destruct I0 as [N0 _]. destruct (N0 (coreOf N f)) as [B _]. destruct (B ltac:(left; intros E; rewrite E in R; discriminate) (coreOf N f) f ltac:(constructor) C2) as [X|X]; [congruence|].
      apply (uncut h (coreOf N f) (undisturbed_app _ _ U) X).
  - destruct (isFin (fst_ (fds s f))) eqn:FF; [split; assumption|]. destruct (fq (fds s f)) as [|m r] eqn:Q; [split; assumption|].
    assert (m <> FDisc -> A) as MA by (intros NE; apply (FV' f); rewrite Q; destruct m; [elim NE; reflexivity|left; left; reflexivity|right; left; left; reflexivity]).
    assert (forall a, In a r -> In a (fq (fds s f)) \/ a = FDisc) as IR by (intros a H; left; rewrite Q; right; exact H).
    destruct m.
    + destruct (fst_ (fds s f)) eqn:ST.
      * split; [|apply (ONEF f (set_fst_ Terming (set_fq r (fds s f)))); [reflexivity|exact IR|discriminate]].
        apply (ONE (coreOf N f) (set_cq (cq (nodes s (coreOf N f)) ++ [KDisc f]) (nodes s (coreOf N f)))); [reflexivity|intros H; left; exact H|intros H; left; exact H|intros m H; left; exact H].
      * split; [exact NV'|]. apply (ONEF f (set_fq r (fds s f))); [reflexivity|exact IR|]. fields. rewrite ST. discriminate.
      * discriminate.
    + split; [exact NV'|]. apply (ONEF f (set_fst_ Fin (set_fq r (fds s f)))); [reflexivity|exact IR|intros _; right; apply MA; discriminate].
    + split; [exact NV'|]. apply (ONEF f (set_fst_ Fin (set_fq r (fds s f)))); [reflexivity|exact IR|intros _; right; apply MA; discriminate].
  - destruct (isStop (rs (nodes s c)) || negb (t_core T c)); [split; assumption|]. destruct (cq (nodes s c)) as [|[f|f] r] eqn:Q; [split; assumption| |].
    + split.
      * apply (ONE c (set_cq r (nodes s c))); [reflexivity|intros H; left; exact H|intros H; left; exact H|intros m H; left; exact H].
      * apply SF; [exact FV'|]. intros j m. destruct (isFin _); [intros []|]. intros [E|[]]. injection E as _ <-. left. reflexivity.
    + assert (snd (coreDisc N c f (set_cq r (nodes s c))) = false /\ stopping (fst (coreDisc N c f (set_cq r (nodes s c)))) = stopping (nodes s c) /\
        (rs (fst (coreDisc N c f (set_cq r (nodes s c)))) = Stop -> rs (nodes s c) = Stop) /\ dn (fst (coreDisc N c f (set_cq r (nodes s c)))) = dn (nodes s c)) as [E1 [E2 [E3 E4]]].
      { unfold coreDisc, check. cbv zeta. rewrite GL. cbn [negb]. rewrite andb_false_r. fields. destruct (isRun (rs (nodes s c)) && allFeds N c _) eqn:E.
        - apply andb_true_iff in E as [E _]. fields. destruct (rs (nodes s c)); try discriminate. destruct (_ || _ || _); fields; repeat split; discriminate.
        - destruct (_ || _ || _); fields; repeat split; intros H; exact H. }
      destruct (coreDisc N c f (set_cq r (nodes s c))) as [y a]. cbn [fst snd] in *. subst a. cbn [andb]. split.
      * apply (ONE c y); [reflexivity|rewrite E2; intros H; left; exact H|intros H; left; apply E3, H|rewrite E4; intros m H; left; exact H].
      * apply SF; [exact FV'|]. intros j m [].
  - (* up *)
    assert (t_core T root = false) as KR by apply HT. change (ginv A (step T N s (EUp k))).
    remember (step T N s (EUp k)) as s' eqn:ES. cbn [step] in ES.
    destruct (t_parent T k) as [p|] eqn:PP; [|subst s'; split; assumption]. destruct (up (nodes s k)) as [|m r] eqn:UK; [subst s'; split; assumption|].
    destruct (isIn k (kids N p)) eqn:IK; [|subst s'; split; assumption].
    set (s1 := setN k (set_up r (nodes s k)) s) in *.
    assert (forall n, (stopping (nodes s1 n) = true \/ rs (nodes s1 n) = Stop \/ In DAck (dn (nodes s1 n)) -> A) /\ ~ In DGlobal (dn (nodes s1 n))) as N1.
    { apply (ONE k (set_up r (nodes s k))); [reflexivity|intros H; left; exact H|intros H; left; exact H|intros a H; left; exact H]. }
    destruct (isStop (rs (nodes s p))) eqn:SP; [subst s'; split; [exact N1|exact FV']|].
    assert (nodes s1 p = nodes s p) as EP by (unfold s1; apply setN_neq; apply (parent_neq _ _ PP)).
    assert (forall y out, (y, out) = (match m with UDisc => brokerDisc T N p k (nodes s1 p) | _ => brokerPass T N p m (nodes s1 p) end) ->
       rs y = rs (nodes s p) /\ dn y = dn (nodes s p) /\
       (forall j a, In (j, a) out -> a = DBcast \/ (a = DAck /\ p = root /\ allKids N p y = true)) /\ (stopping y = true -> stopping (nodes s p) = true \/ (p = root /\ allKids N p y = true))) as SH.
    { intros y out E. assert (m = UDisc \/ m <> UDisc) as [MU|MU] by (destruct m; [left; reflexivity|right; discriminate|right; discriminate]).
      - subst m. rewrite EP in E. unfold brokerDisc in E. cbv zeta in E. rewrite GL in E. revert E. set (x1 := set_gone _ _).
        set (o := if _ && _ then bcast N p x1 else []). assert (forall j a, In (j, a) o -> a = DBcast) as HO by (subst o; intros j a; destruct (_ && _); [apply bcast_in|intros []]). clearbody o.
        destruct (allKids N p x1) eqn:AK.
        + destruct (p =? root) eqn:RT; intros E; injection E as -> ->.
          * apply Nat.eqb_eq in RT. split; [reflexivity|]. split; [reflexivity|]. split; [|intros _; right; split; [exact RT|exact AK]].
            intros j a I. apply in_app_iff in I as [I|I]; [left; apply (HO _ _ I)|]. right. unfold ackAll in I. apply in_map_iff in I as [i [E I]]. injection E as _ <-. split; [reflexivity|]. split; [exact RT|exact AK].
          * split; [reflexivity|]. split; [reflexivity|]. split; [intros j a I; left; apply (HO _ _ I)|intros H; left; exact H].
        + destruct (negb (p =? root) && negb (oper x1)); intros E; injection E as -> ->; rewrite app_nil_r; (split; [reflexivity|]; split; [reflexivity|]; split; [intros j a I; left; apply (HO _ _ I)|intros H; left; exact H]).
      - replace (match m with UDisc => _ | _ => _ end) with (brokerPass T N p m (nodes s1 p)) in E by (destruct m; [elim MU|..]; reflexivity). rewrite EP in E.
        unfold brokerPass in E. destruct (p =? root).
        + injection E as -> ->. split; [reflexivity|]. split; [reflexivity|]. split; [|intros H; left; exact H]. intros j a I. left. destruct (oper _); [destruct I|apply (bcast_in _ _ _ _ I)].
        + injection E as -> ->. split; [reflexivity|]. split; [reflexivity|]. split; [intros j a []|intros H; left; exact H]. }
    cbv zeta in ES. destruct (match m with UDisc => brokerDisc T N p k (nodes s1 p) | _ => brokerPass T N p m (nodes s1 p) end) as [y out].
    destruct (SH y out eq_refl) as [Y1 [Y2 [Y3 Y4]]].
    assert (p = root -> allKids N p y = true -> A) as RA.
    { intros -> AK. destruct I1 as [N2 _]. apply (allKids_S _ _ root (nodes s' root) (N2 root) KR). rewrite ES, sendD_nd, setN_eq. exact AK. }
    rewrite ES. split; [|exact FV']. apply SD.
    + intros n. destruct (Nat.eq_dec n p) as [->|NE]; [rewrite setN_eq|rewrite setN_neq by exact NE; apply N1]. rewrite Y1, Y2. destruct (NV' p) as [B1 B2]. split; [|exact B2].
      intros [H|H]; [|apply B1; right; exact H]. destruct (Y4 H) as [G|[G1 G2]]; [apply B1; left; exact G|apply (RA G1 G2)].
    + intros j a I. destruct (Y3 j a I) as [E|[E1 [E2 E3]]]; [left; exact E|right; split; [exact E1|apply (RA E2 E3)]].
  - (* down *)
    destruct (isStop (rs (nodes s n))); [split; assumption|]. destruct (dn (nodes s n)) as [|m r] eqn:D; [split; assumption|].
    destruct (NV' n) as [B1 B2]. assert (forall a, In a r -> In a (dn (nodes s n)) \/ a = DBcast) as IR by (intros a H; left; rewrite D; right; exact H).
    destruct m; [|exfalso; apply B2; rewrite D; left; reflexivity|].
    + assert A as HA by (apply B1; rewrite D; right; right; left; reflexivity). destruct (t_core T n).
      * split; [|apply SF; [exact FV'|intros j a _; right; exact HA]].
        apply (ONE n (set_stopping true (set_dn r (nodes s n)))); [reflexivity|intros _; right; exact HA|intros _; right; exact HA|exact IR].
      * cbn [brokerAck]. split; [|exact FV']. apply SD.
        -- apply (ONE n (set_stopping true (set_told (kids N n) (set_dn r (nodes s n))))); [reflexivity|intros _; right; exact HA|intros _; right; exact HA|exact IR].
        -- intros j a I. right. unfold ackAll in I. apply in_map_iff in I as [i [E I]]. injection E as _ <-. split; [reflexivity|exact HA].
    + destruct (t_core T n).
      * split; [|exact FV']. apply (ONE n (check N n (set_dn r (nodes s n)))); [reflexivity| | |]; unfold check; destruct (_ && _) eqn:E; fields; try exact IR; try discriminate; intros H; left; exact H.
      * split; [|exact FV']. apply SD; [|intros j a I; left; apply (bcast_in _ _ _ _ I)].
        apply (ONE n (set_dn r (nodes s n))); [reflexivity|intros H; left; exact H|intros H; left; exact H|exact IR].
  - (* stop *)
    destruct (stopping (nodes s n) && negb (isStop (rs (nodes s n)))) eqn:G; [|split; assumption]. apply andb_true_iff in G as [G _].
    assert A as HA by (apply (NV' n); left; exact G). destruct (t_core T n).
    + destruct (coreStop (nodes s n)) as [y a] eqn:E. split; [|apply SF; [exact FV'|intros j b _; right; exact HA]].
      apply (ONE n y); [reflexivity|intros _; right; exact HA|intros _; right; exact HA|]. unfold coreStop in E. destruct (isRun _); injection E as <- _; intros m H; left; exact H.
    + split; [|exact FV']. apply (ONE n (brokerStop T N n (nodes s n))); [reflexivity|intros _; right; exact HA|intros _; right; exact HA|].
      unfold brokerStop. destruct (_ && _); intros m H; left; exact H.
  - exfalso. apply (proj2 (U c)). apply in_or_app. right. left. reflexivity.
  - split; [|exact FV']. apply (ONE n (set_oper true (nodes s n))); [reflexivity|intros H; left; exact H|intros H; left; exact H|intros m H; left; exact H].
  - exfalso. apply (proj1 (U n)). apply in_or_app. right. left. reflexivity.
Qed.
Lemma ginv_run h : glob N = true -> undisturbed h -> ginv (S_ h (run T N h) root) (run T N h).
Proof.
  intros GL. induction h as [|e h IH] using rev_ind; intros U.
  - split; [intros n; split; [intros [H|[H|[]]]; discriminate|intros []]|intros f [[]|[[]|H]]; discriminate].
  - unfold run. rewrite fold_left_app. apply (ginv_step h (run T N h) e GL U (inv_run h)). apply IH, (undisturbed_app _ _ U).
Qed.
(** C46: with --global_disconnect no call of finalize returns before every federate of the federation has called it *)
Theorem C46_global_disconnect_waits_for_all h f c g : glob N = true -> undisturbed h -> returned (run T N h) f ->
  under root c -> In g (feds N c) -> called (fds (run T N h) g) = true.
Proof.
  intros GL U [_ R] UN I. destruct (ginv_run h GL U) as [_ FV]. destruct (FV f (or_intror (or_intror R)) c g UN I) as [C|C]; [exact C|].
  elim (uncut h c U C).
Qed.
End Props.
