(** * The initialization barrier: what holds for every history, and the barrier without iterations (C45) *)
From Coq Require Import ZArith Bool List Lia.
From Verif Require Import Route InitMode.
Import ListNotations.
Open Scope nat_scope.

(** ** Reading the state *)
Lemma put_eq {A} (f : nat -> A) k v : put f k v k = v.
Proof. unfold put. rewrite Nat.eqb_refl. reflexivity. Qed.
Lemma put_neq {A} (f : nat -> A) k v x : x <> k -> put f k v x = f x.
Proof. intros H. unfold put. apply Nat.eqb_neq in H. rewrite H. reflexivity. Qed.

Definition to (n : nat) (out : list (nat * bool)) : list bool := map snd (filter (fun o => Nat.eqb (fst o) n) out).
Lemma sendDown_nodes out : forall s n, nodes (sendDown out s) n = set_dn (dn (nodes s n) ++ to n out) (nodes s n).
Proof.
  induction out as [|[k b] out IH]; intros s n.
  - unfold sendDown, to. cbn [fold_left filter map]. rewrite app_nil_r. destruct (nodes s n); reflexivity.
  - unfold sendDown in *. cbn [fold_left fst snd]. rewrite IH. unfold setN, set_nodes. cbn [nodes].
    unfold to. cbn [filter fst]. destruct (Nat.eq_dec n k) as [->|N].
    + rewrite put_eq, Nat.eqb_refl. cbn [map snd]. unfold set_dn. cbn [op it asked ents feds cst its delay cfeds cq upP upN dn joined acked].
      rewrite <- app_assoc. reflexivity.
    + rewrite put_neq by exact N. replace (k =? n) with false by (symmetry; apply Nat.eqb_neq; congruence). reflexivity.
Qed.
Lemma sendDown_fds out : forall s, fds (sendDown out s) = fds s.
Proof. induction out as [|o out IH]; intros s; [reflexivity|]. unfold sendDown in *. cbn [fold_left]. rewrite IH. reflexivity. Qed.
Lemma sendDown_acks out : forall s, acks (sendDown out s) = acks s.
Proof. induction out as [|o out IH]; intros s; [reflexivity|]. unfold sendDown in *. cbn [fold_left]. rewrite IH. reflexivity. Qed.
Lemma sendFed_fds out : forall s n, fds (sendFed out s) n = set_f_in (f_in (fds s n) ++ to n out) (fds s n).
Proof.
  induction out as [|[k b] out IH]; intros s n.
  - unfold sendFed, to. cbn [fold_left filter map]. rewrite app_nil_r. destruct (fds s n); reflexivity.
  - unfold sendFed in *. cbn [fold_left fst snd]. rewrite IH. unfold setF, set_fds. cbn [fds].
    unfold to. cbn [filter fst]. destruct (Nat.eq_dec n k) as [->|N].
    + rewrite put_eq, Nat.eqb_refl. cbn [map snd]. unfold set_f_in. cbn [f_core f_ack f_wait f_in f_done].
      rewrite <- app_assoc. reflexivity.
    + rewrite put_neq by exact N. replace (k =? n) with false by (symmetry; apply Nat.eqb_neq; congruence). reflexivity.
Qed.
Lemma sendFed_nodes out : forall s, nodes (sendFed out s) = nodes s.
Proof. induction out as [|o out IH]; intros s; [reflexivity|]. unfold sendFed in *. cbn [fold_left]. rewrite IH. reflexivity. Qed.
Lemma sendFed_acks out : forall s, acks (sendFed out s) = acks s.
Proof. induction out as [|o out IH]; intros s; [reflexivity|]. unfold sendFed in *. cbn [fold_left]. rewrite IH. reflexivity. Qed.

Lemma to_in n b out : In b (to n out) <-> In (n, b) out.
Proof.
  unfold to. rewrite in_map_iff. split.
  - intros [[k c] [E I]]. apply filter_In in I as [I K]. cbn in E, K. apply Nat.eqb_eq in K. subst. exact I.
  - intros I. exists (n, b). split; [reflexivity|]. apply filter_In. split; [exact I|]. cbn. apply Nat.eqb_refl.
Qed.
Lemma to_nonempty n out : to n out <> [] -> exists b, In (n, b) out.
Proof. intros H. destruct (to n out) as [|b r] eqn:E; [congruence|]. exists b. apply to_in. rewrite E. left. reflexivity. Qed.

Ltac fields := cbn [op it asked ents feds cst its delay cfeds cq upP upN dn joined acked f_core f_ack f_wait f_in f_done nodes fds acks
  set_op set_it set_asked set_ents set_feds set_cst set_its set_delay set_cfeds set_cq set_upP set_upN set_dn set_joined set_acked
  set_f_core set_f_ack set_f_wait set_f_in set_f_done set_nodes set_fds set_acks e_id e_par e_local e_core e_st e_it e_late
  x_id x_par x_count q_id q_trans q_it q_late fst snd setSt finalState] in *.

(** the fields of the node which a transmission to the parent leaves alone *)
Lemma sendN_facts T n m x :
  op (sendN T n m x) = op x /\ it (sendN T n m x) = it x /\ asked (sendN T n m x) = asked x /\ ents (sendN T n m x) = ents x /\
  feds (sendN T n m x) = feds x /\ cst (sendN T n m x) = cst x /\ its (sendN T n m x) = its x /\ delay (sendN T n m x) = delay x /\
  cfeds (sendN T n m x) = cfeds x /\ cq (sendN T n m x) = cq x /\ upP (sendN T n m x) = upP x /\ dn (sendN T n m x) = dn x /\
  joined (sendN T n m x) = joined x /\ acked (sendN T n m x) = acked x.
Proof. unfold sendN. destruct (Nat.eqb n (t_root T)); repeat split. Qed.

Lemma findE_none l n : findE l n = None -> forall e, In e l -> e_id e <> n.
Proof. unfold findE. intros H e I E. pose proof (find_none _ _ H e I) as F. cbn in F. rewrite E, Nat.eqb_refl in F. discriminate. Qed.
Lemma findE_some l n e : findE l n = Some e -> In e l /\ e_id e = n.
Proof. unfold findE. intros H. apply find_some in H as [I E]. apply Nat.eqb_eq in E. split; assumption. Qed.
Lemma in_updE l n f e : In e (updE l n f) -> exists e0, In e0 l /\ e = (if Nat.eqb (e_id e0) n then f e0 else e0).
Proof. unfold updE. intros H. apply in_map_iff in H as [e0 [E I]]. exists e0. split; [exact I|symmetry; exact E]. Qed.
Lemma in_updC l n f e : In e (updC l n f) -> exists e0, In e0 l /\ e = (if Nat.eqb (q_id e0) n then f e0 else e0).
Proof. unfold updC. intros H. apply in_map_iff in H as [e0 [E I]]. exists e0. split; [exact I|symmetry; exact E]. Qed.

(** ** The limits are met (any history) *)
(** the part of allInitReady which is about numbers *)
Definition limitsB (L : lim) (self : nat) (x : nd) : Prop :=
  mFed L <= countable x /\ mBrk L <= length (ents x) /\
  mChild L <= length (filter (fun e => Nat.eqb (e_par e) self) (ents x)) /\
  mLBrk L <= length (filter (fun e => Nat.eqb (e_par e) self && negb (e_core e)) (ents x)) /\
  mLFed L <= length (filter (fun f => x_count f &&
      match findE (ents x) (x_par f) with Some e => Nat.eqb (e_par e) self && e_core e | None => false end) (feds x)) /\
  (forall r, In r (req L) -> exists f, In f (feds x) /\ x_id f = r).

Lemma countable_le x : countable x <= length (feds x).
Proof. unfold countable. induction (feds x) as [|a l IH]; [cbn; lia|]. cbn [filter]. destruct (x_count a); cbn [length]; lia. Qed.

Lemma readyB_iff L self x : readyB L self x = true <-> limitsB L self x /\ allRequested x = true.
Proof.
  unfold readyB, limitsB. rewrite !andb_true_iff, !Nat.leb_le, forallb_forall. split.
  - intros [[[[[[[A B] C] D] E] F] G] H]. repeat split; try assumption.
    intros r I. specialize (F r I). apply existsb_exists in F as [f [I' E']]. apply Nat.eqb_eq in E'. exists f. split; assumption.
  - intros [[A [B [C [D [E F]]]]] G]. repeat split; try assumption.
    + pose proof (countable_le x). lia.
    + intros r I. destruct (F r I) as [f [I' E']]. apply existsb_exists. exists f. split; [exact I'|apply Nat.eqb_eq; exact E'].
Qed.

Lemma allRequested_iff x : allRequested x = true <-> (exists e, In e (ents x) /\ e_local e = true) /\
  (forall e, In e (ents x) -> e_local e = true -> e_st e = true).
Proof.
  unfold allRequested. rewrite andb_true_iff, negb_true_iff, Nat.eqb_neq, forallb_forall. split.
  - intros [A B]. split.
    + destruct (filter e_local (ents x)) as [|e l] eqn:E; [cbn in A; congruence|]. exists e. apply filter_In. rewrite E. left. reflexivity.
    + intros e I L. apply B. apply filter_In. split; assumption.
  - intros [[e [I L]] B]. split.
    + assert (In e (filter e_local (ents x))) as J by (apply filter_In; split; assumption). destruct (filter e_local (ents x)); [destruct J|cbn; lia].
    + intros e' J. apply filter_In in J as [J1 J2]. apply B; assumption.
Qed.

Lemma filter_app_le {A} (p : A -> bool) l l' : length (filter p l) <= length (filter p (l ++ l')).
Proof. rewrite filter_app, app_length. lia. Qed.
Lemma filter_mono {A} (p q : A -> bool) l : (forall x, In x l -> p x = true -> q x = true) -> length (filter p l) <= length (filter q l).
Proof.
  induction l as [|a l IH]; intros H; [cbn; lia|]. cbn [filter].
  assert (length (filter p l) <= length (filter q l)) by (apply IH; intros x I; apply H; right; exact I).
  destruct (p a) eqn:P; [rewrite (H a (or_introl eq_refl) P)|destruct (q a)]; cbn [length]; lia.
Qed.
Lemma findE_app l l' n e : findE l n = Some e -> findE (l ++ l') n = Some e.
Proof.
  unfold findE. induction l as [|a l IH]; intros H; [discriminate|]. cbn [find app] in *. destruct (e_id a =? n); [exact H|apply IH; exact H].
Qed.

(** the tables of a node only grow; what the limits read does not change otherwise *)
Definition skel (e : ent) : nat * nat * bool * bool := (e_id e, e_par e, e_local e, e_core e).
Definition grows (x y : nd) : Prop :=
  (exists l, map skel (ents y) = map skel (ents x) ++ l) /\ (exists l, feds y = feds x ++ l).
Lemma grows_refl x : grows x x.
Proof. split; exists []; rewrite app_nil_r; reflexivity. Qed.
Lemma grows_trans x y z : grows x y -> grows y z -> grows x z.
Proof.
  intros [[l A] [l' B]] [[m A'] [m' B']]. split.
  - exists (l ++ m). rewrite A', A, app_assoc. reflexivity.
  - exists (l' ++ m'). rewrite B', B, app_assoc. reflexivity.
Qed.
Lemma grows_same x y : ents y = ents x -> feds y = feds x -> grows x y.
Proof. intros A B. split; exists []; rewrite app_nil_r; [rewrite A|rewrite B]; reflexivity. Qed.

Lemma skel_filter (p : nat * nat * bool * bool -> bool) l :
  length (filter (fun e => p (skel e)) l) = length (filter p (map skel l)).
Proof. induction l as [|a l IH]; [reflexivity|]. cbn [filter map]. destruct (p (skel a)); cbn [length]; lia. Qed.
Lemma skel_find n l : option_map skel (findE l n) = find (fun k => Nat.eqb (fst (fst (fst k))) n) (map skel l).
Proof. unfold findE. induction l as [|a l IH]; [reflexivity|]. cbn [find map]. unfold skel at 2. cbn [fst]. destruct (e_id a =? n); [reflexivity|exact IH]. Qed.

Lemma limitsB_grows L self x y : grows x y -> limitsB L self x -> limitsB L self y.
Proof.
  intros [[l A] [l' B]] [H1 [H2 [H3 [H4 [H5 H6]]]]].
  assert (forall p, length (filter (fun e => p (skel e)) (ents x)) <= length (filter (fun e => p (skel e)) (ents y))) as G.
  { intros p. rewrite !skel_filter, A. apply filter_app_le. }
  assert (forall n e, findE (ents x) n = Some e -> exists e', findE (ents y) n = Some e' /\ skel e' = skel e) as G2.
  { intros n e E. pose proof (skel_find n (ents x)) as S1. pose proof (skel_find n (ents y)) as S2. rewrite E in S1. cbn [option_map] in S1.
    rewrite A in S2. symmetry in S1.
    assert (find (fun k => fst (fst (fst k)) =? n) (map skel (ents x) ++ l) = Some (skel e)) as S3.
    { revert S1. generalize (map skel (ents x)). induction l0 as [|a m IH]; intros S1; [discriminate|]. cbn [find app] in *.
      destruct (fst (fst (fst a)) =? n); [exact S1|apply IH; exact S1]. }
    rewrite S3 in S2. destruct (findE (ents y) n) as [e'|]; [|discriminate]. cbn [option_map] in S2. exists e'. split; [reflexivity|]. congruence. }
  split; [|split; [|split; [|split; [|split]]]].
  - unfold countable in *. rewrite B. etransitivity; [exact H1|]. apply filter_app_le.
  - etransitivity; [exact H2|]. rewrite <- (map_length skel (ents x)), <- (map_length skel (ents y)), A, app_length. lia.
  - etransitivity; [exact H3|]. apply (G (fun k => Nat.eqb (snd (fst (fst k))) self)).
  - etransitivity; [exact H4|]. apply (G (fun k => Nat.eqb (snd (fst (fst k))) self && negb (snd k))).
  - etransitivity; [exact H5|]. rewrite B. etransitivity; [|apply filter_app_le]. apply filter_mono. intros f _ P.
    apply andb_true_iff in P as [P1 P2]. rewrite P1. cbn [andb]. destruct (findE (ents x) (x_par f)) as [e|] eqn:E; [|discriminate].
    destruct (G2 _ _ E) as [e' [-> S]]. unfold skel in S. injection S as S1 S2 S3 S4. rewrite S2, S4. exact P2.
  - intros r I. destruct (H6 r I) as [f [J E]]. exists f. split; [rewrite B; apply in_or_app; left; exact J|exact E].
Qed.

Lemma skel_updE l n st g : (forall e, skel (g e) = skel e) -> st = updE l n g -> map skel st = map skel l.
Proof.
  intros H ->. unfold updE. rewrite map_map. apply map_ext. intros e. destruct (e_id e =? n); [apply H|reflexivity].
Qed.

(** ** Growth of one step *)
Lemma grows_sendN T n m x : grows x (sendN T n m x).
Proof. apply grows_same; apply sendN_facts. Qed.
Lemma grows_iterState x : grows x (iterState x).
Proof.
  unfold iterState. fields. split; fields.
  - exists []. rewrite app_nil_r, map_map. apply map_ext. intros e. destruct (e_local e && e_it e); reflexivity.
  - exists []. rewrite app_nil_r. reflexivity.
Qed.
Lemma grows_brokerReg T L self m n x : grows x (fst (brokerReg T L self m n x)).
Proof.
  unfold brokerReg. destruct (MBrk L <=? _); [apply grows_refl|]. destruct (op x); [apply grows_refl|].
  set (x1 := if readyB L self x then _ else x). assert (grows x x1) as G by (subst x1; destruct (readyB L self x); [apply grows_sendN|apply grows_refl]).
  clearbody x1. destruct (findE (ents x1) n); [exact G|]. eapply grows_trans; [exact G|].
  destruct (self =? t_root T); cbn [fst]; (split; fields; [eexists; rewrite map_app; reflexivity|exists []; rewrite app_nil_r; reflexivity]).
Qed.
Lemma grows_fedReg T C self m f x : grows x (fst (fedReg T C self m f x)).
Proof.
  unfold fedReg. destruct (negb (c_hidden C f) && _); [apply grows_refl|]. destruct (op x && _); [apply grows_refl|].
  set (x1 := if negb (op x) && _ && _ then _ else x). assert (grows x x1) as G by (subst x1; destruct (negb (op x) && _ && _); [apply grows_sendN|apply grows_refl]).
  clearbody x1. destruct (existsb _ (feds x1)); [exact G|]. eapply grows_trans; [exact G|].
  destruct (self =? t_root T); cbn [fst]; (split; fields; [exists []; rewrite app_nil_r; reflexivity|eexists; reflexivity]).
Qed.
Lemma grows_st L n st x : grows x (set_ents (updE (ents x) n (fun e => setSt (st e) (L e) e)) x).
Proof.
  split; fields; exists []; rewrite app_nil_r; [|reflexivity]. apply (skel_updE _ n _ (fun e => setSt (st e) (L e) e)); reflexivity.
Qed.
Lemma grows_brokerInit T L self m i x : grows x (fst (brokerInit T L self m i x)).
Proof.
  unfold brokerInit. destruct (findE (ents x) m); [|apply grows_refl].
  set (x1 := set_ents _ _). assert (grows x x1) as G.
  { eapply grows_trans; [|apply (grows_st (fun e => e_it e || i) m (fun _ => true) (set_it (it x || i) x))]. apply grows_same; reflexivity. }
  clearbody x1. destruct (readyB L self x1); [|exact G]. destruct (self =? t_root T).
  - destruct (it x1); cbn [fst]; (eapply grows_trans; [exact G|]); [apply grows_iterState|apply grows_same; reflexivity].
  - cbn [fst]. eapply grows_trans; [exact G|]. eapply grows_trans; [|apply grows_sendN]. apply grows_same; reflexivity.
Qed.
Lemma grows_brokerNot T L self src x : grows x (brokerNot T L self src x).
Proof.
  unfold brokerNot. destruct (readyB L self x && _); [apply grows_refl|].
  set (x1 := if readyB L self x then _ else x). assert (grows x x1) as G by (subst x1; destruct (readyB L self x); [apply grows_sendN|apply grows_refl]).
  clearbody x1. eapply grows_trans; [exact G|]. apply (grows_st (fun _ => false) src (fun _ => false)).
Qed.
Lemma grows_brokerGrant i x : grows x (fst (brokerGrant i x)).
Proof. unfold brokerGrant. destruct i; cbn [fst]; [apply grows_iterState|apply grows_same; reflexivity]. Qed.
Lemma coreAsk_facts i x :
  op (coreAsk i x) = op x /\ it (coreAsk i x) = it x /\ asked (coreAsk i x) = asked x /\ ents (coreAsk i x) = ents x /\
  feds (coreAsk i x) = feds x /\ its (coreAsk i x) = its x /\ delay (coreAsk i x) = delay x /\
  cfeds (coreAsk i x) = cfeds x /\ cq (coreAsk i x) = cq x /\ upP (coreAsk i x) = upP x /\ dn (coreAsk i x) = dn x /\
  joined (coreAsk i x) = joined x /\ acked (coreAsk i x) = acked x.
Proof. unfold coreAsk. destruct (cst x); [|repeat split..]. destruct (acked (set_cst Initing x)) eqn:E; fields; repeat split; reflexivity || exact E. Qed.

(** ** One step, seen from one node *)
Section Step.
Context (T : topology) (C : config) (HT : tree T).

Lemma parent_neq n p : t_parent T n = Some p -> p <> n.
Proof. destruct HT as [_ [_ [_ H]]]. intros P E. destruct (H _ _ P) as [_ D]. subst. lia. Qed.
Lemma parent_not_core n p : t_parent T n = Some p -> t_core T p = false.
Proof. destruct HT as [_ [_ [_ H]]]. intros P. apply (H _ _ P). Qed.
Lemma root_no_parent n p : t_parent T n = Some p -> n <> t_root T.
Proof. destruct HT as [H _]. intros P ->. congruence. Qed.

(** what the step does to the node itself *)
Inductive nstep (s : gs) : event -> nat -> nd -> Prop :=
| NSame e n : nstep s e n (nodes s n)
| NJoin n : joined (nodes s n) = false -> nstep s (EJoin n) n (set_upP (upP (nodes s n) ++ [Reg n]) (set_joined true (nodes s n)))
| NReg n f : t_core T n = true -> acked (nodes s n) = true -> f_core (fds s f) = None -> nstep s (EReg n f) n (coreReg C f (nodes s n))
| NTakeP n p m r : t_parent T n = Some p -> upP (nodes s n) = m :: r -> joined (nodes s p) = true -> (m = Reg n \/ acked (nodes s n) = true) ->
    nstep s (EUpP n) n (set_upP r (nodes s n))
| NBroker c n k r : t_parent T c = Some n -> upP (nodes s c) = Reg k :: r -> joined (nodes s n) = true -> (k = c \/ acked (nodes s c) = true) ->
    nstep s (EUpP c) n (fst (brokerReg T (c_lim C n) n c k (nodes s n)))
| NFed c n f r : t_parent T c = Some n -> upP (nodes s c) = RegF f :: r -> joined (nodes s n) = true -> acked (nodes s c) = true ->
    nstep s (EUpP c) n (fst (fedReg T C n c f (nodes s n)))
| NTakeN n p m r : t_parent T n = Some p -> upN (nodes s n) = m :: r -> nstep s (EUpN n) n (set_upN r (nodes s n))
| NInit c n i r : t_parent T c = Some n -> upN (nodes s c) = MInit i :: r -> nstep s (EUpN c) n (fst (brokerInit T (c_lim C n) n c i (nodes s n)))
| NNot c n src r : t_parent T c = Some n -> upN (nodes s c) = MNot src :: r -> nstep s (EUpN c) n (brokerNot T (c_lim C n) n src (nodes s n))
| NGrantC n i r : t_core T n = true -> dn (nodes s n) = i :: r -> nstep s (EDown n) n (fst (coreGrant i (set_dn r (nodes s n))))
| NGrantB n i r : t_core T n = false -> dn (nodes s n) = i :: r -> nstep s (EDown n) n (fst (brokerGrant i (set_dn r (nodes s n))))
| NAckC n p : t_core T n = true -> In (AckN n) (acks s) -> t_parent T n = Some p -> acked (nodes s p) = true ->
    nstep s (EAck (AckN n)) n (coreAck (c_lim C n) (nodes s n))
| NAckB n p : t_core T n = false -> In (AckN n) (acks s) -> t_parent T n = Some p -> acked (nodes s p) = true ->
    nstep s (EAck (AckN n)) n (set_acked true (nodes s n))
| NRequest n f i : f_core (fds s f) = Some n -> f_ack (fds s f) = true -> f_wait (fds s f) = false -> f_done (fds s f) = false -> c_hidden C f = false ->
    nstep s (ERequest f i) n (coreRequest f i (nodes s n))
| NCore n f i r : t_core T n = true -> cq (nodes s n) = (f, i) :: r -> nstep s (ECore n) n (coreInit (c_lim C n) f i (set_cq r (nodes s n)))
| NDelay n : nstep s (EDelay n) n (set_delay (delay (nodes s n) + 1)%Z (nodes s n))
| NEnable n : t_core T n = true -> joined (nodes s n) = true -> nstep s (EEnable n) n (coreEnable (c_lim C n) (nodes s n))
| NEnable0 n : t_core T n = true -> joined (nodes s n) = false -> nstep s (EEnable n) n (set_delay (delay (nodes s n) - 1)%Z (nodes s n)).

(** the grants which arrive at the node in the step *)
Inductive nsent (s : gs) : event -> nat -> list bool -> Prop :=
| SNone e n : nsent s e n []
| SInit c p i r n : t_parent T c = Some p -> upN (nodes s c) = MInit i :: r ->
    nsent s (EUpN c) n (to n (snd (brokerInit T (c_lim C p) p c i (nodes s p))))
| SGrant p i r n : t_core T p = false -> dn (nodes s p) = i :: r -> nsent s (EDown p) n (to n (snd (brokerGrant i (set_dn r (nodes s p))))).

Lemma set_dn_same x : set_dn (dn x ++ []) x = x.
Proof. rewrite app_nil_r. destruct x; reflexivity. Qed.

Lemma existsb_ack a l : existsb (isAck a) l = true <-> In a l.
Proof.
  rewrite existsb_exists. split.
  - intros [b [I E]]. destruct a, b; cbn in E; try discriminate; apply Nat.eqb_eq in E; subst; exact I.
  - intros I. exists a. split; [exact I|]. destruct a; cbn; apply Nat.eqb_refl.
Qed.

Ltac same x := exists x, []; split; [rewrite set_dn_same|split; [|constructor]].

Lemma step_node s e n :
  exists x d, nodes (step T C s e) n = set_dn (dn x ++ d) x /\ nstep s e n x /\ nsent s e n d.
Proof.
  destruct e; cbn [step].
  - destruct (joined (nodes s n0)) eqn:J; [same (nodes s n); [reflexivity|constructor]|].
    unfold setN. cbn [nodes set_nodes]. destruct (Nat.eq_dec n n0) as [->|N].
    + rewrite put_eq. same (set_upP (upP (nodes s n0) ++ [Reg n0]) (set_joined true (nodes s n0))); [reflexivity|]. constructor; exact J.
    + rewrite put_neq by exact N. same (nodes s n); [reflexivity|constructor].
  - destruct (t_core T c) eqn:K; cbn [andb]; [|same (nodes s n); [reflexivity|constructor]].
    destruct (acked (nodes s c)) eqn:A; cbn [andb]; [|same (nodes s n); [reflexivity|constructor]].
    destruct (f_core (fds s f)) eqn:F; [same (nodes s n); [reflexivity|constructor]|].
    unfold setN, setF. cbn [nodes set_nodes set_fds]. destruct (Nat.eq_dec n c) as [->|N].
    + rewrite put_eq. same (coreReg C f (nodes s c)); [reflexivity|]. constructor; assumption.
    + rewrite put_neq by exact N. same (nodes s n); [reflexivity|constructor].
  - destruct (t_parent T n0) as [p|] eqn:P; [|same (nodes s n); [reflexivity|constructor]].
    destruct (upP (nodes s n0)) as [|m r] eqn:U; [same (nodes s n); [reflexivity|constructor]|].
    destruct (joined (nodes s p)) eqn:J; cbn [andb]; [|same (nodes s n); [reflexivity|constructor]].
    destruct (match m with Reg k => k =? n0 | _ => false end || acked (nodes s n0)) eqn:G; [|same (nodes s n); [reflexivity|constructor]].
    pose proof (parent_neq _ _ P) as PN.
    cbv zeta. replace (nodes (setN n0 (set_upP r (nodes s n0)) s) p) with (nodes s p) by (unfold setN; cbn [nodes set_nodes]; rewrite put_neq by exact PN; reflexivity).
    destruct (match m with Reg k => brokerReg T (c_lim C p) p n0 k (nodes s p) | RegF f => fedReg T C p n0 f (nodes s p) end) as [x a] eqn:E.
    unfold setN. cbn [nodes set_nodes set_acks]. destruct (Nat.eq_dec n p) as [->|N].
    + rewrite put_eq. same x; [reflexivity|]. destruct m as [k|f].
      * replace x with (fst (brokerReg T (c_lim C p) p n0 k (nodes s p))) by (rewrite E; reflexivity).
        apply (NBroker s n0 p k r P U J). apply orb_true_iff in G as [G|G]; [left; apply Nat.eqb_eq; exact G|right; exact G].
      * replace x with (fst (fedReg T C p n0 f (nodes s p))) by (rewrite E; reflexivity). apply (NFed s n0 p f r P U J G).
    + rewrite put_neq by exact N. destruct (Nat.eq_dec n n0) as [->|N'].
      * rewrite put_eq. same (set_upP r (nodes s n0)); [reflexivity|]. apply (NTakeP s n0 p m r P U J).
        destruct m as [k|f]; [apply orb_true_iff in G as [G|G]; [left; apply Nat.eqb_eq in G; subst; reflexivity|right; exact G]|right; exact G].
      * rewrite put_neq by exact N'. same (nodes s n); [reflexivity|constructor].
  - destruct (t_parent T n0) as [p|] eqn:P; [|same (nodes s n); [reflexivity|constructor]].
    destruct (upN (nodes s n0)) as [|m r] eqn:U; [same (nodes s n); [reflexivity|constructor]|].
    pose proof (parent_neq _ _ P) as PN. cbv zeta. destruct m as [i|src].
    + replace (nodes (setN n0 (set_upN r (nodes s n0)) s) p) with (nodes s p) by (unfold setN; cbn [nodes set_nodes]; rewrite put_neq by exact PN; reflexivity).
      destruct (brokerInit T (c_lim C p) p n0 i (nodes s p)) as [x out] eqn:E.
      exists (if Nat.eqb n p then x else if Nat.eqb n n0 then set_upN r (nodes s n0) else nodes s n), (to n out).
      split; [|split].
      * rewrite sendDown_nodes. unfold setN. cbn [nodes set_nodes]. destruct (Nat.eqb n p) eqn:Q.
        { apply Nat.eqb_eq in Q. subst n. rewrite put_eq. reflexivity. }
        apply Nat.eqb_neq in Q. rewrite put_neq by exact Q. destruct (Nat.eqb n n0) eqn:Q2.
        { apply Nat.eqb_eq in Q2. subst n. rewrite put_eq. reflexivity. }
        apply Nat.eqb_neq in Q2. rewrite put_neq by exact Q2. reflexivity.
      * destruct (Nat.eqb n p) eqn:Q.
        { apply Nat.eqb_eq in Q. subst n. replace x with (fst (brokerInit T (c_lim C p) p n0 i (nodes s p))) by (rewrite E; reflexivity). apply (NInit s n0 p i r P U). }
        destruct (Nat.eqb n n0) eqn:Q2; [apply Nat.eqb_eq in Q2; subst n; apply (NTakeN s n0 p (MInit i) r P U)|constructor].
      * replace out with (snd (brokerInit T (c_lim C p) p n0 i (nodes s p))) by (rewrite E; reflexivity). apply (SInit s n0 p i r n P U).
    + unfold setN. cbn [nodes set_nodes]. rewrite (put_neq (nodes s) n0 _ p PN). destruct (Nat.eq_dec n p) as [->|N].
      * rewrite put_eq. same (brokerNot T (c_lim C p) p src (nodes s p)); [reflexivity|]. apply (NNot s n0 p src r P U).
      * rewrite put_neq by exact N. destruct (Nat.eq_dec n n0) as [->|N'].
        { rewrite put_eq. same (set_upN r (nodes s n0)); [reflexivity|]. apply (NTakeN s n0 p (MNot src) r P U). }
        rewrite put_neq by exact N'. same (nodes s n); [reflexivity|constructor].
  - destruct (dn (nodes s n0)) as [|i r] eqn:D; [same (nodes s n); [reflexivity|constructor]|]. cbv zeta. destruct (t_core T n0) eqn:K.
    + destruct (coreGrant i (set_dn r (nodes s n0))) as [x out] eqn:E. rewrite sendFed_nodes. unfold setN. cbn [nodes set_nodes].
      destruct (Nat.eq_dec n n0) as [->|N].
      * rewrite put_eq. same x; [reflexivity|]. replace x with (fst (coreGrant i (set_dn r (nodes s n0)))) by (rewrite E; reflexivity). apply (NGrantC s n0 i r K D).
      * rewrite put_neq by exact N. same (nodes s n); [reflexivity|constructor].
    + destruct (brokerGrant i (set_dn r (nodes s n0))) as [x out] eqn:E.
      exists (if Nat.eqb n n0 then x else nodes s n), (to n out). split; [|split].
      * rewrite sendDown_nodes. unfold setN. cbn [nodes set_nodes]. destruct (Nat.eqb n n0) eqn:Q.
        { apply Nat.eqb_eq in Q. subst n. rewrite put_eq. reflexivity. }
        apply Nat.eqb_neq in Q. rewrite put_neq by exact Q. reflexivity.
      * destruct (Nat.eqb n n0) eqn:Q; [|constructor]. apply Nat.eqb_eq in Q. subst n.
        replace x with (fst (brokerGrant i (set_dn r (nodes s n0)))) by (rewrite E; reflexivity). apply (NGrantB s n0 i r K D).
      * replace out with (snd (brokerGrant i (set_dn r (nodes s n0)))) by (rewrite E; reflexivity). apply (SGrant s n0 i r n K D).
  - destruct (existsb (isAck a) (acks s)) eqn:X; [|same (nodes s n); [reflexivity|constructor]]. apply existsb_ack in X. destruct a as [k|f].
    + destruct (t_parent T k) as [p|] eqn:P; [|same (nodes s n); [reflexivity|constructor]].
      destruct (acked (nodes s p)) eqn:A; [|same (nodes s n); [reflexivity|constructor]]. cbv zeta.
      unfold setN. cbn [nodes set_nodes set_acks]. destruct (Nat.eq_dec n k) as [->|N].
      * rewrite put_eq. destruct (t_core T k) eqn:K.
        { same (coreAck (c_lim C k) (nodes s k)); [reflexivity|]. apply (NAckC s k p K X P A). }
        { same (set_acked true (nodes s k)); [reflexivity|]. apply (NAckB s k p K X P A). }
      * rewrite put_neq by exact N. same (nodes s n); [reflexivity|constructor].
    + same (nodes s n); [reflexivity|constructor].
  - cbv zeta. destruct (f_core (fds s f)) as [c|] eqn:F; [|same (nodes s n); [reflexivity|constructor]].
    destruct (f_ack (fds s f) && negb (f_wait (fds s f)) && negb (f_done (fds s f)) && negb (c_hidden C f)) eqn:G; [|same (nodes s n); [reflexivity|constructor]].
    rewrite !andb_true_iff, !negb_true_iff in G. destruct G as [[[G1 G2] G3] G4].
    unfold setN, setF. cbn [nodes set_nodes set_fds]. destruct (Nat.eq_dec n c) as [->|N].
    + rewrite put_eq. same (coreRequest f i (nodes s c)); [reflexivity|]. constructor; assumption.
    + rewrite put_neq by exact N. same (nodes s n); [reflexivity|constructor].
  - destruct (t_core T c) eqn:K; [|same (nodes s n); [reflexivity|constructor]].
    destruct (cq (nodes s c)) as [|[f i] r] eqn:Q; [same (nodes s n); [reflexivity|constructor]|].
    unfold setN. cbn [nodes set_nodes]. destruct (Nat.eq_dec n c) as [->|N].
    + rewrite put_eq. same (coreInit (c_lim C c) f i (set_cq r (nodes s c))); [reflexivity|]. constructor; assumption.
    + rewrite put_neq by exact N. same (nodes s n); [reflexivity|constructor].
  - unfold setN. cbn [nodes set_nodes]. destruct (Nat.eq_dec n c) as [->|N].
    + rewrite put_eq. same (set_delay (delay (nodes s c) + 1)%Z (nodes s c)); [reflexivity|constructor].
    + rewrite put_neq by exact N. same (nodes s n); [reflexivity|constructor].
  - destruct (t_core T c) eqn:K; cbn [andb]; [|same (nodes s n); [reflexivity|constructor]].
    destruct (joined (nodes s c)) eqn:J; unfold setN; cbn [nodes set_nodes]; (destruct (Nat.eq_dec n c) as [->|N]; [|rewrite put_neq by exact N; same (nodes s n); [reflexivity|constructor]]); rewrite put_eq.
    + same (coreEnable (c_lim C c) (nodes s c)); [reflexivity|]. constructor; assumption.
    + same (set_delay (delay (nodes s c) - 1)%Z (nodes s c)); [reflexivity|]. constructor; assumption.
  - cbv zeta. destruct (f_wait (fds s f)); [|same (nodes s n); [reflexivity|constructor]].
    destruct (f_in (fds s f)); same (nodes s n); reflexivity || constructor.
Qed.

(** what the step does to a federate *)
Inductive fstep (s : gs) : event -> nat -> fd -> Prop :=
| FSame e f : fstep s e f (fds s f)
| FReg c f : t_core T c = true -> acked (nodes s c) = true -> f_core (fds s f) = None -> fstep s (EReg c f) f (set_f_core (Some c) (fds s f))
| FAck f : In (AckF f) (acks s) -> fstep s (EAck (AckF f)) f (set_f_ack true (fds s f))
| FRequest c f i : f_core (fds s f) = Some c -> f_ack (fds s f) = true -> f_wait (fds s f) = false -> f_done (fds s f) = false -> c_hidden C f = false ->
    fstep s (ERequest f i) f (set_f_wait true (fds s f))
| FReply f i r : f_wait (fds s f) = true -> f_in (fds s f) = i :: r -> fstep s (EReply f) f (set_f_done (negb i) (set_f_wait false (set_f_in r (fds s f))))
| FGrant c i r f : t_core T c = true -> dn (nodes s c) = i :: r ->
    fstep s (EDown c) f (set_f_in (f_in (fds s f) ++ to f (snd (coreGrant i (set_dn r (nodes s c))))) (fds s f)).

Lemma step_fed s e f : fstep s e f (fds (step T C s e) f).
Proof.
  destruct e; cbn [step].
  - destruct (joined (nodes s n)); exact (FSame s _ f).
  - destruct (t_core T c) eqn:K; cbn [andb]; [|exact (FSame s _ f)].
    destruct (acked (nodes s c)) eqn:A; cbn [andb]; [|exact (FSame s _ f)].
    destruct (f_core (fds s f0)) eqn:F; [exact (FSame s _ f)|]. unfold setF, setN. cbn [fds set_fds set_nodes].
    destruct (Nat.eq_dec f f0) as [->|N]; [rewrite put_eq; econstructor; eassumption|rewrite put_neq by exact N; exact (FSame s _ f)].
  - destruct (t_parent T n) as [p|]; [|exact (FSame s _ f)]. destruct (upP (nodes s n)) as [|m r]; [exact (FSame s _ f)|].
    destruct (joined (nodes s p) && _); [|exact (FSame s _ f)]. cbv zeta.
    destruct (match m with Reg k => _ | RegF f => _ end) as [x a]. cbn. exact (FSame s _ f).
  - destruct (t_parent T n) as [p|]; [|exact (FSame s _ f)]. destruct (upN (nodes s n)) as [|[i|src] r]; [exact (FSame s _ f)| |exact (FSame s _ f)].
    cbv zeta. destruct (brokerInit _ _ _ _ _ _) as [x out]. rewrite sendDown_fds. exact (FSame s _ f).
  - destruct (dn (nodes s n)) as [|i r] eqn:D; [exact (FSame s _ f)|]. cbv zeta. destruct (t_core T n) eqn:K.
    + destruct (coreGrant i (set_dn r (nodes s n))) as [x out] eqn:E. rewrite sendFed_fds. unfold setN. cbn [fds set_nodes].
      replace out with (snd (coreGrant i (set_dn r (nodes s n)))) by (rewrite E; reflexivity). apply (FGrant s n i r f K D).
    + destruct (brokerGrant i (set_dn r (nodes s n))) as [x out]. rewrite sendDown_fds. exact (FSame s _ f).
  - destruct (existsb (isAck a) (acks s)) eqn:X; [|exact (FSame s _ f)]. apply existsb_ack in X. destruct a as [k|f0].
    + destruct (t_parent T k); [|exact (FSame s _ f)]. destruct (acked (nodes s n)); exact (FSame s _ f).
    + unfold setF. cbn [fds set_fds set_acks]. destruct (Nat.eq_dec f f0) as [->|N]; [rewrite put_eq; econstructor; eassumption|rewrite put_neq by exact N; exact (FSame s _ f)].
  - cbv zeta. destruct (f_core (fds s f0)) as [c|] eqn:F; [|exact (FSame s _ f)].
    destruct (f_ack (fds s f0) && negb (f_wait (fds s f0)) && negb (f_done (fds s f0)) && negb (c_hidden C f0)) eqn:G; [|exact (FSame s _ f)].
    rewrite !andb_true_iff, !negb_true_iff in G. destruct G as [[[G1 G2] G3] G4].
    unfold setN, setF. cbn [fds set_nodes set_fds]. destruct (Nat.eq_dec f f0) as [->|N]; [|rewrite put_neq by exact N; exact (FSame s _ f)].
    rewrite put_eq. apply (FRequest s c f0 i F G1 G2 G3 G4).
  - destruct (t_core T c); [|exact (FSame s _ f)]. destruct (cq (nodes s c)) as [|[g i] r]; exact (FSame s _ f).
  - exact (FSame s _ f).
  - destruct (t_core T c); cbn [andb]; [|exact (FSame s _ f)]. destruct (joined (nodes s c)); exact (FSame s _ f).
  - cbv zeta. destruct (f_wait (fds s f0)) eqn:W; [|exact (FSame s _ f)]. destruct (f_in (fds s f0)) as [|i r] eqn:I; [exact (FSame s _ f)|].
    unfold setF. cbn [fds set_fds]. destruct (Nat.eq_dec f f0) as [->|N]; [rewrite put_eq; apply (FReply s f0 i r W I)|rewrite put_neq by exact N; exact (FSame s _ f)].
Qed.

(** induction over histories *)
Lemma run_app h h' : run T C (h ++ h') = fold_left (step T C) h' (run T C h).
Proof. unfold run. apply fold_left_app. Qed.
Lemma run_snoc h e : run T C (h ++ [e]) = step T C (run T C h) e.
Proof. rewrite run_app. reflexivity. Qed.
End Step.
