(** * C44: registration gives every federate one id, and commands to it find it

    Federates, cores and brokers form a tree; registrations travel up to the root, acknowledgements travel down, in any
    order, with losses, refusals and names in use.  The histories considered do not contain the repeated registration of
    a node which lost patience (E_resend); what happens with those is in the _refuted theorems. *)
From Coq Require Import String ZArith Bool List Lia.
From Verif Require Import Ids PropsIds Route RouteInv.
Import ListNotations.
Open Scope Z_scope.

(** ** Specification *)
(** a history without repeated node registrations, in which the root gave out at most 2^26 ids of each kind *)
Definition fairHistory (T : topology) (es : list event) : Prop :=
  tree T /\ Forall noResend es /\ small T (run T es (net0 T)).
(** registerFederate of [n] at the core [K] has returned the id [g] *)
Definition registered (s : net) (K : nat) (n : string) (g : Z) : Prop := In (n, g) (n_local (nodes s K)) /\ g <> invalidId.
(** the broker or core [x] has got its id (the root always has one) *)
Definition connected (s : net) (x : nat) : Prop := n_id (nodes s x) <> parentId.

(** ** the invariant along a history *)
Lemma small_back T s e : small T (step T s e) -> small T s.
Proof.
  unfold small. assert (H : forall x, (length (n_brokers (nodes s x)) <= length (n_brokers (nodes (step T s e) x)))%nat /\ (length (n_feds (nodes s x)) <= length (n_feds (nodes (step T s e) x)))%nat).
  { intros x. destruct e as [y|y|y n c|k ok|k]; cbn [step].
    - destruct (t_parent T y); cbn [nodes]; lia.
    - destruct (t_parent T y); cbn [nodes]; lia.
    - destruct (_ && _ && _ && _); [|lia]. destruct (t_parent T y); [|lia]. cbn [nodes]. unfold setNode. destruct (Nat.eqb_spec x y) as [->|]; cbn; lia.
    - destruct (nth_error (wire s) k) as [[[y z] m]|]; [|lia]. destruct (receive (nodes s z) m ok) as [st out] eqn:R. cbn [nodes]. unfold setNode. destruct (Nat.eqb_spec x z) as [->|]; [|lia].
      replace st with (fst (receive (nodes s z) m ok)) by (rewrite R; reflexivity). clear R st out. set (v := nodes s z). clearbody v. unfold receive. destruct (n_core v).
      + destruct m as [n src a c|n src c o|n src dst err o|n src dst err o]; unfold coreBrokerAck, coreFedAck.
        * destruct (String.eqb n (n_name v)); cbn; lia.
        * cbn; lia.
        * destruct (_ && _); cbn; lia.
        * destruct err; cbn; lia.
      + destruct m as [n src a c|n src c o|n src dst err o|n src dst err o].
        * unfold brokerRegistration. destruct (0 <? c).
          -- destruct (findB (n_brokers v) n); cbn; [unfold updB; rewrite map_length; lia|].
             unfold brokerErrorAck. destruct ok; cbn [negb]; destruct (negb (isValid src) || (src =? parentId)); cbn; try lia; destruct (n_root v); cbn; rewrite ?app_length; cbn; try lia;
             destruct (isValid (n_id v) && negb (n_id v =? parentId)); cbn; rewrite ?app_length; cbn; lia.
          -- unfold brokerErrorAck. destruct ok; cbn [negb]; destruct (findB (n_brokers v) n); destruct (negb (isValid src) || (src =? parentId)); cbn; try lia; destruct (n_root v); cbn; rewrite ?app_length; cbn; try lia;
             destruct (isValid (n_id v) && negb (n_id v =? parentId)); cbn; rewrite ?app_length; cbn; lia.
        * unfold fedRegistration. destruct ok; cbn [negb]; [|cbn; lia]. destruct (findF (n_feds v) n); [cbn; lia|]. destruct (n_root v); cbn; [rewrite app_length; cbn; lia|].
          destruct (isValid (n_id v)); cbn; rewrite ?app_length; cbn; lia.
        * unfold brokerBrokerAck. destruct (String.eqb n (n_name v)); [destruct err; cbn; lia|]. destruct (findB (n_brokers v) n) as [e|]; [|cbn; lia]. destruct (be_gid e =? dst); cbn; [lia|].
          unfold updB. rewrite map_length. lia.
        * unfold brokerFedAck. destruct (findF (n_feds v) n); cbn; [unfold updF; rewrite map_length; lia|lia].
    - cbn [nodes]. lia. }
  specialize (H (t_root T)). lia.
Qed.
Lemma small_run T es s : small T (run T es s) -> small T s.
Proof. revert s. induction es as [|e es IH]; intros s H; [exact H|]. apply (small_back T s e), IH, H. Qed.
Lemma run_inv T es s : tree T -> Forall noResend es -> small T (run T es s) -> inv T s -> inv T (run T es s).
Proof.
  intros HT. revert s. induction es as [|e es IH]; intros s F S I; [exact I|]. inversion F as [|? ? F1 F2]; subst. cbn [run fold_left] in *. fold (run T es (step T s e)) in *.
  apply IH; [exact F2|exact S|]. apply (step_inv T HT s e F1 I); [|apply (small_run T es), S]. apply (small_back T s e), (small_run T es), S.
Qed.
Lemma history_inv T es : fairHistory T es -> inv T (run T es (net0 T)).
Proof. intros (HT & F & S). apply run_inv; auto. apply inv0. Qed.

(** ** routing *)
Lemma below_above T x y : below T x y -> x <> y -> above T x y.
Proof.
  induction 1 as [|y p P B IH]; intros N; [congruence|]. destruct (Nat.eq_dec x p) as [->|Q]; [exists y; split; [exact P|constructor]|].
  destruct (IH Q) as (c & C1 & C2). exists c. split; [exact C1|]. apply (below_up T _ y p P C2).
Qed.
Section Hops.
Variable T : topology.
Hypothesis HT : tree T.
Variable s : net.
Hypothesis I : inv T s.
Hypothesis S : small T s.

(** [g] is known above [o], which owns it *)
Variables (g : Z) (o : nat).
Hypothesis G0 : 0 < g.
Hypothesis NI : forall x, x <> o -> n_id (nodes s x) <> g.
Hypothesis AT : hopAt T s o g = Here.
Hypothesis OWN : o <> t_root T -> owner T s g o /\ knownAbove T s o g.
Hypothesis ONLY : o = t_root T -> forall x, lookup (n_table (nodes s x)) g = None.
Hypothesis LOCAL : forall x, x <> o -> localFed (nodes s x) g = false.

Lemma hop_up x p : x <> o -> ~ above T x o -> t_parent T x = Some p -> hopAt T s x g = Next p.
Proof.
  intros N A P. unfold hopAt. rewrite P. assert (E : (g =? n_id (nodes s x)) = false) by (apply Z.eqb_neq; intros E; symmetry in E; exact (NI x N E)). rewrite E.
  destruct (t_core T x) eqn:C.
  - rewrite (LOCAL x N). destruct ((g =? parentId) || (g =? n_higher (nodes s x))); reflexivity.
  - unfold getRoute. destruct ((g =? parentId) || (g =? n_higher (nodes s x))); [reflexivity|].
    destruct (lookup (n_table (nodes s x)) g) as [r|] eqn:L; [|reflexivity]. exfalso.
    destruct (Nat.eq_dec o (t_root T)) as [->|NR]; [rewrite (ONLY eq_refl) in L; discriminate|]. destruct (OWN NR) as [O _].
    destruct (k_table _ _ _ (i_nodes _ _ I x) g r L) as [|(o' & O' & c & RC & B)]; [lia|]. assert (o' = o) by (apply (owner_unique T s g o' o I S O' O)). subst o'.
    apply A. exists c. split; [|exact B]. apply (proj1 (k_routes _ _ _ (i_nodes _ _ I x)) r c RC).
Qed.
Lemma hop_down x : above T x o -> exists c, t_parent T c = Some x /\ below T c o /\ hopAt T s x g = Next c.
Proof.
  intros (c & P & B). exists c. split; [exact P|]. split; [exact B|]. assert (NR : o <> t_root T) by (intros ->; apply (above_root T HT x); exists c; auto).
  destruct (OWN NR) as [O KA]. assert (NX : x <> o).
  { intros ->. pose proof (proj1 (below_depth T HT _ _ B)). pose proof (parent_depth T HT _ _ P). lia. }
  unfold hopAt. rewrite (parent_core T HT _ _ P). assert (E : (g =? n_id (nodes s x)) = false) by (apply Z.eqb_neq; intros E; symmetry in E; exact (NI x NX E)). rewrite E.
  assert (NH : g <> n_higher (nodes s x)).
  { intros H. destruct (higher_is T HT s x I) as [H'|(p & Q & H0 & H')]; [lia|]. destruct (Nat.eq_dec p o) as [->|NP].
    - pose proof (proj1 (below_depth T HT _ _ B)). pose proof (parent_depth T HT _ _ P). pose proof (parent_depth T HT _ _ Q). lia.
    - apply (NI p NP). congruence. }
  destruct (getRoute_down T HT s x c o g I S P B O (KA x ltac:(exists c; auto)) NH) as (r & R & RC). rewrite R.
  pose proof (routes_pos T s x r c (i_nodes _ _ I x) RC) as RP. apply Z.eqb_neq in RP. rewrite RP. rewrite (routes_lookup T s x r c (i_nodes _ _ I x) RC). reflexivity.
Qed.
Lemma follow_down d x : (t_depth T o - t_depth T x = d)%nat -> below T x o -> follow T s (Datatypes.S d) x g = Some (o, d).
Proof.
  revert x. induction d as [|d IH]; intros x D B.
  - assert (x = o) by (pose proof (below_depth T HT _ _ B); apply H; lia). subst x. cbn [follow]. rewrite AT. reflexivity.
  - assert (A : above T x o).
    { apply below_above; [exact B|]. intros ->. lia. }
    destruct (hop_down x A) as (c & P & Bc & H). cbn [follow]. rewrite H. pose proof (parent_depth T HT _ _ P). 
    change (match follow T s (Datatypes.S d) c g with Some (z, n) => Some (z, Datatypes.S n) | None => None end = Some (o, Datatypes.S d)).
    rewrite (IH c); [reflexivity|lia|exact Bc].
Qed.
Lemma follow_more f x z n : follow T s f x g = Some (z, n) -> forall f', (f <= f')%nat -> follow T s f' x g = Some (z, n).
Proof.
  revert x z n. induction f as [|f IH]; intros x z n H f' L; [discriminate|]. destruct f' as [|f']; [lia|]. cbn [follow] in *. destruct (hopAt T s x g) as [|y|]; [exact H| |discriminate].
  destruct (follow T s f y g) as [[z' n']|] eqn:F; [|discriminate]. rewrite (IH y z' n' F f' ltac:(lia)). exact H.
Qed.
Lemma follow_all x : exists d, follow T s (Datatypes.S (t_depth T x + t_depth T o)) x g = Some (o, d) /\ (d <= t_depth T x + t_depth T o)%nat.
Proof.
  remember (t_depth T x) as k eqn:D. revert x D. induction k as [|k IH]; intros x D.
  - assert (x = t_root T).
    { destruct (Nat.eq_dec x (t_root T)) as [|N]; [assumption|]. destruct (has_parent T HT x N) as [p P]. pose proof (parent_depth T HT _ _ P). lia. }
    subst x. exists (t_depth T o). split; [|lia]. apply (follow_more _ _ _ _ (follow_down (t_depth T o) (t_root T) ltac:(lia) (below_root T HT o))). lia.
  - destruct (Nat.eq_dec x o) as [->|N]; [exists O; split; [|lia]; cbn [Nat.add follow]; rewrite AT; reflexivity|].
    assert (DA : above T x o \/ ~ above T x o).
    { clear - HT D. assert (X : forall y, above T x y \/ ~ above T x y).
      { intros y. remember (t_depth T y) as m eqn:M. revert y M. induction m as [|m IHm]; intros y M.
        - right. intros (c & P & B). pose proof (parent_depth T HT _ _ P). pose proof (proj1 (below_depth T HT _ _ B)). lia.
        - destruct (Nat.eq_dec y (t_root T)) as [->|N]; [right; apply (above_root T HT)|]. destruct (has_parent T HT y N) as [p P]. pose proof (parent_depth T HT _ _ P).
          destruct (Nat.eq_dec p x) as [->|Q]; [left; exists y; split; [exact P|constructor]|]. destruct (IHm p ltac:(lia)) as [A|A].
          + left. destruct A as (c & C1 & C2). exists c. split; [exact C1|apply (below_up T _ y p P C2)].
          + right. intros A'. destruct (above_parent T _ _ _ P A') as [->|A'']; [congruence|exact (A A'')]. }
      apply X. }
    destruct DA as [A|A].
    + assert (B : below T x o). { destruct A as (c & P & B). apply (below_trans T x c); [apply (below_up T _ c x P); constructor|exact B]. }
      exists (t_depth T o - t_depth T x)%nat. split; [|lia]. apply (follow_more _ _ _ _ (follow_down _ x eq_refl B)). lia.
    + assert (NR : x <> t_root T). { intros ->. apply A. apply below_above; [apply below_root, HT|exact N]. }
      destruct (has_parent T HT x NR) as [p P]. pose proof (parent_depth T HT _ _ P). destruct (IH p ltac:(lia)) as (d & F & L). exists (Datatypes.S d). split; [|lia].
      change (Datatypes.S (Datatypes.S k + t_depth T o)) with (Datatypes.S (Datatypes.S (k + t_depth T o))). cbn [follow]. rewrite (hop_up x p N A P).
      change (match follow T s (Datatypes.S (k + t_depth T o)) p g with Some (z, n) => Some (z, Datatypes.S n) | None => None end = Some (o, Datatypes.S d)). rewrite F. reflexivity.
Qed.
End Hops.

(** ** Theorems *)
Section History.
Variable T : topology.
Variable es : list event.
Hypothesis H : fairHistory T es.
Let s := run T es (net0 T).
Let I : inv T s := history_inv T es H.
Let HT : tree T := proj1 H.
Let SM : small T s := proj2 (proj2 H).

Lemma registered_core K n g : registered s K n g -> t_core T K = true /\ regF T s n g K /\ knownAbove T s K g.
Proof. intros [A N]. destruct (k_local _ _ _ (i_nodes _ _ I K) n g A) as (C & [E|[R KA]]); [contradiction|auto]. Qed.
Lemma core_not_root K : t_core T K = true -> K <> t_root T.
Proof. intros C ->. rewrite (root_core T HT) in C. discriminate. Qed.
Lemma fed_not_node n g K x : regF T s n g K -> n_id (nodes s x) <> g.
Proof.
  intros R E. assert (O : owner T s g K) by (right; exists n; exact R). destruct (owner_valid T s g K I SM O) as (_ & G0 & GR).
  destruct (Nat.eq_dec x (t_root T)) as [->|N]; [destruct (k_root _ _ _ (i_nodes _ _ I _) eq_refl) as (Q & _); congruence|].
  destruct (k_id _ _ _ (i_nodes _ _ I x) N) as [[Q _]|(RB & _)]; [lia|]. rewrite E in RB.
  destruct (regB_index T s _ _ _ I SM RB) as (k & e & _ & _ & _ & L & E1), (regF_index T s _ _ _ I SM R) as (k' & e' & c & _ & _ & _ & L' & C & E2).
  destruct (C26_ids_are_distinct _ _ (legal_broker _ L) (legal_fed _ _ L' C) ltac:(congruence)) as [Q|(? & ? & ? & Q & _)]; discriminate.
Qed.

(** From every broker and core of the tree, the commands for a registered federate travel to its core, on a path no longer
    than up to the root and down again. *)
Theorem C44_commands_reach_the_federate K n g : registered s K n g ->
  forall x, exists d, follow T s (Datatypes.S (t_depth T x + t_depth T K)) x g = Some (K, d) /\ (d <= t_depth T x + t_depth T K)%nat.
Proof.
  intros RG x. destruct (registered_core K n g RG) as (C & R & KA). assert (O : owner T s g K) by (right; exists n; exact R). destruct (owner_valid T s g K I SM O) as (_ & G0 & _).
  apply (follow_all T HT s I SM g K G0).
  - intros y _. apply (fed_not_node n g K y R).
  - unfold hopAt. rewrite C. assert (g <> n_higher (nodes s K)).
    { destruct (higher_is T HT s K I) as [Q|(p & _ & _ & Q)]; [lia|]. intros E. apply (fed_not_node n g K p R). congruence. }
    destruct (Z.eqb_spec g parentId) as [E|_]; [unfold parentId in E; lia|]. destruct (Z.eqb_spec g (n_higher (nodes s K))); [contradiction|]. cbn [orb].
    assert (L : localFed (nodes s K) g = true) by (unfold localFed; apply existsb_exists; exists (n, g); split; [apply RG|apply Z.eqb_refl]). rewrite L, orb_true_r. reflexivity.
  - auto.
  - intros E. exfalso. apply (core_not_root K C E).
  - intros y N. unfold localFed. destruct (existsb _ _) eqn:E; [|reflexivity]. exfalso. apply existsb_exists in E. destruct E as ((n' & g') & A & E). cbn [snd] in E. apply Z.eqb_eq in E. subst g'.
    assert (RG' : registered s y n' g) by (split; [exact A|apply RG]). destruct (registered_core y n' g RG') as (_ & R' & _).
    apply N. apply (owner_unique T s g y K I SM); [right; exists n'; exact R'|exact O].
Qed.

(** The same for the commands to a broker or core which has its id. *)
Theorem C44_commands_reach_the_node y : connected s y ->
  forall x, exists d, follow T s (Datatypes.S (t_depth T x + t_depth T y)) x (n_id (nodes s y)) = Some (y, d) /\ (d <= t_depth T x + t_depth T y)%nat.
Proof.
  unfold connected, parentId. intros CN x. set (g := n_id (nodes s y)).
  assert (G0 : 0 < g).
  { destruct (Nat.eq_dec y (t_root T)) as [->|N]; [unfold g; destruct (k_root _ _ _ (i_nodes _ _ I _) eq_refl) as (Q & _); rewrite Q; reflexivity|].
    apply (owner_valid T s g y I SM), (id_owner T s y I N CN). }
  apply (follow_all T HT s I SM g y G0).
  - intros z N E. apply N. symmetry. apply (id_unique T s y z I SM CN). symmetry. exact E.
  - unfold hopAt. fold g. rewrite Z.eqb_refl. cbn [orb]. assert (g <> n_higher (nodes s y)).
    { destruct (higher_is T HT s y I) as [Q|(p & P & _ & Q)]; [lia|]. intros E. apply (not_self T HT _ _ P). apply (id_unique T s y p I SM CN). fold g. congruence. }
    destruct (Z.eqb_spec g parentId) as [E|_]; [unfold parentId in E; lia|]. destruct (Z.eqb_spec g (n_higher (nodes s y))); [contradiction|]. destruct (t_core T y); reflexivity.
  - intros N. split; [apply (id_owner T s y I N CN)|]. destruct (k_id _ _ _ (i_nodes _ _ I y) N) as [[Q _]|(_ & Q & _)]; [congruence|exact Q].
  - intros E z. destruct (lookup (n_table (nodes s z)) g) as [r|] eqn:L; [|reflexivity]. exfalso. destruct (k_table _ _ _ (i_nodes _ _ I z) g r L) as [|(o & O & _)]; [lia|].
    destruct (owner_valid T s g o I SM O) as (_ & _ & Q). apply Q. unfold g. rewrite E. apply (k_root _ _ _ (i_nodes _ _ I _) eq_refl).
  - intros z _. unfold localFed. destruct (existsb _ _) eqn:E; [|reflexivity]. exfalso. apply existsb_exists in E. destruct E as ((n' & g') & A & E). cbn [snd] in E. apply Z.eqb_eq in E. subst g'.
    destruct (k_local _ _ _ (i_nodes _ _ I z) n' g A) as (_ & [Q|[R _]]).
    + rewrite Q in G0. discriminate.
    + apply (fed_not_node n' g z y R). reflexivity.
Qed.

(** No two registered federates of the federation share their id or their name, and none has the id of a broker or core. *)
Theorem C44_federates_are_distinct K n g K' n' g' : registered s K n g -> registered s K' n' g' -> n = n' \/ g = g' -> K = K' /\ n = n' /\ g = g'.
Proof.
  intros A B E. destruct (registered_core K n g A) as (_ & R & _), (registered_core K' n' g' B) as (_ & R' & _). destruct E as [<-|<-].
  - destruct (regF_name T s _ _ _ _ _ I R R') as [-> ->]. auto.
  - destruct (regF_index T s _ _ _ I SM R) as (k & e & c & E1 & E2 & E3 & L & C & E4), (regF_index T s _ _ _ I SM R') as (k' & e' & c' & F1 & F2 & F3 & L' & C' & F4).
    assert (k = k').
    { destruct (C26_ids_are_distinct _ _ (legal_fed _ _ L C) (legal_fed _ _ L' C') ltac:(congruence)) as [Q|(? & ? & ? & Q & Q')].
      - injection Q as Q _. apply Nat2Z.inj, Q.
      - injection Q as <- _. injection Q' as Q' _. apply Nat2Z.inj. symmetry. exact Q'. }
    subst k'. assert (e = e') by congruence. subst e'. split; [congruence|]. split; [congruence|reflexivity].
Qed.
Theorem C44_nodes_are_distinct x y : connected s x -> connected s y -> n_id (nodes s x) = n_id (nodes s y) \/ (x <> t_root T /\ y <> t_root T /\ t_name T x = t_name T y) -> x = y.
Proof.
  unfold connected, parentId. intros A B [E|(NX & NY & E)]; [apply (id_unique T s x y I SM A E)|].
  destruct (k_id _ _ _ (i_nodes _ _ I x) NX) as [[Q _]|(R & _)]; [contradiction|]. destruct (k_id _ _ _ (i_nodes _ _ I y) NY) as [[Q _]|(R' & _)]; [contradiction|].
  rewrite E in R. apply (regB_name T s _ _ _ _ _ I R R').
Qed.
Theorem C44_federate_ids_are_not_node_ids K n g x : registered s K n g -> n_id (nodes s x) <> g.
Proof. intros A. destruct (registered_core K n g A) as (_ & R & _). apply (fed_not_node n g K x R). Qed.
(** a broker is connected only if its own broker is *)
Theorem C44_connected_from_the_top x p : t_parent T x = Some p -> connected s x -> connected s p.
Proof.
  unfold connected, parentId. intros P A. destruct (k_id _ _ _ (i_nodes _ _ I x) (not_root T HT _ _ P)) as [[Q _]|(_ & _ & Q)]; [contradiction|]. apply Q, P.
Qed.
(** no acknowledgement arrives at a broker which has no entry for it (the code would dereference the end of its table) *)
Theorem C44_no_unknown_acknowledgement x : n_ub (nodes s x) = false.
Proof. apply (i_nodes _ _ I x). Qed.
End History.

(** ids are permanent *)
Lemma step_registered T s e K n g : tree T -> noResend e -> inv T s -> small T s -> registered s K n g -> registered (step T s e) K n g.
Proof.
  intros HT NR I SM [A N]. split; [|exact N]. destruct e as [x|x|x m ct|k ok|k]; cbn [step noResend] in *; [| contradiction | | |].
  - destruct (t_parent T x); exact A.
  - destruct (_ && _ && _ && _); [|exact A]. destruct (t_parent T x); [|exact A]. cbn [nodes]. unfold setNode. destruct (Nat.eqb_spec K x) as [->|]; [|exact A]. cbn. apply in_or_app. left. exact A.
  - destruct (nth_error (wire s) k) as [[[y z] m]|] eqn:Q; [|exact A]. pose proof (i_wire _ _ I _ (nth_error_In _ _ Q)) as OK.
    destruct (receive (nodes s z) m ok) as [st out] eqn:RV. cbn [nodes]. unfold setNode. destruct (Nat.eqb_spec K z) as [->|]; [|exact A].
    replace st with (fst (receive (nodes s z) m ok)) by (rewrite RV; reflexivity). clear RV st out. unfold receive. rewrite (static_core T s z I).
    destruct (k_local _ _ _ (i_nodes _ _ I z) n g A) as (C & [E|[RF _]]); [contradiction|]. rewrite C. destruct m as [n' src a c|n' src c o|n' src dst err o|n' src dst err o]; unfold coreBrokerAck, coreFedAck.
    + destruct (String.eqb n' (n_name (nodes s z))); exact A.
    + exact A.
    + destruct (String.eqb n' (n_name (nodes s z)) && negb err); exact A.
    + destruct err; [exact A|]. cbn. apply in_map_iff. exists (n, g). split; [|exact A]. cbn [fst]. destruct (String.eqb_spec n n') as [<-|]; [|reflexivity].
      destruct OK as (P & B & _ & RF' & _). f_equal. assert (O : o = z) by (destruct (Nat.eq_dec o z) as [|NO]; [assumption|rewrite (below_other T HT z o B NO) in C; discriminate]). subst o.
      apply (regF_name T s _ _ _ _ _ I RF' RF).
  - exact A.
Qed.
Theorem C44_ids_are_permanent T es es' K n g : fairHistory T (es ++ es') -> registered (run T es (net0 T)) K n g -> registered (run T (es ++ es') (net0 T)) K n g.
Proof.
  intros (HT & F & S) R. unfold run in *. rewrite fold_left_app in *. fold (run T es (net0 T)) in *. apply Forall_app in F. destruct F as [F1 F2]. set (s := run T es (net0 T)) in *.
  assert (I : inv T s). { apply history_inv. split; [exact HT|]. split; [exact F1|]. apply (small_run T es' s), S. }
  clearbody s. clear F1. revert s S R I. induction es' as [|e es' IH]; intros s S R I; [exact R|]. inversion F2 as [|? ? E1 E2]; subst. cbn [fold_left] in *.
  assert (S1 : small T (step T s e)) by (apply (small_run T es'), S). assert (S0 : small T s) by (apply (small_back T s e), S1).
  apply IH; [exact E2|exact S| |]; [apply step_registered; assumption|apply (step_inv T HT s e E1 I S0 S1)].
Qed.
